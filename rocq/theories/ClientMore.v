(** Undefined behaviour, negative delays, the end of a backoff, and when there is none. *)
From Coq Require Import ZArith List Lia Bool Permutation.
From Verif Require Import Base HeaderModel SeqModel EnergyModel MacModel MacSpec MacAcct MacResp ApModel ClientModel ClientSpec ClientCase ClientAcct ClientInv ClientFifo ClientOrder ClientCount ClientRetry.
Import ListNotations.
Open Scope Z_scope.

(** ** Packets in the queue have a record *)
Lemma remove_nth_in {A} (l : list A) : forall i x, In x (remove_nth i l) -> In x l.
Proof. induction l as [|y l IH]; intros [|i] x X; cbn in *; auto. destruct X as [->|X]; eauto. Qed.
Record qrec (s : lst) : Prop := Qrec {
  qr_in : forall p, In p (l_queue s) -> In p (map lr_pkt (l_rec s));
  qr_done : forall t q, In t (l_timers s) -> lt_kind t = LKDone false q -> forall p, In p (l_queue s) -> kf_seq p <> q
}.
Lemma tcase_disc limit life ack sq s s' o : tcase limit life ack sq s s' o -> forall t q, In t (l_timers s') -> lt_kind t = LKDone false q ->
  In t (l_timers s) \/ q = sq /\ exists r, find1 sq (l_rec s) = Some r /\ l_queue s' = kremove (lr_pkt r) (l_queue s).
Proof.
  intros T t q I K. destruct T as [F|r F L|r F L]; [left; exact I| |left; exact I].
  assert (I' : In t (l_timers s ++ [Ltimer (l_uid s) (l_now s + psec) (LKDone false sq)])) by exact I.
  apply in_app_or in I'. destruct I' as [I'|[<-|[]]]; [left; auto|]. right. injection K as <-. split; auto. exists r. split; auto.
Qed.
Lemma dec_queue s : l_queue (decrease s) = l_queue s.
Proof. unfold decrease. destruct (find1 (l_boseq s) (l_rec s)) as [r|]; auto. destruct (wrap16 (lr_life r - 1) =? 0); reflexivity. Qed.
Lemma step_disc c e s ev s' o : lcase c e s ev s' o -> forall t q, In t (l_timers s') -> lt_kind t = LKDone false q ->
  In t (l_timers s) \/ exists r, find1 q (l_rec s) = Some r /\ l_queue s' = kremove (lr_pkt r) (l_queue s).
Proof.
  intros C t q I K. destruct C; try (left; exact I).
  - left. destruct (l_sde s); [|exact I]. apply (filter_In (fun t => negb (lt_id t =? z)) t (l_timers s)). exact I.
  - assert (I' : In t (l_timers s ++ [Ltimer (l_uid s) (l_now s + boslots c e) (LKDummy (the_dummy c e f s))])) by exact I.
    apply in_app_or in I'. destruct I' as [I'|[<-|[]]]; [left; auto|discriminate K].
  - assert (X : In t (l_timers s1) -> In t (l_timers s) \/ exists r, find1 q (l_rec s) = Some r /\ l_queue s1 = kremove (lr_pkt r) (l_queue s)).
    { destruct H5 as [A|s1 o1 A T]; [auto|]. intros J. destruct (tcase_disc _ _ _ _ _ _ _ T t q J K) as [Y|[-> Y]]; [left; exact Y|right; exact Y]. }
    destruct H6 as [B|B|B|r y B S R].
    + rewrite dec_timers in I. destruct (X I) as [Y|[x [Y1 Y2]]]; [auto|right]. exists x. split; auto. rewrite dec_queue; exact Y2.
    + apply X. exact I.
    + apply X. exact I.
    + assert (I' : In t (l_timers s1 ++ [Ltimer (l_uid s1) (l_now s1 + boslots c e) (LKRts (lr_pkt r))])) by exact I.
      apply in_app_or in I'. destruct I' as [I'|[<-|[]]]; [apply X; auto|discriminate K].
  - left. destruct H3 as [B|B|r y B R].
    + rewrite dec_timers in I. exact I.
    + exact I.
    + assert (I' : In t (l_timers s ++ [Ltimer (l_uid s) (l_now s + fair c e) (LKData (lr_pkt r) 0)])) by exact I.
      apply in_app_or in I'. destruct I' as [I'|[<-|[]]]; [auto|discriminate K].
  - left. rewrite cts_timers in I. apply in_app_or in I. destruct I as [I|I]; [exact I|]. destruct (cts_in _ _ _ _ _ I) as (r & _ & _ & X & _). rewrite X in K. discriminate K.
  - left. assert (I' : In t (filter (fun t => negb (lt_id t =? u)) (l_timers s) ++ [Ltimer (l_uid s) (l_now s + psec) (LKDone true (kf_seq f))])) by exact I.
    apply in_app_or in I'. destruct I' as [I'|[<-|[]]]; [|discriminate K]. apply filter_In in I'. apply I'.
  - left. rewrite ltry_timers in I. subst s0. eapply remove_nth_in. exact I.
  - left. rewrite ltry_timers in I. subst s0. eapply remove_nth_in. exact I.
  - left. subst s0. eapply remove_nth_in. exact I.
  - left. subst s0. eapply remove_nth_in. exact I.
  - left. subst s0. assert (I' : In t (remove_nth i (l_timers s) ++ [Ltimer (l_uid s) (l_now s + ack_wait c s) (LKAck (kf_seq p))])) by exact I.
    apply in_app_or in I'. destruct I' as [I'|[<-|[]]]; [eapply remove_nth_in; eauto|discriminate K].
  - subst s0. destruct (tcase_disc _ _ _ _ _ _ _ H2 t q I K) as [Y|[-> Y]]; [left; eapply remove_nth_in; exact Y|right; exact Y].
  - left. subst s0. destruct (ldone_loop ok sq (l_queue s) (l_rec s)) as [[[[[l qq] d] k] em] ub] eqn:D.
    assert (D' : ldone_loop ok sq (l_queue (lset_timers (remove_nth i (l_timers s)) s)) (l_rec (lset_timers (remove_nth i (l_timers s)) s)) = (l, qq, d, k, em, ub)) by (destruct s; exact D).
    destruct (Z.eq_dec k 0) as [->|N].
    + rewrite (l_done_none _ _ _ _ _ _ _ _ D') in I. eapply remove_nth_in. exact I.
    + rewrite (l_done_eq _ _ _ _ _ _ _ _ _ D' N) in I. cbn [fst] in I.
      assert (I' : In t (remove_nth i (l_timers s) ++ results_at (length d) s)) by exact I.
      apply in_app_or in I'. destruct I' as [I'|I']; [eapply remove_nth_in; exact I'|]. apply in_map_iff in I'. destruct I' as [j [<- _]]. discriminate K.
  - left. subst s0. eapply remove_nth_in. exact I.
Qed.

Lemma qrec_reach P c q0 h s o : 0 <= q0 < 65536 -> lreach P c q0 h s o -> Z.of_nat (length (lacc_of o)) <= 65536 -> qrec s.
Proof.
  intros U R. induction R as [|h s o e ev R IH V HP]; intros L; [split; contradiction|].
  pose proof (step_lcase c e s ev V) as C. pose proof (inplay_reach _ _ _ _ _ _ U R) as J. pose proof (lacct_reach _ _ _ _ _ _ U R) as A.
  pose proof (lacct_reach _ _ _ _ _ _ U (LR1 _ _ _ _ _ _ e ev R V HP)) as A'.
  set (s' := fst (lstep c e s ev)) in *. set (o' := snd (lstep c e s ev)) in *. clearbody s' o'.
  assert (L0 : Z.of_nat (length (lacc_of o)) <= 65536) by (rewrite lacc_app, app_length in L; lia). destruct (IH L0) as [Q1 Q2].
  pose proof (new_num _ _ _ _ _ _ A A' L) as NEW. pose proof (step_disc _ _ _ _ _ _ C) as SD.
  pose proof (step_view _ _ _ _ _ _ C) as VW.
  assert (SUBQ : forall p, In p (l_queue s) -> In p (lacc_of o)) by (intros p; apply sub_in; apply (la_queue _ _ _ _ A)).
  assert (D0 : (forall p, In p (l_queue s') -> In p (l_queue s) \/ In p (lacc_of o')) ->
    forall t q, In t (l_timers s') -> lt_kind t = LKDone false q -> forall p, In p (l_queue s') -> kf_seq p <> q).
  { intros SQ t q T K p Ip E. destruct (SD t q T K) as [T0|(r & F & E2)].
    - destruct (SQ p Ip) as [Y|Y]; [eapply Q2; eauto|]. apply (NEW p Y). rewrite E. pose proof (ip_timers _ _ J _ T0) as X. rewrite K in X. exact X.
    - rewrite E2 in Ip. unfold kremove in Ip. apply filter_In in Ip. destruct Ip as [I1 I2]. destruct (find1_in _ _ _ F) as [F1 F2].
      assert (p = lr_pkt r).
      { eapply lunique; [exact A|exact L0|apply SUBQ; auto|eapply rec_acc; eauto|congruence]. }
      subst p. rewrite Z.eqb_refl in I2. discriminate I2. }
  destruct VW as [S1 S2 S3 S4 S5 S6 S7 S8|size dst O1 O2|i t ok sq l q d k em ub N1 N2 N3 N4 N5 N6 N7 N8 N9 N10 N11].
  - assert (SQ : forall p, In p (l_queue s') -> In p (l_queue s)) by (intros p; apply sub_in; auto).
    split; [intros p Ip; rewrite S2; auto|apply D0; auto].
  - assert (EQ : l_queue s' = l_queue s ++ [the_data c size dst s]) by (subst s'; reflexivity).
    assert (ER : l_rec s' = l_rec s ++ [Lrec (the_data c size dst s) 0 0]) by (subst s'; reflexivity).
    split.
    + intros p. rewrite EQ, ER, map_app. intros X. apply in_app_or in X. apply in_or_app. destruct X as [X|[<-|[]]]; [left; auto|right; left; auto].
    + apply D0. intros p. rewrite EQ. intros X. apply in_app_or in X. destruct X as [X|[<-|[]]]; [auto|right; subst o'; left; auto].
  - destruct (ldone_spec ok sq (length (l_rec s)) _ _ _ _ _ _ _ _ (le_n _) N3) as (B1 & B2 & B3 & B4 & B5 & B6 & B7 & B8 & B9).
    assert (SQ : forall p, In p (l_queue s') -> In p (l_queue s)).
    { intros p Ip. rewrite N6, B4 in Ip. destruct ok; [apply filter_In in Ip; apply Ip|auto]. }
    split; [|apply D0; auto].
    intros p Ip. pose proof (SQ p Ip) as Ip0. rewrite N5.
    assert (X : In p (d ++ map lr_pkt l)) by (eapply Permutation_in; [exact B1|auto]). apply in_app_or in X. destruct X as [X|X]; auto. exfalso.
    destruct ok.
    + rewrite N6, B4 in Ip. apply filter_In in Ip. destruct Ip as [_ Ip]. unfold lkeep in Ip. apply negb_true_iff in Ip.
      assert (Y : existsb (fun x => kf_id p =? kf_id x) d = true) by (apply existsb_exists; exists p; rewrite Z.eqb_refl; auto).
      first [rewrite Y in Ip; discriminate Ip | (assert (Y' : existsb (fun x => kf_id x =? kf_id p) d = true) by (apply existsb_exists; exists p; rewrite Z.eqb_refl; auto); rewrite Y' in Ip; discriminate Ip)].
    + apply nth_error_In in N1. eapply Q2; eauto.
Qed.

(** ** Undefined behaviour *)
Lemma tcase_ub limit life ack sq s s' o : tcase limit life ack sq s s' o -> In LUb o -> 32 < limit.
Proof.
  intros T I. destruct T as [F|r F L|r F L]; cbn in I; destruct I as [I|I]; try discriminate; try contradiction.
  destruct (wrap16 (lr_retry r + 1) >=? 32) eqn:E; [|contradiction]. lia.
Qed.
Lemma ldone_ub ok sq : forall n l q l' q' d k em ub, (length l <= n)%nat -> ldone_loop ok sq q l = (l', q', d, k, em, ub) -> ub = true ->
  exists r, last (map Some l) None = Some r /\ kf_seq (lr_pkt r) = sq.
Proof.
  induction n as [|n IH]; intros l q l' q' d k em ub L E B.
  { destruct l; [|cbn in L; lia]. cbn in E. injection E as <- <- <- <- <- <-. discriminate. }
  destruct l as [|r t]; [cbn in E; injection E as <- <- <- <- <- <-; discriminate|]. cbn [ldone_loop] in E. cbn [length] in L.
  assert (LT : forall x, last (map Some t) None = Some x -> last (map Some (r :: t)) None = Some x) by (intros x X; destruct t; [discriminate X|exact X]).
  destruct (Z.eqb_spec (kf_seq (lr_pkt r)) sq) as [Q|Q].
  - assert (G : forall qq, match t with [] => ([], qq, [lr_pkt r], 1, false, true) | n :: t' => let '(l', q2, d, k, em, ub) := ldone_loop ok sq qq t' in (n :: l', q2, lr_pkt r :: d, k + 1, em, ub) end = (l', q', d, k, em, ub) ->
      exists r0, last (map Some (r :: t)) None = Some r0 /\ kf_seq (lr_pkt r0) = sq).
    { intros qq X. destruct t as [|n' t']; [exists r; auto|].
      destruct (ldone_loop ok sq qq t') as [[[[[a1 a2] a3] a4] a5] a6] eqn:Y. injection X as <- <- <- <- <- <-.
      destruct (IH t' _ _ _ _ _ _ _ ltac:(cbn in L; lia) Y B) as (x & X1 & X2). exists x. split; auto. apply LT. destruct t'; [discriminate X1|exact X1]. }
    destruct ok; [destruct q as [|y z]|]; try (eapply G; exact E).
    injection E as <- <- <- <- <- <-. discriminate B.
  - destruct (ldone_loop ok sq q t) as [[[[[a1 a2] a3] a4] a5] a6] eqn:Y. injection E as <- <- <- <- <- <-.
    destruct (IH t _ _ _ _ _ _ _ ltac:(lia) Y B) as (x & X1 & X2). exists x. auto.
Qed.
Lemma step_ub c e s ev s' o : lcase c e s ev s' o -> In LUb o ->
  32 < lc_rts_retry c \/ 32 < lc_data_retry c \/ (l_queue s <> [] /\ l_rec s = []) \/
  exists i t, ev = LETimer i /\ nth_error (l_timers s) i = Some t /\
    (lt_kind t = LKResult /\ l_res s = false \/
     exists ok q r, lt_kind t = LKDone ok q /\ last (map Some (l_rec s)) None = Some r /\ kf_seq (lr_pkt r) = q).
Proof.
  intros C I. destruct C; try (cbn in I; contradiction).
  - cbn in I. destruct I as [I|[]]; discriminate I.
  - cbn in I. destruct I as [I|[I|[]]]; discriminate I.
  - apply in_app_or in I. destruct I as [I|I].
    + destruct H5 as [A|s1 o1 A T]; [contradiction|]. left. eapply tcase_ub; eauto.
    + destruct H6 as [B|B|B R|r t B S R]; try contradiction. right. right. left. split; auto.
      assert (E : map lr_pkt (l_rec s1) = map lr_pkt (l_rec s)).
      { destruct H5 as [A|s1 o1 A T]; [reflexivity|]. destruct (tcase_view _ _ _ _ _ _ _ T) as (_ & E & _). exact E. }
      rewrite R in E. destruct (l_rec s); [auto|discriminate E].
  - destruct H3 as [B|B R|r t B R]; [contradiction| |destruct (_ <? 0); cbn in I; [destruct I as [I|[]]; discriminate I|contradiction]].
    right. right. left. split; auto.
  - unfold lsnt in I. destruct (lcan s0); cbn in I; [destruct I as [I|[]]; discriminate I|contradiction].
  - unfold lsnt in I. destruct (lcan s0); cbn in I; [destruct I as [I|[]]; discriminate I|contradiction].
  - destruct I as [I|I]; [discriminate I|]. destruct (_ <? 0); cbn in I; [destruct I as [I|[]]; discriminate I|contradiction].
  - right. left. eapply tcase_ub; eauto.
  - right. right. right. exists i, t. split; auto. split; auto. right. exists ok, sq. subst s0.
    destruct (ldone_loop ok sq (l_queue s) (l_rec s)) as [[[[[l qq] d] k] em] ub] eqn:D.
    assert (D' : ldone_loop ok sq (l_queue (lset_timers (remove_nth i (l_timers s)) s)) (l_rec (lset_timers (remove_nth i (l_timers s)) s)) = (l, qq, d, k, em, ub)) by (destruct s; exact D).
    destruct (Z.eq_dec k 0) as [->|N].
    + rewrite (l_done_none _ _ _ _ _ _ _ _ D') in I. contradiction.
    + rewrite (l_done_eq _ _ _ _ _ _ _ _ _ D' N) in I. cbn [snd] in I. apply in_app_or in I.
      destruct I as [I|I]; [apply in_map_iff in I; destruct I as [? [I _]]; discriminate I|].
      destruct ub; [|contradiction]. destruct (ldone_ub ok sq _ _ _ _ _ _ _ _ _ (le_n _) D eq_refl) as (r & R1 & R2). exists r. auto.
  - right. right. right. exists i, t. split; auto. split; auto. left. split; auto. destruct (l_res s); [contradiction|auto].
Qed.

(** ** Negative delays in 1-way mode *)
Lemma step_neg c e s ev s' o : lcase c e s ev s' o -> In LNeg o -> (lc_ways c = 1 /\ fair c e < 0) \/ ack_wait c s < 0.
Proof.
  assert (TN : forall limit life ack sq a b y, tcase limit life ack sq a b y -> ~ In LNeg y).
  { intros limit life ack sq a b y T I. destruct T; cbn in I; destruct I as [I|I]; try discriminate; try contradiction.
    destruct (_ >=? 32); [destruct I as [I|[]]; discriminate|contradiction]. }
  intros C I. destruct C; try (cbn in I; contradiction).
  - cbn in I. destruct I as [I|[]]; discriminate I.
  - cbn in I. destruct I as [I|[I|[]]]; discriminate I.
  - apply in_app_or in I. destruct I as [I|I].
    + destruct H5 as [A|s1 o1 A T]; [contradiction|]. exfalso. eapply TN; eauto.
    + destruct H6; cbn in I; try contradiction. destruct I as [I|[]]; discriminate I.
  - destruct H3 as [B|B R|r t B R]; [contradiction|cbn in I; destruct I as [I|[]]; discriminate I|].
    left. split; auto. destruct (Z.ltb_spec (fair c e) 0); [auto|contradiction].
  - unfold lsnt in I. destruct (lcan s0); cbn in I; [destruct I as [I|[]]; discriminate I|contradiction].
  - unfold lsnt in I. destruct (lcan s0); cbn in I; [destruct I as [I|[]]; discriminate I|contradiction].
  - right. destruct I as [I|I]; [discriminate I|]. destruct (Z.ltb_spec (ack_wait c s) 0); [auto|contradiction].
  - exfalso. eapply TN; eauto.
  - exfalso. subst s0. unfold l_done in I. destruct (ldone_loop _ _ _ _) as [[[[[l qq] d] k] em] ub]. destruct (k =? 0); [contradiction|]. cbn [snd] in I.
    apply in_app_or in I. destruct I as [I|I]; [apply in_map_iff in I; destruct I as [? [I _]]; discriminate I|]. destruct ub; [destruct I as [I|[]]; discriminate I|contradiction].
  - destruct (l_res s); [contradiction|destruct I as [I|[]]; discriminate I].
Qed.

(** ** New RTS events *)
Lemma cta3_new c e s ev o N t p : lnew c e s ev o N -> In t N -> lt_kind t = LKRts p ->
  exists f r l, ev = LERxEnd f true /\ kf_type f = T_CTA /\ kf_flags f <> 1 /\ (kf_flags f = 2 -> kf_dst f <> lc_addr c) /\ l_rec s = r :: l /\ lr_pkt r = p /\
    l_boact s = false /\ (l_sector s <= -1 \/ kf_sector f = l_sector s) /\ lt_due t = l_now s + boslots c e.
Proof.
  intros NW I K. inversion NW; subst; cbn in I; try contradiction.
  - destruct I as [<-|[]]. discriminate K.
  - apply in_app_or in I. destruct I as [I|I].
    + destruct H3 as [->|(u & r & -> & _)]; [contradiction|]. destruct I as [<-|[]]. discriminate K.
    + destruct H4 as [->|(u & r & l & -> & E1 & E2 & E3)]; [contradiction|]. destruct I as [<-|[]]. injection K as <-.
      exists f, r, l. repeat split; auto.
  - destruct I as [<-|[]]. discriminate K.
  - destruct (cts_in _ _ _ _ _ I) as (r & _ & _ & X & _). rewrite X in K. discriminate K.
  - destruct I as [<-|[]]. discriminate K.
  - destruct I as [<-|[]]. discriminate K.
  - destruct I as [<-|[]]. discriminate K.
  - rewrite (H1 _ I) in K. discriminate K.
Qed.
