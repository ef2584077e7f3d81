(** Timeouts, retries and backoff of a client. *)
From Coq Require Import ZArith List Lia Bool Permutation.
From Verif Require Import Base HeaderModel SeqModel EnergyModel MacModel MacSpec MacAcct MacResp ApModel ClientModel ClientSpec ClientCase ClientAcct ClientInv ClientFifo ClientOrder ClientCount.
Import ListNotations.
Open Scope Z_scope.

Definition prt (l : list lrec) : list (kframe * Z) := map (fun r => (lr_pkt r, lr_retry r)) l.
Lemma prt_in l l' r' : prt l' = prt l -> In r' l' -> exists r, In r l /\ lr_pkt r' = lr_pkt r /\ lr_retry r' = lr_retry r.
Proof.
  intros E I. assert (X : In (lr_pkt r', lr_retry r') (prt l)) by (rewrite <- E; apply (in_map (fun r => (lr_pkt r, lr_retry r))); auto).
  apply in_map_iff in X. destruct X as [r [X1 X2]]. injection X1 as X3 X4. eauto.
Qed.
Lemma update1_prt sq f l : (forall r, lr_pkt (f r) = lr_pkt r /\ lr_retry (f r) = lr_retry r) -> prt (update1 sq f l) = prt l.
Proof. intros F. unfold prt. induction l as [|r l IH]; auto. cbn. destruct (_ =? sq); cbn; [destruct (F r) as [-> ->]|rewrite IH]; auto. Qed.
Lemma dec_prt s : prt (l_rec (decrease s)) = prt (l_rec s).
Proof. unfold decrease. destruct (find1 _ _); auto. destruct (_ =? 0); dl s; lproj; rewrite update1_prt; auto. Qed.
(** The record that is changed is the only one with its number. *)
Lemma update1_in sq f l r' : NoDup (map kf_seq (map lr_pkt l)) -> In r' (update1 sq f l) ->
  (exists r, In r l /\ kf_seq (lr_pkt r) = sq /\ find1 sq l = Some r /\ r' = f r) \/ In r' l /\ kf_seq (lr_pkt r') <> sq.
Proof.
  induction l as [|r l IH]; intros N I; [contradiction|]. cbn in N. inversion N; subst. cbn in I. unfold find1. cbn [find].
  destruct (Z.eqb_spec (kf_seq (lr_pkt r)) sq) as [E|E].
  - destruct I as [<-|I]; [left; exists r; repeat split; auto; left; auto|]. right. split; [right; auto|]. intros X. apply H1. rewrite E, <- X. apply in_map, in_map. auto.
  - destruct I as [<-|I]; [right; split; [left|]; auto|]. destruct (IH H2 I) as [(x & X1 & X2 & X3 & X4)|[X1 X2]].
    + left. exists x. repeat split; auto. right. auto.
    + right. split; auto. right. auto.
Qed.

Inductive tview (s : lst) (ev : levent) (s' : lst) (o : list lout) : Prop :=
| T_no : (forall k q, ltmo_of k q o = 0%nat) ->
    (forall r', In r' (l_rec s') -> (exists r, In r (l_rec s) /\ lr_pkt r' = lr_pkt r /\ lr_retry r' = lr_retry r) \/ lr_retry r' = 0 /\ In (lr_pkt r') (lacc_of o)) ->
    tview s ev s' o
| T_tmo ack sq : (forall k q, ltmo_of k q o = if eqb k ack && (q =? sq) then 1%nat else 0%nat) ->
    (NoDup (map kf_seq (map lr_pkt (l_rec s))) -> forall r', In r' (l_rec s') -> exists r, In r (l_rec s) /\ lr_pkt r' = lr_pkt r /\
       lr_retry r' = if kf_seq (lr_pkt r) =? sq then wrap16 (lr_retry r + 1) else lr_retry r) ->
    (if ack then exists i t, nth_error (l_timers s) i = Some t /\ lt_kind t = LKAck sq else l_answered s = false /\ sq = l_last s) -> tview s ev s' o.

Lemma tview_same s ev s' o : (forall k q, ltmo_of k q o = 0%nat) -> prt (l_rec s') = prt (l_rec s) -> tview s ev s' o.
Proof. intros O E. apply T_no; auto. intros r' R. left. eapply prt_in; eauto. Qed.
Lemma ltmo_one ack sq k q : ltmo_of k q [LTmo ack sq] = if eqb k ack && (q =? sq) then 1%nat else 0%nat.
Proof. unfold ltmo_of. cbn. rewrite (Z.eqb_sym sq q). destruct ack, k; cbn; destruct (q =? sq); auto. Qed.
Lemma tcase_tmo limit life ack sq s s' o : tcase limit life ack sq s s' o ->
  (forall k q, ltmo_of k q o = if eqb k ack && (q =? sq) then 1%nat else 0%nat) /\
  (NoDup (map kf_seq (map lr_pkt (l_rec s))) -> forall r', In r' (l_rec s') -> exists r, In r (l_rec s) /\ lr_pkt r' = lr_pkt r /\
       lr_retry r' = if kf_seq (lr_pkt r) =? sq then wrap16 (lr_retry r + 1) else lr_retry r).
Proof.
  intros T. destruct T as [F|r F L|r F L].
  - split; [intros; apply ltmo_one|]. intros N r' R. exists r'. repeat split; auto.
    pose proof (find1_none _ _ F r' R) as X. apply Z.eqb_neq in X. rewrite X. auto.
  - split; [intros; apply ltmo_one|]. intros N r' R.
    assert (R' : In r' (update1 sq (fun x => Lrec (lr_pkt x) (wrap16 (lr_retry r + 1)) (lr_life x)) (l_rec s))) by (dl s; exact R).
    destruct (update1_in _ _ _ _ N R') as [(x & X1 & X2 & X3 & ->)|[X1 X2]].
    + exists x. assert (x = r) by congruence. subst x. cbn. rewrite X2, Z.eqb_refl. auto.
    + exists r'. apply Z.eqb_neq in X2. rewrite X2. auto.
  - split; [intros; unfold ltmo_of|].
    { pose proof (ltmo_one ack sq k q) as X. unfold ltmo_of in X. destruct (_ >=? 32); [|exact X].
      change (LTmo ack sq :: [LUb]) with ([LTmo ack sq] ++ [LUb]). rewrite filter_app, app_length, X. cbn. lia. }
    intros N r' R.
    assert (R' : In r' (update1 sq (fun x => Lrec (lr_pkt x) (wrap16 (lr_retry r + 1)) (wrap16 (draw1 (2 ^ wrap16 (lr_retry r + 1)) life))) (l_rec s))) by (dl s; exact R).
    destruct (update1_in _ _ _ _ N R') as [(x & X1 & X2 & X3 & ->)|[X1 X2]].
    + exists x. assert (x = r) by congruence. subst x. cbn. rewrite X2, Z.eqb_refl. auto.
    + exists r'. apply Z.eqb_neq in X2. rewrite X2. auto.
Qed.

Lemma step_tmo c e s ev s' o : lcase c e s ev s' o -> tview s ev s' o.
Proof.
  intros C. destruct C; try (apply tview_same; [reflexivity|dl s; reflexivity]).
  - apply T_no; [reflexivity|]. intros r' R. assert (R' : In r' (l_rec s ++ [Lrec (the_data c size dst s) 0 0])) by (dl s; exact R).
    apply in_app_or in R'. destruct R' as [R'|[<-|[]]]; [left; eauto|right]. cbn. auto.
  - apply tview_same; [reflexivity|]. destruct (l_sde s); dl s; reflexivity.
  - assert (Y : (forall k q, ltmo_of k q o2 = 0%nat) /\ prt (l_rec s2) = prt (l_rec s1)).
    { destruct H6; (split; [reflexivity|]); try (destruct s1; reflexivity). apply dec_prt. }
    destruct Y as [Y1 Y2]. destruct H5 as [A|s1 o1 A T].
    + apply tview_same; [intros; rewrite ltmo_app, Y1; reflexivity|]. rewrite Y2. dl s; reflexivity.
    + destruct (tcase_tmo _ _ _ _ _ _ _ T) as [T1 T2]. apply (T_tmo _ _ _ _ false (l_last s)).
      * intros. rewrite ltmo_app, Y1, T1. lia.
      * intros N r' R. destruct (prt_in _ _ _ Y2 R) as [x [X1 [X2 X3]]].
        assert (X1' : In x (l_rec s1)) by (destruct s1; exact X1).
        assert (N' : NoDup (map kf_seq (map lr_pkt (l_rec (lset_state LIdle s))))) by (dl s; exact N).
        destruct (T2 N' _ X1') as [y [Z1 [Z2 Z3]]]. exists y. rewrite X2, X3, Z2, Z3. repeat split; auto.
      * auto.
  - apply tview_same.
    + destruct H3; try reflexivity. destruct (_ <? 0); reflexivity.
    + destruct H3; try (dl s; reflexivity). rewrite dec_prt. dl s; reflexivity.
  - apply tview_same; [reflexivity|]. destruct (cts_fields f (l_rec s) (lset_ctsn (wrap16 (l_ctsn s + 1)) (lset_state LIdle s))) as (_&E&_).
    rewrite E. dl s; reflexivity.
  - apply tview_same; [unfold lsnt; destruct (lcan s0); reflexivity|]. destruct (ltry_fields f s0) as (_&_&_&->&_). subst s0. dl s; reflexivity.
  - apply tview_same; [unfold lsnt; destruct (lcan s0); reflexivity|]. match goal with |- context [ltry ?a ?b] => destruct (ltry_fields a b) as (_&_&_&->&_) end. subst s0. dl s; reflexivity.
  - subst s0. apply tview_same; [reflexivity|]. dl s; reflexivity.
  - subst s0. apply tview_same; [reflexivity|]. dl s; reflexivity.
  - subst s0. apply tview_same; [|dl s; reflexivity]. intros. unfold ltmo_of. cbn. destruct (_ <? 0); reflexivity.
  - subst s0. destruct (tcase_tmo _ _ _ _ _ _ _ H2) as [T1 T2]. apply (T_tmo _ _ _ _ true sq); [exact T1|exact T2|eauto].
  - subst s0. destruct (ldone_loop ok sq (l_queue s) (l_rec s)) as [[[[[l q] d] k] em] ub] eqn:D.
    assert (D' : ldone_loop ok sq (l_queue (lset_timers (remove_nth i (l_timers s)) s)) (l_rec (lset_timers (remove_nth i (l_timers s)) s)) = (l, q, d, k, em, ub)) by (destruct s; exact D).
    destruct (Z.eq_dec k 0) as [->|K].
    + rewrite (l_done_none _ _ _ _ _ _ _ _ D'). apply tview_same; [reflexivity|]. dl s; reflexivity.
    + rewrite (l_done_eq _ _ _ _ _ _ _ _ _ D' K). cbn [fst snd]. apply T_no.
      * intros kk qq. rewrite ltmo_app. assert (X : ltmo_of kk qq (map (LRep ok) d) = 0%nat) by (clear; induction d; auto). rewrite X. destruct ub; reflexivity.
      * intros r' R. left. destruct (ldone_spec ok sq (length (l_rec s)) _ _ _ _ _ _ _ _ (le_n _) D) as (_ & B2 & _).
        exists r'. repeat split; auto.
  - subst s0. apply tview_same; [destruct (l_res s); reflexivity|]. dl s; reflexivity.
Qed.

(** ** The retry counter counts the timeouts of both kinds *)
Definition tmos (q : Z) (o : list lout) : nat := (ltmo_of true q o + ltmo_of false q o)%nat.
Lemma tmos_app q a b : tmos q (a ++ b) = (tmos q a + tmos q b)%nat.
Proof. unfold tmos. rewrite !ltmo_app. lia. Qed.
Definition deserved (c : lcfg) (q : Z) (o : list lout) : Prop :=
  (1 <= ltmo_of false q o)%nat /\ lc_rts_retry c <= Z.of_nat (tmos q o) \/ (1 <= ltmo_of true q o)%nat /\ lc_data_retry c <= Z.of_nat (tmos q o).
Lemma deserved_app c q a b : deserved c q a -> deserved c q (a ++ b).
Proof. unfold deserved. rewrite tmos_app, !ltmo_app. intros [[A B]|[A B]]; [left|right]; lia. Qed.
Lemma ltmo_in a q o : In (LTmo a q) o -> (1 <= ltmo_of a q o)%nat.
Proof.
  intros I. unfold ltmo_of. assert (X : In (LTmo a q) (filter (fun x => match x with LTmo a' q' => eqb a' a && (q' =? q) | _ => false end) o)).
  { apply filter_In. split; auto. rewrite eqb_reflx, Z.eqb_refl. auto. }
  destruct (filter _ o); [contradiction|cbn; lia].
Qed.
Lemma wrap16_le x : 0 <= x -> wrap16 x <= x.
Proof. intros. unfold wrap16. change (2 ^ 16) with 65536. apply Z.mod_le; lia. Qed.

Lemma retry_reach P c q0 h s o : 0 <= q0 < 65536 -> lreach P c q0 h s o -> Z.of_nat (length (lacc_of o)) <= 65536 ->
  (forall q, (0 < tmos q o)%nat -> numbered o q) /\
  (forall r, In r (l_rec s) -> lr_retry r = Z.of_nat (tmos (kf_seq (lr_pkt r)) o) mod 65536) /\
  (forall t q, In t (l_timers s) -> lt_kind t = LKDone false q -> deserved c q o) /\
  (forall p, In p (lrep_of false o) -> deserved c (kf_seq p) o).
Proof.
  intros U R. induction R as [|h s o e ev R IH V HP]; intros L.
  { repeat split; try contradiction. intros q X. cbn in X. lia. }
  pose proof (step_lcase c e s ev V) as C. pose proof (inplay_reach _ _ _ _ _ _ U R) as J. pose proof (lacct_reach _ _ _ _ _ _ U R) as A.
  pose proof (lacct_reach _ _ _ _ _ _ U (LR1 _ _ _ _ _ _ e ev R V HP)) as A'.
  set (s' := fst (lstep c e s ev)) in *. set (o' := snd (lstep c e s ev)) in *. clearbody s' o'.
  assert (L0 : Z.of_nat (length (lacc_of o)) <= 65536) by (rewrite lacc_app, app_length in L; lia). destruct (IH L0) as (I1 & I2 & I3 & I4).
  pose proof (step_tmo _ _ _ _ _ _ C) as T. pose proof (nodup_rec _ _ _ _ A L0) as ND.
  assert (NEW : forall p, In p (lacc_of o') -> ~ numbered o (kf_seq p)).
  { intros p X [p' [Y1 Y2]].
    assert (Z1 : In p (lacc_of (o ++ o'))) by (rewrite lacc_app; apply in_or_app; auto).
    assert (Z2 : In p' (lacc_of (o ++ o'))) by (rewrite lacc_app; apply in_or_app; auto).
    assert (p' = p) by (eapply lunique; eauto). subst p'.
    pose proof (la_ids _ _ _ _ A') as N. rewrite lacc_app, map_app in N.
    assert (G : forall (a b : list Z) x, NoDup (a ++ b) -> In x a -> In x b -> False).
    { clear. induction a as [|y a IHa]; intros b x N X Y; [contradiction|]. inversion N; subst. destruct X as [->|X]; [apply H1; apply in_or_app; auto|eauto]. }
    eapply G; [exact N| |]; apply in_map; eauto. }
  split; [|split; [|split]].
  - intros q X. rewrite tmos_app in X. destruct (Nat.eq_dec (tmos q o) 0) as [Z|Z]; [|apply numbered_app; apply I1; lia].
    apply numbered_app. destruct T as [T1 T2|ack sq T1 T2 T3].
    + unfold tmos in X at 2. rewrite !T1 in X. lia.
    + unfold tmos in X at 2. rewrite !T1 in X. assert (q = sq) by (destruct (Z.eqb_spec q sq); auto; rewrite !andb_false_r in X; lia). subst q.
      destruct ack; [destruct T3 as (i & t & E1 & E2); apply nth_error_In in E1; pose proof (ip_timers _ _ J _ E1) as Y; rewrite E2 in Y; exact Y|].
      destruct T3 as [E1 ->]. apply (ip_last _ _ J E1).
  - intros r' R'. rewrite tmos_app. destruct T as [T1 T2|ack sq T1 T2 T3].
    + assert (Z : forall q, tmos q o' = 0%nat) by (intros; unfold tmos; rewrite !T1; auto). rewrite Z, Nat.add_0_r.
      destruct (T2 _ R') as [(r & X1 & X2 & X3)|[X1 X2]]; [rewrite X2, X3; auto|]. rewrite X1.
      destruct (Nat.eq_dec (tmos (kf_seq (lr_pkt r')) o) 0) as [E|E]; [rewrite E; reflexivity|]. exfalso. apply (NEW _ X2). apply I1. lia.
    + destruct (T2 ND _ R') as (r & X1 & X2 & X3). rewrite X2, X3. specialize (I2 _ X1).
      assert (Z : tmos (kf_seq (lr_pkt r)) o' = if kf_seq (lr_pkt r) =? sq then 1%nat else 0%nat).
      { unfold tmos. rewrite !T1. destruct (kf_seq (lr_pkt r) =? sq); destruct ack; reflexivity. }
      rewrite Z. destruct (kf_seq (lr_pkt r) =? sq); [|rewrite Nat.add_0_r; auto].
      rewrite I2. unfold wrap16. change (2 ^ 16) with 65536. rewrite Zplus_mod_idemp_l. f_equal. lia.
  - assert (LIM : forall ack q r lim, find1 q (l_rec s) = Some r -> lim <= wrap16 (lr_retry r + 1) -> In (LTmo ack q) o' ->
      (1 <= ltmo_of ack q (o ++ o'))%nat /\ lim <= Z.of_nat (tmos q (o ++ o'))).
    { intros ack q r lim F LE I. apply ltmo_in in I. split; [rewrite ltmo_app; lia|]. apply find1_in in F. destruct F as [F1 F2]. specialize (I2 _ F1). rewrite F2 in I2.
      rewrite tmos_app. assert (1 <= tmos q o')%nat by (unfold tmos; destruct ack; lia).
      assert (0 <= lr_retry r) by (rewrite I2; apply Z.mod_pos_bound; lia).
      pose proof (wrap16_le (lr_retry r + 1) ltac:(lia)). assert (lr_retry r <= Z.of_nat (tmos q o)) by (rewrite I2; apply Z.mod_le; lia). lia. }
    intros t q X KQ. destruct (step_track _ _ _ _ _ _ C) as (K & N & E & KP & NW). rewrite E in X. apply in_app_or in X.
    destruct X as [X|X]; [apply deserved_app; eapply I3; eauto; eapply kept_in; eauto|].
    inversion NW; subst; cbn in X.
    + contradiction.
    + destruct X as [<-|[]]. discriminate.
    + apply in_app_or in X. destruct X as [X|X].
      * destruct H3 as [->|(u & r & -> & A1 & A2 & A3 & A4)]; [contradiction|]. destruct X as [<-|[]]. injection KQ as <-.
        left. eapply LIM; eauto.
      * destruct H4 as [->|(u & r & y & -> & A1 & _)]; [contradiction|]. destruct X as [<-|[]]. discriminate.
    + destruct X as [<-|[]]. discriminate.
    + apply cts_in in X. destruct X as [r [R1 [_ [R3 _]]]]. congruence.
    + destruct X as [<-|[]]. discriminate.
    + destruct X as [<-|[]]. discriminate.
    + destruct X as [<-|[]]. injection KQ as <-. right. eapply LIM; eauto. left. auto.
    + rewrite (H1 _ X) in KQ. discriminate.
  - intros p X. rewrite lrep_app in X. apply in_app_or in X. destruct X as [X|X]; [apply deserved_app; auto|].
    apply in_lrep in X. destruct (step_rep _ _ _ _ _ _ _ _ C X) as (i & t & E2 & E3 & _). apply deserved_app.
    eapply I3; eauto. eapply nth_error_In; eauto.
Qed.

(** ** CTS timeouts and RTS *)
(** An RTS runs only when the client can send it. *)
Definition rts_able (s : lst) (ev : levent) : Prop :=
  match ev with LETimer i => forall t p, nth_error (l_timers s) i = Some t -> lt_kind t = LKRts p -> lcan s = true | _ => True end.
Definition rts_of (q : Z) (f : kframe) : bool := (kf_type f =? T_RTS) && (kf_flags f =? 0) && (kf_seq f =? q).
Definition rts_for (q : Z) (k : lkind) : bool := match k with LKRts p => kf_seq p =? q | _ => false end.
Definition open_rts (q : Z) (s : lst) : nat := if negb (l_answered s) && (l_last s =? q) then 1%nat else 0%nat.

(** Identifiers of events: only the event of DATA in 1-way mode and timeouts of acknowledgements are ever cancelled. *)
Record ids_ok (s : lst) : Prop := Ids_ok {
  io_lt : forall t, In t (l_timers s) -> lt_id t < l_uid s;
  io_sde : forall u, l_sde s = Some u -> u < l_uid s /\ forall t, In t (l_timers s) -> lt_id t = u -> exists p, lt_kind t = LKData p 0;
  io_acks : forall x, In x (l_acks s) -> snd x < l_uid s /\ forall t, In t (l_timers s) -> lt_id t = snd x -> lt_kind t = LKAck (fst x)
}.
(** Nothing but new events, with new identifiers, is added. *)
Lemma ids_grow s s' : ids_ok s -> l_uid s <= l_uid s' -> l_sde s' = l_sde s -> (forall x, In x (l_acks s') -> In x (l_acks s)) ->
  (forall t, In t (l_timers s') -> In t (l_timers s) \/ l_uid s <= lt_id t < l_uid s') -> ids_ok s'.
Proof.
  intros [A B C] U S K T. split.
  - intros t X. destruct (T t X) as [Y|Y]; [apply A in Y|]; lia.
  - intros u X. rewrite S in X. destruct (B u X) as [B1 B2]. split; [lia|]. intros t Y E. destruct (T t Y) as [Z|Z]; [eauto|lia].
  - intros x X. apply K in X. destruct (C x X) as [C1 C2]. split; [lia|]. intros t Y E. destruct (T t Y) as [Z|Z]; [eauto|lia].
Qed.
Lemma cts_ids f l : forall now u t, In t (cts_new f now u l) -> u <= lt_id t < u + Z.of_nat (length (cts_new f now u l)).
Proof.
  induction l as [|r l IH]; intros now u t T; [contradiction|]. cbn [cts_new] in *. destruct (_ =? _); [|apply IH; auto].
  cbn [length]. destruct T as [<-|T]; [cbn; lia|]. apply IH in T. lia.
Qed.
Lemma cts_uid f l : forall s, l_uid (cts_loop f l s) = l_uid s + Z.of_nat (length (cts_new f (l_now s) (l_uid s) l)).
Proof.
  induction l as [|r l IH]; intros s; cbn [cts_loop cts_new]; [cbn; lia|]. rewrite IH. destruct (_ =? _); auto. dl s; lproj. cbn [length]. lia.
Qed.
Lemma dec_ids s : l_uid (decrease s) = l_uid s /\ l_sde (decrease s) = l_sde s /\ l_acks (decrease s) = l_acks s /\ l_timers (decrease s) = l_timers s /\
  l_answered (decrease s) = l_answered s /\ l_last (decrease s) = l_last s.
Proof. unfold decrease. destruct (find1 _ _); auto 10. destruct (_ =? 0); destruct s; cbn; auto 10. Qed.
Lemma ltry_ids f s : l_uid (ltry f s) = l_uid s /\ l_sde (ltry f s) = l_sde s /\ l_acks (ltry f s) = l_acks s /\ l_timers (ltry f s) = l_timers s.
Proof. unfold ltry. destruct (lcan s), (lready s); destruct s; cbn; auto. Qed.
Lemma tcase_ids limit life ack sq s s' o : tcase limit life ack sq s s' o ->
  l_uid s <= l_uid s' /\ l_sde s' = l_sde s /\ l_acks s' = l_acks s /\ (forall t, In t (l_timers s') -> In t (l_timers s) \/ l_uid s <= lt_id t < l_uid s') /\
  l_answered s' = l_answered s /\ l_last s' = l_last s.
Proof.
  intros T. destruct T; dl s; lproj; repeat split; auto; try lia. intros t X. apply in_app_or in X. destruct X as [X|[<-|[]]]; auto. right. cbn. lia.
Qed.

Lemma lcancel_ids u s : l_uid (lcancel u s) = l_uid s /\ l_sde (lcancel u s) = l_sde s /\ l_acks (lcancel u s) = l_acks s /\
  (forall t, In t (l_timers (lcancel u s)) -> In t (l_timers s)).
Proof. destruct u; [|auto]. dl s; cbn. repeat split; auto. intros t T. apply filter_In in T. apply T. Qed.
Lemma ids_step c e s ev s' o : lcase c e s ev s' o -> ids_ok s -> ids_ok s'.
Proof.
  intros C I. destruct C.
  - auto.
  - apply (ids_grow s); auto; dl s; lproj; auto; lia.
  - apply (ids_grow s); auto; dl s; lproj; auto; lia.
  - destruct (lcancel_ids (l_sde s) s) as (E1 & E2 & E3 & E4). apply (ids_grow s);
      [auto|change (l_uid s <= l_uid (lcancel (l_sde s) s)); lia|exact E2|intros x X; rewrite <- E3; exact X|intros t T; left; apply E4; exact T].
  - auto.
  - apply (ids_grow s); auto; dl s; lproj; auto; try lia. intros t T. apply in_app_or in T. destruct T as [T|[<-|[]]]; auto. right. cbn. lia.
  - apply (ids_grow s); auto; dl s; lproj; auto; lia.
  - apply (ids_grow s); auto; dl s; lproj; auto; lia.
  - assert (I1 : ids_ok s1).
    { destruct H5 as [A|s1 o1 A T]; [apply (ids_grow s); auto; dl s; lproj; auto; lia|].
      apply tcase_ids in T. destruct T as (T1 & T2 & T3 & T4 & _). apply (ids_grow s); [auto|exact T1|exact T2|intros x X; assert (X' : In x (l_acks s1)) by exact X; rewrite T3 in X'; exact X'|exact T4]. }
    destruct H6 as [B|B|B|r t B S R].
    + destruct (dec_ids s1) as (E1 & E2 & E3 & E4 & _). apply (ids_grow s1); auto; rewrite ?E1, ?E3, ?E4; auto; lia.
    + apply (ids_grow s1); auto; dl s1; lproj; auto; lia.
    + apply (ids_grow s1); auto; dl s1; lproj; auto; lia.
    + apply (ids_grow s1); auto; dl s1; lproj; auto; try lia. intros x T. apply in_app_or in T. destruct T as [T|[<-|[]]]; auto. right. cbn. lia.
  - destruct H3 as [B|B|r t B R].
    + destruct (dec_ids (lset_state LIdle s)) as (E1 & E2 & E3 & E4 & _). apply (ids_grow s); auto; rewrite ?E1, ?E2, ?E3, ?E4; dl s; lproj; auto; lia.
    + apply (ids_grow s); auto; dl s; lproj; auto; lia.
    + destruct I as [J1 J2 J3]. dl s; lproj. split; lproj.
      * intros x T. apply in_app_or in T. destruct T as [T|[<-|[]]]; [apply J1 in T|cbn]; lia.
      * intros u E. injection E as <-. split; [lia|]. intros x T E. apply in_app_or in T. destruct T as [T|[<-|[]]]; [apply J1 in T; lia|]. cbn. eauto.
      * intros x X. destruct (J3 x X) as [K1 K2]. split; [lia|]. intros y T E. apply in_app_or in T. destruct T as [T|[<-|[]]]; [auto|]. cbn in E. lia.
  - apply (ids_grow s); auto; dl s; lproj; auto; lia.
  - set (s1 := lset_ctsn (wrap16 (l_ctsn s + 1)) (lset_state LIdle s)). destruct (cts_fields f (l_rec s) s1) as (_&_&_&E1&_&_&_&_&_&_&_&E2&_).
    apply (ids_grow s).
    + auto.
    + rewrite cts_uid. replace (l_uid s1) with (l_uid s) by (dl s; reflexivity). lia.
    + rewrite E2. reflexivity.
    + rewrite E1. auto.
    + rewrite cts_timers, cts_uid. replace (l_uid s1) with (l_uid s) by (dl s; reflexivity). replace (l_timers s1) with (l_timers s) by (dl s; reflexivity).
      intros t T. apply in_app_or in T. destruct T as [T|T]; auto. right. apply cts_ids in T. auto.
  - apply (ids_grow s); auto; dl s; lproj; auto; lia.
  - apply (ids_grow s); [auto|dl s; cbn; lia|reflexivity|intros x X; eapply MacInv.in_erase1; exact X|].
    dl s; cbn. intros t T. apply in_app_or in T. destruct T as [T|[<-|[]]]; [apply filter_In in T; destruct T; auto|]. right. cbn. lia.
  - subst s0. match goal with |- ids_ok (ltry ?a ?b) => destruct (ltry_ids a b) as (E1 & E2 & E3 & E4) end.
    apply (ids_grow s); auto; rewrite ?E1, ?E2, ?E3, ?E4; dl s; lproj; auto; try lia. intros x T. left. eapply MacInv.in_remove; eauto.
  - subst s0. match goal with |- ids_ok (ltry ?a ?b) => destruct (ltry_ids a b) as (E1 & E2 & E3 & E4) end.
    apply (ids_grow s); auto; rewrite ?E1, ?E2, ?E3, ?E4; dl s; lproj; auto; try lia. intros x T. left. eapply MacInv.in_remove; eauto.
  - subst s0. apply (ids_grow s); auto; dl s; lproj; auto; try lia. intros x T. left. eapply MacInv.in_remove; eauto.
  - subst s0. apply (ids_grow s); auto; dl s; lproj; auto; try lia. intros x T. left. eapply MacInv.in_remove; eauto.
  - subst s0. destruct I as [J1 J2 J3]. assert (W : ack_wait c s = ack_wait c s) by auto. set (w := ack_wait c s) in *. clearbody w. dl s; lproj. split; lproj.
    + intros x T. apply in_app_or in T. destruct T as [T|[<-|[]]]; [apply MacInv.in_remove in T; apply J1 in T|cbn]; lia.
    + intros u E. destruct (J2 u E) as [K1 K2]. split; [lia|]. intros x T X. apply in_app_or in T. destruct T as [T|[<-|[]]]; [apply MacInv.in_remove in T; auto|]. cbn in X. lia.
    + intros x X. apply in_app_or in X. destruct X as [X|[<-|[]]].
      * destruct (J3 x X) as [K1 K2]. split; [lia|]. intros y T E. apply in_app_or in T. destruct T as [T|[<-|[]]]; [apply MacInv.in_remove in T; auto|]. cbn in E. lia.
      * cbn. split; [lia|]. intros y T E. apply in_app_or in T. destruct T as [T|[<-|[]]]; [apply MacInv.in_remove in T; apply J1 in T; lia|]. reflexivity.
  - subst s0. apply tcase_ids in H2. destruct H2 as (T1 & T2 & T3 & T4 & _). apply (ids_grow s); [auto|exact T1|exact T2|intros x X; rewrite T3 in X; eapply MacInv.in_erase1; exact X|].
    intros y X. destruct (T4 y X) as [Y|Y]; [left; eapply MacInv.in_remove; exact Y|right; exact Y].
  - subst s0. destruct (ldone_loop ok sq (l_queue s) (l_rec s)) as [[[[[l q] d] k] em] ub] eqn:D.
    assert (D' : ldone_loop ok sq (l_queue (lset_timers (remove_nth i (l_timers s)) s)) (l_rec (lset_timers (remove_nth i (l_timers s)) s)) = (l, q, d, k, em, ub)) by (destruct s; exact D).
    destruct (Z.eq_dec k 0) as [->|K].
    + rewrite (l_done_none _ _ _ _ _ _ _ _ D'). cbn [fst]. apply (ids_grow s); auto; dl s; lproj; auto; try lia. intros x T. left. eapply MacInv.in_remove; eauto.
    + rewrite (l_done_eq _ _ _ _ _ _ _ _ _ D' K). cbn [fst]. apply (ids_grow s); auto; dl s; lproj; auto; try lia.
      intros x T. apply in_app_or in T. destruct T as [T|T]; [left; eapply MacInv.in_remove; eauto|]. right. unfold results_at in T. lproj. apply in_map_iff in T.
      destruct T as [j [<- T]]. apply in_seq in T. cbn. lia.
  - subst s0. apply (ids_grow s); auto; dl s; lproj; auto; try lia. intros x T. left. eapply MacInv.in_remove; eauto.
  - auto.
  - apply (ids_grow s); auto; dl s; lproj; auto; lia.
Qed.
Lemma ids_reach P c q0 h s o : lreach P c q0 h s o -> ids_ok s.
Proof.
  induction 1 as [|h s o e ev R IH V HP]; [split; cbn; try contradiction; discriminate|].
  eapply ids_step; [apply step_lcase; auto|auto].
Qed.

Lemma pend_filter P l u : (forall t, In t l -> lt_id t = u -> P (lt_kind t) = false) -> pend_l P (filter (fun t => negb (lt_id t =? u)) l) = pend_l P l.
Proof.
  unfold pend_l, count. induction l as [|t l IH]; intros H; auto. cbn [filter]. destruct (Z.eqb_spec (lt_id t) u) as [E|E]; cbn [negb filter].
  - rewrite (H t) by (auto; left; auto). apply IH. intros. apply H; auto. right. auto.
  - destruct (P (lt_kind t)); cbn [length]; rewrite IH; auto; intros; apply H; auto; right; auto.
Qed.
Lemma pend_fire P l i t : nth_error l i = Some t -> P (lt_kind t) = false -> pend_l P (remove_nth i l) = pend_l P l.
Proof. intros N F. pose proof (count_remove (fun t => P (lt_kind t)) i _ _ N) as X. cbv beta in X. rewrite F in X. unfold pend_l. lia. Qed.
Lemma pend_add P l t : P (lt_kind t) = false -> pend_l P (l ++ [t]) = pend_l P l.
Proof. intros F. rewrite pend_l_app. unfold pend_l at 2, count. cbn. rewrite F. cbn. lia. Qed.
Lemma open_same q s s' : l_answered s' = l_answered s -> l_last s' = l_last s -> open_rts q s' = open_rts q s.
Proof. unfold open_rts. intros -> ->. auto. Qed.

Lemma step_open c e s ev s' o q : lcase c e s ev s' o -> ids_ok s -> rts_able s ev ->
  (ltmo_of false q o + open_rts q s' + pend_l (rts_for q) (l_timers s) <=
   open_rts q s + lcount (rts_of q) (lsnd_of o) + pend_l (rts_for q) (l_timers s'))%nat.
Proof.
  intros C I AB.
  assert (SAME : forall s' o, ltmo_of false q o = 0%nat -> l_answered s' = l_answered s -> l_last s' = l_last s ->
    pend_l (rts_for q) (l_timers s') = pend_l (rts_for q) (l_timers s) ->
    (ltmo_of false q o + open_rts q s' + pend_l (rts_for q) (l_timers s) <= open_rts q s + lcount (rts_of q) (lsnd_of o) + pend_l (rts_for q) (l_timers s'))%nat).
  { intros x y A1 A2 A3 A4. rewrite (open_same q s x A2 A3), A1, A4. lia. }
  destruct C.
  - apply SAME; reflexivity.
  - apply SAME; reflexivity.
  - apply SAME; reflexivity.
  - apply SAME; try reflexivity; [destruct (l_sde s); reflexivity|destruct (l_sde s); reflexivity|].
    destruct (l_sde s) as [u|] eqn:E; [|reflexivity]. change (pend_l (rts_for q) (filter (fun t => negb (lt_id t =? u)) (l_timers s)) = pend_l (rts_for q) (l_timers s)).
    apply pend_filter. intros t T X. destruct (io_sde _ I u E) as [_ Y]. destruct (Y t T X) as [p ->]. reflexivity.
  - apply SAME; reflexivity.
  - apply SAME; try reflexivity. apply pend_add. reflexivity.
  - apply SAME; reflexivity.
  - apply SAME; reflexivity.
  - assert (X : (ltmo_of false q o1 + open_rts q s1 <= open_rts q s)%nat /\ l_answered s1 = true /\ pend_l (rts_for q) (l_timers s1) = pend_l (rts_for q) (l_timers s)).
    { destruct H5 as [A|s1 o1 A T].
      - split; [|split; [exact A|reflexivity]]. cbn [ltmo_of filter length]. rewrite (open_same q s); reflexivity.
      - split; [|split].
        + destruct (tcase_tmo _ _ _ _ _ _ _ T) as [T1 _]. rewrite T1. unfold open_rts. rewrite A. cbn.
          destruct (Z.eqb_spec q (l_last s)) as [E|E]; [subst q; rewrite Z.eqb_refl; auto|]. assert (E' : l_last s =? q = false) by (apply Z.eqb_neq; auto). rewrite E'. auto.
        + reflexivity.
        + destruct T; try reflexivity. apply pend_add. reflexivity. }
    destruct X as (X1 & X2 & X3). rewrite ltmo_app, lsnd_app, lcount_app.
    assert (Y : (ltmo_of false q o2 = 0 /\ open_rts q s2 + pend_l (rts_for q) (l_timers s1) <= open_rts q s1 + pend_l (rts_for q) (l_timers s2))%nat).
    { destruct H6 as [B|B|B|r t B S R].
      - split; [reflexivity|]. destruct (dec_ids s1) as (_ & _ & _ & E4 & E5 & E6). rewrite E4, (open_same q s1); auto.
      - split; [reflexivity|]. rewrite (open_same q s1) by reflexivity. reflexivity.
      - split; [reflexivity|]. rewrite (open_same q s1) by reflexivity. reflexivity.
      - split; [reflexivity|].
        change (l_timers (lset_answered false (lset_last (kf_seq (lr_pkt r)) (lsched (boslots c e) (LKRts (lr_pkt r)) (lset_state LWaitTx (lset_ctsn 0 s1))))))
          with (l_timers s1 ++ [Ltimer (l_uid s1) (l_now s1 + boslots c e) (LKRts (lr_pkt r))]).
        rewrite pend_l_app. unfold open_rts at 1. cbn [l_answered l_last lset_answered lset_last negb andb].
        unfold pend_l at 3, count. cbn [filter lt_kind rts_for]. destruct (_ =? q); cbn [length]; lia. }
    destruct Y as [Y1 Y2]. rewrite Y1. lia.
  - destruct H3 as [B|B|r t B R].
    + destruct (dec_ids (lset_state LIdle s)) as (_ & _ & _ & E4 & E5 & E6). apply SAME; [reflexivity|rewrite E5; reflexivity|rewrite E6; reflexivity|rewrite E4; reflexivity].
    + apply SAME; reflexivity.
    + apply SAME; try reflexivity; [destruct (_ <? 0); reflexivity|]. apply pend_add. reflexivity.
  - apply SAME; reflexivity.
  - set (s1 := lset_ctsn (wrap16 (l_ctsn s + 1)) (lset_state LIdle s)). destruct (cts_fields f (l_rec s) s1) as (_&_&_&_&_&_&_&_&_&E1&_&_&_&_&E2&_).
    rewrite cts_timers, pend_l_app. change (l_timers s1) with (l_timers s).
    assert (X : (open_rts q (cts_loop f (l_rec s) s1) <= open_rts q s)%nat).
    { unfold open_rts. rewrite E1. change (l_last s1) with (l_last s). destruct (l_answered s) eqn:A; [rewrite E2 by exact A; cbn; lia|]. cbn [negb andb].
      destruct (l_answered (cts_loop _ _ _)); cbn; destruct (l_last s =? q); lia. }
    change (ltmo_of false q []) with 0%nat. change (lcount (rts_of q) (lsnd_of [])) with 0%nat. lia.
  - apply SAME; reflexivity.
  - apply SAME; try reflexivity.
    change (pend_l (rts_for q) (filter (fun t => negb (lt_id t =? u)) (l_timers s) ++ [Ltimer (l_uid s) (l_now s + psec) (LKDone true (kf_seq f))]) = pend_l (rts_for q) (l_timers s)).
    rewrite pend_add by reflexivity. apply pend_filter. apply find_some in H2. destruct H2 as [F _].
    intros t T X. destruct (io_acks _ I _ F) as [_ Y]. rewrite (Y t T X). reflexivity.
  - subst s0. match goal with |- context [ltry ?a ?b] => destruct (ltry_ids a b) as (_ & _ & _ & E4); destruct (ltry_fields a b) as (_ & E5 & E6 & _) end.
    apply SAME; [unfold lsnt; destruct (lcan _); reflexivity|rewrite E6; reflexivity|rewrite E5; reflexivity|rewrite E4].
    change (pend_l (rts_for q) (remove_nth i (l_timers s)) = pend_l (rts_for q) (l_timers s)). eapply pend_fire; eauto. rewrite H1. reflexivity.
  - subst s0. assert (CN : lcan s = true) by (eapply AB; eauto).
    match goal with |- context [ltry ?a ?b] => destruct (ltry_ids a b) as (_ & _ & _ & E4); destruct (ltry_fields a b) as (_ & E5 & E6 & _) end.
    rewrite E4, (open_same q s) by (rewrite ?E5, ?E6; reflexivity).
    unfold lsnt. change (lcan (lset_timers (remove_nth i (l_timers s)) s)) with (lcan s). rewrite CN.
    pose proof (count_remove (fun t => rts_for q (lt_kind t)) i _ _ H) as X. cbv beta in X. rewrite H1 in X.
    change (lsnd_of [LSnd (the_rts c p s) 0]) with [the_rts c p s]. unfold lcount, rts_of. cbn [filter the_rts kf_type kf_flags kf_seq].
    change (l_timers (lset_ids (l_ids s + 1) (lset_timers (remove_nth i (l_timers s)) s))) with (remove_nth i (l_timers s)).
    unfold pend_l. cbn [rts_for] in X. change (T_RTS =? T_RTS) with true. change (0 =? 0) with true. cbn [andb].
    change (ltmo_of false q [LSnd (the_rts c p s) 0]) with 0%nat. destruct (kf_seq p =? q); cbn [length]; lia.
  - subst s0. apply SAME; try reflexivity. apply (pend_fire _ _ _ _ H). rewrite H1. reflexivity.
  - subst s0. apply SAME; try reflexivity. apply (pend_fire _ _ _ _ H). rewrite H1. reflexivity.
  - subst s0. apply SAME; try reflexivity; [unfold ltmo_of; cbn; destruct (_ <? 0); reflexivity|].
    change (pend_l (rts_for q) (remove_nth i (l_timers s) ++ [Ltimer (l_uid s) (l_now s + ack_wait c s) (LKAck (kf_seq p))]) = pend_l (rts_for q) (l_timers s)).
    rewrite pend_add by reflexivity. apply (pend_fire _ _ _ _ H). rewrite H1. reflexivity.
  - subst s0. destruct (tcase_tmo _ _ _ _ _ _ _ H2) as [T1 _]. destruct (tcase_ids _ _ _ _ _ _ _ H2) as (_ & _ & _ & _ & E5 & E6).
    apply SAME; [rewrite T1; reflexivity|rewrite E5; reflexivity|rewrite E6; reflexivity|].
    transitivity (pend_l (rts_for q) (remove_nth i (l_timers s))); [|apply (pend_fire _ _ _ _ H); rewrite H1; reflexivity].
    destruct H2; try reflexivity. apply pend_add. reflexivity.
  - subst s0. destruct (ldone_loop ok sq (l_queue s) (l_rec s)) as [[[[[l qq] d] k] em] ub] eqn:D.
    assert (D' : ldone_loop ok sq (l_queue (lset_timers (remove_nth i (l_timers s)) s)) (l_rec (lset_timers (remove_nth i (l_timers s)) s)) = (l, qq, d, k, em, ub)) by (destruct s; exact D).
    destruct (Z.eq_dec k 0) as [->|K].
    + rewrite (l_done_none _ _ _ _ _ _ _ _ D'). cbn [fst snd]. apply SAME; try reflexivity. apply (pend_fire _ _ _ _ H). rewrite H1. reflexivity.
    + rewrite (l_done_eq _ _ _ _ _ _ _ _ _ D' K). cbn [fst snd]. apply SAME; try reflexivity.
      * rewrite ltmo_app. assert (X : ltmo_of false q (map (LRep ok) d) = 0%nat) by (clear; induction d; auto). rewrite X. destruct ub; reflexivity.
      * change (pend_l (rts_for q) (remove_nth i (l_timers s) ++ results_at (length d) (lset_timers (remove_nth i (l_timers s)) s)) = pend_l (rts_for q) (l_timers s)).
        rewrite pend_l_app. assert (X : pend_l (rts_for q) (results_at (length d) (lset_timers (remove_nth i (l_timers s)) s)) = 0%nat).
        { apply count_zero. intros x X. unfold results_at in X. apply in_map_iff in X. destruct X as [j [<- _]]. auto. }
        rewrite X, Nat.add_0_r. apply (pend_fire _ _ _ _ H). rewrite H1. reflexivity.
  - subst s0. apply SAME; try reflexivity; [destruct (l_res s); reflexivity|]. apply (pend_fire _ _ _ _ H). rewrite H1. reflexivity.
  - apply SAME; reflexivity.
  - apply SAME; reflexivity.
Qed.
Lemma open_reach (P : lst -> levent -> Prop) c q0 h s o q : (forall s ev, P s ev -> rts_able s ev) -> lreach P c q0 h s o ->
  (ltmo_of false q o + open_rts q s <= lcount (rts_of q) (lsnd_of o) + pend_l (rts_for q) (l_timers s))%nat.
Proof.
  intros PA R. induction R as [|h s o e ev R IH V HP]; [cbn; lia|].
  pose proof (step_open _ _ _ _ _ _ q (step_lcase c e s ev V) (ids_reach _ _ _ _ _ _ R) (PA _ _ HP)) as X.
  rewrite ltmo_app, lsnd_app, lcount_app. lia.
Qed.

(** ** The life of a backoff *)
Lemma draw1_bounds n x : 1 <= n -> 1 <= draw1 n x <= n.
Proof. unfold draw1. lia. Qed.
Lemma life_bounds n x : 0 <= n < 16 -> 1 <= wrap16 (draw1 (2 ^ n) x) <= 2 ^ n.
Proof.
  intros N. assert (1 <= 2 ^ n) by (change 1 with (2 ^ 0); apply Z.pow_le_mono_r; lia).
  assert (2 ^ n <= 2 ^ 15) by (apply Z.pow_le_mono_r; lia). change (2 ^ 15) with 32768 in *.
  pose proof (draw1_bounds (2 ^ n) x ltac:(lia)). unfold wrap16. change (2 ^ 16) with 65536. rewrite Z.mod_small; lia.
Qed.
(** Records and backoff. [rl]: what is true of the retries and life of every record. *)
Definition rl (r : lrec) : Prop := 0 <= lr_retry r < 65536 /\ 0 <= lr_life r <= 2 ^ lr_retry r.
Record life_ok (o : list lout) (s : lst) : Prop := Life_ok {
  lo_num : l_boact s = true -> numbered o (l_boseq s);
  lo_one : l_boact s = true -> forall r, In r (l_rec s) -> kf_seq (lr_pkt r) = l_boseq s -> 1 <= lr_life r;
  lo_rl : forall r, In r (l_rec s) -> rl r
}.
Lemma life_sub o s s' : life_ok o s -> (l_boact s' = true -> l_boact s = true /\ l_boseq s' = l_boseq s) -> (forall r, In r (l_rec s') -> In r (l_rec s)) -> life_ok o s'.
Proof.
  intros [A B C] E R. split; auto.
  - intros X. destruct (E X) as [Y ->]. auto.
  - intros X r I. destruct (E X) as [Y ->]. auto.
Qed.
Lemma wrap16_bounds x : 0 <= wrap16 x < 65536.
Proof. unfold wrap16. change (2 ^ 16) with 65536. apply Z.mod_pos_bound. lia. Qed.
Lemma tcase_life limit life ack sq s s' o o' : tcase limit life ack sq s s' o' -> 1 <= limit <= 16 -> NoDup (map kf_seq (map lr_pkt (l_rec s))) -> numbered o sq ->
  life_ok o s -> life_ok o s'.
Proof.
  intros T LM N Q I. destruct T as [F|r F L|r F L]; [auto| |].
  - assert (RR : 0 <= lr_retry r < 65536) by (apply (lo_rl _ _ I); apply find1_in in F; apply F).
    assert (W : wrap16 (lr_retry r + 1) = lr_retry r + 1).
    { unfold wrap16 in *. change (2 ^ 16) with 65536 in *. destruct (Z.eq_dec (lr_retry r) 65535) as [E|E]; [rewrite E in L; cbn in L; lia|]. apply Z.mod_small. lia. }
    destruct I as [A B C]. split.
    + exact A.
    + intros X x Y E.
      assert (Y' : In x (update1 sq (fun x => Lrec (lr_pkt x) (wrap16 (lr_retry r + 1)) (lr_life x)) (l_rec s))) by exact Y.
      assert (X' : l_boact s = true) by exact X. assert (E' : kf_seq (lr_pkt x) = l_boseq s) by exact E.
      destruct (update1_in _ _ _ _ N Y') as [(z & Z1 & Z2 & Z3 & ->)|[Z1 Z2]]; [|eauto]. cbn in *. eauto.
    + intros x Y. assert (Y' : In x (update1 sq (fun x => Lrec (lr_pkt x) (wrap16 (lr_retry r + 1)) (lr_life x)) (l_rec s))) by exact Y.
      destruct (update1_in _ _ _ _ N Y') as [(z & Z1 & Z2 & Z3 & ->)|[Z1 Z2]]; [|auto]. assert (z = r) by congruence. subst z.
      destruct (C _ Z1) as [C1 C2]. split; cbn [lr_retry lr_life]; [apply wrap16_bounds|]. rewrite W. rewrite Z.pow_add_r by lia. change (2 ^ 1) with 2. lia.
  - pose proof (wrap16_bounds (lr_retry r + 1)) as WB.
    pose proof (life_bounds (wrap16 (lr_retry r + 1)) life ltac:(lia)) as LB.
    destruct I as [A B C].
    set (g := fun x => Lrec (lr_pkt x) (wrap16 (lr_retry r + 1)) (wrap16 (draw1 (2 ^ wrap16 (lr_retry r + 1)) life))).
    split.
    + intros _. exact Q.
    + intros X x Y E. assert (Y' : In x (update1 sq g (l_rec s))) by exact Y. assert (E' : kf_seq (lr_pkt x) = sq) by exact E.
      destruct (update1_in _ _ _ _ N Y') as [(z & Z1 & Z2 & Z3 & ->)|[Z1 Z2]]; [|congruence]. cbn. lia.
    + intros x Y. assert (Y' : In x (update1 sq g (l_rec s))) by exact Y.
      destruct (update1_in _ _ _ _ N Y') as [(z & Z1 & Z2 & Z3 & ->)|[Z1 Z2]]; [|auto]. split; cbn [g lr_retry lr_life]; lia.
Qed.
Lemma dec_life o s : NoDup (map kf_seq (map lr_pkt (l_rec s))) -> l_boact s = true -> life_ok o s -> life_ok o (decrease s).
Proof.
  intros N B [A1 A2 A3]. unfold decrease. destruct (find1 (l_boseq s) (l_rec s)) as [r|] eqn:F; [|split; auto].
  destruct (find1_in _ _ _ F) as [F1 F2]. specialize (A2 B r F1 F2). destruct (A3 r F1) as [C1 C2].
  set (n := wrap16 (lr_life r - 1)). set (g := fun x => Lrec (lr_pkt x) (lr_retry x) n).
  assert (NB : 0 <= n <= lr_life r - 1) by (unfold n; split; [apply wrap16_bounds|apply wrap16_le; lia]).
  assert (U : forall x, In x (update1 (l_boseq s) g (l_rec s)) -> (x = g r \/ In x (l_rec s) /\ kf_seq (lr_pkt x) <> l_boseq s)).
  { intros x X. destruct (update1_in _ _ _ _ N X) as [(z & Z1 & Z2 & Z3 & ->)|[Z1 Z2]]; [|auto]. left. congruence. }
  assert (RL : forall x, In x (update1 (l_boseq s) g (l_rec s)) -> rl x).
  { intros x X. destruct (U x X) as [->|[X1 _]]; [|auto]. split; cbn; lia. }
  destruct (Z.eqb_spec n 0) as [E|E]; (split; [| |exact RL]).
  - discriminate.
  - discriminate.
  - exact A1.
  - intros _ x X Y. assert (Y' : kf_seq (lr_pkt x) = l_boseq s) by exact Y. destruct (U x X) as [->|[X1 X2]]; [cbn; lia|contradiction].
Qed.

Lemma life_step c e s ev s' o o' : lcase c e s ev s' o' -> 1 <= lc_rts_retry c <= 16 -> 1 <= lc_data_retry c <= 16 -> NoDup (map kf_seq (map lr_pkt (l_rec s))) ->
  inplay (numbered o) s -> (forall p, In p (lacc_of o') -> ~ numbered o (kf_seq p)) -> life_ok o s -> life_ok o s'.
Proof.
  intros C L1 L2 N J NEW I.
  assert (SAME : forall s', l_boact s' = l_boact s -> l_boseq s' = l_boseq s -> l_rec s' = l_rec s -> life_ok o s').
  { intros x E1 E2 E3. apply (life_sub o s); auto; rewrite ?E1, ?E2, ?E3; auto. }
  destruct C; try (apply SAME; reflexivity).
  - destruct I as [A B D]. split.
    + exact A.
    + intros X r R E. assert (R' : In r (l_rec s ++ [Lrec (the_data c size dst s) 0 0])) by exact R. assert (E' : kf_seq (lr_pkt r) = l_boseq s) by exact E.
      apply in_app_or in R'. destruct R' as [R'|[<-|[]]]; [eauto|]. exfalso. apply (NEW (the_data c size dst s)); [left; auto|]. cbn [lr_pkt] in E'. rewrite E'. auto.
    + intros r R. assert (R' : In r (l_rec s ++ [Lrec (the_data c size dst s) 0 0])) by exact R.
      apply in_app_or in R'. destruct R' as [R'|[<-|[]]]; [auto|]. split; cbn; lia.
  - apply SAME; destruct (l_sde s); reflexivity.
  - assert (X : life_ok o s1 /\ NoDup (map kf_seq (map lr_pkt (l_rec s1)))).
    { destruct H5 as [A|s1 o1 A T].
      - split; [apply SAME; reflexivity|exact N].
      - assert (I0 : life_ok o (lset_state LIdle s)) by (apply SAME; reflexivity).
        pose proof (tcase_life _ _ _ _ _ _ o _ T L1 N (ip_last _ _ J A) I0) as I1. split.
        + destruct I1 as [A1 A2 A3]. split; [exact A1|exact A2|exact A3].
        + destruct (tcase_view _ _ _ _ _ _ _ T) as (_ & E & _). change (NoDup (map kf_seq (map lr_pkt (l_rec s1)))). rewrite E. exact N. }
    destruct X as [I1 N1]. destruct H6 as [B|B|B|r t B S R].
    + apply dec_life; auto.
    + apply (life_sub o s1); auto.
    + apply (life_sub o s1); auto.
    + apply (life_sub o s1); auto.
  - destruct H3 as [B|B|r t B R].
    + apply dec_life; [exact N|exact B|apply SAME; reflexivity].
    + apply SAME; reflexivity.
    + apply SAME; reflexivity.
  - destruct (cts_fields f (l_rec s) (lset_ctsn (wrap16 (l_ctsn s + 1)) (lset_state LIdle s))) as (_&E1&_&_&_&E2&E3&_). apply SAME; [rewrite E2|rewrite E3|rewrite E1]; reflexivity.
  - match goal with |- life_ok o (ltry ?a ?b) => destruct (ltry_fields a b) as (_ & _ & _ & E1 & _ & E2 & E3 & _) end. subst s0. apply SAME; [rewrite E2|rewrite E3|rewrite E1]; reflexivity.
  - match goal with |- life_ok o (ltry ?a ?b) => destruct (ltry_fields a b) as (_ & _ & _ & E1 & _ & E2 & E3 & _) end. subst s0. apply SAME; [rewrite E2|rewrite E3|rewrite E1]; reflexivity.
  - subst s0. apply SAME; reflexivity.
  - subst s0. apply SAME; reflexivity.
  - subst s0. apply SAME; reflexivity.
  - subst s0. eapply tcase_life; [exact H2|auto|exact N| |apply SAME; reflexivity].
    apply nth_error_In in H. pose proof (ip_timers _ _ J _ H) as X. rewrite H1 in X. exact X.
  - subst s0. destruct (ldone_loop ok sq (l_queue s) (l_rec s)) as [[[[[l qq] d] k] em] ub] eqn:D.
    assert (D' : ldone_loop ok sq (l_queue (lset_timers (remove_nth i (l_timers s)) s)) (l_rec (lset_timers (remove_nth i (l_timers s)) s)) = (l, qq, d, k, em, ub)) by (destruct s; exact D).
    destruct (Z.eq_dec k 0) as [->|K].
    + rewrite (l_done_none _ _ _ _ _ _ _ _ D'). cbn [fst snd]. apply SAME; reflexivity.
    + rewrite (l_done_eq _ _ _ _ _ _ _ _ _ D' K). cbn [fst snd]. apply (life_sub o s); auto.
      destruct (ldone_spec ok sq (length (l_rec s)) _ _ _ _ _ _ _ _ (le_n _) D) as (_ & B2 & _). exact B2.
  - subst s0. apply SAME; reflexivity.
Qed.
Lemma new_num c q0 s o s' o' : lacct c q0 s o -> lacct c q0 s' (o ++ o') -> Z.of_nat (length (lacc_of (o ++ o'))) <= 65536 ->
  forall p, In p (lacc_of o') -> ~ numbered o (kf_seq p).
Proof.
  intros A A' L p X [p' [Y1 Y2]].
  assert (Z1 : In p (lacc_of (o ++ o'))) by (rewrite lacc_app; apply in_or_app; auto).
  assert (Z2 : In p' (lacc_of (o ++ o'))) by (rewrite lacc_app; apply in_or_app; auto).
  assert (p' = p) by (eapply lunique; eauto). subst p'.
  pose proof (la_ids _ _ _ _ A') as N. rewrite lacc_app, map_app in N.
  assert (G : forall (a b : list Z) x, NoDup (a ++ b) -> In x a -> In x b -> False).
  { clear. induction a as [|y a IHa]; intros b x N X Y; [contradiction|]. inversion N; subst. destruct X as [->|X]; [apply H1; apply in_or_app; auto|eauto]. }
  eapply G; [exact N| |]; apply in_map; eauto.
Qed.
Lemma life_mono o o' s : life_ok o s -> life_ok (o ++ o') s.
Proof. intros [A B C]. split; auto. intros X. apply numbered_app. auto. Qed.
Lemma life_reach P c q0 h s o : 0 <= q0 < 65536 -> 1 <= lc_rts_retry c <= 16 -> 1 <= lc_data_retry c <= 16 ->
  lreach P c q0 h s o -> Z.of_nat (length (lacc_of o)) <= 65536 -> life_ok o s.
Proof.
  intros U L1 L2 R. induction R as [|h s o e ev R IH V HP]; intros L; [split; cbn; try contradiction; discriminate|].
  pose proof (step_lcase c e s ev V) as C. pose proof (inplay_reach _ _ _ _ _ _ U R) as J. pose proof (lacct_reach _ _ _ _ _ _ U R) as A.
  pose proof (lacct_reach _ _ _ _ _ _ U (LR1 _ _ _ _ _ _ e ev R V HP)) as A'.
  assert (L0 : Z.of_nat (length (lacc_of o)) <= 65536) by (rewrite lacc_app, app_length in L; lia).
  apply life_mono. eapply life_step; eauto; [eapply nodup_rec; eauto|eapply new_num; eauto].
Qed.
