(** Counts of the frames of a client, and times of DATA. *)
From Coq Require Import ZArith List Lia Bool Permutation.
From Verif Require Import Base HeaderModel SeqModel EnergyModel MacModel MacSpec MacAcct MacResp ApModel ClientModel ClientSpec ClientCase ClientAcct ClientInv ClientFifo ClientOrder.
Import ListNotations.
Open Scope Z_scope.

Definition pend_l (P : lkind -> bool) (l : list ltimer) : nat := count (fun t => P (lt_kind t)) l.
Lemma pend_l_app P a b : pend_l P (a ++ b) = (pend_l P a + pend_l P b)%nat.
Proof. apply count_app. Qed.
Lemma kept_count P s ev K : lkept s ev K -> (pend_l P K <= pend_l P (l_timers s))%nat.
Proof.
  unfold pend_l. destruct ev; cbn; try (intros [->|[u ->]]; [lia|apply count_filter]).
  intros [[x [E ->]]|[_ ->]]; auto. pose proof (count_remove (fun t => P (lt_kind t)) i _ _ E). cbv beta in H. destruct (P (lt_kind x)); lia.
Qed.
Lemma kept_fire P s i K t : lkept s (LETimer i) K -> nth_error (l_timers s) i = Some t -> P (lt_kind t) = true ->
  (pend_l P K + 1 = pend_l P (l_timers s))%nat.
Proof.
  intros [[x [E ->]]|[E _]] N T; [|congruence]. assert (x = t) by congruence. subst x.
  pose proof (count_remove (fun t => P (lt_kind t)) i _ _ N). cbn in H. rewrite T in H. unfold pend_l. lia.
Qed.

(** A step transmits at most one frame. *)
Lemma snd_one c e s ev s' o : lcase c e s ev s' o -> lsnd_of o = [] \/ exists f m, lsnd_of o = [f] /\ In (LSnd f m) o.
Proof.
  assert (TN : forall limit life ack sq a b y, tcase limit life ack sq a b y -> lsnd_of y = []).
  { intros limit life ack sq a b y T. destruct T; cbn; auto. destruct (_ >=? 32); auto. }
  intros C. destruct C; auto.
  - left. rewrite lsnd_app. assert (X : lsnd_of o1 = []) by (destruct H5 as [A|s1 o1 A T]; [auto|eauto]). rewrite X. destruct H6; auto.
  - left. destruct H3; auto. destruct (_ <? 0); auto.
  - unfold lsnt. destruct (lcan s0); auto. right. exists f, 0. split; auto. left; auto.
  - unfold lsnt. destruct (lcan s0); auto. right. eexists _, 0. split; [reflexivity|]. left; auto.
  - right. exists p, m. split; [cbn; destruct (_ <? 0); auto|left; auto].
  - left. eauto.
  - left. subst s0. destruct (ldone_loop ok sq (l_queue s) (l_rec s)) as [[[[[l q] d] k] em] ub] eqn:D.
    assert (D' : ldone_loop ok sq (l_queue (lset_timers (remove_nth i (l_timers s)) s)) (l_rec (lset_timers (remove_nth i (l_timers s)) s)) = (l, q, d, k, em, ub)) by (destruct s; exact D).
    destruct (Z.eq_dec k 0) as [->|K].
    + rewrite (l_done_none _ _ _ _ _ _ _ _ D'). auto.
    + rewrite (l_done_eq _ _ _ _ _ _ _ _ _ D' K). cbn [snd]. rewrite lsnd_app. assert (Y : lsnd_of (if ub then [LUb] else []) = []) by (destruct ub; auto). rewrite Y, app_nil_r. clear. induction d; auto.
  - left. destruct (l_res s); auto.
Qed.

Lemma lcount_app P a b : lcount P (a ++ b) = (lcount P a + lcount P b)%nat.
Proof. unfold lcount. rewrite filter_app, app_length. auto. Qed.

(** ** RTS and dummy RTS *)
Definition is_rts (fl : Z) (f : kframe) : bool := (kf_type f =? T_RTS) && (kf_flags f =? fl).
Definition is_cta (dummy : bool) (f : kframe) : bool := (kf_type f =? T_CTA) && eqb dummy (kf_flags f =? 1).
Definition rts_kind (k : lkind) : bool := match k with LKRts _ => true | _ => false end.
Definition dummy_kind (k : lkind) : bool := match k with LKDummy _ => true | _ => false end.

Lemma new_rts c e s ev o N : lnew c e s ev o N -> (pend_l rts_kind N <= lcount (is_cta false) (lrcv_of [(e, ev)]))%nat.
Proof.
  intros W. destruct W; try (cbn; lia).
  - rewrite pend_l_app. assert (X : pend_l rts_kind N1 = 0%nat) by (destruct H3 as [->|(u & r & -> & _)]; auto). rewrite X.
    assert (Y : lcount (is_cta false) (lrcv_of [(e, LERxEnd f true)]) = 1%nat).
    { unfold lcount, is_cta. cbn. rewrite H0. destruct (Z.eqb_spec (kf_flags f) 1); [contradiction|]. auto. }
    rewrite Y. destruct H4 as [->|(u & r & t & -> & _)]; cbn; lia.
  - assert (X : pend_l rts_kind (cts_new f (l_now s) u (l_rec s)) = 0%nat).
    { apply count_zero. intros t T. apply cts_in in T. destruct T as [r [_ [_ [-> _]]]]. auto. }
    lia.
  - assert (X : pend_l rts_kind N = 0%nat) by (apply count_zero; intros x X; rewrite H1; auto). lia.
Qed.
Lemma new_dummy c e s ev o N : lnew c e s ev o N -> (pend_l dummy_kind N <= lcount (is_cta true) (lrcv_of [(e, ev)]))%nat.
Proof.
  intros W. destruct W; try (cbn; lia).
  - unfold lcount, is_cta. cbn. rewrite H0, H1. cbn. lia.
  - rewrite pend_l_app. assert (X : pend_l dummy_kind N1 = 0%nat) by (destruct H3 as [->|(u & r & -> & _)]; auto). rewrite X.
    destruct H4 as [->|(u & r & t & -> & _)]; cbn; lia.
  - assert (X : pend_l dummy_kind (cts_new f (l_now s) u (l_rec s)) = 0%nat).
    { apply count_zero. intros t T. apply cts_in in T. destruct T as [r [_ [_ [-> _]]]]. auto. }
    lia.
  - assert (X : pend_l dummy_kind N = 0%nat) by (apply count_zero; intros x X; rewrite H1; auto). lia.
Qed.

Lemma rts_reach P c q0 h s o : 0 <= q0 < 65536 -> lreach P c q0 h s o ->
  (lcount (is_rts 0) (lsnd_of o) + pend_l rts_kind (l_timers s) <= lcount (is_cta false) (lrcv_of h))%nat /\
  (lcount (is_rts 1) (lsnd_of o) + pend_l dummy_kind (l_timers s) <= lcount (is_cta true) (lrcv_of h))%nat.
Proof.
  intros U R. induction R as [|h s o e ev R [IH1 IH2] V HP]; [cbn; lia|].
  pose proof (step_lcase c e s ev V) as C. pose proof (pkts_reach _ _ _ _ _ _ U R) as (J1 & J2 & J3). pose proof (lacct_reach _ _ _ _ _ _ U R) as A.
  set (s' := fst (lstep c e s ev)) in *. set (o' := snd (lstep c e s ev)) in *. clearbody s' o'.
  destruct (step_track _ _ _ _ _ _ C) as (K & N & E & KP & NW). rewrite E, lsnd_app, lrcv_app, !pend_l_app, !lcount_app.
  pose proof (new_rts _ _ _ _ _ _ NW) as N1. pose proof (new_dummy _ _ _ _ _ _ NW) as N2.
  pose proof (kept_count rts_kind _ _ _ KP) as K1. pose proof (kept_count dummy_kind _ _ _ KP) as K2.
  destruct (snd_one _ _ _ _ _ _ C) as [S|(f & m & S & I)]; rewrite S.
  { assert (Y : forall Q, lcount Q [] = 0%nat) by reflexivity. rewrite !Y. lia. }
  destruct (step_snd _ _ _ _ _ _ _ _ C I) as (i & t & E1 & E2 & _ & _ & [[KK _]|[[p [KK [KK2 _]]]|[KK KK2]]]); pose proof (nth_error_In _ _ E2) as T; subst ev.
  - destruct (J3 _ _ T KK) as [X1 X2]. pose proof (kept_fire dummy_kind _ _ _ _ KP E2 ltac:(rewrite KK; auto)).
    assert (Y : lcount (is_rts 0) [f] = 0%nat /\ lcount (is_rts 1) [f] = 1%nat) by (unfold lcount, is_rts; cbn; rewrite X1, X2; auto). destruct Y as [-> ->]. lia.
  - pose proof (kept_fire rts_kind _ _ _ _ KP E2 ltac:(rewrite KK; auto)). subst f.
    assert (Y : lcount (is_rts 0) [the_rts c p s] = 1%nat /\ lcount (is_rts 1) [the_rts c p s] = 0%nat) by (split; reflexivity). destruct Y as [-> ->]. lia.
  - pose proof (la_form _ _ _ _ A _ (J2 _ _ _ T KK)) as [X _].
    assert (Y : lcount (is_rts 0) [f] = 0%nat /\ lcount (is_rts 1) [f] = 0%nat) by (unfold lcount, is_rts; cbn; rewrite X; auto). destruct Y as [-> ->]. lia.
Qed.

(** ** DATA *)
Definition is_data (q : Z) (f : kframe) : bool := (kf_type f =? T_DATA) && (kf_seq f =? q).
Definition is_cts (a : addr) (q : Z) (f : kframe) : bool := (kf_type f =? T_CTS) && (kf_dst f =? a) && (kf_seq f =? q).
Definition data_kind (q : Z) (k : lkind) : bool := match k with LKData p _ => kf_seq p =? q | _ => false end.
Definition cta1_count (c : lcfg) (h : list (lenv * levent)) : nat :=
  if lc_ways c =? 1 then lcount (fun f => kf_type f =? T_CTA) (lrcv_of h) else 0%nat.

Lemma new_cts_count f l q : forall now u, NoDup (map kf_seq (map lr_pkt l)) -> (pend_l (data_kind q) (cts_new f now u l) <= if Z.eqb (kf_seq f) q then 1 else 0)%nat.
Proof.
  induction l as [|r l IH]; intros now u N; cbn [cts_new map] in *; [cbn; destruct (_ =? _); lia|]. inversion N; subst.
  destruct (Z.eqb_spec (kf_seq (lr_pkt r)) (kf_seq f)) as [E|E]; [|apply IH; auto].
  assert (X : pend_l (data_kind q) (cts_new f now (u + 1) l) = 0%nat).
  { apply count_zero. intros t T. apply cts_in in T. destruct T as [x [X1 [X2 _]]]. exfalso. apply H1. rewrite E, <- X2. apply in_map, in_map. auto. }
  unfold pend_l, count in *. cbn [filter lt_kind data_kind]. rewrite E. destruct (Z.eqb_spec (kf_seq f) q) as [E2|E2]; cbn [length]; lia.
Qed.
Lemma new_data c e s ev o N q : lnew c e s ev o N -> NoDup (map kf_seq (map lr_pkt (l_rec s))) ->
  (pend_l (data_kind q) N <= lcount (is_cts (lc_addr c) q) (lrcv_of [(e, ev)]) + cta1_count c [(e, ev)])%nat.
Proof.
  intros W D. destruct W; try (cbn; lia).
  - rewrite pend_l_app. assert (X : pend_l (data_kind q) N1 = 0%nat) by (destruct H3 as [->|(u & r & -> & _)]; auto). rewrite X.
    destruct H4 as [->|(u & r & t & -> & _)]; cbn; lia.
  - unfold cta1_count, lcount. rewrite H. cbn. rewrite H0. cbn. destruct (_ =? _); cbn; lia.
  - pose proof (new_cts_count f (l_rec s) q (l_now s) u D) as X.
    assert (Y : lcount (is_cts (lc_addr c) q) (lrcv_of [(e, LERxEnd f true)]) = if kf_seq f =? q then 1%nat else 0%nat).
    { unfold lcount, is_cts. cbn [lrcv_of flat_map snd app filter]. rewrite H, H0, !Z.eqb_refl. cbn [andb]. destruct (kf_seq f =? q) eqn:ZZ; reflexivity. }
    rewrite Y. lia.
  - assert (X : pend_l (data_kind q) N = 0%nat) by (apply count_zero; intros x X; rewrite H1; auto). lia.
Qed.
Lemma cta1_app c a b : cta1_count c (a ++ b) = (cta1_count c a + cta1_count c b)%nat.
Proof. unfold cta1_count. destruct (_ =? 1); auto. rewrite lrcv_app, lcount_app. auto. Qed.

Lemma data_reach P c q0 h s o q : 0 <= q0 < 65536 -> lreach P c q0 h s o -> Z.of_nat (length (lacc_of o)) <= 65536 ->
  (lcount (is_data q) (lsnd_of o) + pend_l (data_kind q) (l_timers s) <= lcount (is_cts (lc_addr c) q) (lrcv_of h) + cta1_count c h)%nat.
Proof.
  intros U R. induction R as [|h s o e ev R IH V HP]; intros L; [cbn; lia|].
  pose proof (step_lcase c e s ev V) as C. pose proof (pkts_reach _ _ _ _ _ _ U R) as (J1 & J2 & J3). pose proof (lacct_reach _ _ _ _ _ _ U R) as A.
  set (s' := fst (lstep c e s ev)) in *. set (o' := snd (lstep c e s ev)) in *. clearbody s' o'.
  assert (L0 : Z.of_nat (length (lacc_of o)) <= 65536) by (rewrite lacc_app, app_length in L; lia). specialize (IH L0).
  destruct (step_track _ _ _ _ _ _ C) as (K & N & E & KP & NW). rewrite E, lsnd_app, lrcv_app, !pend_l_app, !lcount_app, cta1_app.
  pose proof (new_data _ _ _ _ _ _ q NW (nodup_rec _ _ _ _ A L0)) as N1.
  pose proof (kept_count (data_kind q) _ _ _ KP) as K1.
  destruct (snd_one _ _ _ _ _ _ C) as [S|(f & m & S & I)]; rewrite S.
  { assert (Y : forall Q, lcount Q [] = 0%nat) by reflexivity. rewrite !Y. lia. }
  destruct (step_snd _ _ _ _ _ _ _ _ C I) as (i & t & E1 & E2 & _ & _ & [[KK _]|[[p [KK [KK2 _]]]|[KK KK2]]]); pose proof (nth_error_In _ _ E2) as T; subst ev.
  - destruct (J3 _ _ T KK) as [X1 X2].
    assert (Y : lcount (is_data q) [f] = 0%nat) by (unfold lcount, is_data; cbn; rewrite X1; auto). rewrite Y. lia.
  - subst f. assert (Y : lcount (is_data q) [the_rts c p s] = 0%nat) by reflexivity. rewrite Y. lia.
  - pose proof (la_form _ _ _ _ A _ (J2 _ _ _ T KK)) as [X _].
    destruct (Z.eqb_spec (kf_seq f) q) as [Q|Q].
    + pose proof (kept_fire (data_kind q) _ _ _ _ KP E2 ltac:(rewrite KK; cbn; apply Z.eqb_eq; auto)).
      assert (Y : lcount (is_data q) [f] = 1%nat) by (unfold lcount, is_data; cbn; rewrite X, Q, !Z.eqb_refl; auto). rewrite Y. lia.
    + assert (Y : lcount (is_data q) [f] = 0%nat) by (unfold lcount, is_data; cbn; rewrite X; apply Z.eqb_neq in Q; rewrite Q; auto). rewrite Y. lia.
Qed.

(** ** The time of DATA (3-way) *)
(** A CTS for this client and the number of [p] was received at a time from which it is its duration until [t], and asks for MCS [m]. *)
Definition granted (c : lcfg) (q0 : Z) (h : list (lenv * levent)) (p : kframe) (m t : Z) : Prop :=
  exists h1 e f h2, h = h1 ++ (e, LERxEnd f true) :: h2 /\ kf_type f = T_CTS /\ kf_dst f = lc_addr c /\ kf_seq f = kf_seq p /\ m = l_mcs (kf_flags f) /\
    t = l_now (fst (lrun c (linit q0) h1)) + kf_dur f * nsec.
Lemma granted_snoc c q0 h x p m t : granted c q0 h p m t -> granted c q0 (h ++ [x]) p m t.
Proof. intros (h1 & e & f & h2 & E & F). exists h1, e, f, (h2 ++ [x]). rewrite E, <- app_assoc. auto. Qed.
Lemma time_reach P c q0 h s o : lc_ways c <> 1 -> lreach P c q0 h s o ->
  forall t p m, In t (l_timers s) -> lt_kind t = LKData p m -> granted c q0 h p m (lt_due t).
Proof.
  intros W R. induction R as [|h s o e ev R IH V HP]; [contradiction|].
  pose proof (step_lcase c e s ev V) as C. set (s' := fst (lstep c e s ev)) in *. set (o' := snd (lstep c e s ev)) in *. clearbody s' o'.
  intros t p m T KK. destruct (step_track _ _ _ _ _ _ C) as (K & N & E & KP & NW). rewrite E in T. apply in_app_or in T.
  destruct T as [T|T]; [apply granted_snoc; eapply IH; eauto; eapply kept_in; eauto|].
  inversion NW; subst; cbn in T.
  + contradiction.
  + destruct T as [<-|[]]. discriminate.
  + apply in_app_or in T. destruct T as [T|T].
    * destruct H3 as [->|(u & r & -> & _)]; [contradiction|]. destruct T as [<-|[]]. discriminate.
    * destruct H4 as [->|(u & r & y & -> & A1 & _)]; [contradiction|]. destruct T as [<-|[]]. discriminate.
  + contradiction.
  + apply cts_in in T. destruct T as [r [R1 [R2 [R3 R4]]]]. rewrite R3 in KK. injection KK as <- <-.
    exists h, e, f, []. rewrite (lreach_run _ _ _ _ _ _ R). cbn [fst]. repeat split; auto.
  + destruct T as [<-|[]]. discriminate.
  + destruct T as [<-|[]]. discriminate.
  + destruct T as [<-|[]]. discriminate.
  + rewrite (H1 _ T) in KK. discriminate.
Qed.
