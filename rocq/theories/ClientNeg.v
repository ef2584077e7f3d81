(** Negative delays of the client in 3-way mode: how long the data waits after the CTS. *)
From Coq Require Import ZArith List Lia Bool.
From Verif Require Import Base HeaderModel SeqModel EnergyModel MacModel MacSpec MacAcct MacResp ApModel ClientModel ClientSpec ClientCase ClientAcct ClientInv ClientMore.
Import ListNotations.
Open Scope Z_scope.

Lemma tcase_rx limit life ack sq s s' o : tcase limit life ack sq s s' o -> l_ctsrx s' = l_ctsrx s /\ l_now s' = l_now s.
Proof. intros T. destruct T; dl s; cbn; auto. Qed.
Lemma dec_rx s : l_ctsrx (decrease s) = l_ctsrx s /\ l_now (decrease s) = l_now s.
Proof. unfold decrease. destruct (find1 _ _); auto. destruct (_ =? 0); destruct s; auto. Qed.
Lemma ltry_rx f s : l_ctsrx (ltry f s) = l_ctsrx s /\ l_now (ltry f s) = l_now s.
Proof. unfold ltry. destruct (lcan s), (lready s); destruct s; cbn; auto. Qed.
Lemma cancel_rx u s : l_ctsrx (lcancel u s) = l_ctsrx s /\ l_now (lcancel u s) = l_now s.
Proof. destruct u; destruct s; auto. Qed.
Lemma ltimes_rx n d k : forall s, l_ctsrx (ltimes n (lsched d k) s) = l_ctsrx s /\ l_now (ltimes n (lsched d k) s) = l_now s.
Proof. induction n as [|n IH]; intros s; cbn [ltimes]; auto. destruct (IH (lsched d k s)) as [-> ->]. destruct s; auto. Qed.
Lemma done_rx ok sq s : l_ctsrx (fst (l_done ok sq s)) = l_ctsrx s /\ l_now (fst (l_done ok sq s)) = l_now s.
Proof.
  unfold l_done. destruct (ldone_loop _ _ _ _) as [[[[[l q] d] k] em] ub]. destruct (k =? 0); auto. cbn [fst].
  destruct (ltimes_rx (length d) 0 LKResult (lset_res (negb em) (lset_queue q (lset_rec l s)))) as [X Y].
  remember (ltimes _ _ _) as u. destruct ok; destruct u, s; cbn in *; auto.
Qed.
Lemma cts_rx f l : forall s, let s' := cts_loop f l s in
  l_now s' = l_now s /\ (l_ctsrx s' = l_ctsrx s /\ (forall r, In r l -> kf_seq (lr_pkt r) <> kf_seq f) \/ l_ctsrx s' = l_now s).
Proof.
  induction l as [|r l IH]; intros s; cbn [cts_loop]; cbv zeta; [split; auto; left; split; auto|].
  destruct (Z.eqb_spec (kf_seq (lr_pkt r)) (kf_seq f)) as [E|E].
  - destruct (IH (lsched (kf_dur f * nsec) (LKData (lr_pkt r) (l_mcs (kf_flags f))) (lset_ctsrx (l_now s) (lset_answered true s)))) as [X Y].
    split; [rewrite X; destruct s; auto|]. right. destruct Y as [[Y _]|Y]; rewrite Y; destruct s; auto.
  - destruct (IH s) as [X Y]. split; auto. destruct Y as [[Y Z]|Y]; auto. left. split; auto. intros x [<-|I]; auto.
Qed.

(** What a step does to the clock and to the time of the last CTS. *)
Lemma step_rx c e s ev s' o : lcase c e s ev s' o ->
  (l_now s' = l_now s \/ ev = LETick (l_now s')) /\ (l_ctsrx s' = l_ctsrx s \/ l_ctsrx s' = l_now s /\ l_now s' = l_now s).
Proof.
  intros C. destruct C; try (dl s; cbn; auto; fail).
  - destruct (cancel_rx (l_sde s) s) as [X Y]. remember (lcancel _ _) as u. destruct u; cbn in *. auto.
  - assert (X : l_ctsrx s1 = l_ctsrx s /\ l_now s1 = l_now s).
    { destruct H5 as [A|s1 o1 A T]; [destruct s; auto|]. destruct (tcase_rx _ _ _ _ _ _ _ T) as [X Y]. destruct s1, s; cbn in *. auto. }
    destruct X as [X Y]. destruct H6; try (rewrite <- X, <- Y; destruct s1; cbn; auto; fail).
    destruct (dec_rx s1) as [Z W]. rewrite Z, W, X, Y. auto.
  - destruct H3 as [B|B R|r t B R]; try (destruct s; cbn; auto; fail).
    destruct (dec_rx (lset_state LIdle s)) as [Z W]. rewrite Z, W. destruct s; auto.
  - destruct (cts_rx f (l_rec s) (lset_ctsn (wrap16 (l_ctsn s + 1)) (lset_state LIdle s))) as [X Y].
    rewrite X. destruct Y as [[Y _]|Y]; rewrite Y; destruct s; auto.
  - subst s0. destruct (ltry_rx f (lset_timers (remove_nth i (l_timers s)) s)) as [-> ->]. destruct s; auto.
  - subst s0. destruct (ltry_rx (the_rts c p s) (lset_ids (l_ids s + 1) (lset_timers (remove_nth i (l_timers s)) s))) as [-> ->]. destruct s; auto.
  - subst s0. dl s; cbn; auto.
  - subst s0. dl s; cbn; auto.
  - subst s0. dl s; cbn; auto.
  - subst s0. destruct (tcase_rx _ _ _ _ _ _ _ H2) as [-> ->]. dl s; cbn; auto.
  - subst s0. destruct (done_rx ok sq (lset_timers (remove_nth i (l_timers s)) s)) as [-> ->]. destruct s; auto.
  - subst s0. dl s; cbn; auto.
Qed.

(** New data events in 3-way mode. *)
Lemma tcase_data limit life ack sq s s' o : tcase limit life ack sq s s' o -> forall t p m, In t (l_timers s') -> lt_kind t = LKData p m -> In t (l_timers s).
Proof.
  intros T t p m I K. destruct T; try (destruct s; exact I).
  assert (X : In t (l_timers s ++ [Ltimer (l_uid s) (l_now s + psec) (LKDone false sq)])) by (destruct s; exact I).
  apply in_app_or in X. destruct X as [X|[<-|[]]]; auto. discriminate K.
Qed.
Lemma ltimes_data n : forall s t, In t (l_timers (ltimes n (lsched 0 LKResult) s)) -> In t (l_timers s) \/ lt_kind t = LKResult.
Proof.
  induction n as [|n IH]; intros s t I; cbn [ltimes] in I; auto. destruct (IH _ _ I) as [X|X]; auto.
  assert (Y : In t (l_timers s ++ [Ltimer (l_uid s) (l_now s + 0) LKResult])) by (destruct s; exact X).
  apply in_app_or in Y. destruct Y as [Y|[<-|[]]]; auto.
Qed.
Lemma step_data c e s ev s' o : lc_ways c = 3 -> lcase c e s ev s' o -> forall t p m, In t (l_timers s') -> lt_kind t = LKData p m ->
  In t (l_timers s) \/ exists f, ev = LERxEnd f true /\ kf_type f = T_CTS /\ kf_dst f = lc_addr c /\ kf_seq f = kf_seq p /\
    lt_due t = l_now s + kf_dur f * nsec /\ l_ctsrx s' = l_now s.
Proof.
  assert (AP : forall (l : list ltimer) u d k t, In t (l ++ [Ltimer u d k]) -> (forall p m, k <> LKData p m) -> forall p m, lt_kind t = LKData p m -> In t l).
  { intros l u d k t I N p m K. apply in_app_or in I. destruct I as [I|[<-|[]]]; auto. cbn in K. exfalso. eapply N; eauto. }
  intros W C t p m I K. destruct C; try (left; destruct s; exact I); try (left; subst s0; apply (remove_nth_in _ i); destruct s; exact I).
  - left. destruct (l_sde s) as [u|] eqn:E; [|destruct s; exact I].
    assert (X : In t (filter (fun x => negb (lt_id x =? u)) (l_timers s))) by (destruct s; exact I). apply filter_In in X. tauto.
  - left. refine (AP (l_timers s) (l_uid s) (l_now s + boslots c e) (LKDummy (the_dummy c e f s)) t _ _ p m K); [destruct s; exact I|discriminate].
  - left. assert (X : In t (l_timers s1)).
    { destruct H6.
      - rewrite dec_timers in I. auto.
      - destruct s1; exact I.
      - destruct s1; exact I.
      - refine (AP (l_timers s1) (l_uid s1) (l_now s1 + boslots c e) (LKRts (lr_pkt r)) t _ _ p m K); [destruct s1; exact I|discriminate]. }
    destruct H5 as [A|s1 o1 A T]; [destruct s; exact X|].
    assert (Y : In t (l_timers (lset_state LIdle s))) by (eapply tcase_data; eauto; destruct s1; exact X). destruct s; exact Y.
  - congruence.
  - rewrite cts_timers in I. apply in_app_or in I. destruct I as [I|I]; [left; destruct s; exact I|right].
    destruct (cts_in _ _ _ _ _ I) as (r & R1 & R2 & R3 & R4). rewrite R3 in K. injection K as <- <-. exists f. symmetry in R2. repeat split; auto.
    destruct (cts_rx f (l_rec s) (lset_ctsn (wrap16 (l_ctsn s + 1)) (lset_state LIdle s))) as [_ [[_ X]|X]].
      * exfalso. apply (X r); auto.
      * rewrite X. destruct s; reflexivity.
  - left. assert (X : In t (filter (fun x => negb (lt_id x =? u)) (l_timers s))).
    { refine (AP _ (l_uid s) (l_now s + psec) (LKDone true (kf_seq f)) t _ _ p m K); [destruct s; exact I|discriminate]. }
    apply filter_In in X. tauto.
  - left. subst s0. rewrite ltry_timers in I. apply (remove_nth_in _ i). destruct s; exact I.
  - left. subst s0. rewrite ltry_timers in I. apply (remove_nth_in _ i). destruct s; exact I.
  - left. subst s0. apply (remove_nth_in _ i).
    refine (AP _ (l_uid s) (l_now s + ack_wait c s) (LKAck (kf_seq p0)) t _ _ p m K); [destruct s; exact I|discriminate].
  - left. subst s0. apply (remove_nth_in _ i). pose proof (tcase_data _ _ _ _ _ _ _ H2 _ _ _ I K) as X. destruct s; exact X.
  - left. subst s0. apply (remove_nth_in _ i). revert I. unfold l_done. destruct (ldone_loop _ _ _ _) as [[[[[l q] d] k] em] ub].
    destruct (k =? 0); [intros I; destruct s; exact I|]. cbn [fst]. intros I.
    assert (X : In t (l_timers (ltimes (length d) (lsched 0 LKResult) (lset_res (negb em) (lset_queue q (lset_rec l (lset_timers (remove_nth i (l_timers s)) s))))))).
    { remember (ltimes _ _ _) as u. destruct ok, u; exact I. }
    destruct (ltimes_data _ _ _ X) as [Y|Y]; [destruct s; exact Y|congruence].
Qed.

(** A pending data event of a client in 3-way mode: some CTS for its packet was heard, not after m_timeCTSrx. *)
Definition waits (c : lcfg) (h : list (lenv * levent)) (s : lst) : Prop :=
  l_ctsrx s <= l_now s /\
  forall t p m, In t (l_timers s) -> lt_kind t = LKData p m ->
    exists e f, In (e, LERxEnd f true) h /\ kf_type f = T_CTS /\ kf_dst f = lc_addr c /\ kf_seq f = kf_seq p /\
      lt_due t <= l_ctsrx s + kf_dur f * nsec.

Lemma waits_reach c q0 h s o : lc_ways c = 3 -> lreach ontime c q0 h s o -> waits c h s.
Proof.
  intros W R. induction R as [|h s o e ev R [IH1 IH2] V HP]; [split; [cbn; lia|cbn; contradiction]|].
  pose proof (step_lcase c e s ev V) as C.
  assert (M : l_now s <= l_now (fst (lstep c e s ev))).
  { destruct (step_rx _ _ _ _ _ _ C) as [[->|E] _]; [lia|].
    rewrite E in HP. unfold ontime, ltimely in HP. apply andb_true_iff in HP. destruct HP as [HP _]. apply Z.leb_le in HP. auto. }
  destruct (step_rx _ _ _ _ _ _ C) as [_ CR].
  assert (G : l_ctsrx s <= l_ctsrx (fst (lstep c e s ev))) by (destruct CR as [->|[-> _]]; lia).
  split; [destruct CR as [->|[-> ->]]; lia|].
  intros t p m I K. destruct (step_data _ _ _ _ _ _ W C t p m I K) as [X|(f & -> & X1 & X2 & X3 & X4 & X5)].
  - destruct (IH2 t p m X K) as (e1 & f & A1 & A2 & A3 & A4 & A5).
    exists e1, f. repeat split; auto; [apply in_or_app; auto|lia].
  - exists e, f. split; [apply in_or_app; right; left; reflexivity|]. repeat split; auto. rewrite X5. lia.
Qed.

(** In 3-way mode only the timeout for an acknowledgement can be negative. *)
Lemma step_neg3 c e s ev s' o : lc_ways c = 3 -> lcase c e s ev s' o -> In LNeg o ->
  exists i t p m, ev = LETimer i /\ nth_error (l_timers s) i = Some t /\ lt_kind t = LKData p m /\ ack_wait c s < 0.
Proof.
  intros W C I. pose proof (step_neg _ _ _ _ _ _ C I) as X. destruct C; try (cbn in I; contradiction); try congruence;
    try (exists i, t, p, m; repeat split; auto; destruct X as [[X _]|X]; [congruence|exact X]; fail); exfalso; revert I.
  - cbn. intuition discriminate.
  - cbn. intuition discriminate.
  - intros I. apply in_app_or in I. destruct I as [I|I].
    + destruct H5 as [A|s1 o1 A T]; [contradiction|]. destruct T; cbn in I; destruct I as [I|I]; try discriminate; try contradiction.
      destruct (_ >=? 32); [destruct I as [I|[]]; discriminate|contradiction].
    + destruct H6; cbn in I; intuition discriminate.
  - unfold lsnt. destruct (lcan s0); cbn; intuition discriminate.
  - unfold lsnt. destruct (lcan s0); cbn; intuition discriminate.
  - destruct H2; cbn; try (intuition discriminate). intros [I|I]; [discriminate|]. destruct (_ >=? 32); [destruct I as [I|[]]; discriminate|contradiction].
  - unfold l_done. destruct (ldone_loop _ _ _ _) as [[[[[l qq] d] k] em] ub]. destruct (k =? 0); [auto|]. cbn [snd].
    intros I. apply in_app_or in I. destruct I as [I|I]; [apply in_map_iff in I; destruct I as [? [I _]]; discriminate I|]. destruct ub; [destruct I as [I|[]]; discriminate I|contradiction].
  - destruct (l_res s); cbn; intuition discriminate.
Qed.
