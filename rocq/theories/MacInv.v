(** Invariants of the macro MAC: where its pending events, transmissions and reports come from. *)
From Coq Require Import ZArith List Lia Bool Permutation.
From Verif Require Import Base HeaderModel SeqModel SeqProofs EnergyModel MacModel MacSpec MacProofs MacAcct MacSteps.
Import ListNotations.
Open Scope Z_scope.

(** ** New pending events *)
Inductive newkind (c : mcfg) (s : mst) (ev : mevent) (o : list mout) : mkind -> Prop :=
| NKcca : newkind c s ev o MKCca
| NKbo : newkind c s ev o MKBo
| NKgrant : newkind c s ev o MKGrant
| NKresult : newkind c s ev o MKResult
| NKrot i t : ev = ETimer i -> nth_error (m_timers s) i = Some t -> mt_kind t = MKRot -> newkind c s ev o MKRot
| NKcts p q : m_queue s = p :: q -> mf_dst p <> bcast -> newkind c s ev o (MKCts (mf_seq p))
| NKack p : In (OSnd p) o -> mf_dst p <> bcast -> In p (m_queue s) \/ (exists t, In t (m_timers s) /\ mt_kind t = MKSendData p) ->
    newkind c s ev o (MKAck (mf_seq p))
| NKsendcts f : ev = ERxEnd f true -> mf_type f = T_RTS -> mf_dst f = mc_addr c -> newkind c s ev o (MKSendCts (mf_src f) (mf_dur f) (mf_seq f))
| NKsendack f : ev = ERxEnd f true -> m_air s = None -> mf_type f = T_DATA -> mf_dst f = mc_addr c -> mf_dst f <> bcast -> newkind c s ev o (MKSendAck (mf_src f) (mf_seq f))
| NKsenddata f p u : ev = ERxEnd f true -> mf_type f = T_CTS -> mf_dst f = mc_addr c -> In (mf_seq f, u) (m_cts s) ->
    scan (mf_seq f) (m_data s) (m_rec s) = Some p -> newkind c s ev o (MKSendData p)
| NKdone f u : ev = ERxEnd f true -> mf_type f = T_ACK -> mf_dst f = mc_addr c -> In (mf_seq f, u) (m_ack s) -> newkind c s ev o (MKDone true (mf_seq f))
| NKdrop r : In (OTmo (mf_seq (mr_pkt r))) o -> In r (m_rec s) -> 5 <= wrap16 (mr_retry r + 1) -> newkind c s ev o (MKDone false (mf_seq (mr_pkt r))).

Lemma idle_new c s ev o k : idle_kind k -> newkind c s ev o k.
Proof. intros [->| ->]; constructor. Qed.

Lemma in_remove {A} i : forall (l : list A) x, In x (remove_nth i l) -> In x l.
Proof. induction i as [|i IH]; intros [|y l] x; cbn; auto. intros [->|H]; auto. Qed.
Lemma nth_in {A} i (l : list A) x : nth_error l i = Some x -> In x l.
Proof. apply nth_error_In. Qed.

Lemma find_fst q (l : list (Z * Z)) a u : find (fun x => fst x =? q) l = Some (a, u) -> a = q /\ In (q, u) l.
Proof. intros F. apply find_some in F. destruct F as [F1 F2]. cbn in F2. apply Z.eqb_eq in F2. subst. auto. Qed.

(** Uniform description of the effect of a step on the timers: at most removals, then additions. *)
Lemma tail_timers s s' t : tail s s' -> In t (m_timers s') -> In t (m_timers s) \/ (idle_kind (mt_kind t) /\ m_uid s <= mt_id t < m_uid s').
Proof.
  intros [_ [_ [_ [_ [_ [_ [_ [_ [[l [L1 L2]] _]]]]]]]]] T. rewrite L1 in T. apply in_app_or in T. destruct T as [T|T]; auto.
  right. rewrite Forall_forall in L2. apply L2; auto.
Qed.
Lemma tail_uid s s' : tail s s' -> m_uid s <= m_uid s'.
Proof. intros [H _]. apply H. Qed.

Ltac scd C := destruct C as
    [size dst junk L|size dst junk L|t0|ev N1 N2 N3 N4 N5 N6|f s' o A NB [TL HU]|f s1 s' o A D B ST TX E1 [TL HU]|s1 s' o A TB [TL HU] _ _|f ok s' o A [TL HU] IGN
    |f s1 o A TY D [TL HU] NV|f s' o A TY D [TL HU] F|f q u p s1 o A TY D [TL HU] F SC|f q u s1 o A TY D [TL HU] F SC
    |f s1 s' o1 o2 A TY D E1 E2 [TL HU]|f s1 s2 o1 A TY D NB [TL HU] E2|f q u A TY D F
    |i x s0 [FN ->] K|i x s0 [FN ->] K|i x s0 [FN ->] K Q|i x s0 p q s' o [FN ->] K Q [TL HU] A _|i x s0 p q f s1 o [FN ->] K Q A B RT FE [TL HU]|i x s0 p q s' o [FN ->] K Q A B [TL HU]
    |i x s0 p s1 o [FN ->] Q A B K [TL HU]|i x s0 p s' o [FN ->] K Q A B [TL HU]|i x s0 p [FN ->] K Q|i x s0 p s' o [FN ->] K Q [TL HU] _
    |i x s0 s1 sq [FN ->] K|i x s0 f s' o [FN ->] A K SR ID [TL HU]|i x s0 f s' o dst sq [FN ->] A SL K TY D SQ SR ID [TL HU]|i x s0 s' o [FN ->] K [TL HU]
    |i x s0 ok sq [FN ->] K|i x s0 [FN ->] K|i x s0 [FN ->] K].

Lemma timer_new c e s ev s' o t : scase c e s ev s' o -> In t (m_timers s') ->
  In t (m_timers s) \/ (newkind c s ev o (mt_kind t) /\ m_uid s <= mt_id t < m_uid s').
Proof.
  intros C T. scd C; cbn [fst] in *; auto.
  - destruct (enq_spec c size dst junk s L) as [_ [_ [_ [_ [_ [_ [_ [_ [_ [_ [_ [U [_ [_ [_ [_ [_ [_ [_ [_ TM]]]]]]]]]]]]]]]]]]]].
    rewrite TM in T. apply in_app_or in T. destruct T as [T|[<-|[]]].
    + left. destruct (m_rot s); auto. apply filter_In in T. apply T.
    + right. split; [constructor|]. cbn [mt_id]. lia.
  - destruct (tail_timers _ _ _ TL T) as [H|[H1 H2]]; auto using idle_new.
  - destruct (tail_timers _ _ _ TL T) as [H|[H1 H2]].
    + destruct (sdd_spec true (mf_seq f) (set_state MIdle (set_air None s))) as [l [q [d [k [em [ub D']]]]]]. rewrite <- E1 in D'.
      destruct D' as [_ [_ [_ [_ [_ [_ [_ [_ [_ [_ [_ [_ [_ [_ [_ [_ [_ [_ [_ [_ [_ [TM _]]]]]]]]]]]]]]]]]]]]]].
      destruct (TM t H) as [X|[X1 X2]]; auto. right. rewrite X1. split; [constructor|]. apply tail_uid in TL. revert X2. ss. lia.
    + right. split; [auto using idle_new|]. destruct (sdd_spec true (mf_seq f) (set_state MIdle (set_air None s))) as [l [q [d [k [em [ub D']]]]]]. rewrite <- E1 in D'.
      destruct D' as [_ [_ [_ [_ [_ [_ [_ [_ [_ [_ [_ [U _]]]]]]]]]]]]. revert U. ss. lia.
  - destruct (tail_timers _ _ _ TL T) as [H|[H1 H2]].
    + destruct TB as [TB|[u [_ [_ TB]]]]; destruct (tail_timers _ _ _ TB H) as [Y|[Y1 Y2]]; auto; try (right; split; auto using idle_new; apply tail_uid in TL; revert Y2; ss; lia).
      left. revert Y. ss. intros Y. apply filter_In in Y. apply Y.
    + right. split; auto using idle_new. destruct TB as [TB|[u [_ [_ TB]]]]; apply tail_uid in TB; revert TB; ss; lia.
  - destruct (tail_timers _ _ _ TL T) as [H|[H1 H2]]; auto using idle_new.
  - revert T. ss. intros T. apply in_app_or in T. destruct T as [T|[<-|[]]].
    + destruct (tail_timers _ _ _ TL T) as [H|[H1 H2]]; auto. right. split; auto using idle_new. ss. lia.
    + right. cbn [mt_kind mt_id]. apply tail_uid in TL. split; [apply NKsendcts; auto|lia].
  - destruct (tail_timers _ _ _ TL T) as [H|[H1 H2]]; auto using idle_new.
  - revert T. ss. intros T. apply in_app_or in T. destruct T as [T|[<-|[]]].
    + apply filter_In in T. destruct T as [T _]. destruct (tail_timers _ _ _ TL T) as [H|[H1 H2]]; auto. right. split; auto using idle_new. revert H2. try unfold after. ss. lia.
    + right. cbn [mt_kind mt_id]. apply tail_uid in TL. apply find_fst in F. destruct F as [-> F]. split; [eapply NKsenddata; eauto|revert TL; try unfold after; ss; lia].
  - revert T. ss. intros T. apply filter_In in T. destruct T as [T _]. destruct (tail_timers _ _ _ TL T) as [H|[H1 H2]]; auto using idle_new.
  - destruct (tail_timers _ _ _ TL T) as [H|[H1 H2]].
    + left. subst s1. destruct (forward_out f (set_state MIdle s)) as [_ X]. rewrite X in H. exact H.
    + right. split; auto using idle_new. subst s1. destruct (forward_out f (set_state MIdle s)) as [_ X]. rewrite X in H2. exact H2.
  - destruct (forward_out f s2) as [_ X]. rewrite X in T |- *. subst s2. revert T. ss. intros T. apply in_app_or in T. destruct T as [T|[<-|[]]].
    + destruct (tail_timers _ _ _ TL T) as [H|[H1 H2]]; auto. right. split; auto using idle_new. lia.
    + right. cbn [mt_kind mt_id]. apply tail_uid in TL. split; [apply NKsendack; auto|lia].
  - revert T. ss. intros T. apply in_app_or in T. destruct T as [T|[<-|[]]].
    + apply filter_In in T. destruct T as [T _]. auto.
    + right. cbn [mt_kind mt_id]. apply find_fst in F. destruct F as [-> F]. split; [eapply NKdone; eauto|lia].
  - destruct (mild_cca c e (set_timers (remove_nth i (m_timers s)) s)) as [TL _].
    destruct (tail_timers _ _ _ TL T) as [H|[H1 H2]]; auto using idle_new. left. eapply (in_remove i); eassumption.
  - revert T. unfold backoff_start. cbv zeta. destruct (_ =? _), (_ || _); ss; intros T; apply in_app_or in T; (destruct T as [T|[<-|[]]]; [left; eapply (in_remove i); eassumption|right; split; [constructor|cbn; lia]]).
  - left. eapply (in_remove i); eassumption.
  - destruct (tail_timers _ _ _ TL T) as [H|[H1 H2]]; auto using idle_new. left. eapply (in_remove i); eassumption.
  - revert T. ss. intros T. apply in_app_or in T. destruct T as [T|[<-|[]]].
    + destruct (tail_timers _ _ _ TL T) as [H|[H1 H2]]; [left; eapply (in_remove i); eassumption|]. right. split; auto using idle_new. revert H2. try unfold after. ss. lia.
    + right. cbn [mt_kind mt_id]. apply tail_uid in TL. split; [eapply NKcts; eauto|revert TL; try unfold after; ss; lia].
  - destruct (tail_timers _ _ _ TL T) as [H|[H1 H2]]; auto using idle_new. left. eapply (in_remove i); eassumption.
  - revert T. ss. intros T. apply in_app_or in T. destruct T as [T|[<-|[]]].
    + destruct (tail_timers _ _ _ TL T) as [H|[H1 H2]]; [left; eapply (in_remove i); eassumption|]. right. split; auto using idle_new. revert H2. try unfold after. ss. lia.
    + right. cbn [mt_kind mt_id]. apply tail_uid in TL. split; [|revert TL; try unfold after; ss; lia]. apply NKack; auto; [left; auto|].
      destruct K as [[_ [_ [q K]]]|K]; [left; rewrite K; left; auto|right; eauto using nth_error_In].
  - destruct (tail_timers _ _ _ TL T) as [H|[H1 H2]]; auto using idle_new. left. eapply (in_remove i); eassumption.
  - left. eapply (in_remove i); eassumption.
  - destruct (tail_timers _ _ _ TL T) as [H|[H1 H2]]; auto using idle_new. left. eapply (in_remove i); eassumption.
  - pose proof (timeout_spec e sq s1) as X. cbv zeta in X. rewrite (proj1 X).
    destruct X as [_ [_ [_ [_ [_ [_ [_ [_ [_ [_ [_ [U [_ [_ [_ [_ [_ [_ [_ [_ [_ [TM _]]]]]]]]]]]]]]]]]]]]]].
    assert (E : m_timers s1 = remove_nth i (m_timers s) /\ m_uid s1 = m_uid s /\ m_rec s1 = m_rec s) by (destruct K as [[_ ->]|[_ ->]]; auto).
    destruct E as [E1 [E2 E3]]. destruct (TM t T) as [H|[H1 H2]].
    + left. rewrite E1 in H. eapply in_remove; eauto.
    + right. rewrite E2 in H1. split; auto. destruct H2 as [->|[-> G]]; [constructor|]. rewrite E3 in G. unfold given_up in G.
      destruct (filter _ (m_rec s)) as [|r l] eqn:FL; [destruct G; auto|].
      assert (R : In r (filter (fun r => (mf_seq (mr_pkt r) =? sq) && (5 <=? wrap16 (mr_retry r + 1))) (m_rec s))) by (rewrite FL; left; auto).
      apply filter_In in R. destruct R as [R1 R2]. apply andb_true_iff in R2. destruct R2 as [R2 R3]. apply Z.eqb_eq in R2. apply Z.leb_le in R3.
      subst sq. apply NKdrop; auto. left. auto.
  - destruct (tail_timers _ _ _ TL T) as [H|[H1 H2]]; auto using idle_new. left. eapply (in_remove i); eassumption.
  - destruct (tail_timers _ _ _ TL T) as [H|[H1 H2]]; auto using idle_new. left. eapply (in_remove i); eassumption.
  - destruct (tail_timers _ _ _ TL T) as [H|[H1 H2]]; auto using idle_new. left. eapply (in_remove i); eassumption.
  - destruct (sdd_spec ok sq (set_timers (remove_nth i (m_timers s)) s)) as [l [q [d [k [em [ub D']]]]]].
    destruct D' as [_ [_ [_ [_ [_ [_ [_ [_ [_ [_ [_ [U [_ [_ [_ [_ [_ [_ [_ [_ [_ [TM _]]]]]]]]]]]]]]]]]]]]]].
    destruct (TM t T) as [X|[X1 X2]]; [left; eapply (in_remove i); eassumption|]. right. rewrite X1. split; [constructor|]. revert X2. ss. lia.
  - left. eapply (in_remove i); eassumption.
  - revert T. ss. intros T. apply in_app_or in T. destruct T as [T|[<-|[]]]; [left; eapply (in_remove i); eassumption|]. right. cbn. split; [eapply NKrot; eauto|lia].
Qed.

(** ** Transmissions and timeouts under way *)
Lemma tail_air s s' : tail s s' -> m_air s' = m_air s. Proof. intros H. apply H. Qed.
Lemma tail_ack s s' : tail s s' -> m_ack s' = m_ack s. Proof. intros H. apply H. Qed.
Lemma tail_cts s s' : tail s s' -> m_cts s' = m_cts s. Proof. intros H. apply H. Qed.
Lemma tail_data s s' : tail s s' -> m_data s' = m_data s. Proof. intros H. apply H. Qed.
Lemma tail_bo s s' : tail s s' -> m_bo s' = m_bo s. Proof. intros H. apply H. Qed.
Lemma tail_queue s s' : tail s s' -> m_queue s' = m_queue s. Proof. intros H. apply H. Qed.
Lemma tail_rec s s' : tail s s' -> m_rec s' = m_rec s. Proof. intros H. apply H. Qed.
Lemma tail_rot s s' : tail s s' -> m_rot s' = m_rot s. Proof. intros H. apply H. Qed.
Lemma tail_now s s' : tail s s' -> m_now s' = m_now s. Proof. intros H. apply H. Qed.
Lemma tail_filter s s' : tail s s' -> m_filter s' = m_filter s. Proof. intros H. apply H. Qed.
Lemma tail_mode s s' : tail s s' -> m_mode s' = m_mode s. Proof. intros H. apply H. Qed.

Lemma in_erase1 {A} (q : A -> bool) l x : In x (erase1 q l) -> In x l.
Proof. induction l as [|y l IH]; cbn; auto. destruct (q y); auto. intros [->|H]; auto. Qed.

Lemma sdd_keeps ok sq s : let s' := fst (send_data_done ok sq s) in
  m_cts s' = m_cts s /\ m_ack s' = m_ack s /\ m_data s' = m_data s /\ m_air s' = m_air s /\ m_tx s' = m_tx s /\
  m_cca s' = m_cca s /\ m_bo s' = m_bo s /\ m_rot s' = m_rot s /\ m_uid s <= m_uid s' /\ m_filter s' = m_filter s /\ m_mode s' = m_mode s /\ m_now s' = m_now s.
Proof.
  cbv zeta. destruct (sdd_spec ok sq s) as [l [q [d [k [em [ub [_ [_ [_ [_ [_ [_ [F [M [R [N [_ [U [C [A [D [AI [T [CC [B _]]]]]]]]]]]]]]]]]]]]]]]]].
  repeat split; auto.
Qed.
Lemma tmo_keeps e sq s : let s' := fst (timeout e sq s) in
  m_cts s' = m_cts s /\ m_ack s' = m_ack s /\ m_data s' = m_data s /\ m_air s' = m_air s /\ m_tx s' = m_tx s /\
  m_cca s' = m_cca s /\ m_bo s' = m_bo s /\ m_rot s' = m_rot s /\ m_uid s <= m_uid s' /\ m_filter s' = m_filter s /\ m_mode s' = m_mode s /\ m_now s' = m_now s.
Proof.
  cbv zeta. destruct (timeout_spec e sq s) as [_ [_ [_ [_ [_ [_ [F [M [R [N [_ [U [C [A [D [AI [T [_ [CC [B _]]]]]]]]]]]]]]]]]]]].
  repeat split; auto.
Qed.
Lemma enq_keeps c size dst junk s : 15000 <= wrap16 size -> let s' := fst (menqueue c size dst junk s) in
  m_cts s' = m_cts s /\ m_ack s' = m_ack s /\ m_data s' = Some (enq_pkt c size dst junk s) /\ m_air s' = m_air s /\ m_tx s' = m_tx s /\
  m_cca s' = m_cca s /\ m_bo s' = m_bo s /\ m_rot s' = m_rot s /\ m_uid s' = m_uid s + 1 /\ m_filter s' = m_filter s /\ m_mode s' = 0 /\ m_now s' = m_now s.
Proof.
  intros L. cbv zeta. destruct (enq_spec c size dst junk s L) as [_ [_ [_ [_ [_ [_ [F [M [R [N [_ [U [C [A [D [AI [T [_ [CC [B _]]]]]]]]]]]]]]]]]]]].
  repeat split; auto.
Qed.

Lemma bo_keeps e s : let s' := fst (backoff_start e s) in
  m_cts s' = m_cts s /\ m_ack s' = m_ack s /\ m_data s' = m_data s /\ m_air s' = m_air s /\ m_tx s' = m_tx s /\
  m_rot s' = m_rot s /\ m_uid s' = m_uid s + 1 /\ m_filter s' = m_filter s /\ m_mode s' = m_mode s /\ m_now s' = m_now s /\ m_queue s' = m_queue s /\ m_rec s' = m_rec s.
Proof. cbv zeta. unfold backoff_start. cbv zeta. destruct (_ =? _), (_ || _); ss; repeat split; auto. Qed.

Lemma ack_new c e s ev s' o y : scase c e s ev s' o -> In y (m_ack s') ->
  In y (m_ack s) \/ exists p, In (OSnd p) o /\ mf_dst p <> bcast /\ fst y = mf_seq p /\ m_uid s <= snd y < m_uid s' /\
    (In p (m_queue s) \/ (exists t, In t (m_timers s) /\ mt_kind t = MKSendData p)).
Proof.
  intros C. scd C; cbn [fst] in *; auto; try (ss; apply tail_ack in TL; rewrite TL; auto; fail).
  - destruct (enq_keeps c size dst junk s L) as [_ [-> _]]. auto.
  - rewrite (tail_ack _ _ TL), E1. destruct (sdd_keeps true (mf_seq f) (set_state MIdle (set_air None s))) as [_ [-> _]]. auto.
  - rewrite (tail_ack _ _ TL). destruct TB as [TB|[u [_ [_ TB]]]]; rewrite (tail_ack _ _ TB); auto.
  - rewrite (tail_ack _ _ TL). subst s1. destruct (forward_out f (set_state MIdle s)) as [_ ->]. auto.
  - subst s2. destruct (forward_out f (msched (mc_sifs c) (MKSendAck (mf_src f) (mf_seq f)) (set_state MWaitTx s1))) as [_ ->]. ss. rewrite (tail_ack _ _ TL). auto.
  - ss. intros H. left. eapply in_erase1; eauto.
  - destruct (mild_cca c e (set_timers (remove_nth i (m_timers s)) s)) as [TL _]. rewrite (tail_ack _ _ TL). auto.
  - destruct (bo_keeps e (set_timers (remove_nth i (m_timers s)) s)) as [_ [-> _]]. auto.
  - ss. rewrite (tail_ack _ _ TL). intros H. apply in_app_or in H. destruct H as [H|[<-|[]]]; auto. right.
    exists p. repeat split; auto; cbn; try lia; [left; auto|apply tail_uid in TL; exact TL|].
    destruct K as [[_ [_ [q K]]]|K]; [left; rewrite K; left; auto|right; eauto using nth_error_In].
  - destruct (tmo_keeps e sq s1) as [_ [-> _]]. destruct K as [[_ ->]|[_ ->]]; ss; auto. intros H. left. eapply in_erase1; eauto.
  - destruct (sdd_keeps ok sq (set_timers (remove_nth i (m_timers s)) s)) as [_ [-> _]]. auto.
Qed.

Lemma cts_new c e s ev s' o y : scase c e s ev s' o -> In y (m_cts s') ->
  In y (m_cts s) \/ exists p q, m_queue s = p :: q /\ mf_dst p <> bcast /\ fst y = mf_seq p /\ m_uid s <= snd y < m_uid s'.
Proof.
  intros C. scd C; cbn [fst] in *; auto; try (ss; apply tail_cts in TL; rewrite TL; auto; fail).
  - destruct (enq_keeps c size dst junk s L) as [-> _]. auto.
  - rewrite (tail_cts _ _ TL), E1. destruct (sdd_keeps true (mf_seq f) (set_state MIdle (set_air None s))) as [-> _]. auto.
  - rewrite (tail_cts _ _ TL). destruct TB as [TB|[u [_ [_ TB]]]]; rewrite (tail_cts _ _ TB); auto.
  - ss. rewrite (tail_cts _ _ TL). ss. intros H. left. eapply in_erase1; eauto.
  - ss. rewrite (tail_cts _ _ TL). ss. intros H. left. eapply in_erase1; eauto.
  - rewrite (tail_cts _ _ TL). subst s1. destruct (forward_out f (set_state MIdle s)) as [_ ->]. auto.
  - subst s2. destruct (forward_out f (msched (mc_sifs c) (MKSendAck (mf_src f) (mf_seq f)) (set_state MWaitTx s1))) as [_ ->]. ss. rewrite (tail_cts _ _ TL). auto.
  - destruct (mild_cca c e (set_timers (remove_nth i (m_timers s)) s)) as [TL _]. rewrite (tail_cts _ _ TL). auto.
  - destruct (bo_keeps e (set_timers (remove_nth i (m_timers s)) s)) as [-> _]. auto.
  - ss. rewrite (tail_cts _ _ TL). intros H. apply in_app_or in H. destruct H as [H|[<-|[]]]; auto. right.
    exists p, q. repeat split; auto; cbn; try lia. apply tail_uid in TL. exact TL.
  - destruct (tmo_keeps e sq s1) as [-> _]. destruct K as [[_ ->]|[_ ->]]; ss; auto. intros H. left. eapply in_erase1; eauto.
  - destruct (sdd_keeps ok sq (set_timers (remove_nth i (m_timers s)) s)) as [-> _]. auto.
Qed.

Lemma data_new c e s ev s' o pk : scase c e s ev s' o -> m_data s' = Some pk ->
  m_data s = Some pk \/ In pk (m_queue s) \/ In pk (map mr_pkt (m_rec s)) \/ In (OAcc pk) o \/ (exists t, In t (m_timers s) /\ mt_kind t = MKSendData pk).
Proof.
  assert (SCN : forall sq l d, scan sq d l = Some pk -> d = Some pk \/ In pk (map mr_pkt l)).
  { intros sq l. induction l as [|r l IH]; intros d H; cbn in H; auto. destruct (_ =? _).
    - injection H as <-. right. left. auto.
    - destruct (IH _ H) as [X|X]; [injection X as <-; right; left; auto|right; right; auto]. }
  intros C. scd C; cbn [fst] in *; auto; try (ss; apply tail_data in TL; rewrite TL; auto; fail).
  - destruct (enq_keeps c size dst junk s L) as [_ [_ [-> _]]]. destruct (enq_spec c size dst junk s L) as [-> _]. intros H. injection H as <-. right. right. right. left. left. auto.
  - rewrite (tail_data _ _ TL), E1. destruct (sdd_keeps true (mf_seq f) (set_state MIdle (set_air None s))) as [_ [_ [-> _]]]. auto.
  - rewrite (tail_data _ _ TL). destruct TB as [TB|[u [_ [_ TB]]]]; rewrite (tail_data _ _ TB); auto.
  - rewrite (tail_data _ _ TL). ss. intros H. apply SCN in H. tauto.
  - ss. rewrite (tail_data _ _ TL). ss. intros H. apply SCN in H. tauto.
  - ss. rewrite (tail_data _ _ TL). ss. intros H. apply SCN in H. tauto.
  - rewrite (tail_data _ _ TL). subst s1. destruct (forward_out f (set_state MIdle s)) as [_ ->]. auto.
  - subst s2. destruct (forward_out f (msched (mc_sifs c) (MKSendAck (mf_src f) (mf_seq f)) (set_state MWaitTx s1))) as [_ ->]. ss. rewrite (tail_data _ _ TL). auto.
  - destruct (mild_cca c e (set_timers (remove_nth i (m_timers s)) s)) as [TL _]. rewrite (tail_data _ _ TL). auto.
  - destruct (bo_keeps e (set_timers (remove_nth i (m_timers s)) s)) as [_ [_ [-> _]]]. auto.
  - rewrite (tail_data _ _ TL). ss. intros H. injection H as <-. right. left. rewrite Q. left. auto.
  - ss. rewrite (tail_data _ _ TL). unfold after. ss. intros H. injection H as <-. right. left. rewrite Q. left. auto.
  - rewrite (tail_data _ _ TL). unfold after. ss. intros H. injection H as <-. right. left. rewrite Q. left. auto.
  - ss. rewrite (tail_data _ _ TL). unfold after. ss. intros H. injection H as <-.
    destruct K as [[_ [_ [q K]]]|K]; [right; left; rewrite K; left; auto|right; right; right; right; eauto using nth_error_In].
  - rewrite (tail_data _ _ TL). unfold after. ss. intros H. injection H as <-. right; right; right; right; eauto using nth_error_In.
  - rewrite (tail_data _ _ TL). ss. intros H. injection H as <-. right; right; right; right; eauto using nth_error_In.
  - destruct (tmo_keeps e sq s1) as [_ [_ [-> _]]]. destruct K as [[_ ->]|[_ ->]]; ss; auto.
  - destruct (sdd_keeps ok sq (set_timers (remove_nth i (m_timers s)) s)) as [_ [_ [-> _]]]. auto.
Qed.

Lemma air_new c e s ev s' o fr : scase c e s ev s' o -> m_air s' = Some fr -> m_air s = Some fr \/ In (OSnd fr) o.
Proof.
  intros C. scd C; cbn [fst] in *; auto; try (ss; apply tail_air in TL; rewrite TL; auto; fail).
  - destruct (enq_keeps c size dst junk s L) as [_ [_ [_ [-> _]]]]. auto.
  - rewrite (tail_air _ _ TL). discriminate.
  - rewrite (tail_air _ _ TL), E1. destruct (sdd_keeps true (mf_seq f) (set_state MIdle (set_air None s))) as [_ [_ [_ [-> _]]]]. discriminate.
  - rewrite (tail_air _ _ TL). destruct TB as [TB|[u [_ [_ TB]]]]; rewrite (tail_air _ _ TB); auto.
  - rewrite (tail_air _ _ TL). subst s1. destruct (forward_out f (set_state MIdle s)) as [_ ->]. auto.
  - subst s2. destruct (forward_out f (msched (mc_sifs c) (MKSendAck (mf_src f) (mf_seq f)) (set_state MWaitTx s1))) as [_ ->]. ss. rewrite (tail_air _ _ TL). auto.
  - destruct (mild_cca c e (set_timers (remove_nth i (m_timers s)) s)) as [TL _]. rewrite (tail_air _ _ TL). auto.
  - destruct (bo_keeps e (set_timers (remove_nth i (m_timers s)) s)) as [_ [_ [_ [-> _]]]]. auto.
  - ss. rewrite (tail_air _ _ TL). unfold after. ss. intros H. injection H as <-. right. left. auto.
  - rewrite (tail_air _ _ TL). unfold after. ss. intros H. injection H as <-. right. left. auto.
  - ss. rewrite (tail_air _ _ TL). unfold after. ss. intros H. injection H as <-. right. left. auto.
  - rewrite (tail_air _ _ TL). unfold after. ss. intros H. injection H as <-. right. left. auto.
  - destruct (tmo_keeps e sq s1) as [_ [_ [_ [-> _]]]]. destruct K as [[_ ->]|[_ ->]]; ss; auto.
  - rewrite (tail_air _ _ TL). unfold after. ss. intros H. injection H as <-. right. left. auto.
  - rewrite (tail_air _ _ TL). unfold after. ss. intros H. injection H as <-. right. right. left. auto.
  - destruct (sdd_keeps ok sq (set_timers (remove_nth i (m_timers s)) s)) as [_ [_ [_ [-> _]]]]. auto.
Qed.

Lemma hush_no c o f : hush c o -> ~ In (OSnd f) o.
Proof. intros [H _] I. specialize (H _ I). discriminate H. Qed.

Lemma sdd_no ok sq s f : ~ In (OSnd f) (snd (send_data_done ok sq s)).
Proof.
  destruct (sdd_spec ok sq s) as [l [q [d [k [em [ub D]]]]]]. cbv zeta in D. destruct D as [_ [_ [_ [_ [_ [_ [_ [_ [_ [_ [_ [_ [_ [_ [_ [_ [_ [_ [_ [_ [_ [_ DO]]]]]]]]]]]]]]]]]]]]]]. rewrite DO. intros H.
  apply in_app_or in H. destruct H as [H|H].
  - apply in_map_iff in H. destruct H as [x [H _]]. discriminate.
  - destruct ub; [destruct H as [H|[]]; discriminate|destruct H].
Qed.
Lemma fwd_no f s g : ~ In (OSnd g) (snd (forward_new f s)).
Proof. rewrite (proj1 (forward_out f s)). destruct (fst _); [intros [H|[]]; discriminate|intros []]. Qed.

Lemma snd_new c e s ev s' o fr : scase c e s ev s' o -> In (OSnd fr) o ->
  m_air s = None /\ m_air s' = Some fr /\
  ((In fr (m_queue s) /\ exists t, In t (m_timers s) /\ mt_kind t = MKGrant) \/ (exists t, In t (m_timers s) /\ mt_kind t = MKSendData fr) \/
   (mf_src fr = mc_addr c /\
    ((mf_type fr = T_RTS /\ exists p q i t, m_queue s = p :: q /\ mf_dst fr = mf_dst p /\ mf_seq fr = mf_seq p /\ mf_dst p <> bcast /\
        ev = ETimer i /\ nth_error (m_timers s) i = Some t /\ mt_kind t = MKGrant) \/
     (mf_type fr = T_CTS /\ exists dur t, In t (m_timers s) /\ mt_kind t = MKSendCts (mf_dst fr) dur (mf_seq fr)) \/
     (mf_type fr = T_ACK /\ exists t, In t (m_timers s) /\ mt_kind t = MKSendAck (mf_dst fr) (mf_seq fr))))).
Proof.
  intros C I. scd C; cbn [fst] in *; try (destruct I; fail); try (exfalso; eapply hush_no; eauto; fail).
  - destruct I as [I|[]]. discriminate I.
  - destruct (enq_spec c size dst junk s L) as [E _]. rewrite E in I. destruct I as [I|[I|[]]]; discriminate I.
  - apply in_app_or in I. destruct I as [I|I]; exfalso; [eapply sdd_no; eauto|eapply hush_no; eauto].
  - apply in_app_or in I. destruct I as [I|[I|[]]]; [exfalso; eapply hush_no; eauto|discriminate I].
  - subst o1. apply in_app_or in I. destruct I as [I|I]; exfalso; [eapply fwd_no; eauto|eapply hush_no; eauto].
  - apply in_app_or in I. destruct I as [I|I]; exfalso; [eapply hush_no; eauto|eapply fwd_no; eauto].
  - destruct I as [I|I]; [injection I as <-|exfalso; eapply hush_no; eauto]. split; auto. split; [ss; rewrite (tail_air _ _ TL); reflexivity|].
    right. right. subst f. split; [reflexivity|]. left. split; [reflexivity|]. exists p, q, i, x. repeat split; auto.
  - destruct I as [I|I]; [injection I as <-|exfalso; eapply hush_no; eauto]. split; auto. split; [rewrite (tail_air _ _ TL); reflexivity|].
    left. split; [rewrite Q; left; auto|eauto using nth_error_In].
  - destruct I as [I|I]; [injection I as <-|exfalso; eapply hush_no; eauto]. split; auto. split; [ss; rewrite (tail_air _ _ TL); reflexivity|].
    destruct K as [[K [_ [q K2]]]|K]; [left; split; [rewrite K2; left; auto|]|right; left]; eauto using nth_error_In.
  - destruct I as [I|I]; [injection I as <-|exfalso; eapply hush_no; eauto]. split; auto. split; [rewrite (tail_air _ _ TL); reflexivity|].
    right. left. eauto using nth_error_In.
  - rewrite (proj1 (timeout_spec e sq s1)) in I. destruct I as [I|[]]. discriminate I.
  - destruct I as [I|I]; [injection I as <-|exfalso; eapply hush_no; eauto]. split; auto. split; [rewrite (tail_air _ _ TL); reflexivity|].
    right. right. split; auto. right. destruct K as [[dst [dur [sq [K [T1 [T2 T3]]]]]]|[dst [sq [K [T1 [T2 T3]]]]]]; [left|right]; split; auto; subst; eauto using nth_error_In.
  - destruct I as [I|[I|I]]; [discriminate I|injection I as <-|exfalso; eapply hush_no; eauto]. split; auto. split; [rewrite (tail_air _ _ TL); reflexivity|].
    right. right. split; auto. right. right. split; auto; subst; eauto using nth_error_In.
  - exfalso. eapply sdd_no; eauto.
  - destruct (m_res s); [destruct I|destruct I as [I|[]]; discriminate I].
Qed.

(** ** Where everything comes from *)
Definition heard_ack (c : mcfg) (h : list mevent) (q : Z) : Prop :=
  exists f, In f (rcv_of h) /\ mf_type f = T_ACK /\ mf_dst f = mc_addr c /\ mf_seq f = q.
Definition sent_uni (o : list mout) (q : Z) : Prop :=
  exists p, In p (snd_of o) /\ In p (acc_of o) /\ mf_dst p <> bcast /\ mf_seq p = q.

Record Gen (c : mcfg) (h : list mevent) (s : mst) (o : list mout) : Prop := {
  g_air : forall f, m_air s = Some f -> In f (snd_of o);
  g_data : forall p, m_data s = Some p -> In p (acc_of o);
  g_rec : forall p, In p (map mr_pkt (m_rec s)) -> In p (acc_of o);
  g_queue : forall p, In p (m_queue s) -> In p (acc_of o);
  g_sdata : forall t p, In t (m_timers s) -> mt_kind t = MKSendData p -> In p (acc_of o);
  g_snd : forall f, In f (snd_of o) -> In f (acc_of o) \/ (mf_src f = mc_addr c /\ mf_type f <> T_DATA);
  g_ack : forall x, In x (m_ack s) -> sent_uni o (fst x);
  g_done : forall t q, In t (m_timers s) -> mt_kind t = MKDone true q -> sent_uni o q /\ heard_ack c h q;
  g_retry : forall r, In r (m_rec s) -> 0 <= mr_retry r <= Z.of_nat (tmo_of (mf_seq (mr_pkt r)) o);
  g_drop : forall t q, In t (m_timers s) -> mt_kind t = MKDone false q -> (5 <= tmo_of q o)%nat;
  g_ok : forall p, In p (rep_of true o) -> exists p', In p' (snd_of o) /\ In p' (acc_of o) /\ mf_seq p' = mf_seq p /\
           (mf_dst p' <> bcast -> heard_ack c h (mf_seq p));
  g_bad : forall p, In p (rep_of false o) -> (5 <= tmo_of (mf_seq p) o)%nat }.

Lemma wrap16_le a : 0 <= a -> wrap16 a <= a.
Proof. intros H. unfold wrap16. apply Z.mod_le; lia. Qed.

Lemma heard_more c h ev q : heard_ack c h q -> heard_ack c (h ++ [ev]) q.
Proof. intros [f [H1 H2]]. exists f. split; auto. rewrite rcv_app. apply in_or_app. auto. Qed.
Lemma sent_more o o' q : sent_uni o q -> sent_uni (o ++ o') q.
Proof. intros [p [A [B C]]]. exists p. rewrite snd_app, acc_app. split; [apply in_or_app; auto|split; [apply in_or_app; auto|auto]]. Qed.

Lemma keep_in d q p : In p (filter (keep d) q) -> In p q.
Proof. intros H. apply filter_In in H. apply H. Qed.

Lemma sdd_rec ok sq s r : In r (m_rec (fst (send_data_done ok sq s))) -> In r (m_rec s).
Proof.
  destruct (sdd_spec ok sq s) as [l [q [d [k [em [ub [D [R _]]]]]]]]. rewrite R. intros H.
  destruct (done_spec ok sq _ _ _ _ _ _ _ _ _ (le_n _) D) as [_ [X _]]. auto.
Qed.
Lemma sdd_queue ok sq s p : In p (m_queue (fst (send_data_done ok sq s))) -> In p (m_queue s).
Proof.
  destruct (sdd_spec ok sq s) as [l [q [d [k [em [ub [D [_ [Q _]]]]]]]]]. rewrite Q. intros H.
  destruct (done_spec ok sq _ _ _ _ _ _ _ _ _ (le_n _) D) as [_ [_ [_ [X _]]]]. rewrite X in H. destruct ok; auto. apply keep_in in H. auto.
Qed.
Lemma sdd_rep ok sq s b p : In (ORep b p) (snd (send_data_done ok sq s)) -> b = ok /\ mf_seq p = sq /\ In p (map mr_pkt (m_rec s)).
Proof.
  destruct (sdd_spec ok sq s) as [l [q [d [k [em [ub [DL D]]]]]]]. cbv zeta in D. destruct D as [_ [_ [_ [_ [_ [_ [_ [_ [_ [_ [_ [_ [_ [_ [_ [_ [_ [_ [_ [_ [_ DO]]]]]]]]]]]]]]]]]]]]].
  rewrite DO. intros H. apply in_app_or in H. destruct H as [H|H]; [|destruct ub; [destruct H as [H|[]]; discriminate H|destruct H]].
  apply in_map_iff in H. destruct H as [x [X1 X2]]. injection X1 as <- <-.
  destruct (done_spec ok sq _ _ _ _ _ _ _ _ _ (le_n _) DL) as [P [_ [S _]]]. repeat split; auto.
  eapply Permutation_in; [apply Permutation_sym, P|]. apply in_or_app. auto.
Qed.
Lemma hush_no_rep c o b p : hush c o -> ~ In (ORep b p) o.
Proof. intros [H _] I. specialize (H _ I). discriminate H. Qed.
Lemma fwd_no_rep f s b p : ~ In (ORep b p) (snd (forward_new f s)).
Proof. rewrite (proj1 (forward_out f s)). destruct (fst _); [intros [H|[]]; discriminate|intros []]. Qed.

Lemma queue_new c e s ev s' o pk : scase c e s ev s' o -> In pk (m_queue s') -> In pk (m_queue s) \/ In (OAcc pk) o.
Proof.
  intros C. scd C; cbn [fst] in *; auto; try (ss; apply tail_queue in TL; rewrite TL; auto; fail).
  - destruct (enq_spec c size dst junk s L) as [-> [_ [-> _]]]. intros H. apply in_app_or in H. destruct H as [H|[<-|[]]]; auto. right. left. auto.
  - rewrite (tail_queue _ _ TL), E1. intros H. apply sdd_queue in H. auto.
  - rewrite (tail_queue _ _ TL). destruct TB as [TB|[u [_ [_ TB]]]]; rewrite (tail_queue _ _ TB); auto.
  - rewrite (tail_queue _ _ TL). subst s1. destruct (forward_out f (set_state MIdle s)) as [_ ->]. auto.
  - subst s2. destruct (forward_out f (msched (mc_sifs c) (MKSendAck (mf_src f) (mf_seq f)) (set_state MWaitTx s1))) as [_ ->]. ss. rewrite (tail_queue _ _ TL). auto.
  - destruct (mild_cca c e (set_timers (remove_nth i (m_timers s)) s)) as [TL _]. rewrite (tail_queue _ _ TL). auto.
  - destruct (bo_keeps e (set_timers (remove_nth i (m_timers s)) s)) as [_ [_ [_ [_ [_ [_ [_ [_ [_ [_ [-> _]]]]]]]]]]]. auto.
  - destruct (timeout_spec e sq s1) as [_ [_ [-> _]]]. intros H. apply keep_in in H. left. destruct K as [[_ ->]|[_ ->]]; exact H.
  - intros H. apply sdd_queue in H. auto.
Qed.

Lemma rec_new c e s ev s' o rr : scase c e s ev s' o -> In rr (m_rec s') ->
  In rr (m_rec s) \/ (mr_retry rr = 0 /\ In (OAcc (mr_pkt rr)) o) \/
  (exists r, In r (m_rec s) /\ mr_pkt rr = mr_pkt r /\ mr_retry rr = wrap16 (mr_retry r + 1) /\ In (OTmo (mf_seq (mr_pkt r))) o).
Proof.
  intros C. scd C; cbn [fst] in *; auto; try (ss; apply tail_rec in TL; rewrite TL; auto; fail).
  - destruct (enq_spec c size dst junk s L) as [-> [-> _]]. intros H. apply in_app_or in H. destruct H as [H|[<-|[]]]; auto. right. left. cbn. auto.
  - rewrite (tail_rec _ _ TL), E1. intros H. apply sdd_rec in H. auto.
  - rewrite (tail_rec _ _ TL). destruct TB as [TB|[u [_ [_ TB]]]]; rewrite (tail_rec _ _ TB); auto.
  - rewrite (tail_rec _ _ TL). subst s1. destruct (forward_out f (set_state MIdle s)) as [_ ->]. auto.
  - subst s2. destruct (forward_out f (msched (mc_sifs c) (MKSendAck (mf_src f) (mf_seq f)) (set_state MWaitTx s1))) as [_ ->]. ss. rewrite (tail_rec _ _ TL). auto.
  - destruct (mild_cca c e (set_timers (remove_nth i (m_timers s)) s)) as [TL _]. rewrite (tail_rec _ _ TL). auto.
  - destruct (bo_keeps e (set_timers (remove_nth i (m_timers s)) s)) as [_ [_ [_ [_ [_ [_ [_ [_ [_ [_ [_ ->]]]]]]]]]]]. auto.
  - destruct (timeout_spec e sq s1) as [-> [-> _]]. intros H. apply in_map_iff in H. destruct H as [r [R1 R2]].
    assert (R3 : In r (m_rec s)) by (destruct K as [[_ ->]|[_ ->]]; exact R2). unfold bumped in R1.
    destruct (Z.eqb_spec (mf_seq (mr_pkt r)) sq) as [S|S]; [|left; congruence]. right. right. exists r. subst rr sq. cbn. auto.
  - intros H. apply sdd_rec in H. auto.
Qed.

Lemma rep_new c e s ev s' o b pk : scase c e s ev s' o -> In (ORep b pk) o ->
  In pk (map mr_pkt (m_rec s)) /\
  ((exists t, In t (m_timers s) /\ mt_kind t = MKDone b (mf_seq pk)) \/
   (b = true /\ exists f, m_air s = Some f /\ mf_type f = T_DATA /\ mf_dst f = bcast /\ mf_seq f = mf_seq pk)).
Proof.
  intros C I. scd C; cbn [fst] in *; try (destruct I; fail); try (exfalso; eapply hush_no_rep; eauto; fail).
  - destruct I as [I|[]]. discriminate I.
  - destruct (enq_spec c size dst junk s L) as [E _]. rewrite E in I. destruct I as [I|[I|[]]]; discriminate I.
  - apply in_app_or in I. destruct I as [I|I]; [|exfalso; eapply hush_no_rep; eauto].
    apply sdd_rep in I. destruct I as [-> [S I]]. split; auto. right. split; auto. exists f. auto.
  - apply in_app_or in I. destruct I as [I|[I|[]]]; [exfalso; eapply hush_no_rep; eauto|discriminate I].
  - subst o1. apply in_app_or in I. destruct I as [I|I]; exfalso; [eapply fwd_no_rep; eauto|eapply hush_no_rep; eauto].
  - apply in_app_or in I. destruct I as [I|I]; exfalso; [eapply hush_no_rep; eauto|eapply fwd_no_rep; eauto].
  - destruct I as [I|I]; [discriminate I|exfalso; eapply hush_no_rep; eauto].
  - destruct I as [I|I]; [discriminate I|exfalso; eapply hush_no_rep; eauto].
  - destruct I as [I|I]; [discriminate I|exfalso; eapply hush_no_rep; eauto].
  - destruct I as [I|I]; [discriminate I|exfalso; eapply hush_no_rep; eauto].
  - rewrite (proj1 (timeout_spec e sq s1)) in I. destruct I as [I|[]]. discriminate I.
  - destruct I as [I|I]; [discriminate I|exfalso; eapply hush_no_rep; eauto].
  - destruct I as [I|[I|I]]; [discriminate I|discriminate I|exfalso; eapply hush_no_rep; eauto].
  - apply sdd_rep in I. destruct I as [-> [S I]]. split; [exact I|]. left. exists x. subst sq. split; auto. eapply nth_error_In; eauto.
  - destruct (m_res s); [destruct I|destruct I as [I|[]]; discriminate I].
Qed.

Lemma tmo_in q o : In (OTmo q) o -> (1 <= tmo_of q o)%nat.
Proof.
  intros H. unfold tmo_of. assert (X : In (OTmo q) (filter (fun x => match x with OTmo q0 => q0 =? q | _ => false end) o)).
  { apply filter_In. split; auto. apply Z.eqb_refl. }
  destruct (filter _ o); [destruct X|cbn; lia].
Qed.

Lemma gen_step c h s o e ev : Gen c h s o -> Gen c (h ++ [ev]) (fst (mstep c e s ev)) (o ++ snd (mstep c e s ev)).
Proof.
  intros G. pose proof (cases c e s ev) as C. set (s' := fst (mstep c e s ev)) in *. set (o' := snd (mstep c e s ev)) in *. clearbody s' o'.
  assert (AC : forall p, In p (acc_of o) \/ In (OAcc p) o' -> In p (acc_of (o ++ o'))).
  { intros p H. rewrite acc_app. apply in_or_app. rewrite (in_acc p o'). auto. }
  assert (SN : forall p, In p (snd_of o) \/ In (OSnd p) o' -> In p (snd_of (o ++ o'))).
  { intros p H. rewrite snd_app. apply in_or_app. rewrite (in_snd p o'). auto. }
  assert (SD : forall p, In (OSnd p) o' -> In p (m_queue s) \/ (exists t, In t (m_timers s) /\ mt_kind t = MKSendData p) -> In p (acc_of o)).
  { intros p _ [H|[t [T1 T2]]]; [eapply g_queue; eauto|eapply g_sdata; eauto]. }
  split.
  - intros f F. apply SN. destruct (air_new c e s ev s' o' f C F); auto. left. eapply g_air; eauto.
  - intros p P. apply AC. destruct (data_new c e s ev s' o' p C P) as [H|[H|[H|[H|[t [T1 T2]]]]]]; auto; left.
    + eapply g_data; eauto.
    + eapply g_queue; eauto.
    + eapply g_rec; eauto.
    + eapply g_sdata; eauto.
  - intros p P. apply AC. apply in_map_iff in P. destruct P as [r [<- P]].
    destruct (rec_new c e s ev s' o' r C P) as [H|[[_ H]|[r0 [H [-> _]]]]]; auto; left; eapply g_rec; eauto; apply in_map; auto.
  - intros p P. apply AC. destruct (queue_new c e s ev s' o' p C P); auto. left. eapply g_queue; eauto.
  - intros t p T K. apply AC. left. destruct (timer_new c e s ev s' o' t C T) as [H|[H _]]; [eapply g_sdata; eauto|].
    rewrite K in H. inversion H; subst.
    assert (SCN : forall sq l d, scan sq d l = Some p -> d = Some p \/ In p (map mr_pkt l)).
    { intros sq l. induction l as [|r l IH]; intros d Y; cbn in Y; auto. destruct (_ =? _).
      - injection Y as <-. right. left. auto.
      - destruct (IH _ Y) as [X|X]; [injection X as <-; right; left; auto|right; right; auto]. }
    match goal with X : scan _ _ _ = _ |- _ => apply SCN in X; destruct X as [X|X] end; [eapply g_data; eauto|eapply g_rec; eauto].
  - intros f F. rewrite snd_app in F. apply in_app_or in F. destruct F as [F|F].
    + destruct (g_snd _ _ _ _ G f F) as [H|H]; auto.
    + apply in_snd in F. destruct (snd_new c e s ev s' o' f C F) as [_ [_ [[H _]|[H|[H1 H2]]]]].
      * left. apply AC. left. eapply g_queue; eauto.
      * left. apply AC. left. eapply SD; eauto.
      * right. split; auto. destruct H2 as [[-> _]|[[-> _]|[-> _]]]; discriminate.
  - intros x X. destruct (ack_new c e s ev s' o' x C X) as [H|[p [H1 [H2 [H3 [_ H4]]]]]].
    + apply sent_more. eapply g_ack; eauto.
    + exists p. repeat split; auto.
  - intros t q T K. destruct (timer_new c e s ev s' o' t C T) as [H|[H _]].
    + destruct (g_done _ _ _ _ G t q H K). auto using sent_more, heard_more.
    + rewrite K in H. inversion H; subst. split.
      * apply sent_more. match goal with X : In (_, u) (m_ack s) |- _ => exact (g_ack _ _ _ _ G _ X) end.
      * exists f. rewrite rcv_app. repeat split; auto. apply in_or_app. right. left. auto.
  - intros r R. rewrite tmo_app. destruct (rec_new c e s ev s' o' r C R) as [H|[[H1 H2]|[r0 [H1 [H2 [H3 H4]]]]]].
    + pose proof (g_retry _ _ _ _ G r H). lia.
    + lia.
    + pose proof (g_retry _ _ _ _ G r0 H1). apply tmo_in in H4. rewrite H2, H3. split; [apply Z.mod_pos_bound; lia|].
      pose proof (wrap16_le (mr_retry r0 + 1)). lia.
  - intros t q T K. rewrite tmo_app. destruct (timer_new c e s ev s' o' t C T) as [H|[H _]].
    + pose proof (g_drop _ _ _ _ G t q H K). lia.
    + rewrite K in H. inversion H; subst. match goal with X : In r (m_rec s) |- _ => pose proof (g_retry _ _ _ _ G r X) end.
      match goal with X : In (OTmo _) o' |- _ => apply tmo_in in X end. pose proof (wrap16_le (mr_retry r + 1)). lia.
  - intros p P. rewrite rep_app in P. apply in_app_or in P. destruct P as [P|P].
    + destruct (g_ok _ _ _ _ G p P) as [p' [A [B [D E]]]]. exists p'. repeat split; auto using heard_more.
    + apply in_rep in P. destruct (rep_new c e s ev s' o' true p C P) as [_ [[t [T1 T2]]|[_ [f [F1 [F2 [F3 F4]]]]]]].
      * destruct (g_done _ _ _ _ G t _ T1 T2) as [[p' [A [B [D E]]]] HA]. exists p'. repeat split; auto using heard_more.
      * pose proof (g_air _ _ _ _ G f F1) as FA. exists f. repeat split; auto; try contradiction.
        destruct (g_snd _ _ _ _ G f FA) as [X|[_ X]]; [auto|contradiction].
  - intros p P. rewrite rep_app in P. rewrite tmo_app. apply in_app_or in P. destruct P as [P|P].
    + pose proof (g_bad _ _ _ _ G p P). lia.
    + apply in_rep in P. destruct (rep_new c e s ev s' o' false p C P) as [_ [[t [T1 T2]]|[X _]]]; [|discriminate X].
      pose proof (g_drop _ _ _ _ G t _ T1 T2). lia.
Qed.

Lemma gen_reach c q0 h s o : mreach c q0 h s o -> Gen c h s o.
Proof.
  induction 1 as [|h s o e ev R IH]; [|apply gen_step, IH].
  split; cbn; try contradiction; try discriminate; intros t; [intros p|intros q|intros q]; intros [<-|[]]; discriminate.
Qed.
