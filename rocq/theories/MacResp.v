(** Responses, deliveries and the duplicate filter of the macro MAC. *)
From Coq Require Import ZArith List Lia Bool Permutation Sorted.
From Verif Require Import Base HeaderModel SeqModel SeqSpec SeqProofs EnergyModel MacModel MacSpec MacProofs MacAcct MacSteps MacInv.
Import ListNotations.
Open Scope Z_scope.

(** ** Numbers are unique up to 65536 packets *)
Lemma wrap16_inj q i j : 0 <= i < 65536 -> 0 <= j < 65536 -> wrap16 (q + i) = wrap16 (q + j) -> i = j.
Proof.
  unfold wrap16. intros I J E. change (2 ^ 16) with 65536 in *.
  pose proof (Z.div_mod (q + i) 65536 ltac:(lia)). pose proof (Z.div_mod (q + j) 65536 ltac:(lia)). rewrite E in *.
  assert (65536 * ((q + i) / 65536 - (q + j) / 65536) = i - j) by lia. assert ((q + i) / 65536 - (q + j) / 65536 = 0) by nia. lia.
Qed.
Lemma unique_num c q0 s o p p' : Acct c q0 s o -> Z.of_nat (length (acc_of o)) <= 65536 -> In p (acc_of o) -> In p' (acc_of o) ->
  mf_seq p = mf_seq p' -> p = p'.
Proof.
  intros A L P P' E. apply In_nth_error in P, P'. destruct P as [i I], P' as [j J].
  assert (X := nth_error_Some (acc_of o) i). assert (Y := nth_error_Some (acc_of o) j). rewrite I in X. rewrite J in Y.
  destruct X as [X _], Y as [Y _]. specialize (X ltac:(discriminate)). specialize (Y ltac:(discriminate)).
  pose proof (ac_num _ _ _ _ A i p I). pose proof (ac_num _ _ _ _ A j p' J).
  assert (Z.of_nat i = Z.of_nat j) by (apply (wrap16_inj (q0 + 1)); try lia; congruence).
  assert (i = j) by lia. congruence.
Qed.

(** ** Counting responses *)
Definition count {A} (P : A -> bool) (l : list A) : nat := length (filter P l).
Lemma count_app {A} (P : A -> bool) a b : count P (a ++ b) = (count P a + count P b)%nat.
Proof. unfold count. rewrite filter_app, app_length. auto. Qed.
Lemma count_zero {A} (P : A -> bool) l : (forall x, In x l -> P x = false) -> count P l = 0%nat.
Proof. unfold count. induction l as [|x l IH]; intros H; auto. cbn. rewrite H by (left; auto). apply IH. intros. apply H. right. auto. Qed.
Lemma count_filter {A} (P Q : A -> bool) l : (count P (filter Q l) <= count P l)%nat.
Proof. unfold count. induction l as [|x l IH]; cbn; auto. destruct (Q x); cbn; destruct (P x); cbn; lia. Qed.
Lemma count_remove {A} (P : A -> bool) i : forall l x, nth_error l i = Some x ->
  (count P (remove_nth i l) + (if P x then 1 else 0) = count P l)%nat.
Proof.
  unfold count. induction i as [|i IH]; intros [|y l] x H; cbn in H |- *; try discriminate.
  - injection H as ->. destruct (P x); cbn; lia.
  - specialize (IH l x H). destruct (P y); cbn; lia.
Qed.

(** [ack]: acknowledgements, otherwise CTS. *)
Definition pk (ack : bool) (a : addr) (q : Z) (k : mkind) : bool :=
  match k with
  | MKSendAck a' q' => ack && (a' =? a) && (q' =? q)
  | MKSendCts a' _ q' => negb ack && (a' =? a) && (q' =? q)
  | _ => false
  end.
Definition resp (ack : bool) (a : addr) (q : Z) (f : mframe) : bool :=
  (mf_type f =? (if ack then T_ACK else T_CTS)) && (mf_dst f =? a) && (mf_seq f =? q).
Definition req (ack : bool) (me a : addr) (q : Z) (f : mframe) : bool :=
  (mf_type f =? (if ack then T_DATA else T_RTS)) && (mf_dst f =? me) && (mf_src f =? a) && (mf_seq f =? q).
Definition pend (P : mkind -> bool) (s : mst) : nat := count (fun t => P (mt_kind t)) (m_timers s).

Lemma pk_idle ack a q k : idle_kind k -> pk ack a q k = false.
Proof. intros [->| ->]; auto. Qed.
Lemma tail_pend ack a q s s' : tail s s' -> pend (pk ack a q) s' = pend (pk ack a q) s.
Proof.
  intros [_ [_ [_ [_ [_ [_ [_ [_ [[l [L1 L2]] _]]]]]]]]]. unfold pend. rewrite L1, count_app.
  rewrite (count_zero _ l); [lia|]. intros t T. rewrite Forall_forall in L2. apply pk_idle. apply L2; auto.
Qed.
Lemma sched_pend ack a q d k s : pend (pk ack a q) (msched d k s) = (pend (pk ack a q) s + (if pk ack a q k then 1 else 0))%nat.
Proof. unfold pend. ss. rewrite count_app. unfold count at 2. cbn. destruct (pk ack a q k); auto. Qed.
Lemma cancel_pend P u s : (pend P (mcancel u s) <= pend P s)%nat.
Proof. unfold pend. ss. apply count_filter. Qed.
Lemma fired_pend P i t s : nth_error (m_timers s) i = Some t ->
  (pend P (set_timers (remove_nth i (m_timers s)) s) + (if P (mt_kind t) then 1 else 0) = pend P s)%nat.
Proof. intros H. unfold pend. ss. apply (count_remove (fun t => P (mt_kind t))). auto. Qed.

(** Additions to the timers of kinds that are no responses do not count. *)
Lemma bump_pend ack a q e sq : forall l s, pend (pk ack a q) (snd (bump e sq l s)) = pend (pk ack a q) s.
Proof.
  induction l as [|r l IH]; intros s; cbn [bump snd]; auto.
  destruct (_ =? _).
  - destruct (5 <=? _).
    + destruct (bump e sq l (msched psec (MKDone false sq) (set_queue (mremove (mr_pkt r) (m_queue s)) s))) as [t' s2] eqn:B.
      cbn [snd]. specialize (IH (msched psec (MKDone false sq) (set_queue (mremove (mr_pkt r) (m_queue s)) s))). rewrite B in IH. cbn [snd] in IH.
      rewrite IH, sched_pend. cbn [pk]. rewrite Nat.add_0_r. reflexivity.
    + match goal with |- context [bump e sq l ?x] => destruct (bump e sq l x) as [t' s2] eqn:B; specialize (IH x); rewrite B in IH end.
      cbn [snd] in *. rewrite IH, sched_pend. cbn [pk]. rewrite Nat.add_0_r. reflexivity.
  - destruct (bump e sq l s) as [t' s2] eqn:B. specialize (IH s). rewrite B in IH. exact IH.
Qed.
Lemma tmo_pend ack a q e sq s : pend (pk ack a q) (fst (timeout e sq s)) = pend (pk ack a q) s.
Proof.
  unfold timeout. pose proof (bump_pend ack a q e sq (m_rec s) (set_state MIdle s)) as B.
  destruct (bump e sq (m_rec s) (set_state MIdle s)) as [l s1]. cbn [fst snd] in *. exact B.
Qed.
Lemma times_pend ack a q n : forall s, pend (pk ack a q) (times n (msched 0 MKResult) s) = pend (pk ack a q) s.
Proof. induction n as [|n IH]; intros s; cbn [times]; auto. rewrite IH, sched_pend. cbn [pk]. lia. Qed.
Lemma sdd_pend ack a q ok sq s : pend (pk ack a q) (fst (send_data_done ok sq s)) = pend (pk ack a q) s.
Proof.
  unfold send_data_done. destruct (done_loop _ _ _ _) as [[[[[l qq] d] k] em] ub]. destruct (k =? 0); auto. cbn [fst].
  transitivity (pend (pk ack a q) (times (Z.to_nat k) (msched 0 MKResult) s)); [|apply times_pend].
  unfold pend. destruct (Z.of_nat (length d) =? 0), ok; ss; reflexivity.
Qed.

Lemma hush_snd c o : hush c o -> snd_of o = [].
Proof. intros H. apply hush_facts in H. apply H. Qed.
Lemma fwd_snd f s : snd_of (snd (forward_new f s)) = [].
Proof. rewrite (proj1 (forward_out f s)). destruct (fst _); auto. Qed.
Lemma sdd_snd ok sq s : snd_of (snd (send_data_done ok sq s)) = [].
Proof.
  destruct (snd_of (snd (send_data_done ok sq s))) as [|f l] eqn:E; auto. exfalso.
  apply (sdd_no ok sq s f). apply in_snd. rewrite E. left. auto.
Qed.

Lemma count_nil {A} (P : A -> bool) : count P [] = 0%nat.
Proof. reflexivity. Qed.
Ltac fin0 := repeat change (snd_of []) with (@nil mframe); cbn [snd_of flat_map app pk mt_kind]; rewrite ?count_nil.
Ltac fin := fin0; lia.

Lemma resp_step c e s ev s' o ack a n : scase c e s ev s' o ->
  (forall p, In p (m_queue s) -> mf_type p = T_DATA) -> (forall t p, In t (m_timers s) -> mt_kind t = MKSendData p -> mf_type p = T_DATA) ->
  (count (resp ack a n) (snd_of o) + pend (pk ack a n) s' <= pend (pk ack a n) s + count (req ack (mc_addr c) a n) (rcv_of [ev]))%nat.
Proof.
  intros C QD TD.
  assert (DN : forall p, mf_type p = T_DATA -> count (resp ack a n) [p] = 0%nat).
  { intros p D. unfold count, resp. cbn [filter]. rewrite D. destruct ack; reflexivity. }
  assert (CC : forall p l, count (resp ack a n) (p :: l) = (count (resp ack a n) [p] + count (resp ack a n) l)%nat) by (intros; apply (count_app _ [p])).
  scd C; cbn [fst snd] in *; try lia; try (rewrite (tail_pend _ _ _ _ _ TL), (hush_snd _ _ HU); cbn [snd] in *; unfold pend; ss; fin).
  - fin.
  - destruct (enq_spec c size dst junk s L) as [E [_ [_ [_ [_ [_ [_ [_ [_ [_ [_ [_ [_ [_ [_ [_ [_ [_ [_ [_ TM]]]]]]]]]]]]]]]]]]]].
    rewrite E. unfold pend. rewrite TM, count_app. fin0.
    destruct (m_rot s); cbn; [|lia]. pose proof (count_filter (fun t => pk ack a n (mt_kind t)) (fun t => negb (mt_id t =? z)) (m_timers s)). lia.
  - unfold pend; ss; fin.
  - fin.
  - rewrite snd_app, sdd_snd, (hush_snd _ _ HU), (tail_pend _ _ _ _ _ TL), E1, sdd_pend. unfold pend; ss; fin.
  - rewrite (tail_pend _ _ _ _ _ TL), (hush_snd _ _ HU). fin0. destruct TB as [TB|[u [_ [_ TB]]]]; rewrite (tail_pend _ _ _ _ _ TB); [lia|].
    pose proof (cancel_pend (pk ack a n) u s). lia.
  - rewrite sched_pend, (hush_snd _ _ HU). cbn [pk rcv_of flat_map app].
    replace (pend (pk ack a n) (set_state MWaitTx s1)) with (pend (pk ack a n) s1) by reflexivity. rewrite (tail_pend _ _ _ _ _ TL).
    unfold count, req. cbn [filter length]. rewrite TY, D. destruct ack; cbn [negb andb]; [cbn; lia|]. rewrite !Z.eqb_refl.
    destruct (mf_src f =? a), (mf_seq f =? n); cbn; lia.
  - rewrite sched_pend, (hush_snd _ _ HU). cbn [pk]. 
    replace (pend (pk ack a n) (set_cts (erase1 (fun x => fst x =? mf_seq f) (m_cts s1)) (set_state MWaitTx (mcancel u s1)))) with (pend (pk ack a n) (mcancel u s1)) by reflexivity.
    pose proof (cancel_pend (pk ack a n) u s1). rewrite (tail_pend _ _ _ _ _ TL) in H. revert H. unfold pend; ss; fin.
  - rewrite snd_app, (hush_snd _ _ HU).
    replace (pend (pk ack a n) (set_cts (erase1 (fun x => fst x =? mf_seq f) (m_cts s1)) (set_state MWaitTx (mcancel u s1)))) with (pend (pk ack a n) (mcancel u s1)) by reflexivity.
    pose proof (cancel_pend (pk ack a n) u s1). rewrite (tail_pend _ _ _ _ _ TL) in H. revert H. unfold pend; ss; fin.
  - subst o1 s1. rewrite snd_app, fwd_snd, (hush_snd _ _ HU), (tail_pend _ _ _ _ _ TL). destruct (forward_out f (set_state MIdle s)) as [_ ->]. unfold pend; ss; fin.
  - rewrite snd_app, fwd_snd, (hush_snd _ _ HU). destruct (forward_out f s2) as [_ ->].
    replace (pend (pk ack a n) (set_filter (snd (is_new (m_filter s2) (mf_src f) (mf_seq f))) s2)) with (pend (pk ack a n) s2) by reflexivity.
    subst s2. rewrite sched_pend. cbn [pk rcv_of flat_map app].
    replace (pend (pk ack a n) (set_state MWaitTx s1)) with (pend (pk ack a n) s1) by reflexivity. rewrite (tail_pend _ _ _ _ _ TL).
    unfold count, req. cbn [filter length]. rewrite TY, D. destruct ack; cbn [negb andb]; [|cbn; lia]. rewrite !Z.eqb_refl.
    destruct (mf_src f =? a), (mf_seq f =? n); cbn; lia.
  - match goal with |- context [set_ack ?x ?y] => replace (pend (pk ack a n) (set_ack x y)) with (pend (pk ack a n) y) by reflexivity end.
    rewrite sched_pend. cbn [pk]. pose proof (cancel_pend (pk ack a n) u (set_state MIdle (set_state MIdle s))). revert H. unfold pend; ss; fin.
  - destruct (mild_cca c e (set_timers (remove_nth i (m_timers s)) s)) as [TL _]. rewrite (tail_pend _ _ _ _ _ TL).
    pose proof (fired_pend (pk ack a n) i x s FN). fin.
  - assert (X : pend (pk ack a n) (fst (backoff_start e (set_timers (remove_nth i (m_timers s)) s))) = pend (pk ack a n) (set_timers (remove_nth i (m_timers s)) s)).
    { unfold backoff_start. cbv zeta. destruct (_ =? _), (_ || _); cbn [fst]; rewrite sched_pend; cbn [pk]; rewrite Nat.add_0_r; reflexivity. }
    rewrite X. pose proof (fired_pend (pk ack a n) i x s FN). fin.
  - pose proof (fired_pend (pk ack a n) i x s FN). fin.
  - rewrite (tail_pend _ _ _ _ _ TL), (hush_snd _ _ HU). pose proof (fired_pend (pk ack a n) i x s FN). revert H. unfold pend; ss; fin.
  - cbn [snd_of flat_map app]. fold (snd_of o). rewrite (hush_snd _ _ HU), sched_pend. cbn [pk].
    replace (pend (pk ack a n) (set_cts (m_cts s1 ++ [(mf_seq p, m_uid s1)]) s1)) with (pend (pk ack a n) s1) by reflexivity. rewrite (tail_pend _ _ _ _ _ TL).
    assert (R : count (resp ack a n) [f] = 0%nat) by (subst f; unfold count, resp; cbn [filter mctrl mf_type]; destruct ack; reflexivity). rewrite R.
    pose proof (fired_pend (pk ack a n) i x s FN). revert H. unfold pend, after; ss; fin.
  - cbn [snd_of flat_map app]. fold (snd_of o). rewrite (hush_snd _ _ HU), (tail_pend _ _ _ _ _ TL), DN by (apply QD; rewrite Q; left; auto).
    pose proof (fired_pend (pk ack a n) i x s FN). revert H. unfold pend, after; ss; fin.
  - cbn [snd_of flat_map app]. fold (snd_of o). rewrite (hush_snd _ _ HU), sched_pend. cbn [pk].
    replace (pend (pk ack a n) (set_ack (m_ack s1 ++ [(mf_seq p, m_uid s1)]) s1)) with (pend (pk ack a n) s1) by reflexivity. rewrite (tail_pend _ _ _ _ _ TL).
    rewrite DN. 2: { destruct K as [[_ [_ [qq K]]]|K]; [apply QD; rewrite K; left; auto|eapply TD; eauto using nth_error_In]. }
    pose proof (fired_pend (pk ack a n) i x s FN). revert H. unfold pend, after; ss; fin.
  - cbn [snd_of flat_map app]. fold (snd_of o). rewrite (hush_snd _ _ HU), (tail_pend _ _ _ _ _ TL), DN by (eapply TD; eauto using nth_error_In).
    pose proof (fired_pend (pk ack a n) i x s FN). revert H. unfold pend, after; ss; fin.
  - pose proof (fired_pend (pk ack a n) i x s FN). revert H. unfold pend; ss; fin.
  - rewrite (tail_pend _ _ _ _ _ TL), (hush_snd _ _ HU). pose proof (fired_pend (pk ack a n) i x s FN). revert H. unfold pend; ss; fin.
  - rewrite tmo_pend, (proj1 (timeout_spec e sq s1)). cbn [snd_of flat_map app]. fin0.
    assert (X : pend (pk ack a n) s1 = pend (pk ack a n) (set_timers (remove_nth i (m_timers s)) s)) by (destruct K as [[_ ->]|[_ ->]]; reflexivity).
    rewrite X. pose proof (fired_pend (pk ack a n) i x s FN). lia.
  - cbn [snd_of flat_map app]. fold (snd_of o). rewrite (hush_snd _ _ HU), (tail_pend _ _ _ _ _ TL).
    pose proof (fired_pend (pk ack a n) i x s FN) as H.
    assert (R : (count (resp ack a n) [f] <= if pk ack a n (mt_kind x) then 1 else 0)%nat).
    { unfold count, resp. cbn [filter]. destruct K as [[dst [dur [sq [K [T1 [T2 T3]]]]]]|[dst [sq [K [T1 [T2 T3]]]]]]; rewrite K, T1, T2, T3; cbn [pk]; destruct ack; cbn [negb andb]; 
      rewrite ?Z.eqb_refl; cbn [andb]; try (change (T_CTS =? T_ACK) with false; cbn; lia); try (change (T_ACK =? T_CTS) with false; cbn; lia); destruct (_ =? _), (_ =? _); cbn; lia. }
    revert H R. unfold pend, after; ss; fin.
  - cbn [snd_of flat_map app]. fold (snd_of o). rewrite (hush_snd _ _ HU), (tail_pend _ _ _ _ _ TL).
    pose proof (fired_pend (pk ack a n) i x s FN) as H.
    assert (R : (count (resp ack a n) [f] <= if pk ack a n (mt_kind x) then 1 else 0)%nat).
    { unfold count, resp. cbn [filter]. rewrite K, TY, D, SQ; cbn [pk]; destruct ack; cbn [negb andb]; rewrite ?Z.eqb_refl; cbn [andb];
      try (change (T_ACK =? T_CTS) with false; cbn; lia); destruct (_ =? _), (_ =? _); cbn; lia. }
    revert H R. unfold pend, after; ss; fin.
  - rewrite (tail_pend _ _ _ _ _ TL), (hush_snd _ _ HU). pose proof (fired_pend (pk ack a n) i x s FN). revert H. unfold pend; ss; fin.
  - rewrite sdd_snd, sdd_pend. pose proof (fired_pend (pk ack a n) i x s FN). revert H. fin.
  - pose proof (fired_pend (pk ack a n) i x s FN). revert H. replace (snd_of (if m_res s then [] else [OUb])) with (@nil mframe) by (destruct (m_res s); auto). fin.
  - rewrite sched_pend. cbn [pk]. pose proof (fired_pend (pk ack a n) i x s FN). revert H. unfold pend; ss; fin.
Qed.

Lemma resp_reach c q0 h s o ack a q : u16 q0 -> mreach c q0 h s o ->
  (count (resp ack a q) (snd_of o) + pend (pk ack a q) s <= count (req ack (mc_addr c) a q) (rcv_of h))%nat.
Proof.
  intros U R. induction R as [|h s o e ev R IH].
  - destruct ack; cbn; lia.
  - pose proof (cases c e s ev) as C. pose proof (gen_reach _ _ _ _ _ R) as G. pose proof (acct_reach _ _ _ _ _ U R) as A.
    pose proof (resp_step c e s ev _ _ ack a q C) as S.
    rewrite snd_app, rcv_app, !count_app.
    assert (X : (count (resp ack a q) (snd_of (snd (mstep c e s ev))) + pend (pk ack a q) (fst (mstep c e s ev)) <=
       pend (pk ack a q) s + count (req ack (mc_addr c) a q) (rcv_of [ev]))%nat); [|lia].
    apply S.
    + intros p P. apply (ac_data _ _ _ _ A). eapply g_queue; eauto.
    + intros t p T K. apply (ac_data _ _ _ _ A). eapply g_sdata; eauto.
Qed.

(** ** Deliveries *)
Definition nums (a : addr) (l : list mframe) : list Z := map mf_seq (filter (fun f => mf_src f =? a) l).
Lemma nums_app a l l' : nums a (l ++ l') = nums a l ++ nums a l'.
Proof. unfold nums. rewrite filter_app, map_app. auto. Qed.

Lemma hush_up c o : hush c o -> up_of o = [].
Proof. intros H. apply hush_facts in H. apply H. Qed.
Lemma sdd_up ok sq s : up_of (snd (send_data_done ok sq s)) = [].
Proof.
  destruct (sdd_spec ok sq s) as [l [q [d [k [em [ub D]]]]]]. cbv zeta in D.
  destruct D as [_ [_ [_ [_ [_ [_ [_ [_ [_ [_ [_ [_ [_ [_ [_ [_ [_ [_ [_ [_ [_ [_ DO]]]]]]]]]]]]]]]]]]]]]].
  apply done_out in DO. apply DO.
Qed.

Lemma filt_new c e s ev s' o : scase c e s ev s' o ->
  (m_filter s' = m_filter s /\ up_of o = [] /\ (forall f, ev = ERxEnd f true -> mf_type f = T_DATA -> mf_dst f = mc_addr c -> mf_dst f <> bcast -> m_air s <> None)) \/
  (exists f, ev = ERxEnd f true /\ m_air s = None /\ mf_type f = T_DATA /\ (mf_dst f = mc_addr c \/ mf_dst f = bcast) /\
     m_filter s' = snd (is_new (m_filter s) (mf_src f) (mf_seq f)) /\
     up_of o = (if fst (is_new (m_filter s) (mf_src f) (mf_seq f)) then [f] else [])).
Proof.
  intros C.
  assert (X : (m_filter s' = m_filter s /\ up_of o = []) /\ (forall f, ev = ERxEnd f true -> mf_type f = T_DATA -> mf_dst f = mc_addr c -> mf_dst f <> bcast -> m_air s <> None) \/
  (exists f, ev = ERxEnd f true /\ m_air s = None /\ mf_type f = T_DATA /\ (mf_dst f = mc_addr c \/ mf_dst f = bcast) /\
     m_filter s' = snd (is_new (m_filter s) (mf_src f) (mf_seq f)) /\
     up_of o = (if fst (is_new (m_filter s) (mf_src f) (mf_seq f)) then [f] else []))); [|tauto].
  scd C; cbn [fst snd] in *;
    try (left; split; [|intros g EV GT GD GB; try discriminate EV; first [exact (N4 _ _ EV)|inversion EV; subst; first [rewrite GT in TY; discriminate TY|destruct (IGN eq_refl GT); contradiction]]]); auto;
    try (split; [ss; rewrite (tail_filter _ _ TL); reflexivity|exact (hush_up _ _ HU)]).
  - destruct (enq_keeps c size dst junk s L) as [_ [_ [_ [_ [_ [_ [_ [_ [_ [-> _]]]]]]]]]]. destruct (enq_spec c size dst junk s L) as [-> _]. auto.
  - rewrite up_app, sdd_up, (hush_up _ _ HU), (tail_filter _ _ TL), E1.
    destruct (sdd_keeps true (mf_seq f) (set_state MIdle (set_air None s))) as [_ [_ [_ [_ [_ [_ [_ [_ [_ [-> _]]]]]]]]]]. auto.
  - rewrite (hush_up _ _ HU), (tail_filter _ _ TL). destruct TB as [TB|[u [_ [_ TB]]]]; rewrite (tail_filter _ _ TB); auto.
  - ss. rewrite up_app, (hush_up _ _ HU), (tail_filter _ _ TL). auto.
  - right. exists f. subst o1 s1. rewrite up_app, (hush_up _ _ HU), (tail_filter _ _ TL), app_nil_r.
    destruct (forward_out f (set_state MIdle s)) as [-> ->]. ss. repeat split; auto. destruct (fst (is_new _ _ _)); auto.
  - right. exists f. rewrite up_app, (hush_up _ _ HU). destruct (forward_out f s2) as [-> ->]. subst s2. ss. rewrite (tail_filter _ _ TL).
    repeat split; auto. cbn [app]. destruct (fst (is_new _ _ _)); auto.
  - destruct (mild_cca c e (set_timers (remove_nth i (m_timers s)) s)) as [TL _]. rewrite (tail_filter _ _ TL). auto.
  - destruct (bo_keeps e (set_timers (remove_nth i (m_timers s)) s)) as [_ [_ [_ [_ [_ [_ [_ [-> _]]]]]]]]. auto.
  - destruct (tmo_keeps e sq s1) as [_ [_ [_ [_ [_ [_ [_ [_ [_ [-> _]]]]]]]]]]. rewrite (proj1 (timeout_spec e sq s1)).
    split; auto. destruct K as [[_ ->]|[_ ->]]; auto.
  - rewrite sdd_up. destruct (sdd_keeps ok sq (set_timers (remove_nth i (m_timers s)) s)) as [_ [_ [_ [_ [_ [_ [_ [_ [_ [-> _]]]]]]]]]]. auto.
  - split; auto. destruct (m_res s); auto.
Qed.

Definition known (s : mst) (a : addr) (q : Z) : Prop := exists m, lookup (m_filter s) a = Some m /\ q <= m.
Definition heard_data (c : mcfg) (h : list mevent) (a : addr) (q : Z) : Prop :=
  exists f, In f (rcv_of h) /\ mf_type f = T_DATA /\ mf_dst f = mc_addr c /\ mf_src f = a /\ mf_seq f = q.
Record Filt (c : mcfg) (h : list mevent) (s : mst) (o : list mout) : Prop := {
  f_up : forall f, In f (up_of o) -> In f (rcv_of h) /\ mf_type f = T_DATA /\ (mf_dst f = mc_addr c \/ mf_dst f = bcast);
  f_sorted : forall a, StronglySorted Z.lt (nums a (up_of o));
  f_look : forall a, match lookup (m_filter s) a with
             | None => nums a (up_of o) = []
             | Some m => In m (nums a (up_of o)) /\ Forall (fun x => x <= m) (nums a (up_of o)) end;
  f_pend : forall t a q, In t (m_timers s) -> mt_kind t = MKSendAck a q -> known s a q /\ heard_data c h a q;
  f_sent : forall f, In f (snd_of o) -> mf_type f = T_ACK -> known s (mf_dst f) (mf_seq f) /\ heard_data c h (mf_dst f) (mf_seq f) }.

Lemma known_step c e s ev s' o a q : scase c e s ev s' o -> known s a q -> known s' a q.
Proof.
  intros C [m [M1 M2]]. destruct (filt_new c e s ev s' o C) as [[E [_ _]]|[f [_ [_ [_ [_ [E _]]]]]]]; unfold known; rewrite E; eauto.
  rewrite is_new_lookup. destruct (Z.eqb_spec (mf_src f) a) as [->|N]; eauto. rewrite M1. eexists. split; eauto. lia.
Qed.
Lemma hdata_more c h ev a q : heard_data c h a q -> heard_data c (h ++ [ev]) a q.
Proof. intros [f [F1 F2]]. exists f. split; auto. rewrite rcv_app. apply in_or_app. auto. Qed.

Lemma ssorted_snoc l x : StronglySorted Z.lt l -> Forall (fun y => y < x) l -> StronglySorted Z.lt (l ++ [x]).
Proof.
  induction 1 as [|y l S IH F]; intros A; cbn; [repeat constructor|]. inversion A; subst. constructor; auto.
  apply Forall_app. split; auto.
Qed.

Lemma filt_step c q0 h s o e ev : u16 q0 -> mreach c q0 h s o -> Filt c h s o ->
  Filt c (h ++ [ev]) (fst (mstep c e s ev)) (o ++ snd (mstep c e s ev)).
Proof.
  intros U R F. pose proof (cases c e s ev) as C. pose proof (gen_reach _ _ _ _ _ R) as G. pose proof (acct_reach _ _ _ _ _ U R) as A.
  set (s' := fst (mstep c e s ev)) in *. set (o' := snd (mstep c e s ev)) in *. clearbody s' o'.
  pose proof (filt_new c e s ev s' o' C) as N.
  split.
  - intros f I. rewrite up_app in I. apply in_app_or in I. destruct I as [I|I].
    + destruct (f_up _ _ _ _ F f I) as [X Y]. split; auto. rewrite rcv_app. apply in_or_app. auto.
    + destruct N as [[_ [N _]]|[g [-> [_ [T [D [_ N]]]]]]]; rewrite N in I; [destruct I|]. destruct (fst _); [|destruct I]. destruct I as [<-|[]].
      split; auto. rewrite rcv_app. apply in_or_app. right. left. auto.
  - intros a. rewrite up_app, nums_app. pose proof (f_sorted _ _ _ _ F a) as S. pose proof (f_look _ _ _ _ F a) as L.
    destruct N as [[_ [N _]]|[g [-> [_ [T [D [_ N]]]]]]]; rewrite N; [cbn; rewrite app_nil_r; auto|].
    rewrite is_new_fst. unfold nums at 2. destruct (lookup (m_filter s) (mf_src g)) as [m|] eqn:LK.
    + rewrite Z.gtb_ltb. destruct (Z.ltb_spec m (mf_seq g)) as [M|M]; [|cbn; rewrite app_nil_r; auto]. cbn [filter].
      destruct (Z.eqb_spec (mf_src g) a) as [<-|]; [|cbn; rewrite app_nil_r; auto]. cbn [map]. rewrite LK in L. destruct L as [_ L].
      apply ssorted_snoc; auto. eapply Forall_impl; [|exact L]. cbn. intros; lia.
    + cbn [filter]. destruct (Z.eqb_spec (mf_src g) a) as [<-|]; [|cbn; rewrite app_nil_r; auto]. rewrite LK in L. rewrite L. cbn. repeat constructor.
  - intros a. rewrite up_app, nums_app. pose proof (f_look _ _ _ _ F a) as L.
    destruct N as [[E [N NO]]|[g [-> [_ [T [D [E N]]]]]]]; rewrite E, N; [cbn; rewrite app_nil_r; auto|].
    rewrite is_new_fst, is_new_lookup. unfold nums at 2 4 6. destruct (Z.eqb_spec (mf_src g) a) as [<-|NE].
    + destruct (lookup (m_filter s) (mf_src g)) as [m|] eqn:LK.
      * destruct L as [L1 L2]. rewrite Z.gtb_ltb. destruct (Z.ltb_spec m (mf_seq g)) as [M|M]; cbn [filter].
        -- rewrite Z.eqb_refl. cbn [map]. rewrite Z.max_l by lia. split; [apply in_or_app; right; left; auto|].
           apply Forall_app. split; [eapply Forall_impl; [|exact L2]; cbn; intros; lia|]. constructor; auto. lia.
        -- cbn. rewrite app_nil_r, Z.max_r by lia. auto.
      * rewrite L. cbn [filter]. rewrite Z.eqb_refl. cbn. split; auto. constructor; auto. lia.
    + assert (X : filter (fun f => mf_src f =? a) (if match lookup (m_filter s) (mf_src g) with Some s'0 => mf_seq g >? s'0 | None => true end then [g] else []) = []).
      { destruct (match lookup (m_filter s) (mf_src g) with Some s'0 => mf_seq g >? s'0 | None => true end); cbn; auto.
        destruct (Z.eqb_spec (mf_src g) a); [contradiction|auto]. }
      rewrite X. cbn [map]. rewrite app_nil_r. auto.
  - intros t a q T K. destruct (timer_new c e s ev s' o' t C T) as [H|[H _]].
    + destruct (f_pend _ _ _ _ F t a q H K). split; [eapply known_step; eauto|apply hdata_more; auto].
    + rewrite K in H. inversion H as [| | | | | | | |f EV AN TY DD NB| | |]; subst. split.
      * destruct N as [[E [N NO]]|[g [EV [_ [T' [D [E N]]]]]]].
        -- exfalso. eapply NO; eauto.
        -- injection EV as <-. unfold known. rewrite E, is_new_lookup, Z.eqb_refl. eexists. split; [reflexivity|].
           destruct (lookup _ _); lia.
      * exists f. rewrite rcv_app. repeat split; auto. apply in_or_app. right. left. auto.
  - intros f I TY. rewrite snd_app in I. apply in_app_or in I. destruct I as [I|I].
    + destruct (f_sent _ _ _ _ F f I TY). split; [eapply known_step; eauto|apply hdata_more; auto].
    + apply in_snd in I. destruct (snd_new c e s ev s' o' f C I) as [_ [_ [[X _]|[[t [X1 X2]]|[_ [[X _]|[[X _]|[_ [t [X1 X2]]]]]]]]]].
      * exfalso. assert (Y : In f (acc_of o)) by (eapply g_queue; eauto). apply (ac_data _ _ _ _ A) in Y. rewrite TY in Y. destruct Y as [Y _]. discriminate Y.
      * exfalso. assert (Y : In f (acc_of o)) by (eapply g_sdata; eauto). apply (ac_data _ _ _ _ A) in Y. rewrite TY in Y. destruct Y as [Y _]. discriminate Y.
      * rewrite TY in X. discriminate X.
      * rewrite TY in X. discriminate X.
      * destruct (f_pend _ _ _ _ F t _ _ X1 X2). split; [eapply known_step; eauto|apply hdata_more; auto].
Qed.

Lemma filt_reach c q0 h s o : u16 q0 -> mreach c q0 h s o -> Filt c h s o.
Proof.
  intros U R. induction R as [|h s o e ev R IH]; [|eapply filt_step; eauto].
  split; cbn; [intros f []|intros; constructor|intros; reflexivity|intros t a q [<-|[]] K; discriminate K|intros f []].
Qed.
