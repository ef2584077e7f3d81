(** Properties of the access point of the macro scenario, THzMacMacroAp (C72-C83). *)
From Coq Require Import ZArith List Lia Bool Permutation Sorting.Sorted QArith.
From Verif Require Import Base HeaderModel SeqModel SeqProofs EnergyModel MacModel MacroPhyModel ApModel ApSpec ApProofs ApInv ApLive ApMore ApWhite ApSlots ApScript.
Import ListNotations.
Open Scope Z_scope.

(** The default attributes except UseWhiteList, which is off. *)
Definition ap3 : acfg := aex 3 6 false true.

(** * C72: acknowledgements *)

(** However the events run: the AP sends to a node at most as many ACK with a number as it received
    data packets with that number from the node. *)
Theorem C72_acks : forall c h s o a q, areach anyhow c h s o -> (n_ack a q (ksnd_of o) <= n_data a q (krcv_of h))%nat.
Proof. intros c h s o a q R. pose proof (acks_reach _ _ _ _ _ a q R). lia. Qed.
Print Assumptions C72_acks.

(** A sector with one node with a strong signal: RTS, CTS, data, ACK. *)
Definition one_script : list bcmd :=
  [BFire; BIn 1189108 AETxDone; BIn (10 * nsec) AERxStart; BIn 1243159 (AERxEnd (rts_from 1 5) true (-30000)); BFire; BFire; BIn 1297209 AETxDone;
   BIn (70 * nsec) AERxStart; BIn 380882334 (AERxEnd (data_from 1 5) true (-30000)); BIn 1189108 AETxDone; BFire].
Example C72_example : b_ok ap3 one_script = true /\
  map (fun f => (kf_type f, kf_dst f, kf_seq f)) (ksnd_of (b_out ap3 one_script)) =
    [(T_CTA, bcast, 0); (T_CTS, 1, 5); (T_ACK, 1, 5); (T_CTA, bcast, 0)] /\
  kup_of (b_out ap3 one_script) = [data_from 1 5].
Proof. vm_compute. auto. Qed.

(** * C73: every data packet is acknowledged *)

(** Every data packet received was acknowledged or its ACK is queued. *)
Definition C73_full := forall c h s o a q, areach intime c h s o ->
  (n_data a q (krcv_of h) <= n_ack a q (ksnd_of o) + n_ack a q (p_acks s))%nat.

(** Two nodes: the first one near, the second one far and with the slowest rate. The sector ends during the
    data of the second one. *)
Definition late_script : list bcmd :=
  [BFire; BIn 1189108 AETxDone; BIn (10 * nsec) AERxStart; BIn 1243159 (AERxEnd (rts_from 1 5) true (-30000));
   BIn (10 * nsec) AERxStart; BIn 1243159 (AERxEnd (rts_from 2 7) true (-47000));
   BFire; BFire; BIn 1297209 AETxDone; BFire; BIn 1297209 AETxDone;
   BIn (10 * nsec) AERxStart; BIn 380882334 (AERxEnd (data_from 1 5) true (-30000));
   BIn (70 * nsec) AERxStart; BFire].
Theorem C73_acknowledged_refuted : ~ C73_full.
Proof.
  intros H. assert (T : b_ok ap3 late_script = true) by (vm_compute; reflexivity).
  specialize (H _ _ _ _ 1 5 (b_reach _ _ T)). vm_compute in H. lia.
Qed.
Print Assumptions C73_acknowledged_refuted.

(** Exact balance: a data packet received was acknowledged, its ACK is queued, or its ACK was lost. An
    ACK is lost only in a step that runs while the AP receives or transmits. *)
Theorem C73_acknowledged_partial : forall c h s o a q, areach anyhow c h s o ->
  (n_ack a q (ksnd_of o) + n_ack a q (p_acks s) + n_ack a q (klost_of o))%nat = n_data a q (krcv_of h) /\
  (forall ev f, pvalid s ev = true -> In (PLost f) (snd (pstep c s ev)) -> p_state s = PRx \/ p_state s = PTx).
Proof.
  intros c h s o a q R. split; [pose proof (acks_reach _ _ _ _ _ a q R); lia|].
  intros ev f V L. eapply lost_busy; eauto.
Qed.
Print Assumptions C73_acknowledged_partial.
Example C73_example : map kf_dst (klost_of (b_out ap3 late_script)) = [1] /\
  p_state (b_st ap3 (removelast late_script)) = PRx.
Proof. vm_compute. auto. Qed.

(** * C74: the AP goes on *)

(** Something is pending that leads to a further turn of the antenna. *)
Definition C74_full := forall c h s o, areach intime c h s o -> (1 <= drivers s)%nat.
Theorem C74_progress_refuted : ~ C74_full.
Proof.
  intros H. assert (T : b_ok ap3 late_script = true) by (vm_compute; reflexivity).
  specialize (H _ _ _ _ (b_reach _ _ T)). vm_compute in H. lia.
Qed.
Print Assumptions C74_progress_refuted.
(** After that execution the AP does nothing any more: no event is pending and data do not lead to
    one. It takes every further data packet, and acknowledges none. *)
Definition stuck_script (k : nat) : list bcmd :=
  late_script ++ BIn (2200 * nsec) (AERxEnd (data_from 2 7) true (-47000)) ::
  flat_map (fun n => [BIn (100 * nsec) AERxStart; BIn (400 * nsec) (AERxEnd (data_from 3 (Z.of_nat n)) true (-30000))]) (seq 1 k).
Example C74_stuck : b_ok ap3 (stuck_script 1) = true /\ p_timers (b_st ap3 (stuck_script 0)) = [] /\
  n_ack 2 7 (ksnd_of (b_out ap3 (stuck_script 0))) = 0%nat.
Proof. vm_compute. auto. Qed.

(** It holds as long as no ACK was lost and nothing undefined has happened. *)
Theorem C74_progress_partial : forall c h s o, areach anyhow c h s o -> klost_of o = [] -> ~ In PUb o -> (1 <= drivers s)%nat.
Proof. intros c h s o R L U. destruct (drivers_reach _ _ _ _ _ R) as [D|[D|D]]; [auto|contradiction|contradiction]. Qed.
Print Assumptions C74_progress_partial.
Example C74_example : klost_of (b_out ap3 one_script) = [] /\ drivers (b_st ap3 one_script) = 1%nat.
Proof. vm_compute. auto. Qed.

(** * C75: one thing at a time *)

(** The AP serves one sector at a time: at most one event is pending that leads to a turn. *)
Definition C75_full := forall c h s o, ac_ways c = 3 -> areach intime c h s o -> (drivers s <= 1)%nat.

(** One node with the slowest rate: the sector ends during its data, the AP turns on; after the data
    it sends the ACK and begins a second round. *)
Definition slow_script : list bcmd :=
  [BFire; BIn 1189108 AETxDone; BIn (10 * nsec) AERxStart; BIn 1243159 (AERxEnd (rts_from 1 5) true (-47000)); BFire; BFire; BIn 1297209 AETxDone;
   BIn (66 * nsec) AERxStart; BFire; BFire; BFire; BFire; BFire; BFire; BFire; BFire; BFire; BFire; BFire; BFire; BFire; BFire; BFire; BFire; BFire; BFire; BFire].
Definition two_script : list bcmd := slow_script ++ [BAt 2450000000 (AERxEnd (data_from 1 5) true (-47000)); BIn 1189108 AETxDone].
Theorem C75_single_refuted : ~ C75_full.
Proof.
  intros H. assert (T : b_ok ap3 two_script = true) by (vm_compute; reflexivity).
  specialize (H ap3 _ _ _ eq_refl (b_reach _ _ T)). vm_compute in H. lia.
Qed.
Print Assumptions C75_single_refuted.

(** With the 3-way handshake, if every data packet is received before the end of its sector: at most
    one event is pending that leads to a turn; exactly one if no ACK was lost. *)
Theorem C75_single_partial : forall c h s o, ac_ways c = 3 -> areach prompt c h s o ->
  (drivers s <= 1)%nat /\ (klost_of o = [] -> drivers s = 1%nat).
Proof.
  intros c h s o W R. destruct (token_reach c h s o W R) as [[T _] U]. split; auto.
  intros L. destruct (drivers_reach _ _ _ _ _ R) as [D|[D|D]]; [lia|contradiction|contradiction].
Qed.
Print Assumptions C75_single_partial.
Fixpoint prompt_run (c : acfg) (s : pst) (l : list pevent) : bool :=
  match l with
  | [] => true
  | ev :: r =>
    pvalid s ev && match ev with
                   | AERxEnd f true _ => negb (kf_type f =? T_DATA) || existsb (fun t => match pt_kind t with PKSec => true | _ => false end) (p_timers s)
                   | _ => true
                   end && prompt_run c (fst (pstep c s ev)) r
  end.
Lemma prompt_run_reach c l : forall h s o, areach prompt c h s o -> prompt_run c s l = true ->
  areach prompt c (h ++ l) (fst (prun c s l)) (o ++ snd (prun c s l)).
Proof.
  induction l as [|ev l IH]; intros h s o R T.
  - cbn. rewrite !app_nil_r. auto.
  - cbn [prompt_run] in T. apply andb_true_iff in T. destruct T as [T1 T2]. apply andb_true_iff in T1. destruct T1 as [T0 T1].
    assert (P : prompt s ev).
    { unfold prompt. destruct ev as [| |f [] pw| |]; auto. intros D. rewrite D, Z.eqb_refl in T1. cbn [negb orb] in T1.
      apply existsb_exists in T1. destruct T1 as [t [A B]]. exists t. split; auto. destruct (pt_kind t); congruence. }
    specialize (IH _ _ _ (AR1 prompt c h s o ev R T0 P) T2). cbn [prun].
    destruct (pstep c s ev) as [s1 o1] eqn:E. cbn [fst snd] in IH. destruct (prun c s1 l) as [s2 o2]. cbn [fst snd] in *.
    rewrite <- !app_assoc in IH. exact IH.
Qed.
(** The execution of C72 is of this kind. *)
Example C75_example : exists h s o, areach prompt ap3 h s o /\ length (turns_of o) = 2%nat /\ length (kup_of o) = 1%nat.
Proof.
  eexists _, _, _. split; [apply (prompt_run_reach ap3 (b_run ap3 one_script) _ _ _ (AR0 _ _)); vm_compute; reflexivity|].
  vm_compute. auto.
Qed.

(** * C76: the turns are announced *)

(** With every turn the AP sends a CTA. *)
Definition C76_full := forall c h s o ev a, areach intime c h s o -> pvalid s ev = true -> intime s ev ->
  In (PTurn a) (snd (pstep c s ev)) -> ksnd_of (snd (pstep c s ev)) <> [].
Definition deaf_script : list bcmd := [BFire; BIn 1189108 AETxDone; BIn (10 * nsec) AERxStart; BAt 80144267 (AETick 80144267)].
Theorem C76_announced_refuted : ~ C76_full.
Proof.
  intros H. assert (T : b_ok ap3 deaf_script = true) by (vm_compute; reflexivity).
  assert (V : pvalid (b_st ap3 deaf_script) (AETimer 0) = true) by (vm_compute; reflexivity).
  assert (N : intime (b_st ap3 deaf_script) (AETimer 0)) by (vm_compute; reflexivity).
  assert (A : In (PTurn 12) (snd (pstep ap3 (b_st ap3 deaf_script) (AETimer 0)))) by (vm_compute; auto).
  apply (H _ _ _ _ _ _ (b_reach _ _ T) V N A). vm_compute. reflexivity.
Qed.
Print Assumptions C76_announced_refuted.

(** In every state in which the AP is idle a turn is announced by one CTA for all nodes, which with the 3-way
    handshake names the new sector. *)
Theorem C76_announced_partial : forall c h s o ev a, areach anyhow c h s o -> pvalid s ev = true ->
  In (PTurn a) (snd (pstep c s ev)) -> p_state s = PIdle ->
  exists f, ksnd_of (snd (pstep c s ev)) = [f] /\ kf_type f = T_CTA /\ kf_dst f = bcast /\ (ac_ways c = 3 -> kf_sector f = wrap16 a).
Proof. intros c h s o ev a R V. apply turn_said; auto. eapply inv0_reach; eauto. Qed.
Print Assumptions C76_announced_partial.
Example C76_example : p_state (b_st ap3 [BFire; BIn 1189108 AETxDone]) = PIdle /\
  turns_of (b_out ap3 [BFire; BIn 1189108 AETxDone; BFire]) = [6; 12].
Proof. vm_compute. auto. Qed.

(** Once the AP is in the state RX it sends nothing until the PHY reports the end of a reception;
    meanwhile it may turn arbitrarily often. The PHY need not report the end (MacroPhyProps). *)
Theorem C76_mute : forall c h s o l, areach anyhow c h s o -> p_state s = PRx -> pvalid_run c s l = true ->
  (forall f ok pw, ~ In (AERxEnd f ok pw) l) -> ksnd_of (snd (prun c s l)) = [].
Proof. intros c h s o l R S V N. apply mute_run; auto. eapply inv0_reach; eauto. Qed.
Print Assumptions C76_mute.
Example C76_mute_example : p_state (b_st ap3 deaf_script) = PRx /\
  turns_of (b_out ap3 (deaf_script ++ repeat BFire 5)) = [6; 12; 18; 24; 30; 36] /\
  length (ksnd_of (b_out ap3 (deaf_script ++ repeat BFire 5))) = 1%nat.
Proof. vm_compute. auto. Qed.

(** * C77: granted slots do not overlap *)

(** Data sent in the slots granted in one sector do not overlap at the AP, if every node
    is within PropDelay. *)
Definition C77_full := forall c h s o ev t1 t2 d1 d2, areach intime c h s o -> pvalid s ev = true -> intime s ev ->
  scheduled c s ev t1 -> is_cts t1 -> scheduled c s ev t2 -> is_cts t2 -> pt_id t1 < pt_id t2 ->
  0 <= d1 <= ac_prop c -> 0 <= d2 <= ac_prop c ->
  arrival c t1 d1 + airtime c t1 <= arrival c t2 d2.

(** Two nodes, the first at 10 m and the second at 1 m: 49 ns overlap. *)
Definition far_script : list bcmd :=
  [BFire; BIn 1189108 AETxDone; BIn (10 * nsec) AERxStart; BIn 1243159 (AERxEnd (rts_from 1 5) true (-30000));
   BIn (50 * nsec) AERxStart; BIn 1243159 (AERxEnd (rts_from 2 7) true (-30000)); BAt 80144267 (AETick 80144267)].
Theorem C77_slots_refuted : ~ C77_full.
Proof.
  intros H. assert (T : b_ok ap3 far_script = true) by (vm_compute; reflexivity).
  assert (V : pvalid (b_st ap3 far_script) (AETimer 0) = true) by (vm_compute; reflexivity).
  assert (N : intime (b_st ap3 far_script) (AETimer 0)) by (vm_compute; reflexivity).
  assert (S1 : scheduled ap3 (b_st ap3 far_script) (AETimer 0) (Ptimer 2 80144267 (PKCts 1 5 2594418 14))) by (split; [vm_compute; auto|vm_compute; discriminate]).
  assert (S2 : scheduled ap3 (b_st ap3 far_script) (AETimer 0) (Ptimer 3 81442476 (PKCts 2 7 393045736 14))) by (split; [vm_compute; auto|vm_compute; discriminate]).
  assert (D1 : 0 <= 33356000 <= ac_prop ap3) by (vm_compute; split; discriminate).
  assert (D2 : 0 <= 3336000 <= ac_prop ap3) by (vm_compute; split; discriminate).
  pose proof (H _ _ _ _ _ _ _ _ _ (b_reach _ _ T) V N S1 I S2 I eq_refl D1 D2) as X. vm_compute in X. auto.
Qed.
Print Assumptions C77_slots_refuted.

(** Many nodes at the same distance: the duration field has 16 bits. *)
Definition crowd : list bcmd :=
  [BFire; BIn 1189108 AETxDone] ++ flat_map (fun i => [BIn (psec * 700) AERxStart; BIn 1243159 (AERxEnd (rts_from (Z.of_nat i) 5) true (-47000))]) (seq 1 30)
  ++ [BAt 80144267 (AETick 80144267)].
Definition C77_near_full := forall c h s o ev t1 t2 d, areach intime c h s o -> pvalid s ev = true -> intime s ev ->
  scheduled c s ev t1 -> is_cts t1 -> scheduled c s ev t2 -> is_cts t2 -> pt_id t1 < pt_id t2 ->
  0 <= d <= ac_prop c ->
  arrival c t1 d + airtime c t1 <= arrival c t2 d \/ arrival c t2 d + airtime c t2 <= arrival c t1 d.
Definition crowd_cts (i : nat) : ptimer :=
  nth i (p_timers (fst (pstep ap3 (b_st ap3 crowd) (AETimer 0)))) (Ptimer 0 0 PKTurn).
Theorem C77_wrap_refuted : ~ C77_near_full.
Proof.
  intros H. assert (T : b_ok ap3 crowd = true) by (vm_compute; reflexivity).
  assert (V : pvalid (b_st ap3 crowd) (AETimer 0) = true) by (vm_compute; reflexivity).
  assert (N : intime (b_st ap3 crowd) (AETimer 0)) by (vm_compute; reflexivity).
  assert (LN : length (p_timers (fst (pstep ap3 (b_st ap3 crowd) (AETimer 0)))) = 31%nat) by (vm_compute; reflexivity).
  assert (S1 : scheduled ap3 (b_st ap3 crowd) (AETimer 0) (crowd_cts 0)) by (split; [unfold crowd_cts; apply nth_In; rewrite LN; lia|vm_compute; discriminate]).
  assert (S2 : scheduled ap3 (b_st ap3 crowd) (AETimer 0) (crowd_cts 29)) by (split; [unfold crowd_cts; apply nth_In; rewrite LN; lia|vm_compute; discriminate]).
  assert (K1 : is_cts (crowd_cts 0)) by (vm_compute; exact I).
  assert (K2 : is_cts (crowd_cts 29)) by (vm_compute; exact I).
  assert (L : pt_id (crowd_cts 0) < pt_id (crowd_cts 29)) by (vm_compute; reflexivity).
  assert (D : 0 <= 10 * nsec <= ac_prop ap3) by (vm_compute; split; discriminate).
  pose proof (H ap3 _ _ _ (AETimer 0) (crowd_cts 0) (crowd_cts 29) (10 * nsec) (b_reach ap3 crowd T) V N S1 K1 S2 K2 L D) as X. clear - X.
  destruct X as [X|X].
  - vm_compute in X. apply X. reflexivity.
  - vm_compute in X. apply X. reflexivity.
Qed.
Print Assumptions C77_wrap_refuted.

(** It holds if all announced waiting times are below 65536 ns and the first node is not much farther
    than the second: the length of its data and the difference of the round trips fit into the time of its slot. *)
Theorem C77_slots_partial : forall c h s o ev t1 t2 d1 d2 len1, areach anyhow c h s o -> pvalid s ev = true ->
  0 <= ac_maxbo c -> 0 <= ac_ctrl c T_CTS -> (forall m, 0 <= ac_data c (ac_size c) m) ->
  scheduled c s ev t1 -> is_cts t1 -> scheduled c s ev t2 -> is_cts t2 -> pt_id t1 < pt_id t2 ->
  (forall t dst q dur fl, scheduled c s ev t -> pt_kind t = PKCts dst q dur fl -> dur < 65536 * nsec) ->
  len1 + 2 * (d1 - d2) <= airtime c t1 + ac_maxbo c + ac_ctrl c T_CTS + psec - nsec ->
  arrival c t1 d1 + len1 <= arrival c t2 d2.
Proof. intros c h s o ev t1 t2 d1 d2 len1 R V. intros. eapply slots_apart; eauto; [eapply inv0_reach|eapply tids_reach]; eauto. Qed.
Print Assumptions C77_slots_partial.
(** The defaults and 5 m and 1 m: 811 ns + 26.7 ns do not fit, 5 m and 3.5 m do. *)
Example C77_example :
  let c := ap3 in
  let t1 := Ptimer 2 80144267 (PKCts 1 5 2594418 14) in let t2 := Ptimer 3 81442476 (PKCts 2 7 393045736 14) in
  scheduled c (b_st c far_script) (AETimer 0) t1 /\ scheduled c (b_st c far_script) (AETimer 0) t2 /\ is_cts t1 /\ is_cts t2 /\
  airtime c t1 + 2 * (16678000 - 11675000) <= airtime c t1 + ac_maxbo c + ac_ctrl c T_CTS + psec - nsec.
Proof.
  cbv zeta. repeat split; try exact I; try (vm_compute; discriminate); vm_compute; auto.
Qed.

(** * C78: the sector lasts long enough *)

(** The granted data arrive before the timeout of the sector. *)
Definition C78_full := forall c h s o ev t u d, areach intime c h s o -> pvalid s ev = true -> intime s ev ->
  scheduled c s ev t -> is_cts t -> scheduled c s ev u -> pt_kind u = PKSec -> 0 <= d <= ac_prop c ->
  arrival c t d + airtime c t <= pt_due u.
(** One node with the slowest rate; the duration of the sector is computed with the default rate. *)
Definition slow_rts : list bcmd :=
  [BFire; BIn 1189108 AETxDone; BIn (10 * nsec) AERxStart; BIn 1243159 (AERxEnd (rts_from 1 5) true (-47000)); BAt 80144267 (AETick 80144267)].
Theorem C78_timeout_refuted : ~ C78_full.
Proof.
  intros H. assert (T : b_ok ap3 slow_rts = true) by (vm_compute; reflexivity).
  assert (V : pvalid (b_st ap3 slow_rts) (AETimer 0) = true) by (vm_compute; reflexivity).
  assert (N : intime (b_st ap3 slow_rts) (AETimer 0)) by (vm_compute; reflexivity).
  assert (S1 : scheduled ap3 (b_st ap3 slow_rts) (AETimer 0) (Ptimer 2 80144267 (PKCts 1 5 1297209 10))) by (split; [vm_compute; auto|vm_compute; discriminate]).
  assert (S2 : scheduled ap3 (b_st ap3 slow_rts) (AETimer 0) (Ptimer 3 970368866 PKSec)) by (split; [vm_compute; auto|vm_compute; discriminate]).
  assert (D : 0 <= 0 <= ac_prop ap3) by (vm_compute; split; discriminate).
  pose proof (H _ _ _ _ _ _ _ _ (b_reach _ _ T) V N S1 I S2 eq_refl D) as X. vm_compute in X. auto.
Qed.
Print Assumptions C78_timeout_refuted.

(** It holds if no rate that is used is slower than the default rate (without adaptive MCS only MCS 0 is), the nodes are within PropDelay, and
    there are not too many of them (91 with the defaults). *)
Theorem C78_timeout_partial : forall c h s o ev t u d len, areach anyhow c h s o -> pvalid s ev = true ->
  0 <= ac_maxbo c -> 0 <= ac_ctrl c T_CTS -> 0 <= ac_sifs c -> (forall m, 0 <= ac_data c (ac_size c) m) ->
  (forall m, (ac_adapt c = false -> m = 0) -> ac_data c (ac_size c) m <= ac_data c (ac_size c) 0) ->
  scheduled c s ev t -> is_cts t -> scheduled c s ev u -> pt_kind u = PKSec ->
  len <= ac_data c (ac_size c) 0 -> d <= ac_prop c ->
  Z.of_nat (length (p_rts s)) * (ac_ctrl c T_CTS + psec - ac_ctrl c T_ACK) <= ac_maxbo c + psec ->
  arrival c t d + len <= pt_due u.
Proof. intros c h s o ev t u d len R V. intros. eapply slots_covered; eauto; [eapply inv0_reach|eapply tids_reach]; eauto. Qed.
Print Assumptions C78_timeout_partial.
(** The case of 91 nodes, a fixed rate and the default durations; a step that schedules both events. *)
Example C78_example : let c := aex 3 6 false false in let s := b_st c slow_rts in
  91 * (ac_ctrl c T_CTS + psec - ac_ctrl c T_ACK) <= ac_maxbo c + psec /\ b_ok c slow_rts = true /\ pvalid s (AETimer 0) = true /\
  0 <= ac_maxbo c /\ 0 <= ac_ctrl c T_CTS /\ 0 <= ac_sifs c /\ (forall m, (ac_adapt c = false -> m = 0) -> ac_data c (ac_size c) m <= ac_data c (ac_size c) 0) /\
  map pt_kind (p_timers (fst (pstep c s (AETimer 0)))) = [PKCts 1 5 1297209 0; PKSec].
Proof.
  cbv zeta. split; [vm_compute; discriminate|]. split; [vm_compute; reflexivity|]. split; [vm_compute; reflexivity|]. split; [vm_compute; discriminate|].
  split; [vm_compute; discriminate|]. split; [vm_compute; discriminate|]. split; [intros m M; rewrite (M eq_refl); apply Z.le_refl|vm_compute; reflexivity].
Qed.

(** * C79: choice of the modulation *)

Definition ordered (c : acfg) : Prop := ac_bpsk c <= ac_qpsk c /\ ac_qpsk c <= ac_8psk c /\ ac_8psk c <= ac_16qam c /\ ac_16qam c <= ac_64qam c.
Definition rates_up (r : rates) : Prop := (rt_bpsk r <= rt_qpsk r /\ rt_qpsk r <= rt_8psk r /\ rt_8psk r <= rt_16qam r /\ rt_16qam r <= rt_64qam r)%Q.
(** A weaker signal never gets a faster rate. *)
Definition C79_full := forall c r p1 p2, ordered c -> rates_up r -> p1 <= p2 -> (data_rate r (select_mcs c p1) <= data_rate r (select_mcs c p2))%Q.
Definition def_rates : rates := Rates 148010000000 148010000000 52480000000 105280000000 157440000000 210240000000 315520000000.
(** Below the threshold of BPSK the default rate is used, which is faster than BPSK and QPSK. *)
Theorem C79_rate_refuted : ~ C79_full.
Proof.
  intros H. specialize (H ap3 def_rates (-50000) (-47000)).
  assert (X : (data_rate def_rates (select_mcs ap3 (-50000)) <= data_rate def_rates (select_mcs ap3 (-47000)))%Q).
  { apply H; [vm_compute; repeat split; discriminate|vm_compute; repeat split; discriminate|lia]. }
  vm_compute in X. auto.
Qed.
Print Assumptions C79_rate_refuted.

(** It holds above the threshold of BPSK. There the chosen scheme is the fastest whose threshold the
    power exceeds. *)
Definition schemes (c : acfg) : list (Z * Z) := [(10, ac_bpsk c); (11, ac_qpsk c); (12, ac_8psk c); (13, ac_16qam c); (14, ac_64qam c)].
Theorem C79_rate_partial : forall c r p, ordered c -> rates_up r -> ac_bpsk c < p ->
  (exists th, In (select_mcs c p, th) (schemes c) /\ th < p) /\
  (forall m th, In (m, th) (schemes c) -> th < p -> (data_rate r m <= data_rate r (select_mcs c p))%Q) /\
  (forall p2, p <= p2 -> (data_rate r (select_mcs c p) <= data_rate r (select_mcs c p2))%Q).
Proof.
  intros c r p (O1 & O2 & O3 & O4) (R1 & R2 & R3 & R4) B.
  assert (B1 : (rt_bpsk r <= rt_8psk r)%Q) by (eapply Qle_trans; eauto).
  assert (B2 : (rt_bpsk r <= rt_16qam r)%Q) by (eapply Qle_trans; eauto).
  assert (B3 : (rt_bpsk r <= rt_64qam r)%Q) by (eapply Qle_trans; eauto).
  assert (B4 : (rt_qpsk r <= rt_16qam r)%Q) by (eapply Qle_trans; eauto).
  assert (B5 : (rt_qpsk r <= rt_64qam r)%Q) by (eapply Qle_trans; eauto).
  assert (B6 : (rt_8psk r <= rt_64qam r)%Q) by (eapply Qle_trans; eauto).
  assert (RF : forall x : Q, (x <= x)%Q) by (intros; apply Qle_refl).
  assert (GT : forall a b, (a >? b = true /\ b < a) \/ (a >? b = false /\ a <= b)) by (intros a b; destruct (Z.gtb_spec a b); auto).
  unfold select_mcs, schemes. split; [|split].
  - destruct (GT p (ac_64qam c)) as [[-> G]|[-> G]]; [exists (ac_64qam c); split; auto; cbn; tauto|].
    destruct (GT p (ac_16qam c)) as [[-> G1]|[-> G1]]; [exists (ac_16qam c); split; auto; cbn; tauto|].
    destruct (GT p (ac_8psk c)) as [[-> G2]|[-> G2]]; [exists (ac_8psk c); split; auto; cbn; tauto|].
    destruct (GT p (ac_qpsk c)) as [[-> G3]|[-> G3]]; [exists (ac_qpsk c); split; auto; cbn; tauto|].
    destruct (GT p (ac_bpsk c)) as [[-> G4]|[-> G4]]; [exists (ac_bpsk c); split; auto; cbn; tauto|lia].
  - intros m th I T.
    destruct (GT p (ac_64qam c)) as [[-> G]|[-> G]]; [|destruct (GT p (ac_16qam c)) as [[-> G1]|[-> G1]]; [|destruct (GT p (ac_8psk c)) as [[-> G2]|[-> G2]]; [|destruct (GT p (ac_qpsk c)) as [[-> G3]|[-> G3]]; [|destruct (GT p (ac_bpsk c)) as [[-> G4]|[-> G4]]; [|lia]]]]];
    cbn [In] in I; repeat (destruct I as [I|I]; [injection I as <- <-; try lia; cbn; auto|]); destruct I.
  - intros p2 L.
    destruct (GT p (ac_64qam c)) as [[-> G]|[-> G]]; [|destruct (GT p (ac_16qam c)) as [[-> G1]|[-> G1]]; [|destruct (GT p (ac_8psk c)) as [[-> G2]|[-> G2]]; [|destruct (GT p (ac_qpsk c)) as [[-> G3]|[-> G3]]; [|destruct (GT p (ac_bpsk c)) as [[-> G4]|[-> G4]]; [|lia]]]]];
    (destruct (GT p2 (ac_64qam c)) as [[-> K]|[-> K]]; [|destruct (GT p2 (ac_16qam c)) as [[-> K1]|[-> K1]]; [|destruct (GT p2 (ac_8psk c)) as [[-> K2]|[-> K2]]; [|destruct (GT p2 (ac_qpsk c)) as [[-> K3]|[-> K3]]; [|destruct (GT p2 (ac_bpsk c)) as [[-> K4]|[-> K4]]; [|lia]]]]]);
    try lia; cbn; auto.
Qed.
Print Assumptions C79_rate_partial.
Example C79_example : ordered ap3 /\ map (select_mcs ap3) [-47000; -44000; -40000; -35000; -20000] = [10; 11; 12; 13; 14].
Proof. vm_compute. repeat split; discriminate. Qed.

(** * C80: assignment of sectors *)

(** When the AP has stopped recording (UseWhiteList): exactly the recorded nodes are assigned to a sector,
    each to one; a node with a power above -200 dBm is assigned to a sector in which it was heard with its highest
    power. What is recorded was an RTS of the node received with that power, the sector one to which the AP
    turned. A CTA that tells a node its sector tells the assigned one. *)
Theorem C80_sectors : forall c h s o, areach anyhow c h s o -> p_record s = false ->
  (forall n, (exists b, assigned s n b) <-> (exists b pw, heard s n b pw)) /\
  (forall n b b', assigned s n b -> assigned s n b' -> b = b') /\
  (forall n b, assigned s n b -> (exists b' pw', heard s n b' pw' /\ -200000 < pw') ->
     exists pw, heard s n b pw /\ forall b' pw', heard s n b' pw' -> pw' <= pw) /\
  (forall n b pw, heard s n b pw -> In b (turns_of o) /\ exists f, In (AERxEnd f true pw) h /\ kf_type f = T_RTS /\ kf_src f = n) /\
  (forall f, In f (ksnd_of o) -> kf_type f = T_CTA -> kf_flags f = 2 -> exists b, assigned s (kf_dst f) b /\ kf_sector f = wrap16 b).
Proof.
  intros c h s o R E. destruct (wl_reach _ _ _ _ _ R) as [_ W2 _ W4 _ W6]. rewrite E in W4. destruct W4 as (G1 & G2 & G3).
  assert (A : forall n b, assigned s n b <-> In (b, n) (members (p_white s))) by (intros n b; symmetry; apply members_in).
  assert (H : forall n b pw, heard s n b pw <-> In (b, (n, pw)) (members (p_map s))) by (intros n b pw; symmetry; apply members_in).
  repeat split.
  - intros [b B]. apply A in B. destruct (proj1 (G1 n)) as (b' & pw & X); [eauto|]. exists b', pw. apply H; auto.
  - intros (b & pw & B). apply H in B. destruct (proj2 (G1 n)) as (b' & X); [eauto|]. exists b'. apply A; auto.
  - intros n b b' B B'. apply A in B, B'. revert G2 B B'. generalize (members (p_white s)). induction l as [|[k v] l IH]; intros N B B'; [destruct B|].
    cbn in N. inversion N as [|? ? N1 N2]; subst. destruct B as [B|B], B' as [B'|B']; auto; try congruence; exfalso; apply N1.
    + injection B as -> ->. apply (in_map snd _ _ B').
    + injection B' as -> ->. apply (in_map snd _ _ B).
  - intros n b B (b' & pw' & X & Y). apply A in B. apply H in X. destruct (G3 n b B) as (pw & P1 & P2); [eauto|]. exists pw. split; [apply H; auto|]. intros b0 p0 Z. apply H in Z. eauto.
  - apply H in H0. apply (W2 _ _ _ H0).
  - apply H in H0. apply (W2 _ _ _ H0).
  - intros f F1 F2 F3. destruct (W6 f F1 F2 F3) as (b & B1 & B2). exists b. split; auto. apply A; auto.
Qed.
Print Assumptions C80_sectors.
(** Beamwidth 180 degrees. Node 1 is heard in both sectors, louder in the second; node 2 in the first. *)
Definition round (l1 l2 : list (Z * Z)) : list bcmd :=
  let hear := flat_map (fun x => [BIn nsec AERxStart; BIn 1243159 (AERxEnd (rts_from (fst x) 0) true (snd x))]) in
  [BIn 1189108 AETxDone] ++ hear l1 ++ [BFire; BIn 1189108 AETxDone] ++ hear l2 ++ [BFire].
Definition sound_script : list bcmd :=
  BFire :: round [(1, -50000); (2, -40000)] [(1, -45000)] ++ round [(2, -40000)] [(1, -45000)] ++ round [] [(1, -45000)] ++
  [BIn 1189108 AETxDone; BIn nsec AERxStart; BIn 1243159 (AERxEnd (rts_from 1 0) true (-50000)); BFire; BFire; BIn 1189108 AETxDone; BFire; BIn 1189108 AETxDone; BFire].
Example C80_example : b_ok (aex 3 180 true true) sound_script = true /\ p_record (b_st (aex 3 180 true true) sound_script) = false /\
  p_white (b_st (aex 3 180 true true) sound_script) = [(180, [2]); (360, [1])] /\
  map (fun f => (kf_dst f, kf_sector f)) (filter (fun f => kf_flags f =? 2) (ksnd_of (b_out (aex 3 180 true true) sound_script))) = [(1, 360); (2, 180)].
Proof. vm_compute. auto. Qed.

(** * C81: the order of the sectors *)

(** In every round of 360 / beamwidth turns the same sectors come in the same order. *)
Definition C81_full := forall c h s o k, 0 < ac_bw c <= 360 -> areach intime c h s o ->
  (k + Z.to_nat (360 / ac_bw c) < length (turns_of o))%nat -> nth_error (turns_of o) (k + Z.to_nat (360 / ac_bw c)) = nth_error (turns_of o) k.
Definition spin (n : nat) : list bcmd := flat_map (fun _ => [BFire; BIn 1189108 AETxDone]) (seq 1 n).
Theorem C81_cycle_refuted : ~ C81_full.
Proof.
  intros H. assert (T : b_ok (aex 3 7 false true) (spin 60) = true) by (vm_compute; reflexivity).
  assert (L : length (turns_of (b_out (aex 3 7 false true) (spin 60))) = 60%nat) by (vm_compute; reflexivity).
  assert (B : 0 < ac_bw (aex 3 7 false true) <= 360) by (cbn; lia).
  pose proof (H (aex 3 7 false true) _ _ _ 0%nat B (b_reach _ _ T)) as X. replace (0 + Z.to_nat (360 / ac_bw (aex 3 7 false true)))%nat with 51%nat in X by reflexivity.
  rewrite L in X. specialize (X ltac:(lia)).
  vm_compute in X. discriminate X.
Qed.
Print Assumptions C81_cycle_refuted.

(** The k-th turn leads to the angle k times the beamwidth, reduced to 1..360. If the
    beamwidth divides 360, the sectors repeat after 360 / beamwidth turns, and within fewer turns
    none repeats. *)
Theorem C81_cycle_partial : forall c h s o, 0 < ac_bw c <= 360 -> areach anyhow c h s o ->
  (forall k a, nth_error (turns_of o) k = Some a -> a = ((Z.of_nat k + 1) * ac_bw c - 1) mod 360 + 1) /\
  ((ac_bw c | 360) -> forall j k a b, nth_error (turns_of o) j = Some a -> nth_error (turns_of o) k = Some b ->
     (a = b <-> (Z.of_nat k - Z.of_nat j) mod (360 / ac_bw c) = 0)).
Proof.
  intros c h s o B R. destruct (angle_reach _ _ _ _ _ B R) as [_ A]. split; auto.
  intros [n N] j k a b J K. apply A in J, K. subst a b. set (w := ac_bw c) in *.
  assert (P : 0 < n) by nia.
  assert (Q : 360 / w = n) by (symmetry; apply (Z.div_unique_exact 360 w n); lia). rewrite Q.
  set (x := Z.of_nat j) in *. set (y := Z.of_nat k) in *.
  assert (D : ((x + 1) * w - 1) mod 360 = ((y + 1) * w - 1) mod 360 <-> (y - x) mod n = 0).
  { split; intros E.
    - pose proof (Z.div_mod ((x + 1) * w - 1) 360 ltac:(lia)) as E1. pose proof (Z.div_mod ((y + 1) * w - 1) 360 ltac:(lia)) as E2.
      set (u := ((x + 1) * w - 1) / 360) in *. set (v := ((y + 1) * w - 1) / 360) in *. rewrite E in E1.
      assert (X : (y - x) * w = (v - u) * n * w) by (rewrite N in E1, E2; rewrite N in *; nia).
      apply Z.mul_reg_r in X; [|lia]. rewrite X. apply Z.mod_mul. lia.
    - apply Z.mod_divide in E; [|lia]. destruct E as [q E]. replace ((y + 1) * w - 1) with ((x + 1) * w - 1 + q * 360) by nia. rewrite Z.mod_add; lia. }
  rewrite <- D. lia.
Qed.
Print Assumptions C81_cycle_partial.
Example C81_example : firstn 5 (turns_of (b_out (aex 3 120 false true) (spin 5))) = [120; 240; 360; 120; 240] /\ (120 | 360) /\
  firstn 3 (skipn 50 (turns_of (b_out (aex 3 7 false true) (spin 60)))) = [357; 4; 11].
Proof. split; [vm_compute; auto|]. split; [exists 3; reflexivity|vm_compute; auto]. Qed.

(** * C82: delivery *)

(** Only packets for this node are handed to the upper layer. *)
Definition C82_full := forall c h s o f, areach intime c h s o -> In f (kup_of o) -> kf_dst f = ac_addr c \/ kf_dst f = bcast.
Definition stray_script : list bcmd := [BFire; BIn 1189108 AETxDone; BIn nsec AERxStart; BIn nsec (AERxEnd (Kframe T_DATA 1 9 5 0 0 0 15017 0) true (-30000))].
Theorem C82_delivery_refuted : ~ C82_full.
Proof.
  intros H. assert (T : b_ok ap3 stray_script = true) by (vm_compute; reflexivity).
  destruct (H _ _ _ _ (Kframe T_DATA 1 9 5 0 0 0 15017 0) (b_reach _ _ T)) as [X|X]; [vm_compute; auto|vm_compute in X; discriminate X|vm_compute in X; discriminate X].
Qed.
Print Assumptions C82_delivery_refuted.

(** The packets handed up are the data packets received without error whose number exceeds the numbers of all
    data packets received before from the same source, in the order of reception. Therefore the numbers from one source
    strictly increase. *)
Theorem C82_delivery_partial : forall c h s o, areach anyhow c h s o ->
  kup_of o = fresh [] (filter (fun f => kf_type f =? T_DATA) (krcv_of h)) /\
  (forall a, StronglySorted Z.lt (map kf_seq (filter (fun f => kf_src f =? a) (kup_of o)))).
Proof.
  intros c h s o R. pose proof (deliver_reach _ _ _ _ _ R) as D. split; auto. intros a. rewrite D.
  generalize (filter (fun f => kf_type f =? T_DATA) (krcv_of h)). intros l.
  assert (G : forall l seen, StronglySorted Z.lt (map kf_seq (filter (fun f => kf_src f =? a) (fresh seen l))) /\
     (forall g f, In g seen -> kf_src g = a -> In f (fresh seen l) -> kf_src f = a -> kf_seq g < kf_seq f)).
  { clear. induction l as [|f l IH]; intros seen; [split; [constructor|intros g f _ _ []]|]. cbn [fresh].
    destruct (IH (seen ++ [f])) as [I1 I2]. destruct (forallb _ seen) eqn:F; cbn [app].
    - split.
      + cbn [filter]. destruct (Z.eqb_spec (kf_src f) a) as [E|E]; auto. cbn [map]. constructor; auto. apply Forall_forall. intros x X.
        apply in_map_iff in X. destruct X as [g [<- X]]. apply filter_In in X. destruct X as [X1 X2]. apply Z.eqb_eq in X2.
        apply (I2 f g); auto. apply in_or_app; right; left; auto.
      + intros g x G A [<-|X] B; [|apply (I2 g x); auto; apply in_or_app; auto].
        rewrite forallb_forall in F. specialize (F g G). rewrite A, B, Z.eqb_refl in F. cbn in F. apply Z.ltb_lt. exact F.
    - split; auto. intros g x G A X B. apply (I2 g x); auto. apply in_or_app; auto. }
  apply G.
Qed.
Print Assumptions C82_delivery_partial.
Definition again_script : list bcmd :=
  one_script ++ [BIn 1189108 AETxDone; BIn nsec AERxStart; BIn nsec (AERxEnd (data_from 1 5) true (-30000)); BIn 1189108 AETxDone; BIn (psec * 500) AERxStart; BIn (psec * 100) (AERxEnd (data_from 2 3) true (-30000))].
Example C82_example : b_ok ap3 again_script = true /\ length (krcv_of (b_run ap3 again_script)) = 4%nat /\
  kup_of (b_out ap3 again_script) = [data_from 1 5; data_from 2 3].
Proof. vm_compute. auto. Qed.

(** * C83: defined behaviour *)

(** No step has undefined behaviour (SendAck takes the front of an empty list). *)
Definition C83_full := forall c h s o, areach intime c h s o -> ~ In PUb o.

(** Two rounds run at the same time (C75). The first grants a slot to node 1, the second one to the
    nodes 2 and 3; the timeout of the first comes between the two ACK. *)
Definition ub_script : list bcmd :=
  slow_script ++
  [BAt 2457000000 (AERxEnd (data_from 1 5) true (-47000)); BIn 1189108 AETxDone; BFire; BIn 1189108 AETxDone;
   BAt 2480000000 AERxStart; BIn 1243159 (AERxEnd (rts_from 1 6) true (-30000)); BFire; BFire; BIn 1297209 AETxDone;
   BAt 2520000000 AERxStart; BIn 1243159 (AERxEnd (rts_from 2 1) true (-30000)); BIn nsec AERxStart; BIn 1243159 (AERxEnd (rts_from 3 1) true (-30000));
   BFire; BFire; BIn 1297209 AETxDone; BFire; BIn 1297209 AETxDone;
   BIn nsec AERxStart; BIn 380882334 (AERxEnd (data_from 1 6) true (-30000));
   BAt 3001262596 AERxStart; BIn 380882334 (AERxEnd (data_from 3 1) true (-30000)); BIn 1189108 AETxDone; BFire; BFire].
Theorem C83_defined_refuted : ~ C83_full.
Proof.
  intros H. assert (T : b_ok ap3 ub_script = true) by (vm_compute; reflexivity).
  apply (H _ _ _ _ (b_reach _ _ T)). vm_compute. tauto.
Qed.
Print Assumptions C83_defined_refuted.

(** With the 3-way handshake it holds if every data packet is received before the end of its sector. *)
Theorem C83_defined_partial : forall c h s o, ac_ways c = 3 -> areach prompt c h s o -> ~ In PUb o.
Proof. intros c h s o W R. apply (token_reach c h s o W R). Qed.
Print Assumptions C83_defined_partial.
(** Two nodes, both data packets in time: two ACK, one after the other. *)
Definition pair_script : list bcmd :=
  [BFire; BIn 1189108 AETxDone; BIn (10 * nsec) AERxStart; BIn 1243159 (AERxEnd (rts_from 1 5) true (-30000));
   BIn (10 * nsec) AERxStart; BIn 1243159 (AERxEnd (rts_from 2 7) true (-30000)); BFire; BFire; BIn 1297209 AETxDone; BFire; BIn 1297209 AETxDone;
   BIn (10 * nsec) AERxStart; BIn 380882334 (AERxEnd (data_from 1 5) true (-30000));
   BIn (10 * nsec) AERxStart; BIn 380882334 (AERxEnd (data_from 2 7) true (-30000)); BIn 1189108 AETxDone; BFire; BIn 1189108 AETxDone; BFire].
Example C83_example : exists h s o, areach prompt ap3 h s o /\ map kf_dst (filter (fun f => kf_type f =? T_ACK) (ksnd_of o)) = [1; 2] /\ length (turns_of o) = 2%nat.
Proof.
  eexists _, _, _. split; [apply (prompt_run_reach ap3 (b_run ap3 pair_script) _ _ _ (AR0 _ _)); vm_compute; reflexivity|].
  vm_compute. auto.
Qed.
