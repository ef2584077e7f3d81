(** Properties C13-C18 and C21-C27: one nano MAC under an arbitrary environment. *)
From Coq Require Import ZArith List Lia Bool Permutation.
From Verif Require Import Base HeaderModel SeqModel EnergyModel NanoModel NanoProofs NanoSpec NanoOut
  NanoRetry NanoOrder NanoTrace NanoLate NanoBudget NanoLive NanoDrain.
Import ListNotations.
Open Scope Z_scope.

(** Node 1, DataRetryLimit [retry], FrameLength [flen], default energy parameters (in units of
    0.1), pulses of 100 fs. *)
Definition cfg (rts : bool) (limit retry flen : Z) : config :=
  Cfg 1 rts limit retry flen 8000000000 (fun n => n * 800) default_eparams.
Definition ack (from n : Z) : cmd := Do (EvRecv (ctrl T_ACK from 1 n) true).
Definition cts (from n : Z) : cmd := Do (EvRecv (ctrl T_CTS from 1 n) true).
Definition enq (size dst : Z) : cmd := Do (EvEnqueue size dst).
Definition data (dst sq size id : Z) : frame := Frame T_DATA 1 dst sq size id.

Definition reach (c : config) (e0 : Z) (l : list event) : state := fst (run c (init e0) l).
Definition effects (c : config) (e0 : Z) (l : list event) : list out := snd (run c (init e0) l).

(** * C13 *)
Theorem C13_queue_limit : forall c e0 l, 0 <= c_limit c ->
  Z.of_nat (length (s_queue (reach c e0 l))) <= c_limit c.
Proof.
  intros c e0 l C. pose proof (W_reach c e0 l C) as H. unfold reach.
  rewrite (w_queue _ _ _ _ _ _ _ _ _ _ H), map_length. apply (w_limit _ _ _ _ _ _ _ _ _ _ H).
Qed.
Print Assumptions C13_queue_limit.

(** A full queue of two: the third packet is refused. *)
Example C13_full :
  let l := play (cfg false 2 5 5) (init 10000) [enq 100 2; enq 100 2; enq 100 2] in
  length (s_queue (reach (cfg false 2 5 5) 10000 l)) = 2%nat /\
  In (ORet false) (effects (cfg false 2 5 5) 10000 l).
Proof. vm_compute. split; [reflexivity|]. tauto. Qed.

(** * C14 *)
(** Full statement: Enqueue returns true iff the packet was appended to the queue. *)
Theorem C14_enqueue_result_refuted :
  exists c e0 l size dst, realistic c (init e0) [] (l ++ [EvEnqueue size dst]) = true /\
    let s := reach c e0 l in
    snd (step c s (EvEnqueue size dst)) = [ORet true] /\
    s_queue (fst (step c s (EvEnqueue size dst))) = s_queue s.
Proof.
  exists (cfg false 1000 5 5), 10000, [EvEnqueue 100 2], 64, 2. vm_compute. auto.
Qed.
Print Assumptions C14_enqueue_result_refuted.

(** For all sizes but 64 it is true, in any state whatsoever. *)
Theorem C14_enqueue_result_partial : forall c s size dst, size <> 64 ->
  let s' := fst (step c s (EvEnqueue size dst)) in
  let o := snd (step c s (EvEnqueue size dst)) in
  exists b, last o OUB = ORet b /\
    (forall b', In (ORet b') o -> b' = b) /\
    (b = true -> exists p, s_queue s' = s_queue s ++ [p] /\ In (OAccept p) o /\
                   f_dst p = dst /\ f_src p = c_addr c /\ f_size p = size + 17 /\ f_body p = s_ids s) /\
    (b = false -> s' = s /\ o = [ORet false]).
Proof.
  intros c s size dst N s' o. unfold s', o. cbn [step].
  destruct (enqueue_cases c size dst s) as [[E _]|[[_ [Q E]]|[_ [Q E]]]]; [contradiction| |]; rewrite E.
  - exists false. cbn. repeat split; auto; try discriminate. intros b' [X|[]]. congruence.
  - exists true. cbv zeta. destruct (behind _ _ _); cbn [fst snd].
    + repeat split; try discriminate.
      * intros b' [X|[X|[]]]; congruence.
      * intros _. exists (new_pkt c s size dst). repeat split; left; reflexivity.
    + repeat split; try discriminate.
      * change (OAccept ?p :: ?r ++ ?q) with ((OAccept p :: r) ++ q). apply last_last.
      * intros b' [X|X]; [discriminate|]. apply in_app_or in X. destruct X as [X|[X|[]]]; [|congruence].
        exfalso. unfold tx_first in X. destruct (s_queue (accept_state c s size dst)); [destruct X|]. rewrite check_out in X. cbv zeta in X.
        destruct X as [X|X]; [discriminate|]. destruct (fst (book _ _ _ _)); [destruct X as [X|[]]; discriminate|destruct X].
      * intros _. exists (new_pkt c s size dst). rewrite tx_first_queue. repeat split; left; reflexivity.
Qed.
Print Assumptions C14_enqueue_result_partial.

(** A queue limit of 1: the first packet is appended, the second refused. *)
Example C14_both :
  let c := cfg false 1 5 5 in let s := fst (step c (init 10000) (EvEnqueue 100 2)) in
  last (snd (step c (init 10000) (EvEnqueue 100 2))) OUB = ORet true /\
  s_queue s = [data 2 1 117 0] /\
  step c s (EvEnqueue 100 2) = (s, [ORet false]).
Proof. vm_compute. auto. Qed.

(** * C15 *)
Theorem C15_accounting : forall c e0 l, 0 <= c_limit c ->
  let s := reach c e0 l in let o := effects c e0 l in
  Permutation (accepted_pkts o) (reported true o ++ reported false o ++ s_queue s) /\
  NoDup (accepted_pkts o) /\
  s_queue s = map t_pkt (s_tx s) /\
  s_ite s = Z.of_nat (length (reported true o)) /\
  s_disc s = Z.of_nat (length (reported false o)) /\
  Z.of_nat (length (accepted_pkts o)) = s_ite s + s_disc s + Z.of_nat (length (s_queue s)).
Proof.
  intros c e0 l C s o. assert (H : W c s o) by exact (W_reach c e0 l C).
  destruct (account c s o H) as [P [N _]].
  rewrite !reported_count, accepted_count.
  pose proof (w_ok _ _ _ _ _ _ _ _ _ _ H). pose proof (w_fail _ _ _ _ _ _ _ _ _ _ H).
  pose proof (w_n _ _ _ _ _ _ _ _ _ _ H). pose proof (w_sum _ _ _ _ _ _ _ _ _ _ H).
  pose proof (w_queue _ _ _ _ _ _ _ _ _ _ H) as Q.
  assert (length (s_queue s) = length (s_tx s)) by (rewrite Q; apply map_length).
  repeat split; auto; lia.
Qed.
Print Assumptions C15_accounting.

(** Three packets: one acknowledged, one discarded after the retry limit 1, one pending. *)
Definition run15 : list cmd := [enq 100 2; enq 100 2; enq 100 2; ack 2 1; Next 0; Next 0].
Example C15_all_three :
  let c := cfg false 1000 1 5 in let l := play c (init 10000) run15 in
  realistic c (init 10000) [] l = true /\
  reported true (effects c 10000 l) = [data 2 1 117 0] /\
  reported false (effects c 10000 l) = [data 2 2 117 1] /\
  s_queue (reach c 10000 l) = [data 2 3 117 2].
Proof. vm_compute. auto. Qed.

(** * C16 *)
Lemma few c e0 l : config_ok c -> Z.of_nat (length (accepted_pkts (effects c e0 l))) = s_ids (reach c e0 l).
Proof.
  intros C. rewrite accepted_count. apply (w_n _ _ _ _ _ _ _ _ _ _ (W_reach c e0 l C)).
Qed.

Theorem C16_retry_limit : forall c e0 l, 0 <= c_limit c -> 1 <= c_retry c < 2 ^ 16 ->
  Z.of_nat (length (accepted_pkts (effects c e0 l))) <= 65536 ->
  let s := reach c e0 l in let o := effects c e0 l in
  (forall p, In p (s_queue s) -> timeouts p o < c_retry c) /\
  (forall e p, In (ODone false p) (snd (step c s e)) <->
     In p (s_queue s) /\ In (OTimeout (f_seq p)) (snd (step c s e)) /\ timeouts p o + 1 = c_retry c).
Proof.
  intros c e0 l C RL B s o. rewrite few in B by exact C. unfold reach in B.
  pose proof (W_reach c e0 l C) as HW.
  pose proof (R_run c l (init e0) [] C RL (W_init c e0 C) B (R_init c e0)) as HR. cbn [app] in HR.
  split.
  - intros p I. unfold s, reach in I. rewrite (w_queue _ _ _ _ _ _ _ _ _ _ HW) in I.
    apply in_map_iff in I. destruct I as [t [<- T]]. destruct (proj1 HR t T) as [E L]. unfold o, effects. lia.
  - intros e p. apply discard_iff; auto.
Qed.
Print Assumptions C16_retry_limit.

(** Limit 2: the second timeout discards. *)
Example C16_two :
  let c := cfg false 1000 2 5 in let l := play c (init 10000) [enq 100 2; Next 0; Next 0] in
  let l2 := play c (init 10000) [enq 100 2; Next 0; Next 0; Next 0] in
  realistic c (init 10000) [] l2 = true /\
  timeouts (data 2 1 117 0) (effects c 10000 l) = 1 /\ s_queue (reach c 10000 l) = [data 2 1 117 0] /\
  s_queue (reach c 10000 l2) = [] /\ reported false (effects c 10000 l2) = [data 2 1 117 0].
Proof. vm_compute. auto 10. Qed.

(** * C17 *)
Theorem C17_backoff_window : forall c e0 l i draw p, 0 <= c_limit c -> 1 <= c_retry c < 2 ^ 16 -> 0 <= c_slot c ->
  Z.of_nat (length (accepted_pkts (effects c e0 l))) <= 65536 -> 0 <= draw < rng_m ->
  let s := reach c e0 l in let o := effects c e0 l in
  let s' := fst (step c s (EvTimer i draw)) in let o' := snd (step c s (EvTimer i draw)) in
  (forall k d, In (OBackoff p k d) o' ->
     In p (s_queue s) /\ k = timeouts p o + 1 /\ k < c_retry c /\
     c_slot c <= d <= 2 ^ k * c_slot c /\
     exists t, In t (s_timers s') /\ tm_kind t = KCheck p /\ tm_due t = s_now s + d) /\
  (c_retry c <= 32 -> In p (s_queue s) -> In (OTimeout (f_seq p)) o' -> timeouts p o + 1 < c_retry c ->
     exists d, In (OBackoff p (timeouts p o + 1) d) o').
Proof.
  intros c e0 l i draw p C RL SL B D s o s' o'. rewrite few in B by exact C. unfold reach in B.
  pose proof (W_reach c e0 l C) as HW.
  pose proof (R_run c l (init e0) [] C RL (W_init c e0 C) B (R_init c e0)) as HR. cbn [app] in HR.
  split.
  - intros k d I. eapply backoff_step; eauto.
  - intros R2 Q T K. eapply backoff_happens; eauto. lia.
Qed.
Print Assumptions C17_backoff_window.

(** Second timeout, draw near the top of the range: 4 slots of 8 us. *)
Example C17_second_backoff :
  let c := cfg false 1000 5 5 in
  let l := play c (init 10000) [enq 100 2; Next 0; Next 0; Next 4294967000] in
  realistic c (init 10000) [] l = true /\
  last (effects c 10000 l) OUB = OBackoff (data 2 1 117 0) 2 (4 * 8000000000).
Proof. vm_compute. auto. Qed.

(** With a retry limit above 32 the window computation becomes undefined: pow (2, 32) does not
    fit uint32_t. *)
Theorem C17_large_limit_refuted : exists c e0 l, c_retry c = 33 /\
  realistic c (init e0) [] l = true /\ In OUB (effects c e0 l).
Proof.
  pose (c := cfg false 1000 33 5).
  pose (l := play c (init 100000) (enq 100 2 :: flat_map (fun _ => [Next 0; Next 0]) (seq 0 31) ++ [Next 0])).
  exists c, 100000, l. split; [reflexivity|]. split; [vm_compute; reflexivity|].
  assert (last (effects c 100000 l) (ORet true) = OUB) as <- by (vm_compute; reflexivity).
  assert (effects c 100000 l <> []) as N by (vm_compute; discriminate).
  destruct (exists_last N) as [x [y ->]]. rewrite last_last. apply in_or_app. right. left. reflexivity.
Qed.
Print Assumptions C17_large_limit_refuted.

(** * C18 *)
(** [concerns p f]: [f] is the DATA frame of [p] or an RTS for it. *)
Theorem C18_in_order : forall c e0 l, 0 <= c_limit c -> genuine c (init e0) [] l ->
  Z.of_nat (length (accepted_pkts (effects c e0 l))) < 65536 ->
  forall a q b p d f r, effects c e0 l = a ++ OAccept q :: b ++ OAccept p :: d ++ OSend f :: r ->
  concerns p f -> f_dst q = f_dst p -> exists ok, In (ODone ok q) (b ++ OAccept p :: d).
Proof.
  intros c e0 l C G B. rewrite few in B by exact C. unfold reach in B.
  apply in_order; auto. lia.
Qed.
Print Assumptions C18_in_order.

(** Two packets to node 2; the second goes out after the first was acknowledged. *)
Example C18_run :
  let c := cfg true 1000 5 5 in
  let l := play c (init 10000) [enq 100 2; enq 50 2; cts 2 1; ack 2 1; Next 0] in
  realistic c (init 10000) [] l = true /\
  sent (effects c 10000 l) = [ctrl T_RTS 1 2 1; data 2 1 117 0; ctrl T_RTS 1 2 2].
Proof. vm_compute. auto. Qed.
Example C18_genuine :
  genuine (cfg true 1000 5 5) (init 10000) []
    (play (cfg true 1000 5 5) (init 10000) [enq 100 2; enq 50 2; cts 2 1; ack 2 1; Next 0]).
Proof.
  vm_compute. repeat split; auto. intros _ _. exists (ctrl T_RTS 1 2 1). vm_compute. tauto. intros; discriminate.
Qed.

(** * C21 *)
(** Full statement: with enough energy and a loss-free channel the MAC never comes to rest with
    packets in its queue. Two destinations suffice to refute it: both transmissions of the
    first packet are acknowledged, no timer is pending, the second packet stays. *)
Theorem C21_progress_refuted : exists c e0 l, realistic c (init e0) [] l = true /\
  rich (effects c e0 l) /\
  (forall f, In (OSend f) (effects c e0 l) -> f_type f = T_DATA /\ f_dst f = 2) /\
  s_queue (reach c e0 l) = [data 3 2 117 1] /\ s_timers (reach c e0 l) = [].
Proof.
  exists (cfg false 1000 5 5), 10000,
    (play (cfg false 1000 5 5) (init 10000) [enq 100 2; enq 100 3; ack 2 1; ack 2 1]).
  split; [vm_compute; reflexivity|]. split.
  { intros tx rx. vm_compute. intuition discriminate. }
  split; [|vm_compute; auto].
  intros f. vm_compute. intros X. intuition (try discriminate); injection H as <-; auto.
Qed.
Print Assumptions C21_progress_refuted.

(** Proved for a single unicast destination, retry limit at most 32, fewer than 65536 packets,
    no energy shortage; losses, duplicates and delays are allowed. *)
Theorem C21_progress_partial : forall c e0 d l, 0 <= c_limit c -> 1 <= c_retry c <= 32 -> d <> bcast ->
  genuine c (init e0) [] l -> Forall (enq_to d) l -> rich (effects c e0 l) ->
  Z.of_nat (length (accepted_pkts (effects c e0 l))) < 65536 ->
  let s := reach c e0 l in let o := effects c e0 l in
  (s_queue s <> [] -> s_timers s <> []) /\
  (s_timers s = [] -> s_queue s = [] /\
     forall p, In p (accepted_pkts o) ->
       (exists f, In (OSend f) o /\ concerns p f) /\ exists ok, In (ODone ok p) o).
Proof.
  intros c e0 d l C RL D G F R B. rewrite few in B by exact C. unfold reach in B.
  apply (progress c e0 d l); auto. lia.
Qed.
Print Assumptions C21_progress_partial.

(** Left alone, the MAC comes to rest after a bounded number of its own events (any number of
    destinations). *)
Theorem C21_bounded_partial : forall c e0 l l2, 0 <= c_limit c -> 1 <= c_retry c < 2 ^ 16 ->
  Z.of_nat (length (accepted_pkts (effects c e0 l))) <= 65536 ->
  let s := reach c e0 l in
  alone c s l2 ->
  Z.of_nat (length l2) <= 3 * c_retry c * Z.of_nat (length (s_queue s)) + 2 * Z.of_nat (length (s_timers s)).
Proof.
  intros c e0 l l2 C RL B. rewrite few in B by exact C. unfold reach in B.
  apply drains; auto.
Qed.
Print Assumptions C21_bounded_partial.

(** Two packets to node 2, nobody answers, limit 2: eight own events, then the queue is empty. *)
Definition run21 : list cmd := enq 100 2 :: enq 100 2 :: map (fun _ => Next 0) (seq 0 7).
Example C21_drained :
  let c := cfg false 1000 2 5 in let l := play c (init 100000) run21 in
  realistic c (init 100000) [] l = true /\ s_timers (reach c 100000 l) = [] /\
  s_queue (reach c 100000 l) = [] /\ length (accepted_pkts (effects c 100000 l)) = 2%nat /\
  Forall (enq_to 2) l.
Proof.
  vm_compute. repeat split; auto. repeat constructor.
Qed.

(** * C22 *)
(** The opposite holds: a broadcast packet never leaves the queue. *)
Theorem C22_broadcast_never_leaves_refuted : forall c e0 l p, 0 <= c_limit c ->
  Z.of_nat (length (accepted_pkts (effects c e0 l))) <= 65536 ->
  In (OAccept p) (effects c e0 l) -> f_dst p = bcast ->
  In p (s_queue (reach c e0 l)).
Proof.
  intros c e0 l p C B. rewrite few in B by exact C. apply bcast_stays; auto.
Qed.
Print Assumptions C22_broadcast_never_leaves_refuted.

(** Two broadcasts and all the timers they ever start: both are still queued. *)
Example C22_example :
  let c := cfg false 1000 5 5 in
  let l := play c (init 10000) [enq 100 bcast; enq 100 bcast; Do (EvTick 100000); Next 0; Next 0; Next 0] in
  In (OAccept (data bcast 1 117 0)) (effects c 10000 l) /\ In (OAccept (data bcast 2 117 1)) (effects c 10000 l) /\
  s_queue (reach c 10000 l) = [data bcast 1 117 0; data bcast 2 117 1] /\ s_timers (reach c 10000 l) = [].
Proof. vm_compute. tauto. Qed.

(** And the packet behind it is not served although nothing is pending. *)
Theorem C22_blocked_refuted : exists c e0 l p q, realistic c (init e0) [] l = true /\
  f_dst p = bcast /\ f_dst q <> bcast /\ sent (effects c e0 l) = [p; p] /\
  s_queue (reach c e0 l) = [p; q] /\ s_timers (reach c e0 l) = [].
Proof.
  exists (cfg false 1000 5 5), 10000,
    (play (cfg false 1000 5 5) (init 10000) [enq 100 bcast; enq 100 3]), (data bcast 1 117 0), (data 3 2 117 1).
  vm_compute. intuition discriminate.
Qed.
Print Assumptions C22_blocked_refuted.

(** * C23 *)
Theorem C23_late_transmission_refuted : exists c e0 l p a b, realistic c (init e0) [] l = true /\
  effects c e0 l = a ++ ODone true p :: b /\ In (OSend p) b.
Proof.
  pose (c := cfg false 1000 5 5).
  pose (l := play c (init 10000) [enq 100 2; Do (EvTick 100000); enq 100 3; Next 0; ack 2 1; Next 0]).
  pose (o := effects c 10000 l).
  exists c, 10000, l, (data 2 1 117 0), (firstn 11 o), (skipn 12 o). vm_compute. auto.
Qed.
Print Assumptions C23_late_transmission_refuted.

(** At most as many transmissions of a reported packet follow as backoff / next-packet events
    were pending for it; in particular none if there were none. *)
Theorem C23_late_transmission_partial : forall c e0 l l2 ok p, 0 <= c_limit c ->
  Z.of_nat (length (accepted_pkts (effects c e0 (l ++ l2)))) <= 65536 ->
  In (ODone ok p) (effects c e0 l) ->
  (transmissions p (snd (run c (reach c e0 l) l2)) <= pending_checks p (reach c e0 l))%nat.
Proof.
  intros c e0 l l2 ok p C B D. rewrite few in B by exact C. unfold reach in B.
  eapply (late_run c l2 _ (effects c e0 l)); eauto; [apply W_reach; auto|].
  rewrite run_app in B. exact B.
Qed.
Print Assumptions C23_late_transmission_partial.

Example C23_one_pending :
  let c := cfg false 1000 5 5 in
  let l := play c (init 10000) [enq 100 2; Do (EvTick 100000); enq 100 3; Next 0; ack 2 1] in
  In (ODone true (data 2 1 117 0)) (effects c 10000 l) /\
  pending_checks (data 2 1 117 0) (reach c 10000 l) = 1%nat.
Proof. vm_compute. tauto. Qed.

(** * C24 *)
(** RTS mode: a CTS that comes after its timeout makes the MAC send DATA whose booking has
    been returned. *)
Theorem C24_data_paid_refuted : exists c e0 l a p, realistic c (init e0) [] l = true /\
  c_framelen c = f_size p /\ f_type p = T_DATA /\
  effects c e0 l = a ++ [OSend p] /\ net_tx a < air_bytes (a ++ [OSend p]).
Proof.
  pose (c := cfg true 1000 5 117).
  pose (l := play c (init 10000) [enq 100 2; Next 0; cts 2 1]).
  exists c, 10000, l, (removelast (effects c 10000 l)), (data 2 1 117 0). vm_compute. auto.
Qed.
Print Assumptions C24_data_paid_refuted.

(** Without RTS, and for broadcast, every DATA frame directly follows its own booking; an RTS
    directly follows a booking that includes the data frame it announces. *)
Theorem C24_data_paid_partial : forall c e0 l, 0 <= c_limit c -> genuine c (init e0) [] l ->
  Z.of_nat (length (accepted_pkts (effects c e0 l))) < 65536 ->
  forall a f b, effects c e0 l = a ++ OSend f :: b ->
  (f_type f = T_DATA -> c_rts c = false \/ f_dst f = bcast ->
     exists a', a = a' ++ [OBooked true (f_size f) 17]) /\
  (f_type f = T_RTS -> c_rts c = true /\
     exists a' p, a = a' ++ [OBooked true (f_size p + 18) 36] /\ concerns p f).
Proof.
  intros c e0 l C G B a f b E. rewrite few in B by exact C. unfold reach in B.
  pose proof (paid_run c l (init e0) [] C (K_init c e0 C) ltac:(intros [] ? ? X; discriminate) G ltac:(lia)) as P.
  apply (P a f b). exact E.
Qed.
Print Assumptions C24_data_paid_partial.

(** A two-way packet and an RTS with their bookings. *)
Example C24_example :
  (exists b, effects (cfg false 1000 5 5) 10000 (play (cfg false 1000 5 5) (init 10000) [enq 100 2]) =
     [OAccept (data 2 1 117 0); OBooked true 117 17; OSend (data 2 1 117 0)] ++ b) /\
  (exists b, effects (cfg true 1000 5 117) 10000 (play (cfg true 1000 5 117) (init 10000) [enq 100 2]) =
     [OAccept (data 2 1 117 0); OBooked true 135 36; OSend (ctrl T_RTS 1 2 1)] ++ b).
Proof. split; [eexists; vm_compute; reflexivity|]. eexists; vm_compute; reflexivity. Qed.

(** * C25 *)
Theorem C25_ack_policy : forall c e0 l, 0 <= c_limit c ->
  let s := reach c e0 l in
  (forall e g, In (OSend g) (snd (step c s e)) -> f_type g = T_ACK ->
     exists f, e = EvRecv f true /\ f_type f = T_DATA /\ f_dst f = c_addr c /\ f_dst f <> bcast /\
       f_src g = c_addr c /\ f_dst g = f_src f /\ f_seq g = f_seq f) /\
  (forall f, f_type f = T_DATA -> f_dst f = c_addr c -> f_dst f <> bcast ->
     c_rts c = true \/ cost (c_energy c) 18 (f_size f - 17) <= s_energy s ->
     sent (snd (step c s (EvRecv f true))) = [ctrl T_ACK (c_addr c) (f_src f) (f_seq f)]).
Proof.
  intros c e0 l C s. split.
  - intros e g I T. eapply ack_only; eauto. apply (W_reach c e0 l C).
  - intros f T D N E. apply ack_always; auto. destruct E as [E|E]; auto. right.
    unfold book. change (hdr_size T_RTS) with 18. change (hdr_size T_DATA) with 17.
    destruct (Z.geb_spec (s_energy s - cost (c_energy c) 18 (f_size f - 17)) 0); [reflexivity|lia].
Qed.
Print Assumptions C25_ack_policy.

(** A duplicate is acknowledged again but not handed up again. *)
Example C25_duplicate :
  let c := cfg false 1000 5 5 in let f := Frame T_DATA 2 1 1 100 0 in
  let l := [EvRecv f true; EvRecv f true] in
  sent (effects c 10000 l) = [ctrl T_ACK 1 2 1; ctrl T_ACK 1 2 1] /\ handed_up (effects c 10000 l) = [f].
Proof. vm_compute. auto. Qed.

(** * C26 *)
Theorem C26_other_frames : forall c s f, f_dst f <> c_addr c -> f_dst f <> bcast ->
  let s' := fst (step c s (EvRecv f true)) in
  s' = set_energy (s_energy s') s /\
  (0 <= ep_rx (c_energy c) -> 0 <= f_size f -> s_energy s' <= s_energy s) /\
  (forall o, In o (snd (step c s (EvRecv f true))) -> exists ok, o = OBooked ok 0 (f_size f) /\ f_type f = T_RTS).
Proof.
  intros c s f D N s'. destruct (others_ignored c s f D N) as [A B]. split; [exact A|]. split; [|exact B].
  intros R S. unfold s'. cbn [step]. unfold receive. cbn [negb].
  destruct (f_type f =? T_RTS).
  - unfold receive_rts. rewrite booking_eq. cbv zeta. rewrite (proj2 (Z.eqb_neq _ _) D). cbn [fst skip s_energy set_energy].
    unfold book. destruct (_ >=? _); cbn [snd]; [|lia]. unfold cost. nia.
  - unfold receive_cts, receive_data, receive_ack.
    rewrite !(proj2 (Z.eqb_neq _ _) D), (proj2 (Z.eqb_neq _ _) N). cbn [negb].
    destruct (f_type f =? T_CTS); [cbn; lia|]. destruct (f_type f =? T_DATA); [cbn; lia|]. destruct (f_type f =? T_ACK); cbn; lia.
Qed.
Print Assumptions C26_other_frames.

Theorem C26_corrupted_frames : forall c s f, step c s (EvRecv f false) = (s, []).
Proof. intros c s f. reflexivity. Qed.
Print Assumptions C26_corrupted_frames.

Example C26_rts_for_other :
  let c := cfg true 1000 5 5 in let s := reach c 10000 [EvEnqueue 100 2] in
  fst (step c s (EvRecv (ctrl T_RTS 2 3 7) true)) = set_energy (s_energy s - 18) s.
Proof. vm_compute. reflexivity. Qed.

(** * C27 *)
(** An ACK timeout returns reception energy for 18 bytes of which 17 were booked. *)
Theorem C27_ack_refund_refuted : exists c e0 l p, realistic c (init e0) [] l = true /\
  exists a b, effects c e0 l = a ++ OBooked true (f_size p) 17 :: OSend p :: ORet true :: OTimeout (f_seq p) :: ORefund 0 18 :: b.
Proof.
  pose (c := cfg false 1000 5 5). pose (l := play c (init 10000) [enq 100 2; Next 0]).
  exists c, 10000, l, (data 2 1 117 0). split; [vm_compute; reflexivity|].
  exists [OAccept (data 2 1 117 0)], (skipn 6 (effects c 10000 l)). vm_compute. reflexivity.
Qed.
Print Assumptions C27_ack_refund_refuted.

(** With FrameLength larger than the packet, a CTS timeout creates energy from nothing. *)
Theorem C27_energy_created_refuted : exists c e0 l, realistic c (init e0) [] l = true /\
  injected c (init e0) l = 0 /\ e0 < s_energy (reach c e0 l).
Proof.
  pose (c := cfg true 1000 5 500). pose (l := play c (init 10000) [enq 20 2; Next 0]).
  exists c, 10000, l. vm_compute. auto.
Qed.
Print Assumptions C27_energy_created_refuted.

(** The level never exceeds initial plus injected energy when receiving a byte costs no more
    than sending one, FrameLength does not exceed the packets' length and the channel does not
    duplicate CTS frames. *)
Theorem C27_energy_bound_partial : forall c e0 l, 0 <= c_limit c ->
  0 <= ep_rx (c_energy c) <= ep_tx (c_energy c) -> 0 <= c_framelen c ->
  Forall (sized c) l -> no_dup_cts c (init e0) 0 l ->
  s_energy (reach c e0 l) <= e0 + injected c (init e0) l.
Proof.
  intros c e0 l C E F S D. apply budget; auto. split; auto.
Qed.
Print Assumptions C27_energy_bound_partial.

Example C27_run :
  let c := cfg true 1000 5 5 in
  let l := play c (init 10000) [enq 100 2; Next 0; Next 0; cts 2 1; ack 2 1; Do (EvEnergy 9500)] in
  realistic c (init 10000) [] l = true /\ Forall (sized c) l /\ no_dup_cts c (init 10000) 0 l /\
  injected c (init 10000) l = 861.
Proof.
  split; [vm_compute; reflexivity|]. split; [vm_compute; repeat constructor; discriminate|].
  split; [vm_compute; repeat split; discriminate|vm_compute; reflexivity].
Qed.
