(** Properties C114 and C115: the whole nano stack. *)
From Coq Require Import ZArith List Lia Bool Sorting.Sorted.
From Verif Require Import Base HeaderModel SeqModel EnergyModel NanoModel NanoSpec NetModel NetProofs NetProps PhyModel ChannelModel
  StackModel StackProofs StackLive.
Import ListNotations.
Open Scope Z_scope.

(** * C114: end to end through the PHYs and the channel *)
(** Any number of nodes, any events in any order (whether or not in real time), any delays,
    powers and interference. Nothing is assumed about the channel. *)
Theorem C114_stack : forall c e0 l, (forall a, c_addr (k_mac c a) = a /\ 0 <= c_limit (k_mac c a)) ->
  let n := k_net (krun c (stack0 c e0) l) in
  (* a packet handed up was accepted at its source and addressed to this node *)
  (forall x f, In f (handed_up (snd (n x))) -> In (OAccept f) (snd (n (f_src f))) /\ (f_dst f = x \/ f_dst f = bcast)) /\
  (* at most once *)
  (forall x p, (deliveries p (snd (n x)) <= 1)%nat) /\
  (* exactly once if reported as sent; in order *)
  (forall a, s_ids (fst (n a)) <= 65535 ->
     (forall p, In (ODone true p) (snd (n a)) -> deliveries p (snd (n (f_dst p))) = 1%nat) /\
     forall x, StronglySorted Z.lt (map f_body (filter (fun f => f_src f =? a) (handed_up (snd (n x)))))).
Proof.
  intros c e0 l C n. assert (R : net_reach (k_mac c) e0 n) by apply stack_refines.
  assert (OK : net_ok (k_mac c)) by exact C.
  split; [|split].
  - intros x f U. eapply C20_genuine; eauto.
  - intros x p. eapply C20_at_most_once; eauto.
  - intros a B. split.
    + intros p D. eapply C19_success_delivered_once; eauto.
    + intros x. eapply C44_delivery_order; eauto.
Qed.
Print Assumptions C114_stack.

(** * C115: a packet in an otherwise idle network *)

(** The packet that Enqueue makes. *)
Definition pkt (s : stack) (a b size : Z) : frame :=
  Frame T_DATA a b (wrap16 (s_seq (fst (k_net s a)) + 1)) (size + hdr_size T_DATA) (s_ids (fst (k_net s a))).

(** Nothing is going on, node [a] has nothing queued, and nothing stands in the way of a packet to
    [b]: enough energy at both, its number is new to [b], times fit into a double, and there is
    room for two pulse trains in a symbol. RTS/CTS is off (the default). *)
Record isolated (c : sconf) (s : stack) (a b size dmax : Z) : Prop := {
  is_quiet : quiet c s;
  is_nodup : NoDup (k_nodes c);
  is_a : In a (k_nodes c);
  is_b : In b (k_nodes c);
  is_ab : a <> b;
  is_unicast : b <> bcast;
  is_addr : forall x, In x (k_nodes c) -> c_addr (k_mac c x) = x;
  is_rts : c_rts (k_mac c a) = false /\ c_rts (k_mac c b) = false;
  is_size : size <> 64;
  is_limit : 0 < c_limit (k_mac c a);
  is_empty : s_queue (fst (k_net s a)) = [] /\ s_tx (fst (k_net s a)) = [] /\ s_ack (fst (k_net s a)) = [];
  is_ea : fst (book (c_energy (k_mac c a)) (s_energy (fst (k_net s a))) (f_size (pkt s a b size)) (hdr_size T_ACK)) = true;
  is_eb : fst (book (c_energy (k_mac c b)) (s_energy (fst (k_net s b))) (hdr_size T_RTS) (f_size (pkt s a b size) - hdr_size T_DATA)) = true;
  is_fresh : fst (is_new (s_filter (fst (k_net s b))) a (f_seq (pkt s a b size))) = true;
  is_dur : 0 <= c_dur (k_mac c a) (f_size (pkt s a b size)) /\ 0 <= c_dur (k_mac c b) (hdr_size T_ACK) /\
           c_dur (k_mac c b) (hdr_size T_ACK) = c_dur (k_mac c a) (hdr_size T_ACK);
  is_pulse : 0 < p_pulse (k_pc c b) /\ 4 * p_pulse (k_pc c b) <= p_ts (k_pc c b);
  is_early : 0 <= know s /\ 0 <= dmax /\
             know s + c_dur (k_mac c a) (f_size (pkt s a b size)) + dmax + 2 * p_ts (k_pc c b) <= 2 ^ 52 }.

(** Nothing is left to do. *)
Definition finished (c : sconf) (s : stack) : Prop :=
  k_sends s = [] /\ c_pend (k_chan s) = [] /\ forall x, In x (k_nodes c) -> s_timers (fst (k_net s x)) = [].

(** Full statement: whatever the distances, node [a] reports the packet as sent. *)
Definition C115_full := forall c s a b size dmax l, isolated c s a b size dmax ->
  Forall (internal c dmax) l -> ktimely_run c (kstep c s (KMac a (EvEnqueue size b))) l = true ->
  finished c (krun c (kstep c s (KMac a (EvEnqueue size b))) l) ->
  In (ODone true (pkt s a b size)) (snd (k_net (krun c (kstep c s (KMac a (EvEnqueue size b))) l) a)).

(** What holds: the acknowledgement comes in time if the way to [b] and back, and the slot search of
    its PHY, take less than the 676 ps of the timeout. The packet is sent once, handed up, and
    reported. *)
Theorem C115_first_attempt_partial : forall c s a b size dmax l, isolated c s a b size dmax ->
  2 * dmax + p_ts (k_pc c b) - p_pulse (k_pc c b) < 676000 ->
  Forall (internal c dmax) l -> ktimely_run c (kstep c s (KMac a (EvEnqueue size b))) l = true ->
  let e := krun c (kstep c s (KMac a (EvEnqueue size b))) l in
  (* the timeout would be over, or there is none left *)
  s_timers (fst (k_net e a)) = [] \/
  know s + (c_dur (k_mac c a) (f_size (pkt s a b size)) + c_dur (k_mac c a) (hdr_size T_ACK) + 676000) <= know e ->
  snd (k_net e a) = (snd (k_net s a) ++ [OAccept (pkt s a b size); OBooked true (f_size (pkt s a b size)) (hdr_size T_ACK);
                                         OSend (pkt s a b size); ORet true]) ++ [ODone true (pkt s a b size)] /\
  snd (k_net e b) = snd (k_net s b) ++ [OBooked true (hdr_size T_RTS) (f_size (pkt s a b size) - hdr_size T_DATA);
                                        OSend (ctrl T_ACK b a (f_seq (pkt s a b size))); OUp (pkt s a b size)] /\
  k_bad e = false.
Proof.
  intros c s a b size dmax l [] M F K e L. destruct is_rts0 as [RA RB].
  apply (exchange_done c s a b size dmax); auto.
Qed.
Print Assumptions C115_first_attempt_partial.

(** ** A scheduler for examples: the earliest event runs next; every delay is [d] *)
Fixpoint index {X} (g : X -> bool) (l : list X) : option nat :=
  match l with [] => None | x :: r => if g x then Some 0%nat else option_map S (index g r) end.
Fixpoint first_some {X Y} (g : X -> option Y) (l : list X) : option Y :=
  match l with [] => None | x :: r => match g x with Some y => Some y | None => first_some g r end end.
Definition times (c : sconf) (s : stack) : list Z :=
  map ps_time (k_sends s) ++ map fst (c_pend (k_chan s)) ++
  flat_map (fun a => map tm_due (s_timers (fst (k_net s a))) ++ map (fun d => o_start d + o_dur d) (y_dels (k_phy s a))) (k_nodes c).
Definition next (c : sconf) (d : Z) (s : stack) : option sev :=
  let now := know s in
  match index (fun p => ps_time p =? now) (k_sends s) with
  | Some i => Some (KSend i (fun _ => d))
  | None =>
    match index (fun e => fst e =? now) (c_pend (k_chan s)) with
    | Some i => Some (KChan i 1 0)
    | None =>
      match first_some (fun a => option_map (fun i => KMac a (EvTimer i 5)) (index (fun t => tm_due t =? now) (s_timers (fst (k_net s a))))) (k_nodes c) with
      | Some e => Some e
      | None =>
        match first_some (fun a => option_map (KDel a) (index (fun t => o_start t + o_dur t =? now) (y_dels (k_phy s a)))) (k_nodes c) with
        | Some e => Some e
        | None => match times c s with [] => None | t :: r => Some (KTick (fold_left Z.min r t)) end
        end
      end
    end
  end.
Fixpoint script (fuel : nat) (c : sconf) (d : Z) (s : stack) : list sev :=
  match fuel with
  | O => []
  | S n => match next c d s with Some e => e :: script n c d (kstep c s e) | None => [] end
  end.

(** Three nodes with the default attributes (femtoseconds; 80 ps for a byte). *)
Definition sc : sconf :=
  SConf (fun a => Cfg a false 1000 5 5 8000000000 (fun n => n * 80000) default_eparams) (fun _ => PConf 100 10000)
    (fun _ _ _ => false) [1; 2; 3].
Definition st0 : stack := stack0 sc (fun _ => 100000).
Definition st1 : stack := kstep sc st0 (KMac 1 (EvEnqueue 20 2)).

Lemma sample_isolated dmax : 0 <= dmax <= 10 ^ 9 -> isolated sc st0 1 2 20 dmax.
Proof.
  intros H. change (10 ^ 9) with 1000000000 in H. constructor.
  - constructor; try reflexivity; intros x; try intros _; reflexivity.
  - repeat constructor; cbn; intuition discriminate.
  - left. reflexivity.
  - right. left. reflexivity.
  - discriminate.
  - discriminate.
  - intros x _. reflexivity.
  - split; reflexivity.
  - discriminate.
  - reflexivity.
  - repeat split.
  - reflexivity.
  - reflexivity.
  - reflexivity.
  - change (c_dur (k_mac sc 1) (f_size (pkt st0 1 2 20))) with 2960000. change (c_dur (k_mac sc 2) (hdr_size T_ACK)) with 1360000.
    repeat split; lia.
  - cbn. lia.
  - change (2 ^ 52) with 4503599627370496. change (know st0) with 0.
    change (c_dur (k_mac sc 1) (f_size (pkt st0 1 2 20))) with 2960000. change (p_ts (k_pc sc 2)) with 10000. lia.
Qed.

Lemma internal_script c d dmax : 0 <= d <= dmax -> (forall x, k_low c x 1 0 = false) ->
  forall n s, Forall (internal c dmax) (script n c d s).
Proof.
  intros D L. induction n as [|n IH]; intros s; cbn [script]; [constructor|].
  destruct (next c d s) as [e|] eqn:E; constructor; auto. unfold next in E.
  assert (F : forall X Y (g : X -> option Y) l y, first_some g l = Some y -> exists x, g x = Some y).
  { induction l as [|x l I]; cbn; intros y H; [discriminate|]. destruct (g x) eqn:G; [injection H as <-; eauto|eauto]. }
  destruct (index _ _); [injection E as <-; cbn; auto|].
  destruct (index _ _); [injection E as <-; cbn; auto|].
  destruct (first_some _ _) eqn:F1; [injection E as ->; apply F in F1; destruct F1 as [x F1]; destruct (index _ _); [injection F1 as <-; exact I|discriminate]|].
  clear F1. destruct (first_some _ _) eqn:F1; [injection E as ->; apply F in F1; destruct F1 as [x F1]; destruct (index _ _); [injection F1 as <-; exact I|discriminate]|].
  destruct (times c s); [discriminate|]. injection E as <-. exact I.
Qed.

(** 0.3 m apart (1 ns): the acknowledgement of each of the five transmissions comes 1.3 ns after
    its timeout. The packet is handed up at node 2 and reported as failed at node 1. *)
Definition far : list sev := script 200 sc 1000000 st1.
Definition done_true (o : out) : bool := match o with ODone true _ => true | _ => false end.
Example far_run :
  handed_up (snd (k_net (krun sc st1 far) 2)) = [pkt st0 1 2 20] /\
  existsb (fun o => match o with ODone false f => frame_eqb f (pkt st0 1 2 20) | _ => false end) (snd (k_net (krun sc st1 far) 1)) = true /\
  length (filter (fun o => match o with OSend _ => true | _ => false end) (snd (k_net (krun sc st1 far) 1))) = 5%nat.
Proof. repeat split; vm_compute; reflexivity. Qed.

Theorem C115_first_attempt_refuted : ~ C115_full.
Proof.
  intros F.
  assert (T : ktimely_run sc st1 far = true) by (vm_compute; reflexivity).
  assert (E : finished sc (krun sc st1 far)).
  { split; [vm_compute; reflexivity|]. split; [vm_compute; reflexivity|].
    intros x [<-|[<-|[<-|[]]]]; vm_compute; reflexivity. }
  assert (N : existsb done_true (snd (k_net (krun sc st1 far) 1)) = false) by (vm_compute; reflexivity).
  assert (I : isolated sc st0 1 2 20 1000000) by (apply sample_isolated; change (10 ^ 9) with 1000000000; lia).
  assert (A : Forall (internal sc 1000000) far) by (apply internal_script; [lia|reflexivity]).
  pose proof (F sc st0 1 2 20 1000000 far I A T E) as H.
  assert (X : existsb done_true (snd (k_net (krun sc st1 far) 1)) = true).
  { apply existsb_exists. eexists. split; [exact H|reflexivity]. }
  rewrite N in X. discriminate X.
Qed.
Print Assumptions C115_first_attempt_refuted.

(** 3 cm apart (100 ps): the hypotheses of the positive theorem hold. *)
Definition near : list sev := script 60 sc 100000 st1.
Example near_run : isolated sc st0 1 2 20 100000 /\ 2 * 100000 + p_ts (k_pc sc 2) - p_pulse (k_pc sc 2) < 676000 /\
  Forall (internal sc 100000) near /\ ktimely_run sc st1 near = true /\ length near = 25%nat /\
  s_timers (fst (k_net (krun sc st1 near) 1)) = [].
Proof.
  split; [apply sample_isolated; change (10 ^ 9) with 1000000000; lia|]. split; [reflexivity|].
  split; [apply internal_script; [lia|reflexivity]|].
  split; [vm_compute; reflexivity|]. split; vm_compute; reflexivity.
Qed.
(** C114 on the same runs. *)
Example stack_sample : (forall a, c_addr (k_mac sc a) = a /\ 0 <= c_limit (k_mac sc a)) /\
  deliveries (pkt st0 1 2 20) (snd (k_net (krun sc st1 far) 2)) = 1%nat /\
  deliveries (pkt st0 1 2 20) (snd (k_net (krun sc st1 near) 2)) = 1%nat /\
  In (ODone true (pkt st0 1 2 20)) (snd (k_net (krun sc st1 near) 1)).
Proof.
  split; [intros a; split; [reflexivity|discriminate]|]. split; [vm_compute; reflexivity|].
  split; [vm_compute; reflexivity|]. vm_compute. right. right. right. right. left. reflexivity.
Qed.
