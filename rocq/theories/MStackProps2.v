(** Property C117: THzMacMacro nodes with PHYs and channel. *)
From Coq Require Import ZArith List Lia Bool Sorted.
From Verif Require Import Base HeaderModel SeqModel EnergyModel MacModel MacSpec MacProofs MacAcct MacSteps MacInv MacResp MacNet MacProps
  MacroPhyModel ChannelModel MStackModel MStackProofs MStackMac MStackProps.
Import ListNotations.
Open Scope Z_scope.

Definition macs_timer (N : addr -> mnode) (now : Z) (a : addr) : option yev :=
  option_map YTimer (qindex (fun t => mt_due t =? now) (m_timers (n_st (N a)))).
Definition mdur (f : mframe) : Z := if mf_type f =? T_DATA then 812 * nsec else 2 * nsec.
Definition mm (rts : bool) : mconf (addr -> mnode) yev mframe yenv := mac_conf (mex rts) mdur (fun _ _ => true) (fun _ _ _ => true) [1; 2].
Definition me : yenv := Yenv (fun _ => 1) 60000.
Definition mhop : Z := 33 * nsec.
Definition mstart : list (qev (X := yev) (O := yenv)) :=
  [QOwn 1 me (fun _ => mhop) (YEnqueue 15000 2 0); QOwn 1 me (fun _ => mhop) (YEnqueue 15000 2 0)].
Definition mmrun (rts : bool) (q0 : addr -> Z) (n : nat) :=
  let s := qrun (mm rts) me (qinit (mm rts) (macs0 q0)) mstart in
  mstart ++ qscript (mm rts) (macs_due [1; 2]) macs_timer me mhop n s.
Definition mmend rts q0 n := qrun (mm rts) me (qinit (mm rts) (macs0 q0)) (mmrun rts q0 n).

(** * C117: nodes with THzMacMacro *)

(** As in C69, but the nodes receive what their PHYs received from the channel: in real time, with at most 65536 packets for each
    node, a unicast packet reported as sent was handed up at its destination. *)
Definition C117_full := forall cfg q0 dur sense good nodes o0 l a p, (forall x, mc_addr (cfg x) = x) -> (forall x, 0 <= q0 x < 65536) ->
  let K := mac_conf cfg dur sense good nodes in
  qtimely_run K (macs_due nodes) macs_own o0 (qinit K (macs0 q0)) l = true ->
  let N := q_net (qrun K o0 (qinit K (macs0 q0)) l) in
  (forall x, In x nodes -> Z.of_nat (length (acc_of (n_out (N x)))) <= 65536) ->
  In p (rep_of true (n_out (N a))) -> mf_dst p <> bcast -> In p (up_of (n_out (N (mf_dst p)))).
Lemma C117_at : C117_full -> forall l p, qtimely_run (mm true) (macs_due [1; 2]) macs_own me (qinit (mm true) (macs0 net_q0)) l = true ->
  (forall x, In x [1; 2] -> Z.of_nat (length (acc_of (n_out (q_net (qrun (mm true) me (qinit (mm true) (macs0 net_q0)) l) x)))) <= 65536) ->
  In p (rep_of true (n_out (q_net (qrun (mm true) me (qinit (mm true) (macs0 net_q0)) l) 1))) -> mf_dst p <> bcast ->
  In p (up_of (n_out (q_net (qrun (mm true) me (qinit (mm true) (macs0 net_q0)) l) (mf_dst p)))).
Proof.
  intros H l p. exact (H (mex true) net_q0 mdur (fun _ _ => true) (fun _ _ _ => true) [1; 2] me l 1 p (fun _ => eq_refl) ltac:(intros x; unfold net_q0; destruct (x =? 1); lia)).
Qed.
(** The counter of node 1 starts at 65534; its second packet gets the number 0. *)
Theorem C117_macs_refuted : ~ C117_full.
Proof.
  intros H. set (p := Mframe T_DATA 1 2 0 0 15017 1). assert (D : mmend true net_q0 100 = qrun (mm true) me (qinit (mm true) (macs0 net_q0)) (mmrun true net_q0 100)) by reflexivity.
  assert (X : up_of (n_out (q_net (mmend true net_q0 100) 2)) = [Mframe T_DATA 1 2 65535 0 15017 0]) by (vm_compute; reflexivity).
  assert (Y : rep_of true (n_out (q_net (mmend true net_q0 100) 1)) = [Mframe T_DATA 1 2 65535 0 15017 0; p]) by (vm_compute; reflexivity).
  pose proof (C117_at H (mmrun true net_q0 100) p) as G. rewrite <- D in G. change (mf_dst p) with 2 in G. rewrite X, Y in G.
  assert (L1 : length (acc_of (n_out (q_net (mmend true net_q0 100) 1))) = 2%nat) by (vm_compute; reflexivity).
  assert (L2 : length (acc_of (n_out (q_net (mmend true net_q0 100) 2))) = 0%nat) by (vm_compute; reflexivity).
  destruct G as [G|[]]; [vm_compute; reflexivity| |right; left; reflexivity|discriminate|discriminate G].
  intros x [<-|[<-|[]]]; [rewrite L1|rewrite L2]; clear; lia.
Qed.
Print Assumptions C117_macs_refuted.

(** Whatever the events, their order, propagation delays, received powers, carrier sense and SINR decisions and random draws are: no PHY
    refuses a packet, no list access in the channel is out of bounds, every packet a PHY reports was sent ([q_bad]); a MAC waits for SendPacketDone exactly
    while its PHY transmits. What a node hands up is a data packet for it or for all that the MAC of its source accepted; none is handed up twice.
    A unicast packet reported as sent was received at its destination, and if it was not handed up, one of the same source with a larger number was. *)
Theorem C117_macs_partial : forall cfg q0 dur sense good nodes o0 l, (forall x, mc_addr (cfg x) = x) -> (forall x, 0 <= q0 x < 65536) ->
  let K := mac_conf cfg dur sense good nodes in
  let s := qrun K o0 (qinit K (macs0 q0)) l in let N := q_net s in
  q_bad s = false /\
  (forall a, m_air (n_st (N a)) <> None <-> k_state (q_phy s a) = KTx) /\
  (forall a f, In f (up_of (n_out (N a))) -> In f (acc_of (n_out (N (mf_src f)))) /\ (mf_dst f = a \/ mf_dst f = bcast)) /\
  (forall a, NoDup (up_of (n_out (N a)))) /\
  (forall a p, Z.of_nat (length (acc_of (n_out (N a)))) <= 65536 -> In p (rep_of true (n_out (N a))) -> mf_dst p <> bcast ->
     In p (rcv_of (n_hist (N (mf_dst p)))) /\
     (In p (up_of (n_out (N (mf_dst p)))) \/ exists g, In g (up_of (n_out (N (mf_dst p)))) /\ mf_src g = a /\ mf_seq p < mf_seq g)).
Proof.
  intros cfg q0 dur sense good nodes o0 l AD U K s N. destruct (macs_run cfg q0 dur sense good nodes o0 l) as [I A]. fold K in I, A. fold s in I, A.
  pose proof (i_net _ _ _ _ I) as R. fold N in R. pose proof (fun x => nreach_node cfg q0 N x R) as RN.
  split; [apply (i_bad _ _ _ _ I)|]. split.
  { intros a. specialize (A a). unfold agree, macs_air, on_air in A. fold N in A. rewrite <- A. destruct (m_air _); split; intros; try discriminate; try reflexivity; congruence. }
  assert (G : forall a f, In f (up_of (n_out (N a))) -> In f (acc_of (n_out (N (mf_src f)))) /\ (mf_dst f = a \/ mf_dst f = bcast)).
  { intros a f F. destruct (C67_delivery _ _ _ _ _ (U a) (RN a)) as [D _]. destruct (D f F) as (D1 & D2 & D3). rewrite AD in D3. split; auto.
    destruct (nreach_heard _ _ _ _ _ R D1 ltac:(rewrite D2; discriminate)) as [b B].
    destruct (g_snd _ _ _ _ (gen_reach _ _ _ _ _ (RN b)) f B) as [Z|[_ Z]]; [|contradiction].
    destruct (ac_data _ _ _ _ (acct_reach _ _ _ _ _ (U b) (RN b)) f Z) as [_ Z2]. rewrite AD in Z2. rewrite Z2. exact Z. }
  split; auto. split.
  { intros a. destruct (C67_delivery _ _ _ _ _ (U a) (RN a)) as [_ S]. revert S. generalize (up_of (n_out (N a))) as v. induction v as [|f r IH]; intros S; constructor.
    - intros F. specialize (S (mf_src f)). cbn [filter] in S. rewrite Z.eqb_refl in S. cbn [map] in S. apply StronglySorted_inv in S. destruct S as [_ S]. rewrite Forall_forall in S.
      assert (mf_seq f < mf_seq f); [|lia]. apply S. apply in_map, filter_In. split; auto. apply Z.eqb_refl.
    - apply IH. intros x. specialize (S x). cbn [filter] in S. destruct (_ =? x); auto. cbn [map] in S. apply StronglySorted_inv in S. apply S. }
  intros a p. apply (C69_delivered_partial cfg q0 N a p AD U R).
Qed.
Print Assumptions C117_macs_partial.
(** Two exchanges with RTS and CTS, and two without, in real time. *)
Example C117_example : let s := mmend true (fun _ => 0) 100 in
  qtimely_run (mm true) (macs_due [1; 2]) macs_own me (qinit (mm true) (macs0 (fun _ => 0))) (mmrun true (fun _ => 0) 100) = true /\
  map mf_type (q_frames s) = [1; 2; 4; 3; 1; 2; 4; 3] /\
  map mf_seq (rep_of true (n_out (q_net s 1))) = [1; 2] /\ map mf_seq (up_of (n_out (q_net s 2))) = [1; 2].
Proof. vm_compute. auto. Qed.
Example C117_example_basic : let s := mmend false (fun _ => 0) 100 in
  qtimely_run (mm false) (macs_due [1; 2]) macs_own me (qinit (mm false) (macs0 (fun _ => 0))) (mmrun false (fun _ => 0) 100) = true /\
  map mf_type (q_frames s) = [4; 3; 4; 3] /\
  map mf_seq (rep_of true (n_out (q_net s 1))) = [1; 2] /\ map mf_seq (up_of (n_out (q_net s 2))) = [1; 2].
Proof. vm_compute. auto. Qed.
