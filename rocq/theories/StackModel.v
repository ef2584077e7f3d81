(** The whole nano stack: THzMacNano (NanoModel) over THzPhyNano (PhyModel) over THzChannel
    (ChannelModel), any number of nodes.

    A node, its MAC and its PHY are named by the MAC address. All devices are attached before
    the simulation starts and none is disposed of (THzHelper::Install, helper/thz-helper.cc:64-95,
    attaches each once). The packet copies the channel makes are named by the number of the
    transmission: a PHY gets at most one copy of each (thz-channel.cc:137-182). Propagation
    delays, received powers and the uninitialised interference are inputs. *)
From Coq Require Import ZArith List Bool.
From Verif Require Import Base HeaderModel SeqModel EnergyModel NanoModel NetModel PhyModel ChannelModel.
Import ListNotations.
Open Scope Z_scope.

(** Attributes of all nodes. [k_low a pow intf]: DbmToW (pow) / GetNoiseW (intf) < SinrTh at node a. *)
Record sconf := SConf {
  k_mac : addr -> config;
  k_pc : addr -> pconf;
  k_low : addr -> Z -> Z -> bool;
  k_nodes : list addr }.

(** A scheduled ScheduleSendPacket (thz-phy-nano.cc:272-276, 299). *)
Record psend := PSendEv { ps_time : Z; ps_node : addr; ps_frame : frame; ps_dur : Z }.

Record stack := Stack {
  k_net : net;                 (* the MACs and their effects *)
  k_phy : addr -> phy;
  k_sends : list psend;
  k_chan : chan;
  k_frames : list frame;       (* the frame of every transmission, in order *)
  k_bad : bool }.              (* undefined behaviour in a PHY or the channel *)

Definition with_phy (a : addr) (p : phy) (s : stack) : stack :=
  Stack (k_net s) (fun b => if b =? a then p else k_phy s b) (k_sends s) (k_chan s) (k_frames s) (k_bad s).
Definition with_net (n : net) (s : stack) : stack :=
  Stack n (k_phy s) (k_sends s) (k_chan s) (k_frames s) (k_bad s).
Definition with_chan (h : chan) (s : stack) : stack :=
  Stack (k_net s) (k_phy s) (k_sends s) h (k_frames s) (k_bad s).
Definition with_sends (l : list psend) (s : stack) : stack :=
  Stack (k_net s) (k_phy s) l (k_chan s) (k_frames s) (k_bad s).
Definition broken (s : stack) : stack :=
  Stack (k_net s) (k_phy s) (k_sends s) (k_chan s) (k_frames s) true.

(** THzMacNano::SendPacket -> THzPhyNano::SendPacket (thz-phy-nano.cc:171-308). The duration is
    CalTxDuration of the size in either argument (181-188, 462-471). *)
Definition phy_send (c : sconf) (a : addr) (f : frame) (s : stack) : stack :=
  let dur := c_dur (k_mac c a) (f_size f) in
  match place (k_pc c a) (y_now (k_phy s a)) (y_txs (k_phy s a)) (y_rxs (k_phy s a)) with
  | Slot st =>
    let s1 := with_phy a (fst (send (k_pc c a) dur (k_phy s a))) s in
    with_sends (k_sends s1 ++ [PSendEv st a f dur]) s1
  | NoSlot => s
  | OutOfBounds => broken s
  end.

(** The transmissions of one MAC event, in order. *)
Fixpoint phy_sends (c : sconf) (a : addr) (l : list out) (s : stack) : stack :=
  match l with
  | [] => s
  | OSend f :: r => phy_sends c a r (phy_send c a f s)
  | _ :: r => phy_sends c a r s
  end.

(** Node [a]'s MAC processes [e]; nothing it calls calls back into it. *)
Definition mac_event (c : sconf) (a : addr) (e : event) (s : stack) : stack :=
  phy_sends c a (snd (step (k_mac c a) (fst (k_net s a)) e)) (with_net (net_step (k_mac c) (k_net s) a e) s).

(** THzPhyNano::ReceivePacket. *)
Definition phy_start (c : sconf) (k : nat) (a : addr) (dur pow junk : Z) (s : stack) : stack :=
  with_phy a (fst (rx_start (k_low c a) (k_pc c a) (Z.of_nat k) dur pow junk (k_phy s a))) s.

(** THzPhyNano::ReceivePacketDone, thz-phy-nano.cc:432-460: the MAC is called while the
    reception is still in the list, which is changed afterwards. *)
Definition phy_end (c : sconf) (k : nat) (a : addr) (s : stack) : stack :=
  match find (fun r => r_id r =? Z.of_nat k) (y_rxs (k_phy s a)), nth_error (k_frames s) k with
  | Some r, Some f =>
    let s1 := mac_event c a (EvRecv f (negb (r_coll r))) s in
    with_phy a (fst (rx_end (Z.of_nat k) (k_phy s1 a))) s1
  | _, _ => s
  end.

Inductive sev :=
| KMac (a : addr) (e : event)            (* the application, a timer or the energy model acts *)
| KSend (i : nat) (delay : nat -> Z)     (* the i-th ScheduleSendPacket runs *)
| KDel (a : addr) (i : nat)              (* DeleteOngoingTx *)
| KChan (i : nat) (pow junk : Z)         (* the i-th event of the channel runs *)
| KTick (t : Z).

(** Events of the MAC that do not come from the PHY or the clock. *)
Definition own_event (e : event) : bool :=
  match e with EvRecv _ _ => false | EvTick _ => false | _ => true end.

(** The clock of every node. *)
Definition tick_all (c : sconf) (t : Z) (n : net) : net :=
  fold_left (fun n a => net_step (k_mac c) n a (EvTick t)) (k_nodes c) n.

(** What the channel asks the PHYs to do. SendPacketDone has no effect in THzMacNano (488-506). *)
Definition react (c : sconf) (pow junk : Z) (dur : Z) (o : cout) (s : stack) : stack :=
  match o with
  | CStart k _ a _ => phy_start c k a dur pow junk s
  | CEnd k _ a _ => phy_end c k a s
  | CSent _ _ _ => s
  | CUB => broken s
  end.
Definition ev_dur (e : cev) : Z :=
  match e with ERecv _ ne | ERecvDone _ ne | EDelete ne => n_dur ne | ESendDone _ _ => 0 end.

Definition kstep (c : sconf) (s : stack) (e : sev) : stack :=
  match e with
  | KMac a e => if own_event e && existsb (Z.eqb a) (k_nodes c) then mac_event c a e s else s
  | KSend i delay =>
    match nth_error (k_sends s) i with
    | Some p =>
      let h := chan_step (k_chan s) (CSend (ps_node p) (ps_dur p) delay) in
      let s1 := Stack (k_net s) (k_phy s) (remove_nth i (k_sends s)) (fst h) (k_frames s ++ [ps_frame p]) (k_bad s) in
      match snd h with [] => s1 | _ => broken s1 end
    | None => s
    end
  | KDel a i => with_phy a (fst (delete_tx i (k_phy s a))) s
  | KChan i pow junk =>
    match nth_error (c_pend (k_chan s)) i with
    | Some (_, ce) =>
      let h := chan_step (k_chan s) (CFire i) in
      fold_left (fun s o => react c pow junk (ev_dur ce) o s) (snd h) (with_chan (fst h) s)
    | None => s
    end
  | KTick t =>
    Stack (tick_all c t (k_net s)) (fun a => let y := k_phy s a in Phy t (y_txs y) (y_rxs y) (y_dels y))
      (k_sends s) (fst (chan_step (k_chan s) (CTick t))) (k_frames s) (k_bad s)
  end.
Fixpoint krun (c : sconf) (s : stack) (l : list sev) : stack :=
  match l with [] => s | e :: r => krun c (kstep c s e) r end.

(** All devices attached, nothing sent. *)
Definition stack0 (c : sconf) (e0 : addr -> Z) : stack :=
  Stack (fun a => (init (e0 a), [])) (fun _ => phy0) [] (Chan 0 (k_nodes c) [] [] []) [] false.

(** Real time: the clock does not run past a pending event; an event runs at its time, in any
    order among those of equal time. *)
Definition know (s : stack) : Z := c_now (k_chan s).
Definition ktimely (c : sconf) (s : stack) (e : sev) : bool :=
  match e with
  | KMac a (EvTimer i _) =>
    match nth_error (s_timers (fst (k_net s a))) i with Some t => tm_due t =? know s | None => false end
  | KMac _ _ => true
  | KSend i _ => match nth_error (k_sends s) i with Some p => ps_time p =? know s | None => false end
  | KDel a i => match nth_error (y_dels (k_phy s a)) i with Some d => o_start d + o_dur d =? know s | None => false end
  | KChan i _ _ => match nth_error (c_pend (k_chan s)) i with Some (t, _) => t =? know s | None => false end
  | KTick t =>
    (know s <=? t) && forallb (fun p => t <=? ps_time p) (k_sends s)
    && forallb (fun p => t <=? fst p) (c_pend (k_chan s))
    && forallb (fun a => forallb (fun x => t <=? tm_due x) (s_timers (fst (k_net s a)))
                         && forallb (fun d => t <=? o_start d + o_dur d) (y_dels (k_phy s a))) (k_nodes c)
  end.
Fixpoint ktimely_run (c : sconf) (s : stack) (l : list sev) : bool :=
  match l with [] => true | e :: r => ktimely c s e && ktimely_run c (kstep c s e) r end.
