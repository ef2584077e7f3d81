(** Macro nodes over their PHYs (MacroPhyModel) and the channel (ChannelModel), any number of nodes.
    The MAC layers are a parameter: [q_step] is a step of one of them. It is instantiated
    with THzMacMacroAp and THzMacMacroClient, and with THzMacMacro.

    As in StackModel, a node, its MAC and its PHY are named by the MAC address, all devices are
    attached before the simulation starts, and none is disposed of. A packet copy is named by the
    number of the transmission. Propagation delays and received powers are inputs. *)
From Coq Require Import ZArith List Bool.
From Verif Require Import Base EnergyModel NanoModel MacroPhyModel ChannelModel.
Import ListNotations.
Open Scope Z_scope.

(** What happens to a MAC layer: an event of its own (a timer, the application), the calls by the PHY
    (THzMac::SendPacketDone, ReceivePacket, ReceivePacketDone), the clock. *)
Inductive nev (X F : Type) :=
| NOwn (x : X)
| NTxDone
| NRxStart
| NRxEnd (f : F) (ok : bool) (pow : Z)
| NTick (t : Z).
Arguments NOwn {X F} _.
Arguments NTxDone {X F}.
Arguments NRxStart {X F}.
Arguments NRxEnd {X F} _ _ _.
Arguments NTick {X F} _.

(** [q_step n a o idle e]: the MAC of node [a] processes [e] with the random draws [o]; [idle] is what
    IsIdle of its PHY answers. Result: the network and the frames for which SendPacket of the PHY
    was called, with their durations. *)
Record mconf (Net X F O : Type) := MConf {
  q_step : Net -> addr -> O -> bool -> nev X F -> Net * list (F * Z);
  q_sense : addr -> Z -> bool;
  q_good : addr -> Z -> Z -> bool;
  q_nodes : list addr }.
Arguments q_step {Net X F O} _.
Arguments q_sense {Net X F O} _.
Arguments q_good {Net X F O} _.
Arguments q_nodes {Net X F O} _.
Arguments MConf {Net X F O} _ _ _ _.

Record mstack (Net F : Type) := MStack {
  q_net : Net;
  q_phy : addr -> kphy;
  q_chan : chan;
  q_frames : list F;            (* the frame of every transmission, in order *)
  q_bad : bool }.               (* undefined behaviour in the channel, or MAC and PHY disagree *)
Arguments q_net {Net F} _.
Arguments q_phy {Net F} _.
Arguments q_chan {Net F} _.
Arguments q_frames {Net F} _.
Arguments q_bad {Net F} _.
Arguments MStack {Net F} _ _ _ _ _.

Section Stack.
Context {Net X F O : Type} (c : mconf Net X F O).

Definition set_phy (a : addr) (p : kphy) (s : mstack Net F) : mstack Net F :=
  MStack (q_net s) (fun b => if b =? a then p else q_phy s b) (q_chan s) (q_frames s) (q_bad s).
Definition set_net (n : Net) (s : mstack Net F) : mstack Net F :=
  MStack n (q_phy s) (q_chan s) (q_frames s) (q_bad s).
Definition set_chan (h : chan) (s : mstack Net F) : mstack Net F :=
  MStack (q_net s) (q_phy s) h (q_frames s) (q_bad s).
Definition set_bad (s : mstack Net F) : mstack Net F :=
  MStack (q_net s) (q_phy s) (q_chan s) (q_frames s) true.

(** THzPhyMacro::SendPacket, thz-phy-macro.cc:242-277, which calls THzChannel::SendPacket. The models of
    the MAC layers take it to succeed unless they wait for SendPacketDone; a refusal shows in [q_bad]. *)
Definition one_send (a : addr) (delay : nat -> Z) (s : mstack Net F) (x : F * Z) : mstack Net F :=
  match kstep (q_sense c a) (q_good c a) (q_phy s a) (KSend (snd x)) with
  | (p, [KOwn _ _]) =>
    let h := chan_step (q_chan s) (CSend a (snd x) delay) in
    let s1 := MStack (q_net s) (fun b => if b =? a then p else q_phy s b) (fst h) (q_frames s ++ [fst x]) (q_bad s) in
    match snd h with [] => s1 | _ => set_bad s1 end
  | _ => set_bad s
  end.

(** A MAC processes an event. *)
Definition mac_ev (a : addr) (o : O) (delay : nat -> Z) (e : nev X F) (s : mstack Net F) : mstack Net F :=
  let r := q_step c (q_net s) a o (is_idle (q_phy s a)) e in
  fold_left (one_send a delay) (snd r) (set_net (fst r) s).

(** Calls of the PHY to its MAC (thz-phy-macro.cc:284, 317, 375, 380, 394). Each is the last
    action of the PHY, or the MAC makes no call to SendPacket (a failed reception, 380). At 317 the
    state is assigned afterwards; IsIdle gives the same answer there, since m_csBusy is set. *)
Definition phy_out (a : addr) (o : O) (delay : nat -> Z) (pow : Z) (s : mstack Net F) (x : kout) : mstack Net F :=
  match x with
  | KSent _ => mac_ev a o delay NTxDone s
  | KStart _ _ => mac_ev a o delay NRxStart s
  | KDone id ok _ =>
    match nth_error (q_frames s) (Z.to_nat id) with
    | Some f => mac_ev a o delay (NRxEnd f ok pow) s
    | None => set_bad s
    end
  | _ => s
  end.
Definition phy_ev (a : addr) (o : O) (delay : nat -> Z) (pow : Z) (p : kphy) (e : kev) (s : mstack Net F) : mstack Net F :=
  let r := kstep (q_sense c a) (q_good c a) p e in
  fold_left (phy_out a o delay pow) (snd r) (set_phy a (fst r) s).

(** Position and signal with the number [k]. *)
Fixpoint sig_at (k : Z) (l : list sig) : option (nat * sig) :=
  match l with
  | [] => None
  | g :: r => if g_id g =? k then Some (0%nat, g) else match sig_at k r with Some (i, h) => Some (S i, h) | None => None end
  end.
Definition with_next (k : Z) (p : kphy) : kphy :=
  KPhy (k_now p) (k_state p) (k_busy p) (k_end p) (k_rx p) (k_list p) (k_txs p) (k_rxs p) k.

(** Calls of the channel (thz-channel.cc:129-133, 189-212). *)
Definition chan_out (o : O) (delay : nat -> Z) (dur pow : Z) (s : mstack Net F) (x : cout) : mstack Net F :=
  match x with
  | CStart k _ a _ => phy_ev a o delay pow (with_next (Z.of_nat k) (q_phy s a)) (KSignal dur pow) s
  | CEnd k _ a _ =>
    match sig_at (Z.of_nat k) (k_rxs (q_phy s a)) with
    | Some (i, g) => phy_ev a o delay (g_pow g) (q_phy s a) (KSignalEnd i) s
    | None => set_bad s
    end
  | CSent _ a _ => match k_txs (q_phy s a) with [] => set_bad s | _ => phy_ev a o delay pow (q_phy s a) (KSendDone 0) s end
  | CUB => set_bad s
  end.
Definition cev_dur (e : cev) : Z :=
  match e with ERecv _ ne | ERecvDone _ ne | EDelete ne => n_dur ne | ESendDone _ _ => 0 end.

Inductive qev :=
| QOwn (a : addr) (o : O) (delay : nat -> Z) (x : X)
| QChan (i : nat) (o : O) (delay : nat -> Z) (pow : Z)     (* the i-th event of the channel runs *)
| QTick (t : Z).

Definition qstep (o0 : O) (s : mstack Net F) (e : qev) : mstack Net F :=
  match e with
  | QOwn a o delay x => if existsb (Z.eqb a) (q_nodes c) then mac_ev a o delay (NOwn x) s else s
  | QChan i o delay pow =>
    match nth_error (c_pend (q_chan s)) i with
    | Some (_, ce) =>
      let h := chan_step (q_chan s) (CFire i) in
      fold_left (chan_out o delay (cev_dur ce) pow) (snd h) (set_chan (fst h) s)
    | None => s
    end
  | QTick t =>
    let s1 := fold_left (fun s a => mac_ev a o0 (fun _ => 0) (NTick t) s) (q_nodes c) s in
    MStack (q_net s1) (fun a => let p := q_phy s1 a in fst (kstep (q_sense c a) (q_good c a) p (KTick t)))
      (fst (chan_step (q_chan s1) (CTick t))) (q_frames s1) (q_bad s1)
  end.
Fixpoint qrun (o0 : O) (s : mstack Net F) (l : list qev) : mstack Net F :=
  match l with [] => s | e :: r => qrun o0 (qstep o0 s e) r end.

(** All devices attached, nothing sent. *)
Definition qinit (n : Net) : mstack Net F := MStack n (fun _ => kphy0) (Chan 0 (q_nodes c) [] [] []) [] false.

(** Real time for channel and clock; that of the timers of the MAC layers is up to the instance. *)
Definition qtimely (due : Net -> list Z) (own : Net -> addr -> X -> bool) (s : mstack Net F) (e : qev) : bool :=
  match e with
  | QOwn a _ _ x => own (q_net s) a x
  | QChan i _ _ _ => ctimely (q_chan s) (CFire i)
  | QTick t => ctimely (q_chan s) (CTick t) && forallb (fun d => t <=? d) (due (q_net s))
  end.
Fixpoint qtimely_run (due : Net -> list Z) (own : Net -> addr -> X -> bool) (o0 : O) (s : mstack Net F) (l : list qev) : bool :=
  match l with [] => true | e :: r => qtimely due own s e && qtimely_run due own o0 (qstep o0 s e) r end.
End Stack.
Arguments QOwn {X O} _ _ _ _.
Arguments QChan {X O} _ _ _ _.
Arguments QTick {X O} _.
