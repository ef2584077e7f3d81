(** Model of model/thz-mac-macro.cc: class THzMacMacro, one node.

    Times are integers in femtoseconds (ns-3's resolution in the examples); Time::GetNanoSeconds
    truncates. The code goes through double in RoundOffTime and in the backoff times; the values
    are integers below 2^53 there, computed exactly here. Of the PHY (thz-phy-macro.cc, see
    MacroPhyModel) the following is part of this model: SendPacket refuses exactly while the PHY
    transmits, and the PHY reports no reception while it transmits. The rest of IsIdle is an input
    of every step. Random draws are inputs. Statistics and log output are not modelled; the
    antenna only as far as its mode and the pending rotation event are concerned.

    Names of the model begin with m; the identifiers m_... are projections of the state, mostly
    named after the C++ members. *)
From Coq Require Import ZArith List Bool.
From Verif Require Import Base HeaderModel SeqModel EnergyModel.
Import ListNotations.
Open Scope Z_scope.

Definition nsec : Z := 1000000.
Definition psec : Z := 1000.
(** PicoSeconds (33356), e.g. thz-mac-macro.cc:527. *)
Definition prop : Z := 33356 * psec.

(** A packet with its MAC header. [mf_dur] is the duration field in nanoseconds as found by
    GetDuration after the header was read: uninitialised memory for RTS, which does not carry the
    field, whatever was written for the others (C05). DATA and ACK carry an uninitialised value as
    well, since SendData (663, 669) and SendAck (751) set the duration in a local copy of the
    header only. [mf_id] is the identity of the packet object (C++ compares pointers). *)
Record mframe := Mframe {
  mf_type : Z; mf_src : addr; mf_dst : addr; mf_seq : Z; mf_dur : Z; mf_size : Z; mf_id : Z }.

(** Attributes. [mc_ctrl ty] is GetCtrlDuration (ty), [mc_data n] is GetDataDuration of a packet
    of n bytes, [mc_sector] the time between two turns of the antenna (SetRxAntennaParameters,
    418-448). QueueLimit, RtsRetryLimit, DataRetryLimit are here although the code never reads
    them. *)
Record mcfg := Mcfg {
  mc_addr : addr; mc_rts : bool; mc_slot : Z; mc_sifs : Z; mc_difs : Z;
  mc_ctrl : Z -> Z; mc_data : Z -> Z; mc_sector : Z;
  mc_limit : Z; mc_rts_retry : Z; mc_data_retry : Z }.

(** thz-mac-macro.h State; BACKOFF, WAIT_RX and COLL are never assigned. *)
Inductive mstate := MIdle | MWaitTx | MTx | MRx.

(** thz-mac-macro.h Rec: packet, number of retries, time of Enqueue. RecSeq is the sequence
    number in the packet's header (478, 463-464); RecSize (uint16_t) is the packet's size. *)
Record mrec := Mrec { mr_pkt : mframe; mr_retry : Z; mr_time : Z }.

(** Pending simulator events of the MAC. *)
Inductive mkind :=
| MKCca                              (* CcaForDifs *)
| MKBo                               (* BackoffStart *)
| MKGrant                            (* ChannelAccessGranted *)
| MKCts (sq : Z)                     (* CtsTimeout *)
| MKAck (sq : Z)                     (* AckTimeout *)
| MKSendCts (dst : addr) (dur sq : Z)
| MKSendAck (dst : addr) (sq : Z)
| MKSendData (p : mframe)
| MKDone (ok : bool) (sq : Z)        (* SendDataDone *)
| MKResult                           (* ResultsRecord *)
| MKRot.                             (* SetRxAntennaParameters *)
Record mtimer := Mtimer { mt_id : Z; mt_due : Z; mt_kind : mkind }.

Record mst := Mst {
  m_now : Z;                            (* Simulator::Now () *)
  m_seq : Z;                            (* m_sequence, uint16_t *)
  m_queue : list mframe;                (* m_pktQueue *)
  m_rec : list mrec;                    (* m_rec *)
  m_state : mstate;                     (* m_state *)
  m_nav : Z;                            (* m_nav *)
  m_lnav : Z;                           (* m_localNav *)
  m_bostart : Z;                        (* m_backoffStart *)
  m_borem : Z;                          (* m_backoffRemain *)
  m_retry : Z;                          (* m_retry *)
  m_cca : option Z;                     (* id of m_ccaTimeoutEvent *)
  m_bo : option Z;                      (* id of m_backoffTimeoutEvent *)
  m_cts : list (Z * Z);                 (* m_ctsTimeouts: sequence, event id *)
  m_ack : list (Z * Z);                 (* m_ackTimeouts: sequence, event id *)
  m_filter : seqlist;                   (* m_seqList *)
  m_tx : option Z;                      (* m_pktTx (identity) *)
  m_air : option mframe;                (* packet the PHY is transmitting *)
  m_data : option mframe;               (* m_pktData *)
  m_sent : Z;                           (* m_send *)
  m_disc : Z;                           (* m_discard *)
  m_res : bool;                         (* m_result is not empty *)
  m_mode : Z;                           (* TuneRxTxMode of the antenna: 0 = transmitter, 1 = receiver *)
  m_rot : option Z;                     (* id of m_SetRxAntennaEvent *)
  m_timers : list mtimer;               (* pending events, in order of scheduling *)
  m_uid : Z;                            (* next event id *)
  m_ids : Z                            (* next packet identity *)
}.
Definition set_now v s := Mst v (m_seq s) (m_queue s) (m_rec s) (m_state s) (m_nav s) (m_lnav s) (m_bostart s) (m_borem s) (m_retry s) (m_cca s) (m_bo s) (m_cts s) (m_ack s) (m_filter s) (m_tx s) (m_air s) (m_data s) (m_sent s) (m_disc s) (m_res s) (m_mode s) (m_rot s) (m_timers s) (m_uid s) (m_ids s).
Definition set_seq v s := Mst (m_now s) v (m_queue s) (m_rec s) (m_state s) (m_nav s) (m_lnav s) (m_bostart s) (m_borem s) (m_retry s) (m_cca s) (m_bo s) (m_cts s) (m_ack s) (m_filter s) (m_tx s) (m_air s) (m_data s) (m_sent s) (m_disc s) (m_res s) (m_mode s) (m_rot s) (m_timers s) (m_uid s) (m_ids s).
Definition set_queue v s := Mst (m_now s) (m_seq s) v (m_rec s) (m_state s) (m_nav s) (m_lnav s) (m_bostart s) (m_borem s) (m_retry s) (m_cca s) (m_bo s) (m_cts s) (m_ack s) (m_filter s) (m_tx s) (m_air s) (m_data s) (m_sent s) (m_disc s) (m_res s) (m_mode s) (m_rot s) (m_timers s) (m_uid s) (m_ids s).
Definition set_rec v s := Mst (m_now s) (m_seq s) (m_queue s) v (m_state s) (m_nav s) (m_lnav s) (m_bostart s) (m_borem s) (m_retry s) (m_cca s) (m_bo s) (m_cts s) (m_ack s) (m_filter s) (m_tx s) (m_air s) (m_data s) (m_sent s) (m_disc s) (m_res s) (m_mode s) (m_rot s) (m_timers s) (m_uid s) (m_ids s).
Definition set_state v s := Mst (m_now s) (m_seq s) (m_queue s) (m_rec s) v (m_nav s) (m_lnav s) (m_bostart s) (m_borem s) (m_retry s) (m_cca s) (m_bo s) (m_cts s) (m_ack s) (m_filter s) (m_tx s) (m_air s) (m_data s) (m_sent s) (m_disc s) (m_res s) (m_mode s) (m_rot s) (m_timers s) (m_uid s) (m_ids s).
Definition set_nav v s := Mst (m_now s) (m_seq s) (m_queue s) (m_rec s) (m_state s) v (m_lnav s) (m_bostart s) (m_borem s) (m_retry s) (m_cca s) (m_bo s) (m_cts s) (m_ack s) (m_filter s) (m_tx s) (m_air s) (m_data s) (m_sent s) (m_disc s) (m_res s) (m_mode s) (m_rot s) (m_timers s) (m_uid s) (m_ids s).
Definition set_lnav v s := Mst (m_now s) (m_seq s) (m_queue s) (m_rec s) (m_state s) (m_nav s) v (m_bostart s) (m_borem s) (m_retry s) (m_cca s) (m_bo s) (m_cts s) (m_ack s) (m_filter s) (m_tx s) (m_air s) (m_data s) (m_sent s) (m_disc s) (m_res s) (m_mode s) (m_rot s) (m_timers s) (m_uid s) (m_ids s).
Definition set_bostart v s := Mst (m_now s) (m_seq s) (m_queue s) (m_rec s) (m_state s) (m_nav s) (m_lnav s) v (m_borem s) (m_retry s) (m_cca s) (m_bo s) (m_cts s) (m_ack s) (m_filter s) (m_tx s) (m_air s) (m_data s) (m_sent s) (m_disc s) (m_res s) (m_mode s) (m_rot s) (m_timers s) (m_uid s) (m_ids s).
Definition set_borem v s := Mst (m_now s) (m_seq s) (m_queue s) (m_rec s) (m_state s) (m_nav s) (m_lnav s) (m_bostart s) v (m_retry s) (m_cca s) (m_bo s) (m_cts s) (m_ack s) (m_filter s) (m_tx s) (m_air s) (m_data s) (m_sent s) (m_disc s) (m_res s) (m_mode s) (m_rot s) (m_timers s) (m_uid s) (m_ids s).
Definition set_retry v s := Mst (m_now s) (m_seq s) (m_queue s) (m_rec s) (m_state s) (m_nav s) (m_lnav s) (m_bostart s) (m_borem s) v (m_cca s) (m_bo s) (m_cts s) (m_ack s) (m_filter s) (m_tx s) (m_air s) (m_data s) (m_sent s) (m_disc s) (m_res s) (m_mode s) (m_rot s) (m_timers s) (m_uid s) (m_ids s).
Definition set_cca v s := Mst (m_now s) (m_seq s) (m_queue s) (m_rec s) (m_state s) (m_nav s) (m_lnav s) (m_bostart s) (m_borem s) (m_retry s) v (m_bo s) (m_cts s) (m_ack s) (m_filter s) (m_tx s) (m_air s) (m_data s) (m_sent s) (m_disc s) (m_res s) (m_mode s) (m_rot s) (m_timers s) (m_uid s) (m_ids s).
Definition set_bo v s := Mst (m_now s) (m_seq s) (m_queue s) (m_rec s) (m_state s) (m_nav s) (m_lnav s) (m_bostart s) (m_borem s) (m_retry s) (m_cca s) v (m_cts s) (m_ack s) (m_filter s) (m_tx s) (m_air s) (m_data s) (m_sent s) (m_disc s) (m_res s) (m_mode s) (m_rot s) (m_timers s) (m_uid s) (m_ids s).
Definition set_cts v s := Mst (m_now s) (m_seq s) (m_queue s) (m_rec s) (m_state s) (m_nav s) (m_lnav s) (m_bostart s) (m_borem s) (m_retry s) (m_cca s) (m_bo s) v (m_ack s) (m_filter s) (m_tx s) (m_air s) (m_data s) (m_sent s) (m_disc s) (m_res s) (m_mode s) (m_rot s) (m_timers s) (m_uid s) (m_ids s).
Definition set_ack v s := Mst (m_now s) (m_seq s) (m_queue s) (m_rec s) (m_state s) (m_nav s) (m_lnav s) (m_bostart s) (m_borem s) (m_retry s) (m_cca s) (m_bo s) (m_cts s) v (m_filter s) (m_tx s) (m_air s) (m_data s) (m_sent s) (m_disc s) (m_res s) (m_mode s) (m_rot s) (m_timers s) (m_uid s) (m_ids s).
Definition set_filter v s := Mst (m_now s) (m_seq s) (m_queue s) (m_rec s) (m_state s) (m_nav s) (m_lnav s) (m_bostart s) (m_borem s) (m_retry s) (m_cca s) (m_bo s) (m_cts s) (m_ack s) v (m_tx s) (m_air s) (m_data s) (m_sent s) (m_disc s) (m_res s) (m_mode s) (m_rot s) (m_timers s) (m_uid s) (m_ids s).
Definition set_tx v s := Mst (m_now s) (m_seq s) (m_queue s) (m_rec s) (m_state s) (m_nav s) (m_lnav s) (m_bostart s) (m_borem s) (m_retry s) (m_cca s) (m_bo s) (m_cts s) (m_ack s) (m_filter s) v (m_air s) (m_data s) (m_sent s) (m_disc s) (m_res s) (m_mode s) (m_rot s) (m_timers s) (m_uid s) (m_ids s).
Definition set_air v s := Mst (m_now s) (m_seq s) (m_queue s) (m_rec s) (m_state s) (m_nav s) (m_lnav s) (m_bostart s) (m_borem s) (m_retry s) (m_cca s) (m_bo s) (m_cts s) (m_ack s) (m_filter s) (m_tx s) v (m_data s) (m_sent s) (m_disc s) (m_res s) (m_mode s) (m_rot s) (m_timers s) (m_uid s) (m_ids s).
Definition set_data v s := Mst (m_now s) (m_seq s) (m_queue s) (m_rec s) (m_state s) (m_nav s) (m_lnav s) (m_bostart s) (m_borem s) (m_retry s) (m_cca s) (m_bo s) (m_cts s) (m_ack s) (m_filter s) (m_tx s) (m_air s) v (m_sent s) (m_disc s) (m_res s) (m_mode s) (m_rot s) (m_timers s) (m_uid s) (m_ids s).
Definition set_sent v s := Mst (m_now s) (m_seq s) (m_queue s) (m_rec s) (m_state s) (m_nav s) (m_lnav s) (m_bostart s) (m_borem s) (m_retry s) (m_cca s) (m_bo s) (m_cts s) (m_ack s) (m_filter s) (m_tx s) (m_air s) (m_data s) v (m_disc s) (m_res s) (m_mode s) (m_rot s) (m_timers s) (m_uid s) (m_ids s).
Definition set_disc v s := Mst (m_now s) (m_seq s) (m_queue s) (m_rec s) (m_state s) (m_nav s) (m_lnav s) (m_bostart s) (m_borem s) (m_retry s) (m_cca s) (m_bo s) (m_cts s) (m_ack s) (m_filter s) (m_tx s) (m_air s) (m_data s) (m_sent s) v (m_res s) (m_mode s) (m_rot s) (m_timers s) (m_uid s) (m_ids s).
Definition set_res v s := Mst (m_now s) (m_seq s) (m_queue s) (m_rec s) (m_state s) (m_nav s) (m_lnav s) (m_bostart s) (m_borem s) (m_retry s) (m_cca s) (m_bo s) (m_cts s) (m_ack s) (m_filter s) (m_tx s) (m_air s) (m_data s) (m_sent s) (m_disc s) v (m_mode s) (m_rot s) (m_timers s) (m_uid s) (m_ids s).
Definition set_mode v s := Mst (m_now s) (m_seq s) (m_queue s) (m_rec s) (m_state s) (m_nav s) (m_lnav s) (m_bostart s) (m_borem s) (m_retry s) (m_cca s) (m_bo s) (m_cts s) (m_ack s) (m_filter s) (m_tx s) (m_air s) (m_data s) (m_sent s) (m_disc s) (m_res s) v (m_rot s) (m_timers s) (m_uid s) (m_ids s).
Definition set_rot v s := Mst (m_now s) (m_seq s) (m_queue s) (m_rec s) (m_state s) (m_nav s) (m_lnav s) (m_bostart s) (m_borem s) (m_retry s) (m_cca s) (m_bo s) (m_cts s) (m_ack s) (m_filter s) (m_tx s) (m_air s) (m_data s) (m_sent s) (m_disc s) (m_res s) (m_mode s) v (m_timers s) (m_uid s) (m_ids s).
Definition set_timers v s := Mst (m_now s) (m_seq s) (m_queue s) (m_rec s) (m_state s) (m_nav s) (m_lnav s) (m_bostart s) (m_borem s) (m_retry s) (m_cca s) (m_bo s) (m_cts s) (m_ack s) (m_filter s) (m_tx s) (m_air s) (m_data s) (m_sent s) (m_disc s) (m_res s) (m_mode s) (m_rot s) v (m_uid s) (m_ids s).
Definition set_uid v s := Mst (m_now s) (m_seq s) (m_queue s) (m_rec s) (m_state s) (m_nav s) (m_lnav s) (m_bostart s) (m_borem s) (m_retry s) (m_cca s) (m_bo s) (m_cts s) (m_ack s) (m_filter s) (m_tx s) (m_air s) (m_data s) (m_sent s) (m_disc s) (m_res s) (m_mode s) (m_rot s) (m_timers s) v (m_ids s).
Definition set_ids v s := Mst (m_now s) (m_seq s) (m_queue s) (m_rec s) (m_state s) (m_nav s) (m_lnav s) (m_bostart s) (m_borem s) (m_retry s) (m_cca s) (m_bo s) (m_cts s) (m_ack s) (m_filter s) (m_tx s) (m_air s) (m_data s) (m_sent s) (m_disc s) (m_res s) (m_mode s) (m_rot s) (m_timers s) (m_uid s) v.

(** Constructor, 61-94: m_sequence is not initialised, [q0] is what it happens to be; the first
    antenna event is scheduled but not stored in m_SetRxAntennaEvent. The antenna's mode is 0
    until then. *)
Definition minit (q0 : Z) : mst :=
  Mst 0 q0 [] [] MIdle 0 0 0 0 0 None None [] [] [] None None None 0 0 false 0 None [Mtimer 0 0 MKRot] 1 0.

Inductive mout :=
| OAcc (p : mframe)                  (* Enqueue took the packet *)
| ORet (b : bool)                    (* result of Enqueue *)
| OSnd (f : mframe)                  (* the PHY begins to transmit *)
| OUp (f : mframe)                   (* m_forwardUpCb *)
| ORep (ok : bool) (p : mframe)      (* SendDataDone counts the packet in m_send / m_discard *)
| OTmo (sq : Z)                      (* CtsTimeout or AckTimeout *)
| OUb.                               (* undefined behaviour *)

Definition mact := mst -> mst * list mout.
Definition mskip : mact := fun s => (s, []).
Definition mseq (f g : mact) : mact := fun s =>
  let '(s1, o1) := f s in let '(s2, o2) := g s1 in (s2, o1 ++ o2).
Definition mlift (f : mst -> mst) : mact := fun s => (f s, []).
Notation "f ;; g" := (mseq f g) (at level 60, right associativity).

(** Inputs of a step: what the PHY's IsIdle answers while it does not transmit, and the random
    draw for the packet with a given identity. *)
Record menv := Menv { e_idle : bool; e_draw : Z -> Z }.

(** Simulator::Schedule; Cancel; IsRunning. An event is no longer running when it is executed. *)
Definition msched (d : Z) (k : mkind) (s : mst) : mst :=
  set_uid (m_uid s + 1) (set_timers (m_timers s ++ [Mtimer (m_uid s) (m_now s + d) k]) s).
Definition mcancel (u : Z) (s : mst) : mst :=
  set_timers (filter (fun t => negb (mt_id t =? u)) (m_timers s)) s.
Definition mrunning (u : option Z) (s : mst) : bool :=
  match u with Some i => existsb (fun t => mt_id t =? i) (m_timers s) | None => false end.

(** RoundOffTime, 1126-1141; None: division by zero. *)
Definition round_off (c : mcfg) (t : Z) : option Z :=
  let rt := Z.quot t nsec in
  let st := Z.quot (mc_slot c) nsec in
  if st =? 0 then None
  else if Z.quot st 2 <=? Z.rem rt st then Some (st * (Z.quot rt st + 1) * nsec)
  else Some (st * Z.quot rt st * nsec).

(** UpdateNav, 499-510, and UpdateLocalNav, 512-516. *)
Definition update_nav (c : mcfg) (d : Z) : mact := fun s =>
  match round_off c (m_now s + d) with
  | Some v => (if v >? m_nav s then set_nav v s else s, [])
  | None => (s, [OUb])
  end.
Definition update_lnav (c : mcfg) (d : Z) : mact := fun s =>
  match round_off c (m_now s + d) with
  | Some v => (set_lnav v s, [])
  | None => (s, [OUb])
  end.

Definition is_state (st : mstate) (s : mst) : bool :=
  match st, m_state s with MIdle, MIdle | MWaitTx, MWaitTx | MTx, MTx | MRx, MRx => true | _, _ => false end.
(** m_phy->IsIdle (). *)
Definition phy_idle (e : menv) (s : mst) : bool :=
  e_idle e && match m_air s with None => true | Some _ => false end.

(** CcaForDifs, 311-341. *)
Definition cca (c : mcfg) (e : menv) : mact := fun s =>
  match m_queue s with
  | [] => (s, [])
  | _ =>
    if mrunning (m_cca s) s then (s, [])
    else
      let nav := Z.max (m_nav s) (m_lnav s) in
      let s' := set_cca (Some (m_uid s)) s in
      if nav >? m_now s + mc_slot c then (msched (nav - m_now s) MKCca s', [])
      else if negb (is_state MIdle s) || negb (phy_idle e s) then (msched 0 MKBo s', [])
      else (msched (mc_difs c) MKBo s', [])
  end.

(** UniformRandomVariable::GetInteger (1, 2^retry), see NanoModel.get_integer. *)
Definition mdraw (retry k : Z) : Z := 1 + (k * 2 ^ retry) / 4294967088.
(** m_tData.GetNanoSeconds () for m_tData = 810760 ps (line 89). *)
Definition tdata : Z := 810 * nsec.

(** BackoffStart, 343-362. m_retry is at most 4 (see Backoff). *)
Definition backoff_start (e : menv) : mact := fun s =>
  let s1 := set_bostart (m_now s) s in
  let s2 := if m_borem s =? 0 then set_borem (mdraw (m_retry s) (e_draw e (-1)) * tdata) s1 else s1 in
  if negb (is_state MIdle s) || negb (phy_idle e s) then (msched (m_borem s2) MKCca (set_cca (Some (m_uid s)) s2), [])
  else (msched (m_borem s2) MKGrant (set_bo (Some (m_uid s)) s2), []).

(** ChannelBecomesBusy, 364-384. *)
Definition becomes_busy (c : mcfg) (e : menv) : mact :=
  (fun s =>
     match m_bo s with
     | Some u =>
       if mrunning (Some u) s then
         let s1 := mcancel u s in
         let elapse := if m_now s >? m_bostart s then m_now s - m_bostart s else 0 in
         if elapse <? m_borem s then
           match round_off c (m_borem s - elapse) with
           | Some v => (set_borem v s1, [])
           | None => (s1, [OUb])
           end
         else (s1, [])
       else (s, [])
     | None => (s, [])
     end) ;; cca c e.

(** StartOver, 696-703. *)
Definition start_over (c : mcfg) (e : menv) : mact :=
  mlift (fun s => set_borem 0 (set_bostart 0 s)) ;; cca c e.

(** SendPacket, 786-805, with continuation on the result. *)
Definition send_packet (f : mframe) (k : bool -> mact) : mact := fun s =>
  if is_state MIdle s || is_state MWaitTx s then
    match m_air s with
    | None => ((fun s => (s, [OSnd f])) ;; k true) (set_tx (Some (mf_id f)) (set_state MTx (set_air (Some f) s)))
    | Some _ => k false (set_state MIdle s)
    end
  else k false s.

(** A new control packet (Create<Packet> (0) and AddHeader). *)
Definition mctrl (c : mcfg) (ty dst sq dur : Z) (s : mst) : mframe :=
  Mframe ty (mc_addr c) dst sq dur (get_size (Hdr 0 0 ty 0 0 0 0 0)) (m_ids s).

(** SendRts, 518-552. *)
Definition send_rts (c : mcfg) (e : menv) (p : mframe) : mact := fun s =>
  let f := mctrl c T_RTS (mf_dst p) (mf_seq p) 0 s in
  let tmo := mc_ctrl c T_RTS + prop + mc_sifs c + mc_ctrl c T_CTS + prop + mc_slot c in
  send_packet f (fun ok =>
    if ok then
      update_lnav c tmo ;;
      mlift (fun s => msched tmo (MKCts (mf_seq p)) (set_cts (m_cts s ++ [(mf_seq p, m_uid s)]) s))
    else start_over c e) (set_ids (m_ids s + 1) s).

(** SendData, 638-694. *)
Definition send_data (c : mcfg) (e : menv) (p : mframe) : mact := fun s =>
  match m_queue s with
  | [] => (set_state MIdle s, [])
  | _ =>
    send_packet p (fun ok =>
      if ok then
        if mf_dst p =? bcast then update_lnav c (mc_data c (mf_size p) + mc_slot c + prop)
        else
          let tmo := mc_data c (mf_size p) + prop + mc_sifs c + mc_ctrl c T_ACK + prop + mc_slot c in
          update_lnav c tmo ;;
          mlift (fun s => msched tmo (MKAck (mf_seq p)) (set_ack (m_ack s ++ [(mf_seq p, m_uid s)]) s))
      else start_over c e) (set_data (Some p) s)
  end.

(** SendCts, 583-597; [dur] in nanoseconds. *)
Definition send_cts (c : mcfg) (dst dur sq : Z) : mact := fun s =>
  let nav := dur * nsec - mc_sifs c - mc_ctrl c T_CTS - prop in
  let f := mctrl c T_CTS dst sq (wrap16 (Z.quot nav nsec)) s in
  send_packet f (fun ok => if ok then update_lnav c (dur * nsec - mc_sifs c) else mskip) (set_ids (m_ids s + 1) s).

(** SendAck, 744-756. The duration written is uninitialised, 0 here. *)
Definition send_ack (c : mcfg) (dst sq : Z) : mact := fun s =>
  let f := mctrl c T_ACK dst sq 0 s in
  (update_lnav c (mc_ctrl c T_ACK + prop + mc_slot c) ;; send_packet f (fun _ => mskip)) (set_ids (m_ids s + 1) s).

(** ChannelAccessGranted, 386-415. *)
Definition granted (c : mcfg) (e : menv) : mact := fun s =>
  match m_queue s with
  | [] => (s, [])
  | p :: _ =>
    let s1 := set_state MWaitTx (set_data (Some p) (set_borem 0 (set_bostart 0 s))) in
    if negb (mf_dst p =? bcast) && mc_rts c then send_rts c e p s1 else send_data c e p s1
  end.

(** SetRxAntennaParameters, 418-448. *)
Definition rotate (c : mcfg) : mact := fun s =>
  (msched (mc_sector c) MKRot (set_rot (Some (m_uid s)) (set_mode 1 s)), []).

(** Enqueue, 450-489. The size is stored in a uint16_t before it is compared (454-455).
    [junk] is the uninitialised duration of the header. *)
Definition menqueue (c : mcfg) (size : Z) (dst : addr) (junk : Z) : mact := fun s =>
  if wrap16 size <? 15000 then (s, [ORet false])
  else
    let sq := wrap16 (m_seq s + 1) in
    let p := Mframe T_DATA (mc_addr c) dst sq junk (size + 17) (m_ids s) in
    let s1 := set_ids (m_ids s + 1) (set_queue (m_queue s ++ [p]) (set_seq sq s)) in
    let s2 := set_mode 0 (match m_rot s with Some u => mcancel u s1 | None => s1 end) in
    let s3 := set_data (Some p) (set_rec (m_rec s ++ [Mrec p 0 (m_now s)]) s2) in
    (msched psec MKCca s3, [OAcc p; ORet false]).

(** m_pktQueue.remove (packet), by identity. *)
Definition mremove (p : mframe) (q : list mframe) : list mframe :=
  filter (fun x => negb (mf_id x =? mf_id p)) q.

(** First element satisfying [q] is erased. *)
Fixpoint erase1 {A} (q : A -> bool) (l : list A) : list A :=
  match l with [] => [] | x :: r => if q x then r else x :: erase1 q r end.

(** The loop of SendDataDone, 842-920, from the record under the iterator on. Result: records
    that remain, queue, packets counted, number of records found (each schedules ResultsRecord),
    whether m_result is empty at the end, undefined behaviour. After m_rec.erase (917) the
    iterator points to the next record, which the increment of the loop skips. If there is none
    the increment is undefined (++ on end ()); with libstdc++ the loop starts again at the first
    record, which has no effect unless two records have the same sequence number; here it ends. *)
Fixpoint done_loop (ok : bool) (sq : Z) (q : list mframe) (l : list mrec) : list mrec * list mframe * list mframe * Z * bool * bool :=
  match l with
  | [] => ([], q, [], 0, false, false)
  | r :: t =>
    if mf_seq (mr_pkt r) =? sq then
      match ok, q with
      | true, [] => (r :: t, [], [], 1, true, false)
      | _, _ =>
        let q' := if ok then mremove (mr_pkt r) q else q in
        match t with
        | [] => ([], q', [mr_pkt r], 1, false, true)
        | n :: t' =>
          let '(l', q2, d, k, em, ub) := done_loop ok sq q' t' in
          (n :: l', q2, mr_pkt r :: d, k + 1, em, ub)
        end
      end
    else let '(l', q2, d, k, em, ub) := done_loop ok sq q t in (r :: l', q2, d, k, em, ub)
  end.

Fixpoint times (n : nat) (f : mst -> mst) (s : mst) : mst :=
  match n with O => s | S m => times m f (f s) end.

Definition send_data_done (ok : bool) (sq : Z) : mact := fun s =>
  let '(l, q, d, k, em, ub) := done_loop ok sq (m_queue s) (m_rec s) in
  if k =? 0 then (s, [])
  else
    let s1 := times (Z.to_nat k) (msched 0 MKResult) s in
    let s2 := set_state MIdle (set_res (negb em) (set_queue q (set_rec l s1))) in
    let n := Z.of_nat (length d) in
    let s3 := if n =? 0 then s2 else set_borem 0 (set_bostart 0 s2) in
    (if ok then set_sent (m_sent s + n) s3 else set_disc (m_disc s + n) s3,
     map (ORep ok) d ++ if ub then [OUb] else []).

(** ResultsRecord, 1143-1166: dereferences m_result.begin (). *)
Definition results : mact := fun s => (s, if m_res s then [] else [OUb]).

(** The loop over m_rec in CtsTimeout (998-1025) and AckTimeout (1046-1073), with Backoff
    (1076-1084). The retry limit is the constant 5. *)
Fixpoint bump (e : menv) (sq : Z) (l : list mrec) (s : mst) : list mrec * mst :=
  match l with
  | [] => ([], s)
  | r :: t =>
    if mf_seq (mr_pkt r) =? sq then
      let n := wrap16 (mr_retry r + 1) in
      let s1 := if 5 <=? n then msched psec (MKDone false sq) (set_queue (mremove (mr_pkt r) (m_queue s)) s)
                else msched (mdraw n (e_draw e (mf_id (mr_pkt r))) * tdata) MKCca (set_retry n s) in
      let '(t', s2) := bump e sq t s1 in (Mrec (mr_pkt r) n (mr_time r) :: t', s2)
    else let '(t', s2) := bump e sq t s in (r :: t', s2)
  end.
Definition timeout (e : menv) (sq : Z) : mact := fun s =>
  let '(l, s1) := bump e sq (m_rec s) (set_state MIdle s) in (set_rec l s1, [OTmo sq]).

(** CtsTimeout, 979-1026; AckTimeout, 1028-1074. *)
Definition cts_timeout (e : menv) (sq : Z) : mact :=
  mlift (fun s => set_cts (erase1 (fun x => fst x =? sq) (m_cts s)) s) ;; timeout e sq.
Definition ack_timeout (e : menv) (sq : Z) : mact :=
  mlift (fun s => set_ack (erase1 (fun x => fst x =? sq) (m_ack s)) s) ;; timeout e sq.

(** ReceiveRts, 554-581. *)
Definition receive_rts (c : mcfg) (e : menv) (f : mframe) : mact :=
  if negb (mf_dst f =? mc_addr c) then
    update_nav c (mf_dur f * nsec) ;; mlift (set_state MIdle) ;; cca c e
  else fun s =>
    if Z.max (m_nav s) (m_lnav s) >? m_now s then cca c e s
    else (update_lnav c (mf_dur f * nsec) ;;
          mlift (fun s => msched psec (MKSendCts (mf_src f) (mf_dur f) (mf_seq f)) (set_state MWaitTx s))) s.

(** ReceiveCts, 599-636. [scan]: m_pktData after the loop 610-619. *)
Fixpoint scan (sq : Z) (d : option mframe) (l : list mrec) : option mframe :=
  match l with
  | [] => d
  | r :: t => if mf_seq (mr_pkt r) =? sq then Some (mr_pkt r) else scan sq (Some (mr_pkt r)) t
  end.
Definition receive_cts (c : mcfg) (e : menv) (f : mframe) : mact :=
  if negb (mf_dst f =? mc_addr c) then
    update_nav c (mf_dur f * nsec) ;; mlift (set_state MIdle) ;; cca c e
  else
    mlift (fun s => set_data (scan (mf_seq f) (m_data s) (m_rec s)) s) ;;
    update_lnav c (mf_dur f * nsec) ;;
    (fun s =>
       match find (fun x => fst x =? mf_seq f) (m_cts s) with
       | Some (_, u) =>
         let s1 := set_cts (erase1 (fun x => fst x =? mf_seq f) (m_cts s)) (set_state MWaitTx (mcancel u s)) in
         match m_data s with
         | Some p => (msched psec (MKSendData p) s1, [])
         | None => (s1, [OUb])
         end
       | None => (s, [])
       end).

(** m_forwardUpCb if IsNewSequence (719-722, 738-741). *)
Definition forward_new (f : mframe) : mact := fun s =>
  let '(b, l) := is_new (m_filter s) (mf_src f) (mf_seq f) in (set_filter l s, if b then [OUp f] else []).

(** ReceiveData, 705-742. *)
Definition receive_data (c : mcfg) (e : menv) (f : mframe) : mact :=
  if mf_dst f =? bcast then mlift (set_state MIdle) ;; forward_new f ;; cca c e
  else if negb (mf_dst f =? mc_addr c) then
    update_nav c (mf_dur f * nsec) ;; mlift (set_state MIdle) ;; cca c e
  else
    update_lnav c (mf_dur f * nsec) ;;
    mlift (fun s => msched (mc_sifs c) (MKSendAck (mf_src f) (mf_seq f)) (set_state MWaitTx s)) ;;
    forward_new f.

(** ReceiveAck, 758-784. *)
Definition receive_ack (c : mcfg) (e : menv) (f : mframe) : mact := fun s =>
  let s0 := set_state MIdle s in
  match (if mf_dst f =? mc_addr c then find (fun x => fst x =? mf_seq f) (m_ack s) else None) with
  | Some (_, u) =>
    (set_ack (erase1 (fun x => fst x =? mf_seq f) (m_ack s)) (msched psec (MKDone true (mf_seq f)) (mcancel u s0)), [])
  | None => cca c e s0
  end.

(** SendPacketDone, 807-840; the PHY has become idle before (thz-phy-macro.cc:279-285). *)
Definition tx_done (c : mcfg) (e : menv) : mact := fun s =>
  match m_air s with
  | None => (s, [])
  | Some f =>
    let s1 := set_air None s in
    if is_state MTx s && match m_tx s with Some i => i =? mf_id f | None => false end then
      let s2 := set_state MIdle s1 in
      if (mf_type f =? T_RTS) || (mf_type f =? T_CTS) then (s2, [])
      else if mf_type f =? T_DATA then
        if mf_dst f =? bcast then (send_data_done true (mf_seq f) ;; cca c e) s2 else (s2, [])
      else cca c e s2
    else (s1, [])
  end.

(** ReceivePacket, 922-945. *)
Definition rx_start (c : mcfg) (e : menv) : mact :=
  becomes_busy c e ;; mlift (fun s => if is_state MTx s then s else set_state MRx s).

(** ReceivePacketDone, 947-977. *)
Definition rx_end (c : mcfg) (e : menv) (f : mframe) (ok : bool) : mact :=
  mlift (set_state MIdle) ;;
  if negb ok then mskip
  else if mf_type f =? T_RTS then receive_rts c e f
  else if mf_type f =? T_CTS then receive_cts c e f
  else if mf_type f =? T_DATA then receive_data c e f
  else if mf_type f =? T_ACK then receive_ack c e f
  else cca c e.

Definition mfire (c : mcfg) (e : menv) (k : mkind) : mact :=
  match k with
  | MKCca => cca c e
  | MKBo => backoff_start e
  | MKGrant => granted c e
  | MKCts sq => cts_timeout e sq
  | MKAck sq => ack_timeout e sq
  | MKSendCts dst dur sq => send_cts c dst dur sq
  | MKSendAck dst sq => send_ack c dst sq
  | MKSendData p => send_data c e p
  | MKDone ok sq => send_data_done ok sq
  | MKResult => results
  | MKRot => rotate c
  end.

Inductive mevent :=
| EEnq (size : Z) (dst : addr) (junk : Z)
| ETxDone                            (* the PHY has finished the transmission *)
| ERxStart                           (* the PHY starts a reception *)
| ERxEnd (f : mframe) (ok : bool)    (* the PHY has finished a reception *)
| ETimer (i : nat)                   (* the i-th pending event runs *)
| ETick (t : Z).

Definition when_silent (a : mact) : mact := fun s => match m_air s with None => a s | Some _ => (s, []) end.

Definition mstep (c : mcfg) (e : menv) (s : mst) (ev : mevent) : mst * list mout :=
  match ev with
  | EEnq size dst junk => menqueue c size dst junk s
  | ETxDone => tx_done c e s
  | ERxStart => when_silent (rx_start c e) s
  | ERxEnd f ok => when_silent (rx_end c e f ok) s
  | ETimer i =>
    match nth_error (m_timers s) i with
    | Some t => mfire c e (mt_kind t) (set_timers (remove_nth i (m_timers s)) s)
    | None => (s, [])
    end
  | ETick t => (set_now t s, [])
  end.

Fixpoint mrun (c : mcfg) (s : mst) (l : list (menv * mevent)) : mst * list mout :=
  match l with
  | [] => (s, [])
  | (e, ev) :: r => let '(s1, o1) := mstep c e s ev in let '(s2, o2) := mrun c s1 r in (s2, o1 ++ o2)
  end.

(** Real time order, as in NanoModel. *)
Definition mtimely (s : mst) (ev : mevent) : bool :=
  match ev with
  | ETick t => (m_now s <=? t) && forallb (fun x => t <=? mt_due x) (m_timers s)
  | ETimer i =>
    match nth_error (m_timers s) i with
    | Some t => (mt_due t =? m_now s) &&
                forallb (fun x => negb (mt_due x =? m_now s) || (mt_id t <=? mt_id x)) (m_timers s)
    | None => false
    end
  | _ => true
  end.
Fixpoint mtimely_run (c : mcfg) (s : mst) (l : list (menv * mevent)) : bool :=
  match l with
  | [] => true
  | (e, ev) :: r => mtimely s ev && mtimely_run c (fst (mstep c e s ev)) r
  end.
