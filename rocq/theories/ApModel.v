(** Model of model/thz-mac-macro-ap.cc: class THzMacMacroAp, the access point of the macro scenario.

    Times are integers in femtoseconds. Angles are integers in degrees and received powers
    integers in thousandths of a dBm; the code has doubles for both and only adds and compares
    them (the angle is also written to a uint16_t header field). Of the PHY (thz-phy-macro.cc, see
    MacroPhyModel) the following is part of this model: SendPacket refuses exactly while the PHY
    transmits, and the PHY reports no reception while it transmits ([pvalid] below). A reception that begins need
    not be reported as ended (C59). Statistics and log output (CycleRecord, RecordRoute, results
    files), the antenna and the members the class never uses (m_nav, m_pktQueue, ...) are not
    modelled. *)
From Coq Require Import ZArith List Bool.
From Verif Require Import Base HeaderModel SeqModel EnergyModel MacModel.
Import ListNotations.
Open Scope Z_scope.

(** A packet of the AP scenario with its MAC header: the fields of MacModel's [mframe] and m_flags,
    m_sector. The fields have the values found by the receiver: [kf_dur] is in nanoseconds,
    16 bits; fields that the type of the packet does not carry (thz-mac-header.cc:168-300) are 0
    here and never used. *)
Record kframe := Kframe {
  kf_type : Z; kf_src : addr; kf_dst : addr; kf_seq : Z; kf_dur : Z; kf_flags : Z; kf_sector : Z;
  kf_size : Z; kf_id : Z }.

(** Attributes. [ac_maxbo] is GetMaxBackoff (), SlotTime * BoSlots (505-509); [ac_ctrl ty] is
    GetCtrlDuration (ty), [ac_data n mcs] is GetDataDuration (n, mcs); [ac_size] PacketSize,
    [ac_bw] the beamwidth of the antenna. *)
Record acfg := Acfg {
  ac_addr : addr; ac_ways : Z; ac_maxbo : Z; ac_sifs : Z; ac_prop : Z;
  ac_ctrl : Z -> Z; ac_data : Z -> Z -> Z; ac_size : Z; ac_bw : Z; ac_wl : bool; ac_adapt : bool;
  ac_bpsk : Z; ac_qpsk : Z; ac_8psk : Z; ac_16qam : Z; ac_64qam : Z }.

(** thz-mac-macro-ap.h State; WAIT_ACK, BACKOFF and COLL are never assigned. *)
Inductive pstate := PIdle | PWaitTx | PTx | PRx.

(** Pending simulator events of the AP. *)
Inductive pkind :=
| PKTurn                                     (* TurnRxAntenna *)
| PKWait                                     (* WaitTimeExpired *)
| PKSec                                      (* SectorTimeout *)
| PKData                                     (* DataTimeout *)
| PKCts (dst : addr) (sq dur flag : Z)       (* SendCts; the duration in femtoseconds *)
| PKAck                                      (* SendAck *)
| PKFeed (angle : Z) (dst : addr).           (* SendFeedbackCTA *)
Record ptimer := Ptimer { pt_id : Z; pt_due : Z; pt_kind : pkind }.

Record pst := Pst {
  p_now : Z;                              (* Simulator::Now () *)
  p_state : pstate;                       (* m_state *)
  p_angle : Z;                            (* m_angle *)
  p_cycles : Z;                           (* m_dummyCycles *)
  p_record : bool;                        (* m_recordNodeSector *)
  p_rts : list (kframe * Z);              (* m_rtsList: packet, received power *)
  p_acks : list kframe;                   (* m_ackList *)
  p_expect : Z;                           (* m_expectedData *)
  p_map : list (Z * list (addr * Z));     (* m_sectorMap, by angle *)
  p_white : list (Z * list addr);         (* m_whiteList, by angle *)
  p_sec : option Z;                       (* id of m_sectorTimeoutEvent *)
  p_dto : option Z;                       (* id of m_dataTimeoutEvent *)
  p_filter : seqlist;                     (* m_seqList *)
  p_tx : option Z;                        (* m_pktTx (identity) *)
  p_air : option kframe;                  (* packet the PHY is transmitting *)
  p_timers : list ptimer;                 (* pending events, in order of scheduling *)
  p_uid : Z;                              (* next event id *)
  p_ids : Z                               (* next packet identity *)
}.
Definition pset_now v s := Pst v (p_state s) (p_angle s) (p_cycles s) (p_record s) (p_rts s) (p_acks s) (p_expect s) (p_map s) (p_white s) (p_sec s) (p_dto s) (p_filter s) (p_tx s) (p_air s) (p_timers s) (p_uid s) (p_ids s).
Definition pset_state v s := Pst (p_now s) v (p_angle s) (p_cycles s) (p_record s) (p_rts s) (p_acks s) (p_expect s) (p_map s) (p_white s) (p_sec s) (p_dto s) (p_filter s) (p_tx s) (p_air s) (p_timers s) (p_uid s) (p_ids s).
Definition pset_angle v s := Pst (p_now s) (p_state s) v (p_cycles s) (p_record s) (p_rts s) (p_acks s) (p_expect s) (p_map s) (p_white s) (p_sec s) (p_dto s) (p_filter s) (p_tx s) (p_air s) (p_timers s) (p_uid s) (p_ids s).
Definition pset_cycles v s := Pst (p_now s) (p_state s) (p_angle s) v (p_record s) (p_rts s) (p_acks s) (p_expect s) (p_map s) (p_white s) (p_sec s) (p_dto s) (p_filter s) (p_tx s) (p_air s) (p_timers s) (p_uid s) (p_ids s).
Definition pset_record v s := Pst (p_now s) (p_state s) (p_angle s) (p_cycles s) v (p_rts s) (p_acks s) (p_expect s) (p_map s) (p_white s) (p_sec s) (p_dto s) (p_filter s) (p_tx s) (p_air s) (p_timers s) (p_uid s) (p_ids s).
Definition pset_rts v s := Pst (p_now s) (p_state s) (p_angle s) (p_cycles s) (p_record s) v (p_acks s) (p_expect s) (p_map s) (p_white s) (p_sec s) (p_dto s) (p_filter s) (p_tx s) (p_air s) (p_timers s) (p_uid s) (p_ids s).
Definition pset_acks v s := Pst (p_now s) (p_state s) (p_angle s) (p_cycles s) (p_record s) (p_rts s) v (p_expect s) (p_map s) (p_white s) (p_sec s) (p_dto s) (p_filter s) (p_tx s) (p_air s) (p_timers s) (p_uid s) (p_ids s).
Definition pset_expect v s := Pst (p_now s) (p_state s) (p_angle s) (p_cycles s) (p_record s) (p_rts s) (p_acks s) v (p_map s) (p_white s) (p_sec s) (p_dto s) (p_filter s) (p_tx s) (p_air s) (p_timers s) (p_uid s) (p_ids s).
Definition pset_map v s := Pst (p_now s) (p_state s) (p_angle s) (p_cycles s) (p_record s) (p_rts s) (p_acks s) (p_expect s) v (p_white s) (p_sec s) (p_dto s) (p_filter s) (p_tx s) (p_air s) (p_timers s) (p_uid s) (p_ids s).
Definition pset_white v s := Pst (p_now s) (p_state s) (p_angle s) (p_cycles s) (p_record s) (p_rts s) (p_acks s) (p_expect s) (p_map s) v (p_sec s) (p_dto s) (p_filter s) (p_tx s) (p_air s) (p_timers s) (p_uid s) (p_ids s).
Definition pset_sec v s := Pst (p_now s) (p_state s) (p_angle s) (p_cycles s) (p_record s) (p_rts s) (p_acks s) (p_expect s) (p_map s) (p_white s) v (p_dto s) (p_filter s) (p_tx s) (p_air s) (p_timers s) (p_uid s) (p_ids s).
Definition pset_dto v s := Pst (p_now s) (p_state s) (p_angle s) (p_cycles s) (p_record s) (p_rts s) (p_acks s) (p_expect s) (p_map s) (p_white s) (p_sec s) v (p_filter s) (p_tx s) (p_air s) (p_timers s) (p_uid s) (p_ids s).
Definition pset_filter v s := Pst (p_now s) (p_state s) (p_angle s) (p_cycles s) (p_record s) (p_rts s) (p_acks s) (p_expect s) (p_map s) (p_white s) (p_sec s) (p_dto s) v (p_tx s) (p_air s) (p_timers s) (p_uid s) (p_ids s).
Definition pset_tx v s := Pst (p_now s) (p_state s) (p_angle s) (p_cycles s) (p_record s) (p_rts s) (p_acks s) (p_expect s) (p_map s) (p_white s) (p_sec s) (p_dto s) (p_filter s) v (p_air s) (p_timers s) (p_uid s) (p_ids s).
Definition pset_air v s := Pst (p_now s) (p_state s) (p_angle s) (p_cycles s) (p_record s) (p_rts s) (p_acks s) (p_expect s) (p_map s) (p_white s) (p_sec s) (p_dto s) (p_filter s) (p_tx s) v (p_timers s) (p_uid s) (p_ids s).
Definition pset_timers v s := Pst (p_now s) (p_state s) (p_angle s) (p_cycles s) (p_record s) (p_rts s) (p_acks s) (p_expect s) (p_map s) (p_white s) (p_sec s) (p_dto s) (p_filter s) (p_tx s) (p_air s) v (p_uid s) (p_ids s).
Definition pset_uid v s := Pst (p_now s) (p_state s) (p_angle s) (p_cycles s) (p_record s) (p_rts s) (p_acks s) (p_expect s) (p_map s) (p_white s) (p_sec s) (p_dto s) (p_filter s) (p_tx s) (p_air s) (p_timers s) v (p_ids s).
Definition pset_ids v s := Pst (p_now s) (p_state s) (p_angle s) (p_cycles s) (p_record s) (p_rts s) (p_acks s) (p_expect s) (p_map s) (p_white s) (p_sec s) (p_dto s) (p_filter s) (p_tx s) (p_air s) (p_timers s) (p_uid s) v.

(** Constructor, 60-88, and Init, 225-254, which run at time 0; Init schedules the first turn. *)
Definition pinit (c : acfg) : pst :=
  Pst 0 PIdle 0 0 (ac_wl c) [] [] 0 [] [] None None [] None None [Ptimer 0 0 PKTurn] 1 0.

Inductive pout :=
| PSnd (f : kframe)                  (* the PHY begins to transmit *)
| PUp (f : kframe)                   (* m_forwardUpCb *)
| PLost (f : kframe)                 (* SendAck removes the packet although SendPacket refused it *)
| PTurn (angle : Z)                  (* TurnRxAntenna: the new sector *)
| PUb.                               (* undefined behaviour *)

Definition pact := pst -> pst * list pout.
Definition pskip : pact := fun s => (s, []).
Definition pseq (f g : pact) : pact := fun s =>
  let '(s1, o1) := f s in let '(s2, o2) := g s1 in (s2, o1 ++ o2).
Definition plift (f : pst -> pst) : pact := fun s => (f s, []).
Definition pemit (o : pout) : pact := fun s => (s, [o]).
Notation "f ;;; g" := (pseq f g) (at level 60, right associativity).

(** Simulator::Schedule; Cancel of an event that may have run or not exist. *)
Definition psched (d : Z) (k : pkind) (s : pst) : pst :=
  pset_uid (p_uid s + 1) (pset_timers (p_timers s ++ [Ptimer (p_uid s) (p_now s + d) k]) s).
Definition pcancel (u : option Z) (s : pst) : pst :=
  match u with
  | Some i => pset_timers (filter (fun t => negb (pt_id t =? i)) (p_timers s)) s
  | None => s
  end.

Definition is_pstate (st : pstate) (s : pst) : bool :=
  match st, p_state s with PIdle, PIdle | PWaitTx, PWaitTx | PTx, PTx | PRx, PRx => true | _, _ => false end.

(** SendPacket, 571-590, with continuation on the result. *)
Definition psend (f : kframe) (k : bool -> pact) : pact := fun s =>
  if is_pstate PIdle s || is_pstate PWaitTx s then
    match p_air s with
    | None => (pemit (PSnd f) ;;; k true) (pset_tx (Some (kf_id f)) (pset_state PTx (pset_air (Some f) s)))
    | Some _ => k false (pset_state PIdle s)
    end
  else k false s.
Definition psend_ (f : kframe) : pact := psend f (fun _ => pskip).

(** A new control packet (Create<Packet> (0) and AddHeader). *)
Definition pctrl (c : acfg) (ty dst sq dur flags sector : Z) (s : pst) : kframe :=
  Kframe ty (ac_addr c) dst sq dur flags sector (get_size (Hdr 0 0 ty 0 0 0 0 0)) (p_ids s).
Definition pnew (f : pst -> kframe) (g : kframe -> pact) : pact := fun s => g (f s) (pset_ids (p_ids s + 1) s).

(** m_tSector, 235-236; the timeouts of SendCta1, 290-291, and SendCta3, 319-320. *)
Definition t_sector (c : acfg) : Z :=
  ac_ctrl c T_CTS + ac_prop c + ac_sifs c + ac_maxbo c + ac_data c (ac_size c) 0 + ac_prop c + ac_sifs c
  + ac_ctrl c T_ACK + 10 * nsec.
Definition t_data_timeout (c : acfg) : Z :=
  ac_ctrl c T_CTS + ac_prop c + ac_sifs c + ac_maxbo c + ac_prop c + nsec.
Definition t_wait (c : acfg) : Z :=
  ac_ctrl c T_CTA + ac_prop c + ac_sifs c + ac_maxbo c + ac_prop c + ac_ctrl c T_RTS + nsec.

(** The loops of TurnRxAntenna, 260-269: the normalised angle and how often 360 was subtracted. *)
Definition norm_angle (a : Z) : Z * Z :=
  if a <=? -360 then (a + 360 * ((- a) / 360), 0)
  else if a >? 360 then (a - 360 * ((a - 1) / 360), (a - 1) / 360)
  else (a, 0).

(** SendCta1, 284-299; SendCta3, 301-325. *)
Definition send_cta1 (c : acfg) : pact :=
  pnew (pctrl c T_CTA bcast 0 0 0 0) (fun f =>
  plift (fun s => psched (t_data_timeout c) PKData (pset_dto (Some (p_uid s)) s)) ;;; psend_ f).
Definition send_cta3 (c : acfg) : pact :=
  pnew (fun s => pctrl c T_CTA bcast 0 0 (if p_record s then 1 else 0) (wrap16 (p_angle s)) s) (fun f =>
  plift (psched (t_wait c) PKWait) ;;; psend_ f).

(** TurnRxAntenna, 256-282. *)
Definition turn (c : acfg) : pact := fun s =>
  let '(a, k) := norm_angle (p_angle s + ac_bw c) in
  (pemit (PTurn a) ;;;
   if ac_ways c =? 3 then send_cta3 c
   else plift (fun s => psched (t_sector c) PKSec (pset_sec (Some (p_uid s)) s)) ;;; send_cta1 c)
  (pset_angle a (pset_cycles (p_cycles s + k) s)).

(** SendCts, 327-339; SetDuration keeps the low 16 bits of the nanoseconds. *)
Definition p_send_cts (c : acfg) (dst sq dur flag : Z) : pact :=
  pnew (pctrl c T_CTS dst sq (wrap16 (Z.quot dur nsec)) flag 0) psend_.

(** DataTimeout, 341-347. *)
Definition data_timeout (c : acfg) : pact := plift (fun s => pcancel (p_sec s) s) ;;; turn c.

(** SelectMCS, 479-503. *)
Definition select_mcs (c : acfg) (pw : Z) : Z :=
  if pw >? ac_64qam c then 14 else if pw >? ac_16qam c then 13 else if pw >? ac_8psk c then 12
  else if pw >? ac_qpsk c then 11 else if pw >? ac_bpsk c then 10 else 0.

(** std::map from a key to a vector: push_back, the entry being created if needed. *)
Fixpoint push {V} (k : Z) (v : V) (m : list (Z * list V)) : list (Z * list V) :=
  match m with
  | [] => [(k, [v])]
  | (k', l) :: r =>
    if k =? k' then (k', l ++ [v]) :: r
    else if k <? k' then (k, [v]) :: m
    else (k', l) :: push k v r
  end.
Definition entry {V} (k : Z) (m : list (Z * list V)) : list V :=
  match find (fun x => fst x =? k) m with Some (_, l) => l | None => [] end.

(** WaitTimeExpired, 369-404: the nodes heard are added to the sector's vector, each with the power
    of its first RTS. (The entry that 370-375 create empty always gets an element at once.) *)
Definition record1 (angle : Z) (m : list (Z * list (addr * Z))) (x : kframe * Z) : list (Z * list (addr * Z)) :=
  let src := kf_src (fst x) in
  if existsb (fun y => fst y =? src) (entry angle m) then m else push angle (src, snd x) m.

(** InitNodeMap, 705-733: m_nodeMap, by address: the sectors in which the node was heard, with
    the power. *)
Definition node_map (m : list (Z * list (addr * Z))) : list (Z * list (Z * Z)) :=
  fold_left (fun n x => fold_left (fun n y => push (fst y) (fst x, snd y) n) (snd x) n) m [].
(** 740-756: the best sector of a node. *)
Definition best_sector (l : list (Z * Z)) : Z :=
  fst (fold_left (fun b x => if snd x >? snd b then x else b) l (0, -200000)).

(** InitNodeMap, 705-774. *)
Fixpoint announce (c : acfg) (i : Z) (l : list (Z * list (Z * Z))) (s : pst) : pst :=
  match l with
  | [] => psched (i * (ac_ctrl c T_CTS + nsec)) PKTurn s
  | (node, v) :: r =>
    let b := best_sector v in
    announce c (i + 1) r
      (psched (i * (ac_ctrl c T_CTS + nsec)) (PKFeed b node) (pset_white (push b node (p_white s)) s))
  end.
Definition init_node_map (c : acfg) : pact := plift (fun s => announce c 0 (node_map (p_map s)) s).

(** WaitTimeExpired, 417-444: one CTS for each RTS; [i] how many before, [w] the time to wait. *)
Fixpoint grant (c : acfg) (i w : Z) (l : list (kframe * Z)) (s : pst) : pst :=
  match l with
  | [] => s
  | (f, pw) :: r =>
    let flag := if ac_adapt c then select_mcs c pw else 0 in
    grant c (i + 1) (w + ac_data c (ac_size c) flag + ac_maxbo c) r
      (psched ((ac_ctrl c T_CTS + psec) * i) (PKCts (kf_src f) (kf_seq f) w flag) s)
  end.
(** 445-448. *)
Definition sector_time (c : acfg) (n : Z) : Z :=
  2 * ac_prop c + ac_sifs c + (ac_ctrl c T_CTS + ac_data c (ac_size c) 0 + ac_maxbo c + ac_ctrl c T_ACK) * n + ac_sifs c.

(** WaitTimeExpired, 349-460. *)
Definition wait_expired (c : acfg) : pact := fun s =>
  match p_rts s with
  | [] => turn c s
  | l =>
    if p_record s then
      let s1 := pset_rts [] (pset_map (fold_left (record1 (p_angle s)) l (p_map s)) s) in
      if p_cycles s >=? 3 then init_node_map c (pset_record false s1) else turn c s1
    else
      let n := Z.of_nat (length l) in
      let s1 := pset_expect n (grant c 0 (n * ac_ctrl c T_CTS) l s) in
      (pset_rts [] (psched (sector_time c n) PKSec (pset_sec (Some (p_uid s1)) s1)), [])
  end.

(** SendAck, 558-568; m_ackList.remove (ack) removes by identity. *)
Definition kremove (f : kframe) (l : list kframe) : list kframe := filter (fun x => negb (kf_id x =? kf_id f)) l.
Definition p_send_ack : pact := fun s =>
  match p_acks s with
  | [] => (s, [PUb])
  | f :: _ =>
    psend f (fun ok => plift (fun s => pset_acks (kremove f (p_acks s)) s) ;;; if ok then pskip else pemit (PLost f)) s
  end.

(** SectorTimeout, 462-477. *)
Definition sector_timeout (c : acfg) : pact := fun s =>
  match p_acks s with [] => turn c s | _ => p_send_ack s end.

(** SendFeedbackCTA, 776-790. *)
Definition feedback (c : acfg) (angle : Z) (dst : addr) : pact :=
  pnew (pctrl c T_CTA dst 0 0 2 (wrap16 angle)) psend_.

(** ReceiveData, 511-549. The destination is only logged. *)
Definition p_receive_data (c : acfg) (f : kframe) : pact :=
  pnew (pctrl c T_ACK (kf_src f) (kf_seq f) 0 0 0) (fun ack =>
  plift (fun s => pset_state PIdle (pset_acks (p_acks s ++ [ack]) s)) ;;;
  (fun s =>
     if (p_expect s =? Z.of_nat (length (p_acks s))) || negb (ac_ways c =? 3) then
       p_send_ack (pset_state PWaitTx (pcancel (p_sec s) s))
     else (s, [])) ;;;
  (fun s => let '(b, l) := is_new (p_filter s) (kf_src f) (kf_seq f) in (pset_filter l s, if b then [PUp f] else []))).

(** SendPacketDone, 592-643. *)
Definition p_tx_done : pact := fun s =>
  match p_air s with
  | None => (s, [])
  | Some f =>
    let s1 := pset_air None s in
    if is_pstate PTx s && match p_tx s with Some i => i =? kf_id f | None => false end then
      let s2 := pset_state PIdle s1 in
      if kf_type f =? T_ACK then
        match p_acks s with
        | [] => (psched nsec PKTurn s2, [])
        | _ => (psched psec PKAck s2, [])
        end
      else (s2, [])
    else (s1, [])
  end.

(** ReceivePacket, 645-671. *)
Definition p_rx_start : pact := fun s =>
  let s1 := pcancel (p_dto s) s in (if is_pstate PTx s then s1 else pset_state PRx s1, []).

(** ReceivePacketDone, 673-703, with ReceiveRts, 551-556. *)
Definition p_rx_end (c : acfg) (f : kframe) (ok : bool) (pw : Z) : pact :=
  plift (pset_state PIdle) ;;;
  if negb ok then pskip
  else if kf_type f =? T_RTS then plift (fun s => pset_rts (p_rts s ++ [(f, pw)]) s)
  else if kf_type f =? T_DATA then p_receive_data c f
  else pskip.

Definition pfire (c : acfg) (k : pkind) : pact :=
  match k with
  | PKTurn => turn c
  | PKWait => wait_expired c
  | PKSec => sector_timeout c
  | PKData => data_timeout c
  | PKCts dst sq dur flag => p_send_cts c dst sq dur flag
  | PKAck => p_send_ack
  | PKFeed a dst => feedback c a dst
  end.

Inductive pevent :=
| AETxDone                                (* the PHY has finished the transmission *)
| AERxStart                               (* the PHY starts a reception *)
| AERxEnd (f : kframe) (ok : bool) (pw : Z)  (* the PHY has finished a reception *)
| AETimer (i : nat)                       (* the i-th pending event runs *)
| AETick (t : Z).

Definition pstep (c : acfg) (s : pst) (ev : pevent) : pst * list pout :=
  match ev with
  | AETxDone => p_tx_done s
  | AERxStart => p_rx_start s
  | AERxEnd f ok pw => p_rx_end c f ok pw s
  | AETimer i =>
    match nth_error (p_timers s) i with
    | Some t => pfire c (pt_kind t) (pset_timers (remove_nth i (p_timers s)) s)
    | None => (s, [])
    end
  | AETick t => (pset_now t s, [])
  end.
Fixpoint prun (c : acfg) (s : pst) (l : list pevent) : pst * list pout :=
  match l with
  | [] => (s, [])
  | ev :: r => let '(s1, o1) := pstep c s ev in let '(s2, o2) := prun c s1 r in (s2, o1 ++ o2)
  end.

(** What the PHY does: it ends only transmissions it began and reports nothing while it transmits. *)
Definition pvalid (s : pst) (ev : pevent) : bool :=
  match ev, p_air s with
  | AETxDone, None | AERxStart, Some _ | AERxEnd _ _ _, Some _ => false
  | _, _ => true
  end.

(** Real time order, as in NanoModel. *)
Definition ptimely (s : pst) (ev : pevent) : bool :=
  match ev with
  | AETimer i =>
    match nth_error (p_timers s) i with
    | Some t => (pt_due t =? p_now s) &&
                forallb (fun x => negb (pt_due x =? p_now s) || (pt_id t <=? pt_id x)) (p_timers s)
    | None => false
    end
  | AETick t => (p_now s <=? t) && forallb (fun x => t <=? pt_due x) (p_timers s)
  | _ => true
  end.
Fixpoint ptimely_run (c : acfg) (s : pst) (l : list pevent) : bool :=
  match l with
  | [] => true
  | ev :: r => pvalid s ev && ptimely s ev && ptimely_run c (fst (pstep c s ev)) r
  end.
