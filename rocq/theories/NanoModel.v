(** Model of model/thz-mac-nano.cc: class THzMacNano, one node.

    Time is in ticks (femtoseconds in the examples). The PHY, the channel and the energy
    model's own events are the environment: received frames, timer firings and changes of the
    energy level are inputs. m_phy->SendPacket's result is ignored by the code
    (SendRts:390, SendData:433, SendAck:465), so a transmission is just an output here.
    Statistics (throughput) and log output are not modelled. *)
From Coq Require Import ZArith List Bool.
From Verif Require Import Base HeaderModel SeqModel EnergyModel.
Import ListNotations.
Open Scope Z_scope.

(** A packet carrying a THzMacHeader. Data packets held in the queue and frames on the air
    have the same shape: the channel hands a copy to every receiver (thz-channel.cc:169).
    [f_body] is the identity of the payload: C++ compares queued packets by pointer; the
    model by [f_body], which [enqueue] draws from a counter, i.e. it is assumed that the
    upper layer never passes the same Packet object twice. 0-size control packets have
    body -1. [f_size] is Packet::GetSize () including the MAC header. *)
Record frame := Frame {
  f_type : Z;
  f_src : addr;
  f_dst : addr;
  f_seq : Z;
  f_size : Z;
  f_body : Z
}.

(** THzMacHeader (src, dst, type).GetSize (), thz-mac-header.cc:172-195. *)
Definition hdr_size (ty : Z) : Z := get_size (Hdr 0 0 ty 0 0 0 0 0).

(** Packet::AddHeader on an empty packet. *)
Definition ctrl (ty src dst sq : Z) : frame := Frame ty src dst sq (hdr_size ty) (-1).

(** Attributes and installation-time constants. [c_dur n] is
    m_phy->CalTxDuration (0, n, 0) for [n] bytes. *)
Record config := Cfg {
  c_addr : addr;          (* m_address *)
  c_rts : bool;           (* m_rtsEnable *)
  c_limit : Z;            (* m_queueLimit, uint32_t *)
  c_retry : Z;            (* m_dataRetryLimit, uint16_t *)
  c_framelen : Z;         (* m_FrameLength, uint16_t *)
  c_slot : Z;             (* m_slotTime *)
  c_dur : Z -> Z;
  c_energy : eparams      (* parameters of the node's THzEnergyModel *)
}.

(** thz-mac-nano.h PktTx: packet and retry counter. The members sequence and destination are
    set once in Enqueue to the values also written into the packet's header and never changed
    (SendData removes the header and puts it back unchanged but for the duration), so they
    are read from the header here; tstart only feeds statistics; backoff is never read. *)
Record txent := Tx { t_pkt : frame; t_retry : Z }.

(** Pending simulator events of this MAC. *)
Inductive tkind :=
| KCheck (p : frame)      (* CheckResources (p): from Backoff (339) and SendDataDone (530) *)
| KCts (p : frame)        (* CtsTimeout (p) *)
| KAck (sq : Z)           (* AckTimeout (sq) *)
| KData (sq : Z).         (* DataTimeout (sq) *)
Record timer := Timer { tm_id : Z; tm_due : Z; tm_kind : tkind }.

Record state := St {
  s_seq : Z;                        (* m_sequence, uint16_t *)
  s_queue : list frame;             (* m_pktQueue *)
  s_tx : list txent;                (* m_pktTx *)
  s_cts : list (Z * Z);             (* m_ctsTimeouts: sequence, event id *)
  s_ack : list (Z * Z * frame);     (* m_ackTimeouts: sequence, event id, packet *)
  s_data : list (Z * Z);            (* m_dataTimeouts: sequence, event id *)
  s_filter : seqlist;               (* m_seqList *)
  s_ite : Z;                        (* m_ite: successes *)
  s_disc : Z;                       (* m_discarded *)
  s_energy : Z;                     (* level of the node's energy model *)
  s_now : Z;                        (* Simulator::Now () *)
  s_timers : list timer;            (* pending events, in order of scheduling *)
  s_uid : Z;                        (* next event id *)
  s_ids : Z                         (* next payload identity = packets accepted so far *)
}.

(** THzMacNano::THzMacNano, thz-mac-nano.cc: counters zero, lists empty. *)
Definition init (e0 : Z) : state := St 0 [] [] [] [] [] [] 0 0 e0 0 [] 0 0.

Definition set_seq v s := St v (s_queue s) (s_tx s) (s_cts s) (s_ack s) (s_data s) (s_filter s) (s_ite s) (s_disc s) (s_energy s) (s_now s) (s_timers s) (s_uid s) (s_ids s).
Definition set_queue v s := St (s_seq s) v (s_tx s) (s_cts s) (s_ack s) (s_data s) (s_filter s) (s_ite s) (s_disc s) (s_energy s) (s_now s) (s_timers s) (s_uid s) (s_ids s).
Definition set_tx v s := St (s_seq s) (s_queue s) v (s_cts s) (s_ack s) (s_data s) (s_filter s) (s_ite s) (s_disc s) (s_energy s) (s_now s) (s_timers s) (s_uid s) (s_ids s).
Definition set_cts v s := St (s_seq s) (s_queue s) (s_tx s) v (s_ack s) (s_data s) (s_filter s) (s_ite s) (s_disc s) (s_energy s) (s_now s) (s_timers s) (s_uid s) (s_ids s).
Definition set_ack v s := St (s_seq s) (s_queue s) (s_tx s) (s_cts s) v (s_data s) (s_filter s) (s_ite s) (s_disc s) (s_energy s) (s_now s) (s_timers s) (s_uid s) (s_ids s).
Definition set_data v s := St (s_seq s) (s_queue s) (s_tx s) (s_cts s) (s_ack s) v (s_filter s) (s_ite s) (s_disc s) (s_energy s) (s_now s) (s_timers s) (s_uid s) (s_ids s).
Definition set_filter v s := St (s_seq s) (s_queue s) (s_tx s) (s_cts s) (s_ack s) (s_data s) v (s_ite s) (s_disc s) (s_energy s) (s_now s) (s_timers s) (s_uid s) (s_ids s).
Definition set_ite v s := St (s_seq s) (s_queue s) (s_tx s) (s_cts s) (s_ack s) (s_data s) (s_filter s) v (s_disc s) (s_energy s) (s_now s) (s_timers s) (s_uid s) (s_ids s).
Definition set_disc v s := St (s_seq s) (s_queue s) (s_tx s) (s_cts s) (s_ack s) (s_data s) (s_filter s) (s_ite s) v (s_energy s) (s_now s) (s_timers s) (s_uid s) (s_ids s).
Definition set_energy v s := St (s_seq s) (s_queue s) (s_tx s) (s_cts s) (s_ack s) (s_data s) (s_filter s) (s_ite s) (s_disc s) v (s_now s) (s_timers s) (s_uid s) (s_ids s).
Definition set_now v s := St (s_seq s) (s_queue s) (s_tx s) (s_cts s) (s_ack s) (s_data s) (s_filter s) (s_ite s) (s_disc s) (s_energy s) v (s_timers s) (s_uid s) (s_ids s).
Definition set_timers v s := St (s_seq s) (s_queue s) (s_tx s) (s_cts s) (s_ack s) (s_data s) (s_filter s) (s_ite s) (s_disc s) (s_energy s) (s_now s) v (s_uid s) (s_ids s).
Definition set_uid v s := St (s_seq s) (s_queue s) (s_tx s) (s_cts s) (s_ack s) (s_data s) (s_filter s) (s_ite s) (s_disc s) (s_energy s) (s_now s) (s_timers s) v (s_ids s).
Definition set_ids v s := St (s_seq s) (s_queue s) (s_tx s) (s_cts s) (s_ack s) (s_data s) (s_filter s) (s_ite s) (s_disc s) (s_energy s) (s_now s) (s_timers s) (s_uid s) v.

(** Observable effects of one event, in order. *)
Inductive out :=
| OAccept (p : frame)               (* m_traceEnqueue: packet p accepted *)
| OSend (f : frame)                 (* m_phy->SendPacket *)
| OUp (f : frame)                   (* m_forwardUpCb *)
| ODone (ok : bool) (p : frame)     (* m_traceSendDataDone (.., ok) for packet p *)
| OBooked (ok : bool) (tx rx : Z)   (* BookEnergy and its result *)
| ORefund (tx rx : Z)               (* ReturnEnergy *)
| OTimeout (sq : Z)                 (* m_traceCtsTimeout / m_traceAckTimeout for packet sq *)
| OBackoff (p : frame) (retry delay : Z)  (* Backoff schedules CheckResources *)
| ORet (b : bool)                   (* return value of Enqueue *)
| OUB.                              (* undefined behaviour *)

Definition act := state -> state * list out.
Definition skip : act := fun s => (s, []).
Definition emit (o : out) : act := fun s => (s, [o]).
Definition seqa (f g : act) : act := fun s =>
  let '(s1, o1) := f s in let '(s2, o2) := g s1 in (s2, o1 ++ o2).
Notation "f ;; g" := (seqa f g) (at level 60, right associativity).

(** Simulator::Schedule (delay, kind): the event gets the next id. *)
Definition schedule (delay : Z) (k : tkind) (s : state) : state :=
  set_timers (s_timers s ++ [Timer (s_uid s) (s_now s + delay) k]) (set_uid (s_uid s + 1) s).

(** EventId::Cancel. *)
Definition cancel (uid : Z) (s : state) : state :=
  set_timers (filter (fun t => negb (tm_id t =? uid)) (s_timers s)) s.

(** First element satisfying [q] is erased. *)
Fixpoint erase_first {A} (q : A -> bool) (l : list A) : list A :=
  match l with
  | [] => []
  | x :: r => if q x then r else x :: erase_first q r
  end.

(** BookEnergy on the node's energy model with continuation on the result. *)
Definition booking (c : config) (tx rx : Z) (k : bool -> act) : act := fun s =>
  let '(ok, r) := book (c_energy c) (s_energy s) tx rx in
  (emit (OBooked ok tx rx) ;; k ok) (set_energy r s).

(** ReturnEnergy. *)
Definition refund (c : config) (tx rx : Z) : act := fun s =>
  emit (ORefund tx rx) (set_energy (give_back (c_energy c) (s_energy s) tx rx) s).

(** 676 ps: PicoSeconds (666) + PicoSeconds (10), thz-mac-nano.cc:385, 431, 618. *)
Definition margin : Z := 676000.

(** SendRts, thz-mac-nano.cc:367-394. *)
Definition send_rts (c : config) (p : frame) : act := fun s =>
  let delay := c_dur c (hdr_size T_RTS) + c_dur c (hdr_size T_CTS) + margin in
  let uid := s_uid s in
  let s1 := schedule delay (KCts p) s in
  (set_cts (s_cts s1 ++ [(f_seq p, uid)]) s1,
   [OSend (ctrl T_RTS (c_addr c) (f_dst p) (f_seq p))]).

(** SendData, thz-mac-nano.cc:414-448. *)
Definition send_data (c : config) (p : frame) : act := fun s =>
  if f_dst p =? bcast then (s, [OSend p])
  else
    let delay := c_dur c (f_size p) + c_dur c (hdr_size T_ACK) + margin in
    let uid := s_uid s in
    let s1 := schedule delay (KAck (f_seq p)) s in
    (set_ack (s_ack s1 ++ [(f_seq p, uid, p)]) s1, [OSend p]).

(** SendCts, thz-mac-nano.cc:396-412; SendAck, 450-466. *)
Definition send_cts (c : config) (dst sq : Z) : act := emit (OSend (ctrl T_CTS (c_addr c) dst sq)).
Definition send_ack (c : config) (dst sq : Z) : act := emit (OSend (ctrl T_ACK (c_addr c) dst sq)).

(** CheckResources, thz-mac-nano.cc:292-324. *)
Definition check_resources (c : config) (p : frame) : act :=
  if negb (f_dst p =? bcast) && c_rts c then
    booking c (f_size p + hdr_size T_RTS) (2 * hdr_size T_RTS)
      (fun ok => if ok then send_rts c p else skip)
  else
    booking c (f_size p) (hdr_size T_ACK) (fun ok => if ok then send_data c p else skip).

(** UniformRandomVariable::GetInteger (lo, hi) of ns-3: lo + floor (u * (hi - lo + 1)) where
    u = k / 4294967088 is a draw of the MRG32k3a generator (0 < k < 4294967088). *)
Definition rng_m : Z := 4294967088.
Definition get_integer (lo hi k : Z) : Z := lo + (k * (hi - lo + 1)) / rng_m.

(** Backoff, thz-mac-nano.cc:326-340. [draw] is the generator's draw. The window
    pow (2.0, retry) is converted to uint32_t, undefined from 2^32 on. The delay
    Seconds (bo * slot.GetSeconds ()) is computed exactly here (the code goes through a
    double). *)
Definition backoff (c : config) (p : frame) (retry draw : Z) : act := fun s =>
  if retry <? 32 then
    let delay := get_integer 1 (2 ^ retry) draw * c_slot c in
    (schedule delay (KCheck p) s, [OBackoff p retry delay])
  else (s, [OUB]).

(** std::list::remove (packet) by pointer: Dequeue, thz-mac-nano.cc:342-347, and 579. *)
Definition remove_pkt (p : frame) (q : list frame) : list frame :=
  filter (fun x => negb (f_body x =? f_body p)) q.

(** TxFirstPacket, thz-mac-nano.cc:349-365. *)
Definition tx_first (c : config) : act := fun s =>
  match s_queue s with
  | [] => (s, [])
  | p :: _ => check_resources c p s
  end.

(** Enqueue, thz-mac-nano.cc:240-290. [size] is the packet's size before the MAC header. *)
Definition enqueue (c : config) (size : Z) (dst : addr) : act := fun s =>
  if size =? 64 then (s, [ORet true])
  else if c_limit c <=? Z.of_nat (length (s_queue s)) then (s, [ORet false])
  else
    let sq := wrap16 (s_seq s + 1) in
    let p := Frame T_DATA (c_addr c) dst sq (size + hdr_size T_DATA) (s_ids s) in
    let s1 := set_ids (s_ids s + 1) (set_queue (s_queue s ++ [p]) (set_seq sq s)) in
    let s2 := set_tx (s_tx s1 ++ [Tx p 0]) s1 in
    if existsb (fun t => (f_seq (t_pkt t) <? sq) && (f_dst (t_pkt t) =? dst)) (s_tx s)
    then (emit (OAccept p) ;; emit (ORet true)) s2
    else (emit (OAccept p) ;; tx_first c ;; emit (ORet true)) s2.

(** SendDataDone, thz-mac-nano.cc:508-591. *)
Definition send_data_done (ok : bool) (p : frame) : act := fun s =>
  let s1 := match find (fun t => (f_seq (t_pkt t) >? f_seq p) && (f_dst (t_pkt t) =? f_dst p)) (s_tx s) with
            | Some t => schedule 0 (KCheck (t_pkt t)) s
            | None => s
            end in
  let hit := filter (fun t => f_seq (t_pkt t) =? f_seq p) (s_tx s) in
  let miss := filter (fun t => negb (f_seq (t_pkt t) =? f_seq p)) (s_tx s) in
  let q := fold_left (fun q t => remove_pkt (t_pkt t) q) hit (s_queue s) in
  let s2 := set_queue q (set_tx miss s1) in
  let n := Z.of_nat (length hit) in
  (if ok then set_ite (s_ite s + n) s2 else set_disc (s_disc s + n) s2,
   map (fun t => ODone ok (t_pkt t)) hit).

(** The common tail of CtsTimeout (824-848) and AckTimeout (877-898): the first m_pktTx entry
    with the sequence number gets retry + 1 and is discarded or backed off. The packet
    discarded in CtsTimeout is its argument, in AckTimeout the entry's. *)
Fixpoint bump (sq : Z) (l : list txent) : option (txent * list txent) :=
  match l with
  | [] => None
  | t :: r =>
    if f_seq (t_pkt t) =? sq then
      let t' := Tx (t_pkt t) (wrap16 (t_retry t + 1)) in Some (t', t' :: r)
    else match bump sq r with Some (t', r') => Some (t', t :: r') | None => None end
  end.

Definition retry_or_discard (c : config) (sq : Z) (arg : option frame) (draw : Z) : act := fun s =>
  match bump sq (s_tx s) with
  | None => (s, [])
  | Some (t, l) =>
    let s1 := set_tx l s in
    if c_retry c <=? t_retry t then
      send_data_done false (match arg with Some p => p | None => t_pkt t end) s1
    else backoff c (t_pkt t) (t_retry t) draw s1
  end.

(** CtsTimeout, thz-mac-nano.cc:800-849. *)
Definition cts_timeout (c : config) (p : frame) (draw : Z) : act :=
  emit (OTimeout (f_seq p)) ;;
  refund c (c_framelen c) (2 * hdr_size T_RTS) ;;
  (fun s => (set_cts (erase_first (fun x => fst x =? f_seq p) (s_cts s)) s, [])) ;;
  retry_or_discard c (f_seq p) (Some p) draw.

(** AckTimeout, thz-mac-nano.cc:851-899. *)
Definition ack_timeout (c : config) (sq : Z) (draw : Z) : act :=
  emit (OTimeout sq) ;;
  refund c 0 (hdr_size T_RTS) ;;
  (fun s => (set_ack (erase_first (fun x => fst (fst x) =? sq) (s_ack s)) s, [])) ;;
  retry_or_discard c sq None draw.

(** DataTimeout, thz-mac-nano.cc:901-921. *)
Definition data_timeout (c : config) (sq : Z) : act :=
  refund c (hdr_size T_RTS) (c_framelen c) ;;
  (fun s => (set_data (erase_first (fun x => fst x =? sq) (s_data s)) s, [])).

(** ReceiveRts, thz-mac-nano.cc:594-629. *)
Definition receive_rts (c : config) (f : frame) : act :=
  booking c 0 (f_size f) (fun _ =>
    if f_dst f =? c_addr c then
      booking c (2 * f_size f) (c_framelen c) (fun ok =>
        if ok then
          (fun s =>
             let uid := s_uid s in
             let s1 := schedule (c_dur c (hdr_size T_CTS) + margin) (KData (f_seq f)) s in
             (set_data (s_data s1 ++ [(f_seq f, uid)]) s1, [])) ;;
          send_cts c (f_src f) (f_seq f)
        else skip)
    else skip).

(** ReceiveCts, thz-mac-nano.cc:631-673. *)
Definition receive_cts (c : config) (f : frame) : act :=
  if f_dst f =? c_addr c then
    (fun s =>
       match find (fun x => fst x =? f_seq f) (s_cts s) with
       | Some (_, uid) => (cancel uid (set_cts (erase_first (fun x => fst x =? f_seq f) (s_cts s)) s), [])
       | None => (s, [])
       end) ;;
    (fun s =>
       match find (fun t => (f_seq (t_pkt t) =? f_seq f) && (f_dst (t_pkt t) =? f_src f)) (s_tx s) with
       | Some t => send_data c (t_pkt t) s
       | None => (s, [])
       end)
  else skip.

(** m_forwardUpCb if IsNewSequence. *)
Definition forward_new (f : frame) : act := fun s =>
  let '(new, l) := is_new (s_filter s) (f_src f) (f_seq f) in
  (set_filter l s, if new then [OUp f] else []).

(** ReceiveData, thz-mac-nano.cc:675-728. The reception energy is charged for the packet
    without its MAC header (the header was removed at 682). *)
Definition receive_data (c : config) (f : frame) : act :=
  if f_dst f =? bcast then forward_new f
  else if negb (f_dst f =? c_addr c) then skip
  else
    let rest :=
      (fun s =>
         match find (fun x => fst x =? f_seq f) (s_data s) with
         | Some (_, uid) => (cancel uid (set_data (erase_first (fun x => fst x =? f_seq f) (s_data s)) s), [])
         | None => (s, [])
         end) ;;
      send_ack c (f_src f) (f_seq f) ;;
      forward_new f in
    if c_rts c then rest
    else booking c (hdr_size T_RTS) (f_size f - hdr_size T_DATA) (fun ok => if ok then rest else skip).

(** ReceiveAck, thz-mac-nano.cc:730-761. *)
Definition receive_ack (c : config) (f : frame) : act := fun s =>
  if f_dst f =? c_addr c then
    match find (fun x => fst (fst x) =? f_seq f) (s_ack s) with
    | Some (_, uid, p) =>
      (send_data_done true p ;;
       (fun s => (set_ack (erase_first (fun x => fst (fst x) =? f_seq f) (s_ack s)) s, [])))
        (cancel uid s)
    | None => (s, [])
    end
  else (s, []).

(** ReceivePacketDone, thz-mac-nano.cc:769-797; ReceivePacket (763-767) has no effect. *)
Definition receive (c : config) (f : frame) (ok : bool) : act :=
  if negb ok then skip
  else if f_type f =? T_RTS then receive_rts c f
  else if f_type f =? T_CTS then receive_cts c f
  else if f_type f =? T_DATA then receive_data c f
  else if f_type f =? T_ACK then receive_ack c f
  else skip.

(** A pending event runs. *)
Definition fire (c : config) (k : tkind) (draw : Z) : act :=
  match k with
  | KCheck p => check_resources c p
  | KCts p => cts_timeout c p draw
  | KAck sq => ack_timeout c sq draw
  | KData sq => data_timeout c sq
  end.

Inductive event :=
| EvEnqueue (size : Z) (dst : addr)
| EvRecv (f : frame) (ok : bool)       (* the PHY reports the end of a reception *)
| EvTimer (i : nat) (draw : Z)         (* the i-th pending event runs; its random draw *)
| EvEnergy (r : Z)                     (* the energy level is changed by someone else *)
| EvReady                              (* the energy model's callback, set to TxFirstPacket at 165 *)
| EvTick (t : Z).                      (* the clock advances *)

Definition step (c : config) (s : state) (e : event) : state * list out :=
  match e with
  | EvEnqueue size dst => enqueue c size dst s
  | EvRecv f ok => receive c f ok s
  | EvTimer i draw =>
    match nth_error (s_timers s) i with
    | Some t => fire c (tm_kind t) draw (set_timers (remove_nth i (s_timers s)) s)
    | None => (s, [])
    end
  | EvEnergy r => (set_energy r s, [])
  | EvReady => tx_first c s
  | EvTick t => (set_now t s, [])
  end.

Fixpoint run (c : config) (s : state) (l : list event) : state * list out :=
  match l with
  | [] => (s, [])
  | e :: r => let '(s1, o1) := step c s e in let '(s2, o2) := run c s1 r in (s2, o1 ++ o2)
  end.

(** Real time order: the clock never passes a pending event, an event runs at its time, and
    simultaneous events run in order of scheduling (ns-3's scheduler). *)
Definition timely (s : state) (e : event) : bool :=
  match e with
  | EvTick t => (s_now s <=? t) && forallb (fun x => t <=? tm_due x) (s_timers s)
  | EvTimer i _ =>
    match nth_error (s_timers s) i with
    | Some t => (tm_due t =? s_now s) &&
                forallb (fun x => negb (tm_due x =? s_now s) || (tm_id t <=? tm_id x)) (s_timers s)
    | None => false
    end
  | _ => true
  end.

Fixpoint timely_run (c : config) (s : state) (l : list event) : bool :=
  match l with
  | [] => true
  | e :: r => timely s e && timely_run c (fst (step c s e)) r
  end.
