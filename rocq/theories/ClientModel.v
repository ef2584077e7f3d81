(** Model of model/thz-mac-macro-client.cc: class THzMacMacroClient, a client of the macro access
    point.

    Times are integers in femtoseconds. Of the PHY (thz-phy-macro.cc, see MacroPhyModel) the
    following is part of this model: SendPacket refuses exactly while the PHY transmits, and the PHY
    reports no reception while it transmits ([lvalid] below). Random draws are inputs. The antenna,
    log output, the result file (beyond the question whether there is a result to be written) and the members the class never
    uses (m_nav, m_seqList, ...) are not modelled. Packets are those of ApModel. *)
From Coq Require Import ZArith List Bool.
From Verif Require Import Base HeaderModel SeqModel EnergyModel MacModel ApModel.
Import ListNotations.
Open Scope Z_scope.

(** Attributes. [lc_slots] is BoSlots, [lc_slot] GetSlotTime () (898-906), [lc_tdata] m_tData
    (202), [lc_ctrl ty] GetCtrlDuration (ty), [lc_min] PacketSize, [lc_far] the integer part of
    6666 * d in ReceiveCta1 (447), d being the distance of the node from the origin in metres.
    QueueLimit ([lc_limit]) is here although the code never reads it. *)
Record lcfg := Lcfg {
  lc_addr : addr; lc_ways : Z; lc_slots : Z; lc_slot : Z; lc_sifs : Z; lc_prop : Z; lc_tdata : Z;
  lc_ctrl : Z -> Z; lc_min : Z; lc_far : Z; lc_limit : Z; lc_rts_retry : Z; lc_data_retry : Z }.

(** thz-mac-macro-client.h State; BACKOFF and COLL are never assigned. *)
Inductive lstate := LIdle | LWaitTx | LTx | LWaitAck | LRx.

(** thz-mac-macro-client.h Rec: packet, number of retries, BackoffLife. RecSeq is the sequence
    number in the packet's header (230, 237); RecSize and RecTime are only used for statistics. *)
Record lrec := Lrec { lr_pkt : kframe; lr_retry : Z; lr_life : Z }.

(** Pending simulator events of the client. *)
Inductive lkind :=
| LKDummy (f : kframe)               (* SendPacket of a dummy RTS *)
| LKRts (p : kframe)                 (* SendRts; the retry number is not modelled *)
| LKData (p : kframe) (mcs : Z)      (* SendData *)
| LKAck (sq : Z)                     (* AckTimeout *)
| LKDone (ok : bool) (sq : Z)        (* SendDataDone *)
| LKResult.                          (* ResultsRecord *)
Record ltimer := Ltimer { lt_id : Z; lt_due : Z; lt_kind : lkind }.

Record lst := Lst {
  l_now : Z;                          (* Simulator::Now () *)
  l_seq : Z;                          (* m_sequence, uint16_t *)
  l_queue : list kframe;              (* m_pktQueue *)
  l_rec : list lrec;                  (* m_rec *)
  l_state : lstate;                   (* m_state *)
  l_sector : Z;                       (* m_sector; -1: none *)
  l_answered : bool;                  (* m_rtsAnswered *)
  l_boact : bool;                     (* m_backoffActive *)
  l_boseq : Z;                        (* m_backoffSeq *)
  l_ctsn : Z;                         (* m_ctsReceived, uint16_t *)
  l_last : Z;                         (* m_lastSeq *)
  l_ctsrx : Z;                        (* m_timeCTSrx *)
  l_acks : list (Z * Z);              (* m_ackTimeouts: sequence, event id *)
  l_sde : option Z;                   (* id of m_sendDataEvent *)
  l_tx : option Z;                    (* m_pktTx (identity) *)
  l_air : option kframe;              (* packet the PHY is transmitting *)
  l_sent : Z;                         (* m_send, uint16_t *)
  l_disc : Z;                         (* m_discard, uint16_t *)
  l_res : bool;                       (* m_result is not empty *)
  l_timers : list ltimer;             (* pending events, in order of scheduling *)
  l_uid : Z;                          (* next event id *)
  l_ids : Z                           (* next packet identity *)
}.
Definition lset_now v s := Lst v (l_seq s) (l_queue s) (l_rec s) (l_state s) (l_sector s) (l_answered s) (l_boact s) (l_boseq s) (l_ctsn s) (l_last s) (l_ctsrx s) (l_acks s) (l_sde s) (l_tx s) (l_air s) (l_sent s) (l_disc s) (l_res s) (l_timers s) (l_uid s) (l_ids s).
Definition lset_seq v s := Lst (l_now s) v (l_queue s) (l_rec s) (l_state s) (l_sector s) (l_answered s) (l_boact s) (l_boseq s) (l_ctsn s) (l_last s) (l_ctsrx s) (l_acks s) (l_sde s) (l_tx s) (l_air s) (l_sent s) (l_disc s) (l_res s) (l_timers s) (l_uid s) (l_ids s).
Definition lset_queue v s := Lst (l_now s) (l_seq s) v (l_rec s) (l_state s) (l_sector s) (l_answered s) (l_boact s) (l_boseq s) (l_ctsn s) (l_last s) (l_ctsrx s) (l_acks s) (l_sde s) (l_tx s) (l_air s) (l_sent s) (l_disc s) (l_res s) (l_timers s) (l_uid s) (l_ids s).
Definition lset_rec v s := Lst (l_now s) (l_seq s) (l_queue s) v (l_state s) (l_sector s) (l_answered s) (l_boact s) (l_boseq s) (l_ctsn s) (l_last s) (l_ctsrx s) (l_acks s) (l_sde s) (l_tx s) (l_air s) (l_sent s) (l_disc s) (l_res s) (l_timers s) (l_uid s) (l_ids s).
Definition lset_state v s := Lst (l_now s) (l_seq s) (l_queue s) (l_rec s) v (l_sector s) (l_answered s) (l_boact s) (l_boseq s) (l_ctsn s) (l_last s) (l_ctsrx s) (l_acks s) (l_sde s) (l_tx s) (l_air s) (l_sent s) (l_disc s) (l_res s) (l_timers s) (l_uid s) (l_ids s).
Definition lset_sector v s := Lst (l_now s) (l_seq s) (l_queue s) (l_rec s) (l_state s) v (l_answered s) (l_boact s) (l_boseq s) (l_ctsn s) (l_last s) (l_ctsrx s) (l_acks s) (l_sde s) (l_tx s) (l_air s) (l_sent s) (l_disc s) (l_res s) (l_timers s) (l_uid s) (l_ids s).
Definition lset_answered v s := Lst (l_now s) (l_seq s) (l_queue s) (l_rec s) (l_state s) (l_sector s) v (l_boact s) (l_boseq s) (l_ctsn s) (l_last s) (l_ctsrx s) (l_acks s) (l_sde s) (l_tx s) (l_air s) (l_sent s) (l_disc s) (l_res s) (l_timers s) (l_uid s) (l_ids s).
Definition lset_boact v s := Lst (l_now s) (l_seq s) (l_queue s) (l_rec s) (l_state s) (l_sector s) (l_answered s) v (l_boseq s) (l_ctsn s) (l_last s) (l_ctsrx s) (l_acks s) (l_sde s) (l_tx s) (l_air s) (l_sent s) (l_disc s) (l_res s) (l_timers s) (l_uid s) (l_ids s).
Definition lset_boseq v s := Lst (l_now s) (l_seq s) (l_queue s) (l_rec s) (l_state s) (l_sector s) (l_answered s) (l_boact s) v (l_ctsn s) (l_last s) (l_ctsrx s) (l_acks s) (l_sde s) (l_tx s) (l_air s) (l_sent s) (l_disc s) (l_res s) (l_timers s) (l_uid s) (l_ids s).
Definition lset_ctsn v s := Lst (l_now s) (l_seq s) (l_queue s) (l_rec s) (l_state s) (l_sector s) (l_answered s) (l_boact s) (l_boseq s) v (l_last s) (l_ctsrx s) (l_acks s) (l_sde s) (l_tx s) (l_air s) (l_sent s) (l_disc s) (l_res s) (l_timers s) (l_uid s) (l_ids s).
Definition lset_last v s := Lst (l_now s) (l_seq s) (l_queue s) (l_rec s) (l_state s) (l_sector s) (l_answered s) (l_boact s) (l_boseq s) (l_ctsn s) v (l_ctsrx s) (l_acks s) (l_sde s) (l_tx s) (l_air s) (l_sent s) (l_disc s) (l_res s) (l_timers s) (l_uid s) (l_ids s).
Definition lset_ctsrx v s := Lst (l_now s) (l_seq s) (l_queue s) (l_rec s) (l_state s) (l_sector s) (l_answered s) (l_boact s) (l_boseq s) (l_ctsn s) (l_last s) v (l_acks s) (l_sde s) (l_tx s) (l_air s) (l_sent s) (l_disc s) (l_res s) (l_timers s) (l_uid s) (l_ids s).
Definition lset_acks v s := Lst (l_now s) (l_seq s) (l_queue s) (l_rec s) (l_state s) (l_sector s) (l_answered s) (l_boact s) (l_boseq s) (l_ctsn s) (l_last s) (l_ctsrx s) v (l_sde s) (l_tx s) (l_air s) (l_sent s) (l_disc s) (l_res s) (l_timers s) (l_uid s) (l_ids s).
Definition lset_sde v s := Lst (l_now s) (l_seq s) (l_queue s) (l_rec s) (l_state s) (l_sector s) (l_answered s) (l_boact s) (l_boseq s) (l_ctsn s) (l_last s) (l_ctsrx s) (l_acks s) v (l_tx s) (l_air s) (l_sent s) (l_disc s) (l_res s) (l_timers s) (l_uid s) (l_ids s).
Definition lset_tx v s := Lst (l_now s) (l_seq s) (l_queue s) (l_rec s) (l_state s) (l_sector s) (l_answered s) (l_boact s) (l_boseq s) (l_ctsn s) (l_last s) (l_ctsrx s) (l_acks s) (l_sde s) v (l_air s) (l_sent s) (l_disc s) (l_res s) (l_timers s) (l_uid s) (l_ids s).
Definition lset_air v s := Lst (l_now s) (l_seq s) (l_queue s) (l_rec s) (l_state s) (l_sector s) (l_answered s) (l_boact s) (l_boseq s) (l_ctsn s) (l_last s) (l_ctsrx s) (l_acks s) (l_sde s) (l_tx s) v (l_sent s) (l_disc s) (l_res s) (l_timers s) (l_uid s) (l_ids s).
Definition lset_sent v s := Lst (l_now s) (l_seq s) (l_queue s) (l_rec s) (l_state s) (l_sector s) (l_answered s) (l_boact s) (l_boseq s) (l_ctsn s) (l_last s) (l_ctsrx s) (l_acks s) (l_sde s) (l_tx s) (l_air s) v (l_disc s) (l_res s) (l_timers s) (l_uid s) (l_ids s).
Definition lset_disc v s := Lst (l_now s) (l_seq s) (l_queue s) (l_rec s) (l_state s) (l_sector s) (l_answered s) (l_boact s) (l_boseq s) (l_ctsn s) (l_last s) (l_ctsrx s) (l_acks s) (l_sde s) (l_tx s) (l_air s) (l_sent s) v (l_res s) (l_timers s) (l_uid s) (l_ids s).
Definition lset_res v s := Lst (l_now s) (l_seq s) (l_queue s) (l_rec s) (l_state s) (l_sector s) (l_answered s) (l_boact s) (l_boseq s) (l_ctsn s) (l_last s) (l_ctsrx s) (l_acks s) (l_sde s) (l_tx s) (l_air s) (l_sent s) (l_disc s) v (l_timers s) (l_uid s) (l_ids s).
Definition lset_timers v s := Lst (l_now s) (l_seq s) (l_queue s) (l_rec s) (l_state s) (l_sector s) (l_answered s) (l_boact s) (l_boseq s) (l_ctsn s) (l_last s) (l_ctsrx s) (l_acks s) (l_sde s) (l_tx s) (l_air s) (l_sent s) (l_disc s) (l_res s) v (l_uid s) (l_ids s).
Definition lset_uid v s := Lst (l_now s) (l_seq s) (l_queue s) (l_rec s) (l_state s) (l_sector s) (l_answered s) (l_boact s) (l_boseq s) (l_ctsn s) (l_last s) (l_ctsrx s) (l_acks s) (l_sde s) (l_tx s) (l_air s) (l_sent s) (l_disc s) (l_res s) (l_timers s) v (l_ids s).
Definition lset_ids v s := Lst (l_now s) (l_seq s) (l_queue s) (l_rec s) (l_state s) (l_sector s) (l_answered s) (l_boact s) (l_boseq s) (l_ctsn s) (l_last s) (l_ctsrx s) (l_acks s) (l_sde s) (l_tx s) (l_air s) (l_sent s) (l_disc s) (l_res s) (l_timers s) (l_uid s) v.

(** Constructor, 61-84, and InitVariables, 199-215, which runs at time 0 before everything else.
    m_sequence is not initialised, [q0] is what it happens to be. m_lastSeq and m_timeCTSrx are
    written before they are read. *)
Definition linit (q0 : Z) : lst :=
  Lst 0 q0 [] [] LIdle (-1) true false 0 0 0 0 [] None None None 0 0 false [] 0 0.

Inductive lout :=
| LAcc (p : kframe)                  (* Enqueue took the packet *)
| LRet (b : bool)                    (* result of Enqueue *)
| LSnd (f : kframe) (mcs : Z)        (* the PHY begins to transmit *)
| LRep (ok : bool) (p : kframe)      (* SendDataDone counts the packet in m_send / m_discard *)
| LTmo (ack : bool) (sq : Z)         (* AckTimeout / CtsTimeout *)
| LNeg                               (* an event is scheduled with a negative delay *)
| LUb.                               (* undefined behaviour *)

Definition lact := lst -> lst * list lout.
Definition lskip : lact := fun s => (s, []).
Definition lseq (f g : lact) : lact := fun s =>
  let '(s1, o1) := f s in let '(s2, o2) := g s1 in (s2, o1 ++ o2).
Definition llift (f : lst -> lst) : lact := fun s => (f s, []).
Definition lemit (o : lout) : lact := fun s => (s, [o]).
Notation "f ;+ g" := (lseq f g) (at level 60, right associativity).

(** Random draws during a step: the start backoff in slots and the BackoffLife; the sequence field of a
    dummy RTS, which is not initialised. *)
Record lenv := Lenv { le_cw : Z; le_life : Z; le_junk : Z }.
(** UniformRandomVariable::GetInteger (1, n). *)
Definition draw1 (n x : Z) : Z := Z.max 1 (Z.min n x).

(** Simulator::Schedule; Cancel. *)
Definition lsched (d : Z) (k : lkind) (s : lst) : lst :=
  lset_uid (l_uid s + 1) (lset_timers (l_timers s ++ [Ltimer (l_uid s) (l_now s + d) k]) s).
Definition lcancel (u : option Z) (s : lst) : lst :=
  match u with
  | Some i => lset_timers (filter (fun t => negb (lt_id t =? i)) (l_timers s)) s
  | None => s
  end.
(** Schedule with a delay that may be negative. *)
Definition lsched_neg (d : Z) (k : lkind) : lact := fun s => (lsched d k s, if d <? 0 then [LNeg] else []).

Definition is_lstate (st : lstate) (s : lst) : bool :=
  match st, l_state s with
  | LIdle, LIdle | LWaitTx, LWaitTx | LTx, LTx | LWaitAck, LWaitAck | LRx, LRx => true
  | _, _ => false
  end.

(** SendPacket, 612-631, with continuation on the result. *)
Definition lsend (f : kframe) (mcs : Z) (k : bool -> lact) : lact := fun s =>
  if is_lstate LIdle s || is_lstate LWaitTx s then
    match l_air s with
    | None => (lemit (LSnd f mcs) ;+ k true) (lset_tx (Some (kf_id f)) (lset_state LTx (lset_air (Some f) s)))
    | Some _ => k false (lset_state LIdle s)
    end
  else k false s.
Definition lsend_ (f : kframe) : lact := lsend f 0 (fun _ => lskip).

(** Enqueue, 218-248. The packet gets the header (17 bytes, GetSize of a data header). *)
Definition lenqueue (c : lcfg) (size : Z) (dst : addr) : lact := fun s =>
  if size <? lc_min c then (s, [LRet false])
  else
    let q := wrap16 (l_seq s + 1) in
    let p := Kframe T_DATA (lc_addr c) dst q 0 0 0 (size + get_size (Hdr 0 0 T_DATA 0 0 0 0 0)) (l_ids s) in
    (lset_ids (l_ids s + 1) (lset_rec (l_rec s ++ [Lrec p 0 0]) (lset_queue (l_queue s ++ [p]) (lset_seq q s))),
     [LAcc p; LRet false]).

(** SendRts, 540-553. *)
Definition l_send_rts (c : lcfg) (p : kframe) : lact := fun s =>
  let f := Kframe T_RTS (lc_addr c) (kf_dst p) (kf_seq p) 0 0 0 (get_size (Hdr 0 0 T_RTS 0 0 0 0 0)) (l_ids s) in
  lsend_ f (lset_ids (l_ids s + 1) s).

(** SendData, 564-610; GetMaxBackoff, 996-1000. *)
Definition l_maxbo (c : lcfg) : Z := lc_slot c * lc_slots c.
Definition ack_wait (c : lcfg) (s : lst) : Z :=
  if lc_ways c =? 3 then
    (lc_tdata c + l_maxbo c + lc_ctrl c T_CTS + lc_ctrl c T_ACK) * l_ctsn s
    + lc_prop c + lc_sifs c + lc_prop c + 10 * nsec - (l_now s - l_ctsrx s)
  else lc_tdata c + lc_prop c + lc_sifs c + lc_ctrl c T_ACK + lc_prop c + nsec.
Definition l_send_data (c : lcfg) (p : kframe) (mcs : Z) : lact :=
  llift (lset_state LWaitTx) ;+
  if kf_dst p =? bcast then lskip
  else lsend p mcs (fun ok =>
    if ok then fun s =>
      (lsched_neg (ack_wait c s) (LKAck (kf_seq p)) ;+
       llift (lset_acks (l_acks s ++ [(kf_seq p, l_uid s)]))) s
    else llift (lset_state LIdle)).

(** The first record with a sequence number is changed. *)
Fixpoint update1 (sq : Z) (f : lrec -> lrec) (l : list lrec) : list lrec :=
  match l with
  | [] => []
  | r :: t => if kf_seq (lr_pkt r) =? sq then f r :: t else r :: update1 sq f t
  end.
Definition find1 (sq : Z) (l : list lrec) : option lrec := find (fun r => kf_seq (lr_pkt r) =? sq) l.

(** CtsTimeout, 767-803, and AckTimeout, 805-860, from the loop over m_rec on. pow (2, RecRetry) is converted
    to uint32_t, which is undefined from 2^32 on; BackoffLife is a uint16_t. *)
Definition l_timeout (limit life : Z) (ack : bool) (sq : Z) : lact := fun s =>
  match find1 sq (l_rec s) with
  | None => (s, [LTmo ack sq])
  | Some r =>
    let n := wrap16 (lr_retry r + 1) in
    let s1 := if ack then s else lset_ctsn 0 s in
    if n >=? limit then
      (lsched psec (LKDone false sq)
         (lset_queue (kremove (lr_pkt r) (l_queue s1)) (lset_rec (update1 sq (fun r => Lrec (lr_pkt r) n (lr_life r)) (l_rec s1)) s1)),
       [LTmo ack sq])
    else
      (lset_boact true (lset_boseq sq
         (lset_rec (update1 sq (fun r => Lrec (lr_pkt r) n (wrap16 (draw1 (2 ^ n) life))) (l_rec s1)) s1)),
       LTmo ack sq :: if n >=? 32 then [LUb] else [])
  end.
Definition l_cts_timeout (c : lcfg) (e : lenv) (sq : Z) : lact :=
  llift (lset_state LIdle) ;+ l_timeout (lc_rts_retry c) (le_life e) false sq.
Definition l_ack_timeout (c : lcfg) (e : lenv) (sq : Z) : lact :=
  llift (fun s => lset_acks (erase1 (fun x => fst x =? sq) (l_acks s)) (lset_state LIdle s)) ;+
  l_timeout (lc_data_retry c) (le_life e) true sq.

(** DecreaseBackoff, 516-538. *)
Definition decrease (s : lst) : lst :=
  match find1 (l_boseq s) (l_rec s) with
  | None => s
  | Some r =>
    let n := wrap16 (lr_life r - 1) in
    let s1 := lset_rec (update1 (l_boseq s) (fun r => Lrec (lr_pkt r) (lr_retry r) n) (l_rec s)) s in
    if n =? 0 then lset_boact false s1 else s1
  end.

(** ReceiveCta3, 332-416. A client that was assigned the sector [l_sector] (a double) compares it with the
    sector in the header. *)
Definition receive_cta3 (c : lcfg) (e : lenv) (f : kframe) : lact :=
  llift (lset_state LIdle) ;+
  if kf_flags f =? 1 then fun s =>
    let r := Kframe T_RTS (lc_addr c) (kf_src f) (le_junk e) 0 1 0 (get_size (Hdr 0 0 T_RTS 0 0 0 0 0)) (l_ids s) in
    (lsched (lc_slot c * draw1 (lc_slots c) (le_cw e)) (LKDummy r) (lset_ids (l_ids s + 1) s), [])
  else if (kf_flags f =? 2) && (kf_dst f =? lc_addr c) then llift (lset_sector (kf_sector f))
  else fun s =>
    match l_queue s with
    | [] => (s, [])
    | _ =>
      ((fun s => if l_answered s then (s, [])
                 else (l_cts_timeout c e (l_last s) ;+ llift (lset_answered true)) s) ;+
       (fun s =>
          if l_boact s then (decrease s, [])
          else
            let s1 := lset_ctsn 0 s in
            if (l_sector s >? -1) && negb (kf_sector f =? l_sector s) then (s1, [])
            else
              match l_rec s with
              | [] => (s1, [LUb])
              | r :: _ =>
                (lset_answered false (lset_last (kf_seq (lr_pkt r))
                   (lsched (lc_slot c * draw1 (lc_slots c) (le_cw e)) (LKRts (lr_pkt r)) (lset_state LWaitTx s1))), [])
              end)) s
    end.

(** ReceiveCta1, 418-468. *)
Definition receive_cta1 (c : lcfg) (e : lenv) (f : kframe) : lact :=
  llift (lset_state LIdle) ;+
  fun s =>
    match l_queue s with
    | [] => (s, [])
    | _ =>
      if l_boact s then (decrease s, [])
      else
        match l_rec s with
        | [] => (s, [LUb])
        | r :: _ =>
          lsched_neg (2 * lc_prop c - lc_far c * psec + lc_slot c * draw1 (lc_slots c) (le_cw e)) (LKData (lr_pkt r) 0)
            (lset_sde (Some (l_uid s)) (lset_ctsrx (l_now s) (lset_state LWaitTx s)))
        end
    end.

(** ReceiveCts, 470-514. *)
Definition l_mcs (fl : Z) : Z := if (10 <=? fl) && (fl <=? 14) then fl else 0.
Fixpoint cts_loop (f : kframe) (l : list lrec) (s : lst) : lst :=
  match l with
  | [] => s
  | r :: t =>
    cts_loop f t
      (if kf_seq (lr_pkt r) =? kf_seq f then
         lsched (kf_dur f * nsec) (LKData (lr_pkt r) (l_mcs (kf_flags f))) (lset_ctsrx (l_now s) (lset_answered true s))
       else s)
  end.
Definition l_receive_cts (c : lcfg) (f : kframe) : lact :=
  llift (fun s => lset_ctsn (wrap16 (l_ctsn s + 1)) (lset_state LIdle s)) ;+
  if kf_dst f =? lc_addr c then llift (fun s => cts_loop f (l_rec s) s) else lskip.

(** ReceiveAck, 669-700. *)
Definition l_receive_ack (c : lcfg) (f : kframe) : lact := fun s =>
  if kf_dst f =? lc_addr c then
    let s0 := lset_state LIdle s in
    match find (fun x => fst x =? kf_seq f) (l_acks s) with
    | Some (_, u) =>
      (lset_acks (erase1 (fun x => fst x =? kf_seq f) (l_acks s))
         (lsched psec (LKDone true (kf_seq f)) (lcancel (Some u) s0)), [])
    | None => (s0, [])
    end
  else (s, []).

(** The loop of SendDataDone, 702-764, from the record under the iterator on. Result: records
    that remain, queue, packets counted, number of records found (m_result is cleared for each), whether the loop
    ended with return (718-722), undefined behaviour. After m_rec.erase (761) the iterator
    points to the next record, which the increment of the loop skips. If there is none the increment is
    undefined (++ on end ()); with libstdc++ the loop starts again at the first
    record, which has no effect unless two records have the same sequence number; here it ends. *)
Fixpoint ldone_loop (ok : bool) (sq : Z) (q : list kframe) (l : list lrec) : list lrec * list kframe * list kframe * Z * bool * bool :=
  match l with
  | [] => ([], q, [], 0, false, false)
  | r :: t =>
    if kf_seq (lr_pkt r) =? sq then
      match ok, q with
      | true, [] => (r :: t, [], [], 1, true, false)
      | _, _ =>
        let q' := if ok then kremove (lr_pkt r) q else q in
        match t with
        | [] => ([], q', [lr_pkt r], 1, false, true)
        | n :: t' =>
          let '(l', q2, d, k, em, ub) := ldone_loop ok sq q' t' in
          (n :: l', q2, lr_pkt r :: d, k + 1, em, ub)
        end
      end
    else let '(l', q2, d, k, em, ub) := ldone_loop ok sq q t in (r :: l', q2, d, k, em, ub)
  end.

Fixpoint ltimes (n : nat) (f : lst -> lst) (s : lst) : lst :=
  match n with O => s | S m => ltimes m f (f s) end.

(** Each counted packet schedules ResultsRecord. *)
Definition l_done (ok : bool) (sq : Z) : lact := fun s =>
  let '(l, q, d, k, em, ub) := ldone_loop ok sq (l_queue s) (l_rec s) in
  if k =? 0 then (s, [])
  else
    let s1 := ltimes (length d) (lsched 0 LKResult) (lset_res (negb em) (lset_queue q (lset_rec l s))) in
    let n := Z.of_nat (length d) in
    (if ok then lset_sent (wrap16 (l_sent s1 + n)) s1 else lset_disc (wrap16 (l_disc s1 + n)) s1,
     map (LRep ok) d ++ if ub then [LUb] else []).

(** ResultsRecord, 1002-1020: dereferences m_result.begin (). *)
Definition l_results : lact := fun s => (s, if l_res s then [] else [LUb]).

(** SendPacketDone, 633-667. *)
Definition l_tx_done : lact := fun s =>
  match l_air s with
  | None => (s, [])
  | Some f =>
    let s1 := lset_air None s in
    if is_lstate LTx s && match l_tx s with Some i => i =? kf_id f | None => false end then
      (lset_state (if kf_type f =? T_DATA then LWaitAck else LIdle) s1, [])
    else (s1, [])
  end.

(** ReceivePacket, 257-278, with ChannelBecomesBusy, 555-562. *)
Definition l_rx_start : lact := fun s =>
  let s1 := lcancel (l_sde s) s in
  (if is_lstate LTx s || is_lstate LWaitAck s then s1 else lset_state LRx s1, []).

(** ReceivePacketDone, 280-330. *)
Definition l_rx_end (c : lcfg) (e : lenv) (f : kframe) (ok : bool) : lact := fun s =>
  if is_lstate LRx s || is_lstate LWaitAck s && (kf_type f =? T_ACK) then
    if negb ok then (s, [])
    else if kf_type f =? T_CTA then
      if lc_ways c =? 1 then receive_cta1 c e f s
      else if lc_ways c =? 3 then receive_cta3 c e f s
      else (s, [])
    else if kf_type f =? T_CTS then l_receive_cts c f s
    else if kf_type f =? T_ACK then l_receive_ack c f s
    else (s, [])
  else (s, []).

Definition lfire (c : lcfg) (e : lenv) (k : lkind) : lact :=
  match k with
  | LKDummy f => lsend_ f
  | LKRts p => l_send_rts c p
  | LKData p mcs => l_send_data c p mcs
  | LKAck sq => l_ack_timeout c e sq
  | LKDone ok sq => l_done ok sq
  | LKResult => l_results
  end.

Inductive levent :=
| LEEnq (size : Z) (dst : addr)
| LETxDone                            (* the PHY has finished the transmission *)
| LERxStart                           (* the PHY starts a reception *)
| LERxEnd (f : kframe) (ok : bool)    (* the PHY has finished a reception *)
| LETimer (i : nat)                   (* the i-th pending event runs *)
| LETick (t : Z).

Definition lstep (c : lcfg) (e : lenv) (s : lst) (ev : levent) : lst * list lout :=
  match ev with
  | LEEnq size dst => lenqueue c size dst s
  | LETxDone => l_tx_done s
  | LERxStart => l_rx_start s
  | LERxEnd f ok => l_rx_end c e f ok s
  | LETimer i =>
    match nth_error (l_timers s) i with
    | Some t => lfire c e (lt_kind t) (lset_timers (remove_nth i (l_timers s)) s)
    | None => (s, [])
    end
  | LETick t => (lset_now t s, [])
  end.
Fixpoint lrun (c : lcfg) (s : lst) (l : list (lenv * levent)) : lst * list lout :=
  match l with
  | [] => (s, [])
  | (e, ev) :: r => let '(s1, o1) := lstep c e s ev in let '(s2, o2) := lrun c s1 r in (s2, o1 ++ o2)
  end.

(** What the PHY does: it ends only transmissions it began and reports nothing while it transmits. *)
Definition lvalid (s : lst) (ev : levent) : bool :=
  match ev, l_air s with
  | LETxDone, None | LERxStart, Some _ | LERxEnd _ _, Some _ => false
  | _, _ => true
  end.

(** Real time order, as in NanoModel. *)
Definition ltimely (s : lst) (ev : levent) : bool :=
  match ev with
  | LETimer i =>
    match nth_error (l_timers s) i with
    | Some t => (lt_due t =? l_now s) &&
                forallb (fun x => negb (lt_due x =? l_now s) || (lt_id t <=? lt_id x)) (l_timers s)
    | None => false
    end
  | LETick t => (l_now s <=? t) && forallb (fun x => t <=? lt_due x) (l_timers s)
  | _ => true
  end.
