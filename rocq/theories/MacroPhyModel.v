(** Model of model/thz-phy-macro.cc: class THzPhyMacro, together with the two events the channel
    schedules for it (SendPacketDone after txDuration, thz-channel.cc:129-133, and
    ReceivePacketDone after txDuration, 197-203).

    Times are integers in femtoseconds. Powers are linear numbers; [sense] stands for
    rxPower > CsPowerTh and [good p i] for 10 log10 (p / (noise + i)) > SinrTh (363-377), the
    arithmetic of which is not modelled. The MAC is called back at the places marked by the
    outputs; it is assumed not to call SendPacket from inside these callbacks (thz-mac-macro.cc
    and -client.cc schedule their answers as later events). THzMacMacroAp sends an ACK from inside
    the callback for a packet received without error; this callback is the last action of
    ReceivePacketDone, so that the call has the same effect right after the event. *)
From Coq Require Import ZArith List Bool.
From Verif Require Import Base EnergyModel.
Import ListNotations.
Open Scope Z_scope.

(** A signal that arrives at the node: identity of the packet copy, start, duration, power; also
    the entries of m_ongoingRx (thz-phy-macro.h OngoingRx, whose interference is never used). *)
Record sig := Sig { g_id : Z; g_start : Z; g_dur : Z; g_pow : Z }.
Definition g_end (g : sig) : Z := g_start g + g_dur g.

(** m_state; COLL is never assigned. *)
Inductive kst := KIdle | KTx | KRx.

Record kphy := KPhy {
  k_now : Z;
  k_state : kst;
  k_busy : bool;                 (* m_csBusy *)
  k_end : Z;                     (* m_csBusyEnd *)
  k_rx : option Z;               (* m_pktRx *)
  k_list : list sig;             (* m_ongoingRx *)
  k_txs : list Z;                (* times of the pending SendPacketDone events *)
  k_rxs : list sig;              (* signals whose ReceivePacketDone is pending *)
  k_next : Z }.                  (* next identity *)

(** Constructor, thz-phy-macro.cc:51-63. *)
Definition kphy0 : kphy := KPhy 0 KIdle false 0 None [] [] [] 0.

Inductive kev :=
| KSend (dur : Z)                (* SendPacket by the MAC; dur = txDuration *)
| KSendDone (i : nat)            (* the i-th pending SendPacketDone runs *)
| KSignal (dur pow : Z)          (* the channel announces a signal *)
| KSignalEnd (i : nat)           (* the i-th pending ReceivePacketDone runs *)
| KTick (t : Z).

Inductive kout :=
| KOwn (t dur : Z)               (* SendPacket returned true: the signal goes to the channel *)
| KRefused (t : Z)               (* SendPacket returned false *)
| KSent (t : Z)                  (* m_mac->SendPacketDone *)
| KHeard (g : sig)               (* ReceivePacket was called (no effect outside the PHY) *)
| KStart (id t : Z)              (* m_mac->ReceivePacket *)
| KDone (id : Z) (ok : bool) (t : Z).  (* m_mac->ReceivePacketDone *)

(** SendPacket, 242-277. *)
Definition k_send (dur : Z) (s : kphy) : kphy * list kout :=
  match k_state s with
  | KTx => (s, [KRefused (k_now s)])
  | _ => (KPhy (k_now s) KTx (k_busy s) (k_end s) (k_rx s) (k_list s) (k_txs s ++ [k_now s + dur]) (k_rxs s) (k_next s),
          [KOwn (k_now s) dur])
  end.

(** SendPacketDone, 279-285. *)
Definition k_send_done (s : kphy) : kphy * list kout :=
  (KPhy (k_now s) KIdle (k_busy s) (k_end s) (k_rx s) (k_list s) (k_txs s) (k_rxs s) (k_next s), [KSent (k_now s)]).

(** ReceivePacket, 287-329. *)
Definition k_receive (sense : Z -> bool) (dur pow : Z) (s : kphy) : kphy * list kout :=
  let g := Sig (k_next s) (k_now s) dur pow in
  let l := k_list s ++ [g] in
  let p := k_rxs s ++ [g] in
  let n := k_next s + 1 in
  match k_state s with
  | KTx => (KPhy (k_now s) KTx (k_busy s) (k_end s) (k_rx s) l (k_txs s) p n, [KHeard g])
  | _ =>
    if sense pow && (k_now s + dur >? k_end s) then
      if k_busy s then
        (KPhy (k_now s) KRx true (k_now s + dur) (k_rx s) l (k_txs s) p n, [KHeard g])
      else
        (KPhy (k_now s) KRx true (k_now s + dur) (Some (g_id g)) l (k_txs s) p n, [KHeard g; KStart (g_id g) (k_now s)])
    else (KPhy (k_now s) (k_state s) (k_busy s) (k_end s) (k_rx s) l (k_txs s) p n, [KHeard g])
  end.

(** 351-359: the sum over m_ongoingRx. *)
Fixpoint k_interference (now id : Z) (l : list sig) : Z :=
  match l with
  | [] => 0
  | g :: r => (if negb (g_id g =? id) && (now - g_start g <=? g_dur g) then g_pow g else 0) + k_interference now id r
  end.

Definition ns : Z := 1000000.

(** ReceivePacketDone, 331-396. The loop that should erase the packet (382-388) starts with the
    iterator of the preceding loop, which is at the end: it does nothing. *)
Definition k_receive_done (good : Z -> Z -> bool) (g : sig) (s : kphy) : kphy * list kout :=
  let busy := if k_end s <=? k_now s + ns then false else k_busy s in
  let s1 st := KPhy (k_now s) st busy (k_end s) (k_rx s) (k_list s) (k_txs s) (k_rxs s) (k_next s) in
  match k_state s with
  | KRx =>
    match k_rx s with
    | Some id =>
      if g_id g =? id then
        if good (g_pow g) (k_interference (k_now s) id (k_list s)) then
          (s1 KIdle, [KDone (g_id g) true (k_now s)])
        else
          (s1 KIdle, KDone (g_id g) false (k_now s) :: if busy then [] else [KDone (g_id g) false (k_now s)])
      else if busy then (s1 KRx, [])
      else (s1 KIdle, [KDone (g_id g) false (k_now s)])
    | None => if busy then (s1 KRx, []) else (s1 KIdle, [KDone (g_id g) false (k_now s)])
    end
  | st => (s1 st, [])
  end.

(** IsIdle, 398-406. *)
Definition is_idle (s : kphy) : bool :=
  match k_state s with KIdle => negb (k_busy s) | _ => false end.

Definition kstep (sense : Z -> bool) (good : Z -> Z -> bool) (s : kphy) (e : kev) : kphy * list kout :=
  match e with
  | KSend dur => k_send dur s
  | KSendDone i =>
    match nth_error (k_txs s) i with
    | Some _ => k_send_done (KPhy (k_now s) (k_state s) (k_busy s) (k_end s) (k_rx s) (k_list s) (remove_nth i (k_txs s)) (k_rxs s) (k_next s))
    | None => (s, [])
    end
  | KSignal dur pow => k_receive sense dur pow s
  | KSignalEnd i =>
    match nth_error (k_rxs s) i with
    | Some g => k_receive_done good g (KPhy (k_now s) (k_state s) (k_busy s) (k_end s) (k_rx s) (k_list s) (k_txs s) (remove_nth i (k_rxs s)) (k_next s))
    | None => (s, [])
    end
  | KTick t => (KPhy t (k_state s) (k_busy s) (k_end s) (k_rx s) (k_list s) (k_txs s) (k_rxs s) (k_next s), [])
  end.
Fixpoint krun (sense : Z -> bool) (good : Z -> Z -> bool) (s : kphy) (l : list kev) : kphy * list kout :=
  match l with
  | [] => (s, [])
  | e :: r => let '(s1, o1) := kstep sense good s e in let '(s2, o2) := krun sense good s1 r in (s2, o1 ++ o2)
  end.

(** Real time: the clock never runs backwards or past a pending event, events run at their time
    (those of equal time in any order). Durations are positive. *)
Definition ktimely (s : kphy) (e : kev) : bool :=
  match e with
  | KSend dur => 0 <? dur
  | KSendDone i => match nth_error (k_txs s) i with Some t => t =? k_now s | None => false end
  | KSignal dur _ => 0 <? dur
  | KSignalEnd i => match nth_error (k_rxs s) i with Some g => g_end g =? k_now s | None => false end
  | KTick t => (k_now s <=? t) && forallb (fun d => t <=? d) (k_txs s) && forallb (fun g => t <=? g_end g) (k_rxs s)
  end.
Fixpoint ktimely_run (sense : Z -> bool) (good : Z -> Z -> bool) (s : kphy) (l : list kev) : bool :=
  match l with
  | [] => true
  | e :: r => ktimely s e && ktimely_run sense good (fst (kstep sense good s e)) r
  end.

(** CalTxDuration, 408-414, and GetDataRate, 204-222, in seconds as exact rationals ([Qdiv] by a
    rate of zero is excluded by the theorems; C++ would give an infinite duration). [mcs] is
    narrowed to uint8_t. The conversion of the two double results to Time is not modelled. *)
From Coq Require Import QArith.
Record rates := Rates { rt_default : Q; rt_basic : Q; rt_bpsk : Q; rt_qpsk : Q; rt_8psk : Q; rt_16qam : Q; rt_64qam : Q }.
Record kcfg := KCfg { kc_preamble : Q; kc_header : Z; kc_trailer : Z; kc_rates : rates }.
Definition data_rate (r : rates) (mcs : Z) : Q :=
  if (mcs =? 10)%Z then rt_bpsk r
  else if (mcs =? 11)%Z then rt_qpsk r
  else if (mcs =? 12)%Z then rt_8psk r
  else if (mcs =? 13)%Z then rt_16qam r
  else if (mcs =? 14)%Z then rt_64qam r
  else rt_default r.
Definition cal_tx_duration (c : kcfg) (basic data mcs : Z) : Q :=
  (let m := wrap8 mcs in
   kc_preamble c + inject_Z (kc_header c + basic + kc_trailer c) * 8 / data_rate (kc_rates c) m
   + inject_Z data * 8 / data_rate (kc_rates c) m)%Q.
(** The duration SendPacket (242-262) uses for a packet of [size] bytes. *)
Definition send_duration (c : kcfg) (rate : bool) (size mcs : Z) : Q :=
  if rate then cal_tx_duration c 0 size mcs else cal_tx_duration c size 0 0.
(** GetBasicRate, 198-202: the double is converted to uint32_t; None = undefined behaviour. The
    rate is an integer number of bits per second here. *)
Definition get_basic_rate (bps : Z) : option Z :=
  if ((0 <=? bps) && (bps <? 2 ^ 32))%Z then Some bps else None.
