(** Model of model/thz-phy-nano.cc: class THzPhyNano.

    Times are integers in femtoseconds (Time::SetResolution (Time::FS)); the code converts
    them to double, [rnd] is that conversion and the rounding of double additions of integers.
    Powers and interference are abstract numbers (class parameter [low]: "the signal-to-noise
    ratio is below SinrTh"). Waveforms (CalTxPsd) are not modelled here. *)
From Coq Require Import ZArith List Bool.
From Verif Require Import Base EnergyModel NanoModel.
Import ListNotations.
Open Scope Z_scope.

(** Rounding of an integer to a double, to nearest, ties to even: integers of up to 53 bits
    are exact (Time::ToDouble, int64x64_t::GetDouble; IEEE addition). *)
Definition rnd (z : Z) : Z :=
  let a := Z.abs z in
  if a <? 2 ^ 53 then z
  else
    let u := 2 ^ (Z.log2 a - 52) in
    let q := a / u in
    let r := a mod u in
    let q' := if 2 * r <? u then q else if u <? 2 * r then q + 1 else if Z.even q then q else q + 1 in
    Z.sgn z * (q' * u).

(** SortArray, thz-phy-nano.cc:473-494. One run of the inner loop: position i holds [x], the
    later positions hold [l]; the result is the final content of position i and the later
    positions. *)
Fixpoint sort_pass (x : Z) (l : list Z) : Z * list Z :=
  match l with
  | [] => (x, [])
  | y :: r =>
    if x >? y then let '(m, r') := sort_pass y r in (m, x :: r')
    else let '(m, r') := sort_pass x r in (m, y :: r')
  end.
(** The outer loop; [n] is the number of positions left. *)
Fixpoint sort_loop (n : nat) (l : list Z) : list Z :=
  match n, l with
  | S n', x :: r => let '(m, r') := sort_pass x r in m :: sort_loop n' r'
  | _, _ => l
  end.
Definition sort_array (l : list Z) : list Z := sort_loop (length l) l.

(** Attributes: PulseDuration and Ts = Beta * PulseDuration (176). *)
Record pconf := PConf { p_pulse : Z; p_ts : Z }.

(** thz-phy-nano.h OngoingTx. *)
Record otx := OTx { o_start : Z; o_dur : Z }.

(** thz-phy-nano.h OngoingRx; [r_id] is the packet pointer. *)
Record orx := ORx { r_start : Z; r_dur : Z; r_id : Z; r_coll : bool; r_pow : Z; r_intf : Z }.

(** 207-257: the pulse of an ongoing transmission or reception with start [st], mapped into the
    symbol that begins now. C's fmod has the sign of the dividend: Z.rem. *)
Definition next_pulse (c : pconf) (now st : Z) : Z :=
  let m := Z.rem (rnd (now - st)) (rnd (p_ts c)) in
  if m <? rnd (p_pulse c) then rnd (rnd now - m) else rnd (rnd (rnd now + rnd (p_ts c)) - m).

(** 196-203 and the two loops: the array nextPulse. *)
Definition pulses (c : pconf) (now : Z) (starts : list Z) : list Z :=
  rnd now :: map (next_pulse c now) starts ++ [rnd (now + p_ts c)].

(** 263-291: the search. The loop index runs to the array size, so that the last iteration
    reads one element past the end unless the first condition fails. *)
Inductive slot := Slot (start : Z) | NoSlot | OutOfBounds.
Fixpoint search (lim pulse : Z) (a : list Z) : slot :=
  match a with
  | [] => NoSlot
  | x :: r =>
    if x =? lim then search lim pulse r
    else match r with
         | [] => OutOfBounds
         | y :: _ => if rnd (x + 2 * pulse) <=? y then Slot (rnd (x + pulse)) else search lim pulse r
         end
  end.

(** Where SendPacket puts a new transmission: 171-308 without the bookkeeping. *)
Definition place (c : pconf) (now : Z) (txs : list otx) (rxs : list orx) : slot :=
  match txs, rxs with
  | [], [] => Slot now
  | _, _ => search (rnd (rnd now + rnd (p_ts c))) (rnd (p_pulse c))
              (sort_array (pulses c now (map o_start txs ++ map r_start rxs)))
  end.

(** 367, 382, 393: FemtoSeconds (fmod (nowD - (start - pulse), TsD)) < 2 * pulse. For a start
    in the future fmod is negative and its conversion to FemtoSeconds' uint64_t parameter is
    formally undefined; the results compilers produce (the two's complement, or 0 on machines
    that saturate) are both below 2 * pulse, as here. *)
Definition close_to (c : pconf) (now st : Z) : bool :=
  Z.rem (rnd (rnd now - rnd (st - p_pulse c))) (rnd (p_ts c)) <? 2 * p_pulse c.

(** State of the PHY: clock, the two lists, and the pending DeleteOngoingTx events. *)
Record phy := Phy { y_now : Z; y_txs : list otx; y_rxs : list orx; y_dels : list otx }.

Definition same_tx (a b : otx) : bool := (o_start a =? o_start b) && (o_dur a =? o_dur b).

(** Calls and events. [junk] is the indeterminate value of ot.interference (uninitialised
    at 354, first read at 384 or 407). *)
Inductive pev :=
| PSend (dur : Z)                          (* SendPacket; dur = txDuration *)
| PDelete (i : nat)                        (* the i-th pending DeleteOngoingTx runs *)
| PRx (id dur pow junk : Z)                (* ReceivePacket *)
| PRxEnd (id : Z)                          (* ReceivePacketDone *)
| PTick (t : Z).

Inductive pout :=
| PTx (start dur : Z)                      (* ScheduleSendPacket scheduled for [start] *)
| PRefused                                 (* SendPacket returned false *)
| PAccepted (id : Z)                       (* the reception was entered in m_ongoingRx *)
| PDropped (id : Z)                        (* "Drop packet due to half-duplex" *)
| PReport (id : Z) (ok : bool)             (* m_mac->ReceivePacketDone *)
| PUB.                                     (* out-of-bounds read *)

(** 375-405: for every ongoing reception close to the new one the interference is computed
    anew (new signal plus all other close receptions), and it is marked as collided if the
    ratio is low. [low pow intf]: DbmToW (pow) / GetNoiseW (intf) < SinrTh. Powers are linear
    here (DbmToW applied). *)
Fixpoint close_power (c : pconf) (now skip : Z) (l : list orx) : Z :=
  match l with
  | [] => 0
  | r :: l' =>
    (if negb (r_id r =? skip) && close_to c now (r_start r) then r_pow r else 0) + close_power c now skip l'
  end.
Definition hit (low : Z -> Z -> bool) (c : pconf) (now pow : Z) (all : list orx) (r : orx) : orx :=
  if close_to c now (r_start r) then
    let intf := pow + close_power c now (r_id r) all in
    ORx (r_start r) (r_dur r) (r_id r) (r_coll r || low (r_pow r) intf) (r_pow r) intf
  else r.

(** Interference of the new signal: junk plus the powers of the close receptions (384). *)
Fixpoint own_intf (c : pconf) (now : Z) (l : list orx) (acc : Z) : Z :=
  match l with
  | [] => acc
  | r :: l' => own_intf c now l' (if close_to c now (r_start r) then acc + r_pow r else acc)
  end.

(** ReceivePacket, 350-430. *)
Definition rx_start (low : Z -> Z -> bool) (c : pconf) (id dur pow junk : Z) (s : phy) : phy * list pout :=
  if existsb (fun t => close_to c (y_now s) (o_start t)) (y_txs s) then (s, [PDropped id])
  else
    let rxs := map (hit low c (y_now s) pow (y_rxs s)) (y_rxs s) in
    let intf := own_intf c (y_now s) (y_rxs s) junk in
    let new := ORx (y_now s) dur id (low pow intf) pow intf in
    (Phy (y_now s) (y_txs s) (rxs ++ [new]) (y_dels s), [PAccepted id]).

(** ReceivePacketDone, 432-460. *)
Definition rx_end (id : Z) (s : phy) : phy * list pout :=
  match find (fun r => r_id r =? id) (y_rxs s) with
  | Some r => (Phy (y_now s) (y_txs s) (erase_first (fun r => r_id r =? id) (y_rxs s)) (y_dels s),
               [PReport id (negb (r_coll r))])
  | None => (s, [])
  end.

(** SendPacket, 171-308. *)
Definition send (c : pconf) (dur : Z) (s : phy) : phy * list pout :=
  match place c (y_now s) (y_txs s) (y_rxs s) with
  | Slot st => let ot := OTx st dur in
               (Phy (y_now s) (y_txs s ++ [ot]) (y_rxs s) (y_dels s ++ [ot]), [PTx st dur])
  | NoSlot => (s, [PRefused])
  | OutOfBounds => (s, [PUB])
  end.

(** DeleteOngoingTx, 327-341. *)
Definition delete_tx (i : nat) (s : phy) : phy * list pout :=
  match nth_error (y_dels s) i with
  | Some ot => (Phy (y_now s) (erase_first (same_tx ot) (y_txs s)) (y_rxs s) (remove_nth i (y_dels s)), [])
  | None => (s, [])
  end.

Definition pstep (low : Z -> Z -> bool) (c : pconf) (s : phy) (e : pev) : phy * list pout :=
  match e with
  | PSend dur => send c dur s
  | PDelete i => delete_tx i s
  | PRx id dur pow junk => rx_start low c id dur pow junk s
  | PRxEnd id => rx_end id s
  | PTick t => (Phy t (y_txs s) (y_rxs s) (y_dels s), [])
  end.
Fixpoint prun (low : Z -> Z -> bool) (c : pconf) (s : phy) (l : list pev) : phy * list pout :=
  match l with
  | [] => (s, [])
  | e :: r => let '(s1, o1) := pstep low c s e in let '(s2, o2) := prun low c s1 r in (s2, o1 ++ o2)
  end.
Definition phy0 : phy := Phy 0 [] [] [].

(** Real time: the clock does not run backwards or past a pending deletion, deletions run at
    their time. *)
Definition ptimely (s : phy) (e : pev) : bool :=
  match e with
  | PTick t => (y_now s <=? t) && forallb (fun d => t <=? o_start d + o_dur d) (y_dels s)
  | PDelete i => match nth_error (y_dels s) i with Some d => o_start d + o_dur d =? y_now s | None => false end
  | _ => true
  end.
Fixpoint ptimely_run (low : Z -> Z -> bool) (c : pconf) (s : phy) (l : list pev) : bool :=
  match l with
  | [] => true
  | e :: r => ptimely s e && ptimely_run low c (fst (pstep low c s e)) r
  end.
