(** The directional antenna, thz-dir-antenna.cc, and its use in THzChannel::SendPacket, thz-channel.cc.
    Angles and gains are real numbers: no rounding. Nodes stand still and are numbered by their place in m_devList. *)
From Coq Require Import ZArith List Reals Bool.
Import ListNotations.
Open Scope R_scope.

(** 213-220, also 236-243, 273-280, 291-298, 313-320, 331-338: the two loops, as relations. *)
Inductive add_loop : R -> R -> Prop :=
| add_stop p : ~ p <= - PI -> add_loop p p
| add_more p q : p <= - PI -> add_loop (p + (PI + PI)) q -> add_loop p q.
Inductive sub_loop : R -> R -> Prop :=
| sub_stop p : ~ p > PI -> sub_loop p p
| sub_more p q : p > PI -> sub_loop (p - (PI + PI)) q -> sub_loop p q.
Definition loops (p r : R) : Prop := exists q, add_loop p q /\ sub_loop q r.
(** The value the loops give; AntennaProofs.loops_wrap. *)
Definition wrap (p : R) : R := p + 2 * PI * IZR (Int_part ((PI - p) / (2 * PI))).

(** std::pow of a number that is not negative with a positive exponent; std::log10, None: minus infinity. *)
Definition dpow (x e : R) : R := if Req_EM_T x 0 then 0 else Rpower x e.
Definition dlog10 (x : R) : option R := if Req_EM_T x 0 then None else Some (ln x / ln 10).
(** 221-222: 20 * std::log10 (std::pow (std::cos (phi / 2.0), m_exponent)). *)
Definition pattern (e phi : R) : option R := match dlog10 (dpow (cos (phi / 2)) e) with None => None | Some x => Some (20 * x) end.
Definition osum2 (a b : option R) : option R := match a, b with Some x, Some y => Some (x + y) | _, _ => None end.

(** SetBeamwidth, 147-152: m_exponent for a beamwidth in degrees. DegreesToRadians is a multiplication with pi / 180. *)
Definition exponent (bw : R) : R := - 3 / (20 * (ln (cos (bw * PI / 180 / 4)) / ln 10)).

(** m_RxTxMode (a double that is set to 0, 1 or 2), m_beamwidthDegrees, m_exponent, m_maxGain, m_RxorientationRadians. *)
Record ant := Ant { a_mode : Z; a_bw : R; a_exp : R; a_max : R; a_orient : R }.
Definition with_orient (a : ant) (o : R) : ant := Ant (a_mode a) (a_bw a) (a_exp a) (a_max a) o.
(** The attributes BeamWidth, 64-68, and MaxGain, 69-73; SetBeamwidth, 146-152; TuneRxOrientation, 163-179, for degrees from -360 on up to 360. *)
Definition attr_bw (a : ant) (bw : R) : ant := Ant (a_mode a) bw (a_exp a) (a_max a) (a_orient a).
Definition attr_max (a : ant) (g : R) : ant := Ant (a_mode a) (a_bw a) (a_exp a) g (a_orient a).
Definition set_bw (a : ant) (bw : R) : ant := Ant (a_mode a) bw (exponent bw) (a_max a) (a_orient a).
Definition set_mode (a : ant) (m : Z) : ant := Ant m (a_bw a) (a_exp a) (a_max a) (a_orient a).
Definition tune (a : ant) (deg : R) : ant := with_orient a (deg * PI / 180).

(** GetRxGainDb, 208-227; [dir]: the azimuth of the sender seen from the receiver. *)
Definition rx_gain (a : ant) (dir : R) : option R := osum2 (pattern (a_exp a) (wrap (dir - a_orient a))) (Some (a_max a)).

(** GetAntennaGain, 256-392, of the antenna [a] of node [y]. [az i j]: the azimuth of node i seen from node j. The modes are parameters of type bool, so that
    the condition in 349 never holds. Both gains are computed with m_exponent and m_maxGain of this antenna; phi_tx is the difference of the same two numbers. *)
Definition antenna_gain (az : nat -> nat -> R) (x y : nat) (xm ym : bool) (ro : R) (a : ant) : ant * option R :=
  (with_orient a ro,
   if xm && negb ym then
     osum2 (osum2 (pattern (a_exp a) (wrap (az y x - ro))) (Some (a_max a))) (osum2 (pattern (a_exp a) (wrap (az x y - az x y))) (Some (a_max a)))
   else if negb xm && ym then
     osum2 (osum2 (pattern (a_exp a) (wrap (az x y - ro))) (Some (a_max a))) (osum2 (pattern (a_exp a) (wrap (az y x - az y x))) (Some (a_max a)))
   else Some 0).

(** Conversion of m_XnodeMode, m_YnodeMode from double to bool in the call, thz-channel.cc:156-160. *)
Definition mode_bool (m : Z) : bool := negb (m =? 0)%Z.
(** THzChannel::SendPacket, thz-channel.cc:136-182, the loop over m_devList: [sm], [so] mode and orientation of the antenna of sender [x], [ro] is m_Rxorientation. The result is
    the devices, m_Rxorientation and the gains (m_totalGain) by device; the sender has none. *)
Fixpoint send_loop (az : nat -> nat -> R) (x : nat) (sm : Z) (so : R) (j : nat) (ds : list ant) (ro : R) : list ant * R * list (option (option R)) :=
  match ds with
  | [] => ([], ro, [])
  | a :: r =>
      if Nat.eqb j x then
        let t := send_loop az x sm so (S j) r ro in (a :: fst (fst t), snd (fst t), None :: snd t)
      else
        let ro1 := if ((sm =? 1) && (a_mode a =? 0))%Z then so else ro in
        let ro2 := if ((sm =? 0) && (a_mode a =? 1))%Z then a_orient a else ro1 in
        let ro3 := if ((sm =? 2) && (a_mode a =? 2))%Z then 0 else ro2 in
        let g := antenna_gain az x j (mode_bool sm) (mode_bool (a_mode a)) ro3 a in
        let t := send_loop az x sm so (S j) r ro3 in (fst g :: fst (fst t), snd (fst t), Some (snd g) :: snd t)
  end.
(** m_devList (the antennas) and m_Rxorientation. *)
Record chan := Chan { c_dev : list ant; c_ro : R }.
Definition send (az : nat -> nat -> R) (c : chan) (x : nat) : chan * list (option (option R)) :=
  match nth_error (c_dev c) x with
  | None => (c, [])
  | Some s => let t := send_loop az x (a_mode s) (a_orient s) 0 (c_dev c) (c_ro c) in (Chan (fst (fst t)) (snd (fst t)), snd t)
  end.

(** What nodes do with their antennas: transmit a packet; become receiver and turn (thz-mac-macro.cc:422-432, thz-mac-macro-ap.cc:229-231, 271, 781); become
    transmitter (thz-mac-macro.cc:469, thz-mac-macro-client.cc:209). *)
Inductive aop := OSend (i : nat) | OReceive (i : nat) (deg : R) | OTransmit (i : nat).
Definition upd {A} (l : list A) (i : nat) (f : A -> A) : list A := map (fun p => if Nat.eqb (fst p) i then f (snd p) else snd p) (combine (seq 0 (length l)) l).
Definition astep (az : nat -> nat -> R) (c : chan) (o : aop) : chan :=
  match o with
  | OSend i => fst (send az c i)
  | OReceive i deg => Chan (upd (c_dev c) i (fun a => tune (set_mode a 1) deg)) (c_ro c)
  | OTransmit i => Chan (upd (c_dev c) i (fun a => set_mode a 0)) (c_ro c)
  end.
Definition arun (az : nat -> nat -> R) (c : chan) (l : list aop) : chan := fold_left (astep az) l c.
