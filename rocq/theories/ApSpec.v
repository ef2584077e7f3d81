(** Vocabulary for the properties of the access point. *)
From Coq Require Import ZArith List Bool.
From Verif Require Import Base HeaderModel SeqModel EnergyModel MacModel ApModel.
Import ListNotations.
Open Scope Z_scope.

(** Executions of the access point in which every step satisfies [P]: events so far, state,
    effects so far. *)
Inductive areach (P : pst -> pevent -> Prop) (c : acfg) : list pevent -> pst -> list pout -> Prop :=
| AR0 : areach P c [] (pinit c) []
| AR1 h s o ev : areach P c h s o -> pvalid s ev = true -> P s ev ->
    areach P c (h ++ [ev]) (fst (pstep c s ev)) (o ++ snd (pstep c s ev)).

(** No restriction: the pending events run in any order, at any time. *)
Definition anyhow (s : pst) (ev : pevent) : Prop := True.
(** Real time. *)
Definition intime (s : pst) (ev : pevent) : Prop := ptimely s ev = true.

Definition ksnd_of (o : list pout) : list kframe := flat_map (fun x => match x with PSnd f => [f] | _ => [] end) o.
Definition kup_of (o : list pout) : list kframe := flat_map (fun x => match x with PUp f => [f] | _ => [] end) o.
Definition klost_of (o : list pout) : list kframe := flat_map (fun x => match x with PLost f => [f] | _ => [] end) o.
Definition turns_of (o : list pout) : list Z := flat_map (fun x => match x with PTurn a => [a] | _ => [] end) o.
(** Frames received without error. *)
Definition krcv_of (h : list pevent) : list kframe := flat_map (fun x => match x with AERxEnd f true _ => [f] | _ => [] end) h.

(** Number of DATA from node [a] with number [q]; of ACK to it. *)
Definition n_data (a q : Z) (l : list kframe) : nat :=
  length (filter (fun f => (kf_type f =? T_DATA) && (kf_src f =? a) && (kf_seq f =? q)) l).
Definition n_ack (a q : Z) (l : list kframe) : nat :=
  length (filter (fun f => (kf_type f =? T_ACK) && (kf_dst f =? a) && (kf_seq f =? q)) l).

(** Pending events that lead to a further turn of the antenna. *)
Definition driver (t : ptimer) : bool :=
  match pt_kind t with PKTurn | PKWait | PKSec | PKAck => true | _ => false end.
(** How many of them there are; the end of the transmission of an ACK counts as well. *)
Definition drivers (s : pst) : nat :=
  (length (filter driver (p_timers s)) + match p_air s with Some f => if (kf_type f =? T_ACK)%Z then 1 else 0 | None => 0 end)%nat.

(** Every data frame is received before the timeout of a sector. *)
Definition prompt (s : pst) (ev : pevent) : Prop :=
  match ev with
  | AERxEnd f true _ => kf_type f = T_DATA -> exists t, In t (p_timers s) /\ pt_kind t = PKSec
  | _ => True
  end.

(** The frames whose number exceeds the numbers of all frames of the same source before them. *)
Fixpoint fresh (seen l : list kframe) : list kframe :=
  match l with
  | [] => []
  | f :: r =>
    (if forallb (fun g => negb (kf_src g =? kf_src f) || (kf_seq g <? kf_seq f)) seen then [f] else []) ++ fresh (seen ++ [f]) r
  end.

(** Events that are possible for the PHY, one after the other. *)
Fixpoint pvalid_run (c : acfg) (s : pst) (l : list pevent) : bool :=
  match l with [] => true | ev :: r => pvalid s ev && pvalid_run c (fst (pstep c s ev)) r end.

(** Node [n] was heard in sector [b] with power [pw]; node [n] is assigned to sector [b]. *)
Definition heard (s : pst) (n b pw : Z) : Prop := exists l, In (b, l) (p_map s) /\ In (n, pw) l.
Definition assigned (s : pst) (n b : Z) : Prop := exists l, In (b, l) (p_white s) /\ In n l.

(** The data that a granted CTS calls for: when it begins to arrive at the AP if the node has the
    propagation delay [d]. The CTS leaves at the time of the event and reaches the node; the node
    waits for the duration found in the header and sends (ReceiveCts,
    thz-mac-macro-client.cc:470-514); the data travel back. *)
Definition arrival (c : acfg) (t : ptimer) (d : Z) : Z :=
  match pt_kind t with
  | PKCts _ _ dur _ => pt_due t + ac_ctrl c T_CTS + d + wrap16 (Z.quot dur nsec) * nsec + d
  | _ => 0
  end.
(** The duration of PacketSize bytes with the MCS of the CTS. *)
Definition airtime (c : acfg) (t : ptimer) : Z :=
  match pt_kind t with PKCts _ _ _ flag => ac_data c (ac_size c) flag | _ => 0 end.
Definition is_cts (t : ptimer) : Prop := match pt_kind t with PKCts _ _ _ _ => True | _ => False end.
(** The events that a step schedules. *)
Definition scheduled (c : acfg) (s : pst) (ev : pevent) (t : ptimer) : Prop :=
  In t (p_timers (fst (pstep c s ev))) /\ p_uid s <= pt_id t.
