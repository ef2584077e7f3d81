(** Vocabulary for the properties of the client. *)
From Coq Require Import ZArith List Bool.
From Verif Require Import Base HeaderModel SeqModel EnergyModel MacModel ApModel ClientModel.
Import ListNotations.
Open Scope Z_scope.

(** Executions of a client in which every step satisfies [P]: draws and events so far, state, effects so
    far. *)
Inductive lreach (P : lst -> levent -> Prop) (c : lcfg) (q0 : Z) : list (lenv * levent) -> lst -> list lout -> Prop :=
| LR0 : lreach P c q0 [] (linit q0) []
| LR1 h s o e ev : lreach P c q0 h s o -> lvalid s ev = true -> P s ev ->
    lreach P c q0 (h ++ [(e, ev)]) (fst (lstep c e s ev)) (o ++ snd (lstep c e s ev)).

(** No restriction: the pending events run in any order, at any time. *)
Definition freely (s : lst) (ev : levent) : Prop := True.
(** Real time. *)
Definition ontime (s : lst) (ev : levent) : Prop := ltimely s ev = true.

(** Packets accepted; reported as sent (true) or discarded (false); frames transmitted. *)
Definition lacc_of (o : list lout) : list kframe := flat_map (fun x => match x with LAcc p => [p] | _ => [] end) o.
Definition lrep_of (b : bool) (o : list lout) : list kframe :=
  flat_map (fun x => match x with LRep b' p => if Bool.eqb b b' then [p] else [] | _ => [] end) o.
Definition lsnd_of (o : list lout) : list kframe := flat_map (fun x => match x with LSnd f _ => [f] | _ => [] end) o.
(** Number of timeouts for a sequence number: of ACK (true), of CTS (false). *)
Definition ltmo_of (ack : bool) (q : Z) (o : list lout) : nat :=
  length (filter (fun x => match x with LTmo a q' => Bool.eqb a ack && (q' =? q) | _ => false end) o).
(** Frames received without error. *)
Definition lrcv_of (h : list (lenv * levent)) : list kframe :=
  flat_map (fun x => match snd x with LERxEnd f true => [f] | _ => [] end) h.
Definition lcount (P : kframe -> bool) (l : list kframe) : nat := length (filter P l).
