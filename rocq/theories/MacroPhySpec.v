(** Vocabulary for the properties of the macro PHY: executions and what can be seen of them. *)
From Coq Require Import ZArith List Bool.
From Verif Require Import Base MacroPhyModel.
Import ListNotations.
Open Scope Z_scope.

(** Executions in real time: state and all outputs so far. *)
Inductive kreach (sense : Z -> bool) (good : Z -> Z -> bool) : kphy -> list kout -> Prop :=
| KR0 : kreach sense good kphy0 []
| KR1 s o e : kreach sense good s o -> ktimely s e = true ->
    kreach sense good (fst (kstep sense good s e)) (o ++ snd (kstep sense good s e)).

(** The signals that have arrived at the node. *)
Definition heard (o : list kout) : list sig :=
  flat_map (fun x => match x with KHeard g => [g] | _ => [] end) o.
(** The node's own transmissions: start and duration. *)
Definition own (o : list kout) : list (Z * Z) :=
  flat_map (fun x => match x with KOwn t d => [(t, d)] | _ => [] end) o.
(** The verdicts on packet [id] reported to the MAC, in order. *)
Definition verdicts (id : Z) (o : list kout) : list bool :=
  flat_map (fun x => match x with KDone i ok _ => if i =? id then [ok] else [] | _ => [] end) o.
(** Total power of the signals in [l] other than [id] that satisfy [q]. *)
Definition power_of (id : Z) (q : sig -> bool) (l : list sig) : Z :=
  fold_right Z.add 0 (map g_pow (filter (fun g => negb (g_id g =? id) && q g) l)).
