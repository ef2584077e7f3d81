(** Specification vocabulary for duplicate suppression. *)
From Coq Require Import ZArith List Bool Sorting.Sorted.
From Verif Require Import Base.
Import ListNotations.
Open Scope Z_scope.

(** Sequence numbers accepted from source [a], in order of acceptance: [h] is the history
    of arrivals and [ds] the decision made for each of them. *)
Fixpoint accepted (a : addr) (h : list (addr * Z)) (ds : list bool) : list Z :=
  match h, ds with
  | (a', s) :: h', d :: ds' =>
    if (a' =? a) && d then s :: accepted a h' ds' else accepted a h' ds'
  | _, _ => []
  end.

(** The arrivals of source [a] only. *)
Definition from (a : addr) (h : list (addr * Z)) : list (addr * Z) :=
  filter (fun x => fst x =? a) h.

(** The decisions for the arrivals of source [a] only. *)
Fixpoint decisions_of (a : addr) (h : list (addr * Z)) (ds : list bool) : list bool :=
  match h, ds with
  | (a', _) :: h', d :: ds' =>
    if a' =? a then d :: decisions_of a h' ds' else decisions_of a h' ds'
  | _, _ => []
  end.
