(** Vocabulary for the properties of the macro MAC. *)
From Coq Require Import ZArith List Bool.
From Verif Require Import Base HeaderModel SeqModel EnergyModel MacModel.
Import ListNotations.
Open Scope Z_scope.

(** Executions of one node: events so far, state, effects so far. The environment, the random
    draws and the order of the pending events are arbitrary. *)
Inductive mreach (c : mcfg) (q0 : Z) : list mevent -> mst -> list mout -> Prop :=
| MR0 : mreach c q0 [] (minit q0) []
| MR1 h s o e ev : mreach c q0 h s o ->
    mreach c q0 (h ++ [ev]) (fst (mstep c e s ev)) (o ++ snd (mstep c e s ev)).

(** The same in real time. *)
Inductive mreal (c : mcfg) (q0 : Z) : list mevent -> mst -> list mout -> Prop :=
| MT0 : mreal c q0 [] (minit q0) []
| MT1 h s o e ev : mreal c q0 h s o -> mtimely s ev = true ->
    mreal c q0 (h ++ [ev]) (fst (mstep c e s ev)) (o ++ snd (mstep c e s ev)).

Definition acc_of (o : list mout) : list mframe := flat_map (fun x => match x with OAcc p => [p] | _ => [] end) o.
Definition rep_of (b : bool) (o : list mout) : list mframe :=
  flat_map (fun x => match x with ORep b' p => if Bool.eqb b b' then [p] else [] | _ => [] end) o.
Definition up_of (o : list mout) : list mframe := flat_map (fun x => match x with OUp p => [p] | _ => [] end) o.
Definition snd_of (o : list mout) : list mframe := flat_map (fun x => match x with OSnd p => [p] | _ => [] end) o.
Definition tmo_of (sq : Z) (o : list mout) : nat :=
  length (filter (fun x => match x with OTmo q => q =? sq | _ => false end) o).
(** Frames received without error. *)
Definition rcv_of (h : list mevent) : list mframe := flat_map (fun x => match x with ERxEnd f true => [f] | _ => [] end) h.

(** [l] is [l'] without some elements. *)
Inductive sublist {A} : list A -> list A -> Prop :=
| sub_nil l : sublist [] l
| sub_keep x l l' : sublist l l' -> sublist (x :: l) (x :: l')
| sub_drop x l l' : sublist l l' -> sublist l (x :: l').
