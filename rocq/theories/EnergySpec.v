(** Vocabulary for the properties of the energy model. *)
From Coq Require Import ZArith List Bool.
From Verif Require Import EnergyModel.
Import ListNotations.
Open Scope Z_scope.

Record eparams_ok (p : eparams) : Prop := {
  ok_initial : 0 <= ep_initial p;
  ok_harvest : 0 <= ep_harvest p;
  ok_tx : 0 <= ep_tx p;
  ok_rx : 0 <= ep_rx p
}.

Definition eop_ok (o : eop) : Prop :=
  match o with OBook tx rx | OReturn tx rx => 0 <= tx /\ 0 <= rx | _ => True end.

(** Energy of [tx] sent bytes and [rx] received bytes. *)
Definition bytes_energy (p : eparams) (tx rx : Z) : Z := tx * ep_tx p + rx * ep_rx p.

Fixpoint sum (l : list Z) : Z := match l with [] => 0 | x :: r => x + sum r end.

(** Totals over the observed answers. *)
Definition total_booked p (us : list eout) : Z :=
  sum (map (fun u => match u with UBooked true tx rx => bytes_energy p tx rx | _ => 0 end) us).
Definition total_returned p (us : list eout) : Z :=
  sum (map (fun u => match u with UReturned tx rx => bytes_energy p tx rx | _ => 0 end) us).
Definition total_harvested p (us : list eout) : Z :=
  sum (map (fun u => match u with UHarvested _ | UInit _ => ep_harvest p | _ => 0 end) us).

Definition is_init (u : eout) : bool := match u with UInit _ => true | _ => false end.
Definition is_harvest (u : eout) : bool := match u with UHarvested _ | UInit _ => true | _ => false end.
Definition callback_ran (u : eout) : bool :=
  match u with UHarvested b | UInit b => b | _ => false end.

(** The property of C12: every harvest step taking the level from below the callback level
    to at or above it invokes the callback. *)
Definition crossing_notified (p : eparams) : Prop :=
  forall l s u,
    Forall eop_ok l ->
    estep p (fst (erun p einit l)) (OHarvest s) = u ->
    e_rem (fst (erun p einit l)) < ep_callback p <= e_rem (fst u) ->
    callback_ran (snd u) = true.
