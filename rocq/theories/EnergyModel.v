(** Model of model/thz-energy-model.cc: class THzEnergyModel, exact arithmetic.

    Energies are integers in a unit in which the parameters are integral (any finite set of
    rational parameters can be scaled that way); rounding of double is not modelled here, see
    EnergyFModel.v for the binary64 version. *)
From Coq Require Import ZArith List Bool.
Import ListNotations.
Open Scope Z_scope.

(** Attributes, thz-energy-model.cc:45-92. [ep_tx]/[ep_rx] are the energy per transmitted /
    received byte: 8 * EnergyConsumptionPulseTx * CodingWeight and 8 * EnergyConsumptionPulseRx. *)
Record eparams := EParams {
  ep_initial : Z;      (* THzEnergyModelInitialEnergy *)
  ep_callback : Z;     (* DataCallbackEnergy *)
  ep_harvest : Z;      (* EnergyHarvestingAmount *)
  ep_interval : Z;     (* PeriodicEnergyUpdateInterval *)
  ep_tx : Z;
  ep_rx : Z
}.

(** Defaults, thz-energy-model.cc:51-86, in units of 0.1 energy frames, time in us. *)
Definition default_eparams : eparams := EParams 0 650 10 8 5 1.

(** energyBook / energyReturn, thz-energy-model.cc:190-191, 207-208. *)
Definition cost (p : eparams) (tx rx : Z) : Z := tx * ep_tx p + rx * ep_rx p.

(** BookEnergy, thz-energy-model.cc:185-201: result and new remaining energy. *)
Definition book (p : eparams) (r tx rx : Z) : bool * Z :=
  if r - cost p tx rx >=? 0 then (true, r - cost p tx rx) else (false, r).

(** ReturnEnergy, thz-energy-model.cc:203-212. *)
Definition give_back (p : eparams) (r tx rx : Z) : Z := r + cost p tx rx.

(** HarvestEnergy, thz-energy-model.cc:149-168: new remaining energy and whether the
    callback m_energyCbData is invoked (before Simulator::IsFinished). The re-scheduling of
    the next harvest is in [estep]. *)
Definition harvest (p : eparams) (r : Z) : Z * bool :=
  (r + ep_harvest p, r + ep_harvest p =? ep_callback p).

(** State of one energy model: remaining energy, simulation time, and the times of the
    pending HarvestEnergy events (one per chain started by DoInitialize). *)
Record estate := EState { e_rem : Z; e_now : Z; e_chains : list Z }.

(** TracedValue<double> m_remainingEnergy is value-initialised to 0 before DoInitialize. *)
Definition einit : estate := EState 0 0 [].

Inductive eop :=
| OInit (t : Z)            (* DoInitialize runs at time t *)
| OHarvest (i : nat)       (* the i-th pending HarvestEnergy event runs *)
| OBook (tx rx : Z)
| OReturn (tx rx : Z).

Inductive eout :=
| UBooked (ok : bool) (tx rx : Z)
| UReturned (tx rx : Z)
| UHarvested (callback : bool)
| UInit (callback : bool)
| UNone.

Fixpoint remove_nth {A} (i : nat) (l : list A) : list A :=
  match i, l with
  | _, [] => []
  | O, _ :: r => r
  | S i', x :: r => x :: remove_nth i' r
  end.

(** DoInitialize, thz-energy-model.cc:170-177, is run by the event scheduled in the
    constructor (94-100) and, being an override of ns3::Object::DoInitialize, by the node's
    own initialisation when the model is aggregated to a node (thz-energy-model-helper.cc).
    A harvest event can run only at its scheduled time and not before another pending one;
    otherwise the step is not possible and leaves the state unchanged. *)
Definition estep (p : eparams) (s : estate) (o : eop) : estate * eout :=
  match o with
  | OInit t =>
    if (e_now s <=? t) && forallb (fun c => t <=? c) (e_chains s) then
      let '(r, cb) := harvest p (ep_initial p) in
      (EState r t (e_chains s ++ [t + ep_interval p]), UInit cb)
    else (s, UNone)
  | OHarvest i =>
    match nth_error (e_chains s) i with
    | Some t =>
      if forallb (fun c => t <=? c) (e_chains s) then
        let '(r, cb) := harvest p (e_rem s) in
        (EState r t (remove_nth i (e_chains s) ++ [t + ep_interval p]), UHarvested cb)
      else (s, UNone)
    | None => (s, UNone)
    end
  | OBook tx rx =>
    let '(ok, r) := book p (e_rem s) tx rx in
    (EState r (e_now s) (e_chains s), UBooked ok tx rx)
  | OReturn tx rx =>
    (EState (give_back p (e_rem s) tx rx) (e_now s) (e_chains s), UReturned tx rx)
  end.

Fixpoint erun (p : eparams) (s : estate) (l : list eop) : estate * list eout :=
  match l with
  | [] => (s, [])
  | o :: r => let '(s', u) := estep p s o in
              let '(s'', us) := erun p s' r in (s'', u :: us)
  end.
