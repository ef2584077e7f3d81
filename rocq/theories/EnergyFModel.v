(** Model of THzEnergyModel's arithmetic in IEEE-754 binary64, round-to-nearest-even
    (what C++ double is on the supported platforms), using Flocq's computable operations. *)
From Coq Require Import ZArith List Bool.
From Flocq Require Import Core IEEE754.BinarySingleNaN.
Import ListNotations.

Definition prec64_gt_0 : Prec_gt_0 53 := eq_refl.
Definition prec64_lt_emax : Prec_lt_emax 53 1024 := eq_refl.

Definition f64 := binary_float 53 1024.
Definition fadd : f64 -> f64 -> f64 := @Bplus 53 1024 prec64_gt_0 prec64_lt_emax mode_NE.
Definition fsub : f64 -> f64 -> f64 := @Bminus 53 1024 prec64_gt_0 prec64_lt_emax mode_NE.
Definition fmul : f64 -> f64 -> f64 := @Bmult 53 1024 prec64_gt_0 prec64_lt_emax mode_NE.
Definition fdiv : f64 -> f64 -> f64 := @Bdiv 53 1024 prec64_gt_0 prec64_lt_emax mode_NE.
Definition fzero : f64 := B754_zero false.
(** Conversion of an integer to double. *)
Definition f_of_Z (z : Z) : f64 := binary_normalize 53 1024 prec64_gt_0 prec64_lt_emax mode_NE z 0 false.

(** C++ comparisons; false when an operand is NaN. *)
Definition fge (x y : f64) : bool :=
  match Bcompare x y with Some Eq | Some Gt => true | _ => false end.
Definition feq (x y : f64) : bool :=
  match Bcompare x y with Some Eq => true | _ => false end.

(** Attributes, thz-energy-model.cc:45-92. *)
Record fparams := FParams {
  fp_initial : f64;
  fp_callback : f64;
  fp_harvest : f64;
  fp_pulse_tx : f64;   (* EnergyConsumptionPulseTx *)
  fp_pulse_rx : f64;   (* EnergyConsumptionPulseRx *)
  fp_weight : f64      (* CodingWeight *)
}.

(** Default attribute values 0.0, 65.0, 1.0, 0.125, 12.5e-3, 0.5. *)
Definition default_fparams : fparams :=
  FParams fzero (f_of_Z 65) (f_of_Z 1) (fdiv (f_of_Z 1) (f_of_Z 8))
          (fdiv (f_of_Z 125) (f_of_Z 10000)) (fdiv (f_of_Z 1) (f_of_Z 2)).

(** packetLengthTx * 8 * pulseTx * weight + packetLengthRx * 8 * pulseRx with C++'s
    left-to-right association, thz-energy-model.cc:190-191 and 207-208. *)
Definition fcost (p : fparams) (tx rx : f64) : f64 :=
  fadd (fmul (fmul (fmul tx (f_of_Z 8)) (fp_pulse_tx p)) (fp_weight p))
       (fmul (fmul rx (f_of_Z 8)) (fp_pulse_rx p)).

(** BookEnergy, thz-energy-model.cc:185-201. *)
Definition fbook (p : fparams) (r tx rx : f64) : bool * f64 :=
  if fge (fsub r (fcost p tx rx)) fzero then (true, fsub r (fcost p tx rx)) else (false, r).

(** ReturnEnergy, thz-energy-model.cc:203-212. *)
Definition freturn (p : fparams) (r tx rx : f64) : f64 := fadd r (fcost p tx rx).

(** HarvestEnergy, thz-energy-model.cc:149-168: new level, callback invoked? *)
Definition fharvest (p : fparams) (r : f64) : f64 * bool :=
  let r' := fadd r (fp_harvest p) in (r', feq r' (fp_callback p)).

Inductive fop :=
| FInit                  (* DoInitialize, 170-177 *)
| FHarvest
| FBook (tx rx : f64)
| FReturn (tx rx : f64).

(** One call; result: new level and whether the callback ran. *)
Definition fstep (p : fparams) (r : f64) (o : fop) : f64 * bool :=
  match o with
  | FInit => fharvest p (fp_initial p)
  | FHarvest => fharvest p r
  | FBook tx rx => (snd (fbook p r tx rx), false)
  | FReturn tx rx => (freturn p r tx rx, false)
  end.

(** Level before the first call is 0 (TracedValue<double>). *)
Definition frun (p : fparams) (l : list fop) : f64 :=
  fold_left (fun r o => fst (fstep p r o)) l fzero.
