(** Vocabulary for the binary64 properties of the energy model. *)
From Coq Require Import ZArith Reals List Bool.
From Flocq Require Import Core IEEE754.BinarySingleNaN.
From Verif Require Import EnergyFModel.
Import ListNotations.

(** Not (x < 0) in the sense of C++'s comparison. *)
Definition not_neg (x : f64) : Prop := Bcompare x fzero <> Some Lt.

(** Non-negative parameters and arguments (infinities and NaN allowed). *)
Record fparams_ok (p : fparams) : Prop := {
  fok_initial : not_neg (fp_initial p);
  fok_harvest : not_neg (fp_harvest p);
  fok_tx : not_neg (fp_pulse_tx p);
  fok_rx : not_neg (fp_pulse_rx p);
  fok_w : not_neg (fp_weight p)
}.

Definition fop_ok (o : fop) : Prop :=
  match o with FBook tx rx | FReturn tx rx => not_neg tx /\ not_neg rx | _ => True end.

(** Finite and in [0, 2^k]. *)
Definition small (k : Z) (x : f64) : Prop := is_finite x = true /\ (0 <= B2R x <= bpow radix2 k)%R.

Record fparams_small (p : fparams) : Prop := {
  fsm_initial : small 200 (fp_initial p);
  fsm_harvest : small 200 (fp_harvest p);
  fsm_tx : small 200 (fp_pulse_tx p);
  fsm_rx : small 200 (fp_pulse_rx p);
  fsm_w : small 200 (fp_weight p)
}.

Definition fop_small (o : fop) : Prop :=
  match o with FBook tx rx | FReturn tx rx => small 200 tx /\ small 200 rx | _ => True end.

