(** Properties C09-C12 and C42: the energy model. *)
From Coq Require Import ZArith Reals List Lia Lra Bool.
From Flocq Require Import Core IEEE754.BinarySingleNaN.
From Verif Require Import EnergyModel EnergySpec EnergyProofs EnergyFModel EnergyFSpec EnergyFProofs.
Import ListNotations.
Open Scope Z_scope.

(** * C09 *)

(** In binary64, whatever non-negative parameters and arguments (even infinite or NaN) and
    whatever sequence of calls: the level never compares below zero. *)
Theorem C09_energy_not_negative :
  forall p l, fparams_ok p -> Forall fop_ok l -> Bcompare (frun p l) fzero <> Some Lt.
Proof. exact frun_not_neg. Qed.
Print Assumptions C09_energy_not_negative.

(** With parameters and lengths finite and at most 2^200 it is also never NaN. *)
Theorem C09_energy_not_nan :
  forall p l, fparams_small p -> Forall fop_small l ->
    is_nan (frun p l) = false /\ Bcompare (frun p l) fzero <> Some Lt.
Proof. intros p l P F. destruct (frun_good p l P F). auto. Qed.
Print Assumptions C09_energy_not_nan.

Lemma small_of_SF k x m e : B2SF x = SpecFloat.S754_finite false m e ->
  (Zpos m * 2 ^ Z.max e 0 <= 2 ^ k)%Z -> 0 <= k -> small k x.
Proof.
  intros E L K. split; [destruct x; cbn in *; congruence|].
  rewrite <- SF2R_B2SF, E. cbn. unfold F2R. cbn [Fnum Fexp].
  pose proof (bpow_gt_0 radix2 e). pose proof (IZR_lt 0 (Zpos m) ltac:(lia)).
  split; [nra|].
  apply Rle_trans with (IZR (Zpos m) * bpow radix2 (Z.max e 0))%R.
  - apply Rmult_le_compat_l; [lra|]. apply bpow_le. lia.
  - rewrite <- (IZR_Zpower radix2 (Z.max e 0)) by lia. rewrite <- (IZR_Zpower radix2 k) by lia.
    rewrite <- mult_IZR. apply IZR_le. exact L.
Qed.

Lemma small_zero k : 0 <= k -> small k fzero.
Proof. intros K. split; [reflexivity|]. cbn. pose proof (bpow_gt_0 radix2 k). lra. Qed.

(** The default configuration and the lengths the nano MAC passes meet the hypotheses. *)
Example C09_default_params : fparams_small default_fparams.
Proof.
  constructor; cbn [fp_initial fp_harvest fp_pulse_tx fp_pulse_rx fp_weight default_fparams];
    [apply small_zero; lia|..];
    (eapply small_of_SF; [vm_compute; reflexivity|vm_compute; discriminate|lia]).
Qed.

Definition run1 : list fop :=
  [FInit; FHarvest; FHarvest; FBook (f_of_Z 3) (f_of_Z 17); FReturn (f_of_Z 0) (f_of_Z 18);
   FBook (f_of_Z 1000) (f_of_Z 17)].

Lemma small_f0 : small 200 (f_of_Z 0).
Proof.
  split; [vm_compute; reflexivity|].
  assert (B2R (f_of_Z 0) = 0)%R as ->.
  { rewrite <- SF2R_B2SF.
    replace (B2SF (f_of_Z 0)) with (SpecFloat.S754_zero false) by (vm_compute; reflexivity).
    reflexivity. }
  pose proof (bpow_gt_0 radix2 200). lra.
Qed.

Ltac small_const :=
  first [exact small_f0
        |eapply small_of_SF; [vm_compute; reflexivity|vm_compute; discriminate|lia]].

Example C09_run1_ok : Forall fop_small run1.
Proof.
  unfold run1.
  repeat (apply Forall_cons; [first [exact I|split; small_const]|]). apply Forall_nil.
Qed.

(** Level 3.0 after three harvests, minus (3 bytes sent, 17 received) = 1.5 + 1.7 > 3: refused;
    the level after the refund of 18 received bytes is 4.8 (rounded). *)
Example C09_run1_level : Bcompare (frun default_fparams run1) (fdiv (f_of_Z 48) (f_of_Z 10)) = Some Eq.
Proof. vm_compute. reflexivity. Qed.

(** * C10 *)

(** Exact arithmetic. *)
Theorem C10_book_all_or_nothing :
  forall p r tx rx,
    (fst (book p r tx rx) = true <-> bytes_energy p tx rx <= r) /\
    (fst (book p r tx rx) = true -> snd (book p r tx rx) = r - bytes_energy p tx rx) /\
    (fst (book p r tx rx) = false -> snd (book p r tx rx) = r).
Proof. exact book_spec. Qed.
Print Assumptions C10_book_all_or_nothing.

(** Binary64: no rounding can make an unaffordable booking succeed or an affordable one fail,
    and a refused booking leaves the level bit-for-bit unchanged; an accepted one deducts the
    cost, correctly rounded. [c] is the cost as computed in doubles. *)
Theorem C10_book_all_or_nothing_binary64 :
  forall p r tx rx, let c := fcost p tx rx in
    is_finite r = true -> is_finite c = true -> (0 <= B2R r)%R -> (0 <= B2R c)%R ->
    (fst (fbook p r tx rx) = true <-> (B2R c <= B2R r)%R) /\
    (fst (fbook p r tx rx) = true ->
       B2R (snd (fbook p r tx rx)) = round radix2 (FLT_exp (-1074) 53) ZnearestE (B2R r - B2R c)
       /\ is_finite (snd (fbook p r tx rx)) = true) /\
    (fst (fbook p r tx rx) = false -> snd (fbook p r tx rx) = r).
Proof.
  intros p r tx rx c FR FC R C.
  apply not_neg_B2R in R; auto. apply not_neg_B2R in C; auto.
  pose proof (fsub_ge_0 r c FR FC R C) as G. destruct (fsub_spec r c FR FC R C) as [F V].
  unfold fbook. fold c. destruct (fge (fsub r c) fzero); cbn [fst snd].
  - repeat split; try (intros; apply G; reflexivity); auto; try discriminate.
  - repeat split; try discriminate. intros H. apply G in H. discriminate.
Qed.
Print Assumptions C10_book_all_or_nothing_binary64.

Example C10_ex_accept : book default_eparams 650 84 17 = (true, 650 - 437).
Proof. reflexivity. Qed.
Example C10_ex_exact : book default_eparams 437 84 17 = (true, 0).
Proof. reflexivity. Qed.
Example C10_ex_refuse : book default_eparams 436 84 17 = (false, 436).
Proof. reflexivity. Qed.
Example C10_ex_binary64 :
  is_finite (fcost default_fparams (f_of_Z 84) (f_of_Z 17)) = true /\
  fst (fbook default_fparams (f_of_Z 65) (f_of_Z 84) (f_of_Z 17)) = true /\
  fst (fbook default_fparams (f_of_Z 43) (f_of_Z 84) (f_of_Z 17)) = false.
Proof. vm_compute. auto. Qed.

(** * C11 *)

(** After the latest DoInitialize, level = initial + harvested + returned - booked, where the
    totals are over the answers observed since (including that initialisation's own harvest). *)
Theorem C11_conservation :
  forall p l1 t l2,
    let s := fst (erun p einit l1) in
    let s1 := estep p s (OInit t) in
    let r := erun p (fst s1) l2 in
    is_init (snd s1) = true ->
    forallb (fun u => negb (is_init u)) (snd r) = true ->
    let us := snd s1 :: snd r in
    e_rem (fst r) = ep_initial p + total_harvested p us + total_returned p us - total_booked p us.
Proof. exact conservation. Qed.
Print Assumptions C11_conservation.

Theorem C11_return_restores :
  forall p r tx rx,
    fst (book p r tx rx) = true -> give_back p (snd (book p r tx rx)) tx rx = r.
Proof. exact book_return. Qed.
Print Assumptions C11_return_restores.

Example C11_ex :
  let r := erun default_eparams einit
             ([OInit 0] ++ repeat (OHarvest 0) 9 ++ [OBook 3 17; OBook 300 17; OReturn 0 18]) in
  e_rem (fst r) = 0 + 100 + 18 - 32.
Proof. vm_compute. reflexivity. Qed.

(** The restoration property does not survive rounding: in binary64, booking and returning the
    same amount can change the level. After one harvest (1.0) and one received byte (level
    0.9), booking and returning two received bytes leaves less than 0.9; after two harvests,
    two received bytes (level 1.8), the same with seven bytes leaves more than 1.8. *)
Example C11_binary64_drift :
  let z := f_of_Z 0 in
  let r9 := frun default_fparams [FInit; FBook z (f_of_Z 1)] in
  let r18 := frun default_fparams [FInit; FHarvest; FBook z (f_of_Z 2)] in
  let back r n := freturn default_fparams (snd (fbook default_fparams r z (f_of_Z n))) z (f_of_Z n) in
  fst (fbook default_fparams r9 z (f_of_Z 2)) = true /\ Bcompare (back r9 2) r9 = Some Lt /\
  fst (fbook default_fparams r18 z (f_of_Z 7)) = true /\ Bcompare (back r18 7) r18 = Some Gt.
Proof. vm_compute. auto. Qed.

(** * C12 *)

(** With the default parameters: 61.0 harvested, 18 bytes received (1.8) are paid, then the
    level steps from 64.2 to 65.2 past the threshold 65 without the callback. *)
Theorem C12_threshold_callback_refuted : ~ crossing_notified default_eparams.
Proof.
  intros H.
  assert (X : callback_ran (snd (estep default_eparams
      (fst (erun default_eparams einit ([OInit 0] ++ repeat (OHarvest 0) 60 ++ [OBook 0 18] ++ repeat (OHarvest 0) 5)))
      (OHarvest 0))) = true).
  { eapply H; [|reflexivity|vm_compute; split; [reflexivity|discriminate]].
    repeat constructor; cbn; lia. }
  vm_compute in X. discriminate.
Qed.
Print Assumptions C12_threshold_callback_refuted.

(** What does hold: the callback runs exactly when a harvest makes the level *equal* to the
    threshold; in particular if the gap is a whole number [k+1] of harvests and nothing is
    booked or returned meanwhile, it runs at the (k+1)-th harvest and not before. *)
Theorem C12_callback_on_equality_partial :
  forall p s i b,
    snd (estep p s (OHarvest i)) = UHarvested b ->
    (b = true <-> e_rem (fst (estep p s (OHarvest i))) = ep_callback p).
Proof. exact callback_iff. Qed.
Print Assumptions C12_callback_on_equality_partial.

Theorem C12_undisturbed_partial :
  forall p s c k,
    e_chains s = [c] -> ep_callback p = e_rem s + (Z.of_nat k + 1) * ep_harvest p ->
    0 < ep_harvest p ->
    let us := snd (erun p s (repeat (OHarvest 0) (S k))) in
    length us = S k /\
    forall j, (j <= k)%nat -> nth_error us j = Some (UHarvested (Nat.eqb j k)).
Proof. exact callback_reached. Qed.
Print Assumptions C12_undisturbed_partial.

Example C12_ex :
  let s := fst (erun default_eparams einit [OInit 0]) in
  e_chains s = [8] /\ ep_callback default_eparams = e_rem s + (Z.of_nat 63 + 1) * ep_harvest default_eparams.
Proof. vm_compute. auto. Qed.

(** * C42 *)

(** Harvest rate: over any stretch without (re-)initialisation, [n] harvests take at least
    [n - 1] intervals. *)
Definition harvest_rate_ok (p : eparams) : Prop :=
  forall l1 l2,
    let s := fst (erun p einit l1) in
    let r := erun p s l2 in
    filter is_init (snd r) = [] ->
    (Z.of_nat (length (filter is_harvest (snd r))) - 1) * ep_interval p <= e_now (fst r) - e_now s.

(** Refuted: when DoInitialize runs twice (at time 0 by the node, 8 us later by the event the
    constructor scheduled), 20 harvests happen in 10 intervals, for ever. *)
Theorem C42_harvest_rate_refuted : ~ harvest_rate_ok default_eparams.
Proof.
  intros H. specialize (H [OInit 0; OInit 8; OHarvest 0] (repeat (OHarvest 0) 20)).
  cbv zeta in H. specialize (H eq_refl). vm_compute in H. apply H. reflexivity.
Qed.
Print Assumptions C42_harvest_rate_refuted.

(** Each executed DoInitialize adds one perpetual harvest chain... *)
Theorem C42_chains_partial :
  forall p l,
    length (e_chains (fst (erun p einit l))) = length (filter is_init (snd (erun p einit l))).
Proof. intros. rewrite chains_count. reflexivity. Qed.
Print Assumptions C42_chains_partial.

(** ... and if it is executed exactly once, at t0, then the n-th harvest (counting the one made
    by DoInitialize itself) happens exactly at t0 + (n-1) * interval. *)
Theorem C42_single_chain_partial :
  forall p s t0 l,
    e_chains s = [] -> e_now s <= t0 ->
    let s1 := estep p s (OInit t0) in
    let r := erun p (fst s1) l in
    filter is_init (snd r) = [] ->
    let n := Z.of_nat (length (filter is_harvest (snd s1 :: snd r))) in
    e_now (fst r) = t0 + (n - 1) * ep_interval p /\
    e_chains (fst r) = [t0 + n * ep_interval p].
Proof.
  intros p s t0 l C N s1 r F n.
  assert (one_chain p t0 (fst s1) 1 /\ is_harvest (snd s1) = true) as [I Hh].
  { subst s1. cbn [estep]. rewrite C. apply Z.leb_le in N. rewrite N. cbn. split; [split|reflexivity]; cbn.
    - f_equal. destruct (ep_interval p); lia.
    - destruct (ep_interval p); lia. }
  pose proof (one_chain_run p t0 l (fst s1) 1 I F) as [A B]. fold r in A, B.
  subst n. cbn [filter]. rewrite Hh. cbn [length]. rewrite Nat2Z.inj_succ.
  rewrite A, B. split; [|f_equal]; f_equal; f_equal; lia.
Qed.
Print Assumptions C42_single_chain_partial.

Example C42_ex :
  let r := erun default_eparams einit ([OInit 16] ++ repeat (OHarvest 0) 5) in
  e_now (fst r) = 16 + 5 * 8 /\ e_rem (fst r) = 60.
Proof. vm_compute. auto. Qed.
