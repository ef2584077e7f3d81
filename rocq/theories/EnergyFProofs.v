From Coq Require Import ZArith Reals List Bool Lra Lia.
From Flocq Require Import Core IEEE754.BinarySingleNaN Plus_error.
From Verif Require Import EnergyFModel EnergyFSpec.
Import ListNotations.

Lemma not_neg_cases (x : f64) :
  not_neg x <-> match x with
                | B754_zero _ | B754_nan => True
                | B754_infinity s | B754_finite s _ _ _ => s = false
                end.
Proof.
  unfold not_neg, Bcompare. destruct x as [s|s| |s m e B]; cbn; try (split; [easy|discriminate]);
  destruct s; cbn; split; try easy.
Qed.

Lemma B2SF_inf (x : f64) s : B2SF x = SpecFloat.S754_infinity s -> x = B754_infinity s.
Proof. destruct x; cbn; try discriminate. intros [= ->]. reflexivity. Qed.

Lemma finite_sign_not_neg (x : f64) : is_finite x = true -> Bsign x = false -> not_neg x.
Proof. intros F S. apply not_neg_cases. destruct x; cbn in *; try discriminate; auto. Qed.

Lemma not_neg_B2R (x : f64) : is_finite x = true -> (not_neg x <-> (0 <= B2R x)%R).
Proof.
  intros F. unfold not_neg. rewrite Bcompare_correct by auto. cbn.
  destruct (Rcompare_spec (B2R x) 0); split; intros; try lra; try easy.
Qed.

Lemma fadd_not_neg x y : not_neg x -> not_neg y -> not_neg (fadd x y).
Proof.
  intros X Y. destruct (is_finite x) eqn:FX; destruct (is_finite y) eqn:FY.
  2-4: rewrite not_neg_cases in *; destruct x, y; cbn in *; subst; try discriminate; try easy.
  pose proof (Bplus_correct 53 1024 prec64_gt_0 prec64_lt_emax mode_NE x y FX FY) as C.
  rewrite not_neg_B2R in X by auto. rewrite not_neg_B2R in Y by auto.
  fold (fadd x y) in C.
  destruct (Rlt_bool _ _) in C.
  - destruct C as [V [F S]]. apply not_neg_B2R; auto. rewrite V.
    apply round_ge_generic; try typeclasses eauto.
    + apply fexp_correct; exact prec64_gt_0.
    + apply generic_format_0.
    + lra.
  - destruct C as [V S]. unfold binary_overflow in V. cbn in V.
    apply B2SF_inf in V. rewrite V. apply not_neg_cases.
    destruct (Bsign x) eqn:SX; [exfalso|reflexivity]. symmetry in S.
    rewrite <- not_neg_B2R in X, Y by auto. rewrite not_neg_cases in X, Y.
    assert (x = B754_zero true) as -> by (destruct x; cbn in SX, X, FX; try congruence).
    assert (y = B754_zero true) as -> by (destruct y; cbn in S, Y, FY; try congruence).
    vm_compute in V. discriminate V.
Qed.

Lemma fmul_not_neg x y : not_neg x -> not_neg y -> not_neg (fmul x y).
Proof.
  intros X Y. destruct (is_finite x) eqn:FX; destruct (is_finite y) eqn:FY.
  2-4: rewrite not_neg_cases in *; destruct x, y; cbn in *; subst; try discriminate; try easy.
  pose proof (Bmult_correct 53 1024 prec64_gt_0 prec64_lt_emax mode_NE x y) as C.
  fold (fmul x y) in C. rewrite FX, FY in C. cbn [andb] in C.
  destruct (Rlt_bool _ _) in C.
  - destruct C as [V [F S]]. apply not_neg_B2R; auto. rewrite V.
    rewrite not_neg_B2R in X by auto. rewrite not_neg_B2R in Y by auto.
    apply round_ge_generic; try typeclasses eauto.
    + apply fexp_correct; exact prec64_gt_0.
    + apply generic_format_0.
    + cbn. nra.
  - unfold binary_overflow in C. cbn in C. apply B2SF_inf in C. rewrite C.
    rewrite not_neg_cases in *. destruct x, y; cbn in *; subst; try discriminate; reflexivity.
Qed.

Lemma fge_not_neg x : fge x fzero = true -> not_neg x /\ is_nan x = false.
Proof.
  unfold fge, not_neg. intros H. split.
  - intros E. rewrite E in H. discriminate.
  - destruct x; auto.
Qed.

Lemma eight_not_neg : not_neg (f_of_Z 8).
Proof. intros E. vm_compute in E. discriminate. Qed.

Lemma fcost_not_neg p tx rx : fparams_ok p -> not_neg tx -> not_neg rx -> not_neg (fcost p tx rx).
Proof.
  intros [] T R. unfold fcost.
  auto 10 using fadd_not_neg, fmul_not_neg, eight_not_neg.
Qed.

Lemma fstep_not_neg p r o : fparams_ok p -> fop_ok o -> not_neg r -> not_neg (fst (fstep p r o)).
Proof.
  intros P O R. destruct o; cbn.
  - destruct P. apply fadd_not_neg; auto.
  - destruct P. apply fadd_not_neg; auto.
  - unfold fbook. destruct (fge _ _) eqn:E; cbn; auto. apply fge_not_neg in E. tauto.
  - destruct O. apply fadd_not_neg; auto using fcost_not_neg.
Qed.

Lemma fzero_not_neg : not_neg fzero.
Proof. intros E. vm_compute in E. discriminate. Qed.

Lemma frun_inv (P : f64 -> Prop) (Q : fop -> Prop) p :
  P fzero -> (forall r o, Q o -> P r -> P (fst (fstep p r o))) ->
  forall l, Forall Q l -> P (frun p l).
Proof.
  intros Z St l. unfold frun. revert Z. generalize fzero.
  induction l as [|o l IH]; intros r Z F; [exact Z|]. inversion F; subst. cbn. apply IH; auto.
Qed.

Lemma frun_not_neg p l : fparams_ok p -> Forall fop_ok l -> not_neg (frun p l).
Proof.
  intros P. apply frun_inv; [apply fzero_not_neg|]. intros. apply fstep_not_neg; auto.
Qed.

(** *** Absence of NaN *)

Lemma small_not_neg k x : small k x -> not_neg x.
Proof. intros [F [H _]]. apply not_neg_B2R; auto. Qed.

Lemma bpow_format k : (-1074 <= k)%Z -> generic_format radix2 (SpecFloat.fexp 53 1024) (bpow radix2 k).
Proof.
  intros H. apply generic_format_bpow. unfold SpecFloat.fexp, SpecFloat.emin. lia.
Qed.

Lemma fmul_small a b x y : small a x -> small b y -> (-1074 <= a + b < 1024)%Z ->
  small (a + b) (fmul x y).
Proof.
  intros [FX [X1 X2]] [FY [Y1 Y2]] H.
  pose proof (Bmult_correct 53 1024 prec64_gt_0 prec64_lt_emax mode_NE x y) as C.
  fold (fmul x y) in C. rewrite FX, FY in C. cbn [andb] in C.
  assert (0 <= B2R x * B2R y <= bpow radix2 (a + b))%R as B.
  { rewrite bpow_plus. split; [nra|]. apply Rmult_le_compat; auto. }
  assert (0 <= round radix2 (SpecFloat.fexp 53 1024) (round_mode mode_NE) (B2R x * B2R y) <= bpow radix2 (a + b))%R as RB.
  { split.
    - apply round_ge_generic; try typeclasses eauto; [apply fexp_correct; exact prec64_gt_0|apply generic_format_0|apply B].
    - apply round_le_generic; try typeclasses eauto; [apply fexp_correct; exact prec64_gt_0|apply bpow_format; lia|apply B]. }
  rewrite Rlt_bool_true in C.
  - destruct C as [V [F _]]. split; auto. rewrite V. exact RB.
  - rewrite Rabs_pos_eq by apply RB. eapply Rle_lt_trans; [apply RB|]. apply bpow_lt. lia.
Qed.

Lemma fadd_small a x y : small a x -> small a y -> (-1075 <= a < 1023)%Z -> small (a + 1) (fadd x y).
Proof.
  intros [FX [X1 X2]] [FY [Y1 Y2]] H.
  pose proof (Bplus_correct 53 1024 prec64_gt_0 prec64_lt_emax mode_NE x y FX FY) as C.
  fold (fadd x y) in C.
  assert (0 <= B2R x + B2R y <= bpow radix2 (a + 1))%R as B.
  { rewrite bpow_plus_1. cbn [IZR radix_val radix2]. split; [lra|]. change (IZR 2) with 2%R. lra. }
  assert (0 <= round radix2 (SpecFloat.fexp 53 1024) (round_mode mode_NE) (B2R x + B2R y) <= bpow radix2 (a + 1))%R as RB.
  { split.
    - apply round_ge_generic; try typeclasses eauto; [apply fexp_correct; exact prec64_gt_0|apply generic_format_0|apply B].
    - apply round_le_generic; try typeclasses eauto; [apply fexp_correct; exact prec64_gt_0|apply bpow_format; lia|apply B]. }
  rewrite Rlt_bool_true in C.
  - destruct C as [V [F _]]. split; auto. rewrite V. exact RB.
  - rewrite Rabs_pos_eq by apply RB. eapply Rle_lt_trans; [apply RB|]. apply bpow_lt. lia.
Qed.

Lemma small_le a b x : small a x -> (a <= b)%Z -> small b x.
Proof.
  intros [F [H1 H2]] L. repeat split; auto. eapply Rle_trans; [exact H2|]. apply bpow_le. exact L.
Qed.

Lemma eight_small : small 3 (f_of_Z 8).
Proof.
  assert (B2R (f_of_Z 8) = 8)%R as E.
  { rewrite <- SF2R_B2SF.
    assert (B2SF (f_of_Z 8) = SpecFloat.S754_finite false 4503599627370496 (-49)) as ->
      by (vm_compute; reflexivity).
    cbn. unfold F2R. cbn. lra. }
  split.
  - vm_compute. reflexivity.
  - rewrite E. cbn. lra.
Qed.

Lemma fcost_small p tx rx : fparams_small p -> small 200 tx -> small 200 rx -> small 604 (fcost p tx rx).
Proof.
  intros [] T R. unfold fcost.
  change 604%Z with (603 + 1)%Z. apply fadd_small; [| |lia].
  - change 603%Z with (200 + 3 + 200 + 200)%Z.
    repeat (apply fmul_small; auto using eight_small; try lia).
  - apply small_le with (200 + 3 + 200)%Z; [|lia].
    repeat (apply fmul_small; auto using eight_small; try lia).
Qed.

(** Non-negative, possibly +infinity, never NaN. *)
Definition good (x : f64) : Prop := not_neg x /\ is_nan x = false.

Lemma small_good k x : small k x -> good x.
Proof. intros H. split; [eapply small_not_neg, H|]. destruct H as [F _]. destruct x; auto; discriminate. Qed.

Lemma fadd_good x y : good x -> good y -> good (fadd x y).
Proof.
  intros [X NX] [Y NY]. split; [apply fadd_not_neg; auto|].
  destruct (is_finite x) eqn:FX; destruct (is_finite y) eqn:FY.
  2-4: rewrite not_neg_cases in *; destruct x, y; cbn in *; subst; try discriminate; reflexivity.
  pose proof (Bplus_correct 53 1024 prec64_gt_0 prec64_lt_emax mode_NE x y FX FY) as C.
  fold (fadd x y) in C. destruct (Rlt_bool _ _) in C.
  - destruct C as [_ [F _]]. destruct (fadd x y); auto; discriminate.
  - destruct C as [V _]. unfold binary_overflow in V. cbn in V. apply B2SF_inf in V. rewrite V. reflexivity.
Qed.

Lemma frun_good p l : fparams_small p -> Forall fop_small l -> good (frun p l).
Proof.
  intros P. apply frun_inv.
  - split; [apply fzero_not_neg|reflexivity].
  - intros r o O R. destruct o; cbn.
    + destruct P. apply fadd_good; eauto using small_good.
    + destruct P. apply fadd_good; eauto using small_good.
    + unfold fbook. destruct (fge _ _) eqn:E; cbn; auto. apply fge_not_neg in E. exact E.
    + destruct O. apply fadd_good; eauto using small_good, fcost_small.
Qed.

(** *** Booking *)

Lemma fsub_spec x y : is_finite x = true -> is_finite y = true -> not_neg x -> not_neg y ->
  is_finite (fsub x y) = true /\
  B2R (fsub x y) = round radix2 (SpecFloat.fexp 53 1024) ZnearestE (B2R x - B2R y).
Proof.
  intros FX FY X Y. rewrite not_neg_B2R in X, Y by auto.
  pose proof (Bminus_correct 53 1024 prec64_gt_0 prec64_lt_emax mode_NE x y FX FY) as C.
  fold (fsub x y) in C. rewrite Rlt_bool_true in C.
  - destruct C as [V [F _]]. auto.
  - set (m := Rmax (B2R x) (B2R y)).
    assert (generic_format radix2 (SpecFloat.fexp 53 1024) m) as G.
    { unfold m, Rmax. destruct (Rle_dec _ _); apply generic_format_B2R. }
    assert (m < bpow radix2 1024)%R as M.
    { unfold m, Rmax. pose proof (abs_B2R_lt_emax 53 1024 x). pose proof (abs_B2R_lt_emax 53 1024 y).
      rewrite !Rabs_pos_eq in * by auto. destruct (Rle_dec _ _); auto. }
    eapply Rle_lt_trans; [|exact M].
    apply abs_round_le_generic; try typeclasses eauto; [apply fexp_correct; exact prec64_gt_0|exact G|].
    unfold m. apply Rabs_le. unfold Rmax. destruct (Rle_dec (B2R x) (B2R y)); lra.
Qed.

Lemma fsub_ge_0 x y : is_finite x = true -> is_finite y = true -> not_neg x -> not_neg y ->
  (fge (fsub x y) fzero = true <-> (B2R y <= B2R x)%R).
Proof.
  intros FX FY X Y. destruct (fsub_spec x y FX FY X Y) as [F V].
  unfold fge. rewrite Bcompare_correct by auto.
  assert ((0 <= B2R (fsub x y))%R <-> (B2R y <= B2R x)%R) as A.
  { rewrite V. split; intros H.
    - destruct (Rle_or_lt (B2R y) (B2R x)) as [?|L]; auto. exfalso.
      assert (round radix2 (SpecFloat.fexp 53 1024) ZnearestE (B2R x - B2R y) <> 0)%R as NZ.
      { unfold Rminus. apply round_plus_neq_0; try typeclasses eauto.
        - apply fexp_correct; exact prec64_gt_0.
        - pose proof prec64_gt_0. change (SpecFloat.fexp 53 1024) with (FLT_exp (-1074) 53).
          typeclasses eauto.
        - apply generic_format_B2R.
        - apply generic_format_opp, generic_format_B2R.
        - lra. }
      assert (round radix2 (SpecFloat.fexp 53 1024) ZnearestE (B2R x - B2R y) <= 0)%R.
      { apply round_le_generic; try typeclasses eauto; [apply fexp_correct; exact prec64_gt_0|apply generic_format_0|lra]. }
      lra.
    - apply round_ge_generic; try typeclasses eauto; [apply fexp_correct; exact prec64_gt_0|apply generic_format_0|lra]. }
  rewrite <- A. cbn [B2R fzero].
  destruct (Rcompare_spec (B2R (fsub x y)) 0); split; intros; try lra; try easy.
Qed.
