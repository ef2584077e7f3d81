(** Properties of the propagation loss (C107-C109). *)
From Coq Require Import ZArith List QArith Qabs Reals Qreals Bool Lia Lqa Lra.
From Verif Require Import LossModel LossProofs.
Import ListNotations.
Open Scope R_scope.

(** Calls as NS_ASSERT allows them: positive frequency, distance not negative. *)
Definition call_ok (x : Q * Q) : Prop := (0 < fst x)%Q /\ (0 <= snd x)%Q.

(** * C107: the absorption loss is a function of frequency and distance *)

(** The value of CalculateAbsLoss does not depend on the calls before it. *)
Definition C107_full := forall t h f d, Forall call_ok h -> call_ok (f, d) ->
  snd (abs_loss t (calls t h) f d) = snd (abs_loss t [] f d).
(** At distance 0 the first call for a frequency returns 0 and a later one exp 0 = 1. *)
Theorem C107_history_refuted : ~ C107_full.
Proof.
  intros H. specialize (H table_head [(2000000000, 1)%Q] 2000000000%Q 0%Q).
  assert (A : snd (abs_coef table_head (calls table_head [(2000000000, 1)%Q]) 2000000000 0) = Some (53692 # 10000000000000)%Q) by (vm_compute; reflexivity).
  assert (B : snd (abs_coef table_head [] 2000000000 0) = None) by (vm_compute; reflexivity).
  unfold abs_loss in H. cbn [snd] in H. rewrite A, B in H. cbn [abs_value] in H.
  assert (E : exp (Q2R (53692 # 10000000000000) * Q2R 0) = 0).
  { apply H; [constructor; [|constructor]|]; split; cbn; unfold Qlt, Qle; cbn; lia. }
  pose proof (exp_pos (Q2R (53692 # 10000000000000) * Q2R 0)). lra.
Qed.
Print Assumptions C107_history_refuted.
(** For positive distances any two sequences of earlier calls give the same value, which is positive; at distance 0 the value is 0 or 1. *)
Theorem C107_history_partial : forall t h h' f d, Forall call_ok h -> Forall call_ok h' -> call_ok (f, d) ->
  ((0 < d)%Q -> snd (abs_loss t (calls t h) f d) = snd (abs_loss t (calls t h') f d) /\ 0 < snd (abs_loss t (calls t h) f d)) /\
  ((d == 0)%Q -> snd (abs_loss t (calls t h) f d) = 0 \/ snd (abs_loss t (calls t h) f d) = 1).
Proof.
  intros t h h' f d _ _ _. split; intros D; unfold abs_loss; cbn [snd].
  - assert (N : ~ (d == 0)%Q) by (intros X; rewrite X in D; exact (Qlt_irrefl _ D)).
    rewrite !abs_coef_value by (auto; apply calls_ok). split; [reflexivity|]. apply exp_pos.
  - destruct (abs_coef_zero t (calls t h) f d (calls_ok t h)) as [->| ->]; [left; reflexivity|right]. cbn [abs_value].
    rewrite (Qeq_eqR _ _ D), RMicromega.Q2R_0, Rmult_0_r. apply exp_0.
Qed.
Print Assumptions C107_history_partial.
Example C107_example : snd (abs_coef table_head (calls table_head [(2000000000, 3); (1000000000, 1); (2000000000, 7)]%Q) 2000000000 5) = Some (53692 # 10000000000000)%Q /\
  snd (abs_coef table_head [] 2000000000 5) = Some (53692 # 10000000000000)%Q /\
  length (calls table_head [(2000000000, 3); (1000000000, 1); (2000000000, 7)]%Q) = 2%nat.
Proof. vm_compute. auto. Qed.

(** * C108: the coefficient of the nearest frequency *)

(** Entry [i] is nearest to [f]. *)
Definition nearest (t : tables) (f : Q) (i : nat) : Prop :=
  exists x, nth_error (t_freq t) i = Some x /\ forall j y, nth_error (t_freq t) j = Some y -> (Qabs (x - f) <= Qabs (y - f))%Q.
(** The coefficient is that of a tabulated frequency which is nearest to the argument, if one is within 989.4 MHz. *)
Definition C108_full := forall t f d, length (t_freq t) = length (t_coef t) -> call_ok (f, d) -> (0 < d)%Q ->
  (exists x, In x (t_freq t) /\ (Qabs (x - f) <= win)%Q) ->
  exists i k, nearest t f i /\ nth_error (t_coef t) i = Some k /\ snd (abs_loss t [] f d) = exp (Q2R k * Q2R d).
(** The entries are 763 MHz apart. For the frequency of the third entry the second one is used. *)
Theorem C108_nearest_refuted : ~ C108_full.
Proof.
  intros H. destruct (H table_head 1525900000%Q 1%Q) as (i & k & (x & X & N) & K & E); [reflexivity|split; cbn; unfold Qlt, Qle; cbn; lia|reflexivity| |].
  { exists 1525900000%Q. split; [right; right; left; reflexivity|]. vm_compute. discriminate. }
  assert (I : i = 2%nat).
  { specialize (N 2%nat 1525900000%Q eq_refl). destruct i as [|[|[|[|i]]]]; cbn in X; try discriminate X; try (injection X as <-; vm_compute in N; exfalso; apply N; reflexivity); auto. destruct i; discriminate X. }
  subst i. cbn in K. injection K as <-. unfold abs_loss in E. cbn [snd] in E.
  assert (A : snd (abs_coef table_head [] 1525900000 1) = Some (44333 # 100000000000000)%Q) by (vm_compute; reflexivity). rewrite A in E. cbn [abs_value] in E.
  apply exp_inv in E. assert (Z : Q2R 1 = 1) by (unfold Q2R; cbn; lra). rewrite Z, !Rmult_1_r in E. apply eqR_Qeq in E. vm_compute in E. discriminate E.
Qed.
Print Assumptions C108_nearest_refuted.
(** Entry [i] is the first one within the window. *)
Definition first_within (t : tables) (f : Q) (i : nat) : Prop :=
  (exists x, nth_error (t_freq t) i = Some x /\ (Qabs (x - f) <= win)%Q) /\
  forall j y, (j < i)%nat -> nth_error (t_freq t) j = Some y -> (win < Qabs (y - f))%Q.
(** The coefficient is that of the first tabulated frequency within 989.4 MHz. If the tabulated frequencies were more than twice of this apart it would be the nearest one.
    Without an entry within the window the coefficient is 0 (unless the second file is longer than the first one). *)
Theorem C108_nearest_partial : forall t f d h, length (t_freq t) = length (t_coef t) -> call_ok (f, d) -> (0 < d)%Q -> Forall call_ok h ->
  ((exists x, In x (t_freq t) /\ (Qabs (x - f) <= win)%Q) ->
   exists i k, first_within t f i /\ nth_error (t_coef t) i = Some k /\ snd (abs_loss t (calls t h) f d) = exp (Q2R k * Q2R d) /\
     ((forall a b x y, nth_error (t_freq t) a = Some x -> nth_error (t_freq t) b = Some y -> a <> b -> (2 * win < Qabs (x - y))%Q) -> nearest t f i)) /\
  ((forall x, In x (t_freq t) -> (win < Qabs (x - f))%Q) -> snd (abs_loss t (calls t h) f d) = 1).
Proof.
  intros t f d h L _ D _. assert (N : ~ (d == 0)%Q) by (intros X; rewrite X in D; exact (Qlt_irrefl _ D)).
  assert (O : forall x, outside f x = true <-> (win < Qabs (x - f))%Q).
  { intros x. rewrite outside_spec. split; [intros [A|A]; [apply Qlt_le_trans with (- (x - f))%Q; [Lqa.lra|rewrite <- Qabs_opp; apply Qle_Qabs]|apply Qlt_le_trans with (x - f)%Q; [Lqa.lra|apply Qle_Qabs]]|].
    intros A. destruct (Qlt_le_dec x (f - win)) as [|B]; [left; auto|]. destruct (Qlt_le_dec (f + win) x) as [|C]; [right; auto|]. exfalso.
    apply (Qlt_not_le _ _ A). apply Qabs_Qle_condition. split; Lqa.lra. }
  unfold abs_loss. cbn [snd]. rewrite abs_coef_value by (auto; apply calls_ok). cbn [abs_value]. unfold the_coef.
  destruct (freq_index_spec f (t_freq t) 0) as (n & E & B & I & W). rewrite E. cbn [Nat.add]. split.
  - intros (x & X & XW). destruct (nth_error (t_freq t) n) as [y|] eqn:Y.
    + assert (NL : (n < length (t_coef t))%nat) by (rewrite <- L; apply nth_error_Some; congruence).
      exists n, (nth n (t_coef t) 0%Q). assert (WY : (Qabs (y - f) <= win)%Q) by (apply Qnot_lt_le; intros Z; apply O in Z; rewrite (W y eq_refl) in Z; discriminate Z).
      split; [split; [exists y; auto|intros j z J Z; apply O; apply (I j); auto]|]. split; [apply nth_error_nth'; auto|]. split; [reflexivity|].
      intros S. exists y. split; [auto|]. intros j z Z. destruct (Nat.eq_dec n j) as [->|NE]; [rewrite Y in Z; injection Z as ->; apply Qle_refl|].
      specialize (S n j y z Y Z NE). apply Qle_trans with win; auto. apply Qlt_le_weak.
      pose proof (Qabs_triangle (y - f) (f - z)) as T. assert (T2 : (Qabs (y - z) <= Qabs (y - f) + Qabs (z - f))%Q).
      { eapply Qle_trans; [|eapply Qle_trans; [exact T|]]; [apply Qle_lteq; right; apply Qabs_wd; ring|]. apply Qplus_le_compat; [apply Qle_refl|]. apply Qle_lteq; right.
        rewrite <- Qabs_opp. apply Qabs_wd. ring. }
      Lqa.lra.
    + exfalso. apply In_nth_error in X. destruct X as [j X]. apply nth_error_None in Y. assert (JL : (j < length (t_freq t))%nat) by (apply nth_error_Some; congruence).
      assert (Z : outside f x = true) by (apply (I j); auto; lia). apply O in Z. apply (Qlt_not_le _ _ Z XW).
  - intros A. assert (n = length (t_freq t)). { destruct (nth_error (t_freq t) n) as [y|] eqn:Y; [|apply nth_error_None in Y; lia]. exfalso. specialize (W y eq_refl). assert (Z : outside f y = true) by (apply O, A; eapply nth_error_In; eauto). congruence. }
    subst n. rewrite nth_overflow by lia. rewrite RMicromega.Q2R_0, Rmult_0_l. apply exp_0.
Qed.
Print Assumptions C108_nearest_partial.
Example C108_example : first_within table_head 1525900000 1 /\ nth_error (t_coef table_head) 1 = Some (44333 # 100000000000000)%Q /\ ~ nearest table_head 1525900000 1 /\
  nearest (Tables [0; 3000000000; 6000000000] [0; 1; 2])%Q 3100000000 1.
Proof.
  split; [split; [exists 762940000%Q; split; [reflexivity|vm_compute; discriminate]|intros [|j] y J Y; [injection Y as <-; vm_compute; reflexivity|lia]]|].
  split; [reflexivity|]. split; [intros (x & X & N); injection X as <-; specialize (N 2%nat 1525900000%Q eq_refl); apply N; vm_compute; reflexivity|].
  exists 3000000000%Q. split; [reflexivity|]. intros [|[|[|j]]] y Y; cbn in Y; try (injection Y as <-; vm_compute; discriminate). destruct j; discriminate Y.
Qed.

(** * C109: received power *)

(** A spectrum with positive densities and frequencies, and a file of coefficients that are not negative. *)
Definition psd_ok (t : tables) (w : bandw) (psd : list (Q * R)) : Prop :=
  psd <> [] /\ (forall f v, In (f, v) psd -> (0 < f)%Q /\ 0 < v) /\ (forall k, In k (t_coef t) -> (0 <= k)%Q) /\ 0 < bw_sub w /\ 0 < bw_num w /\ 0 < bw_samples w.
(** The power transmitted: the integral without loss. *)
Definition tx_power (w : bandw) (psd : list (Q * R)) : R := rsum (map snd psd) * bw_sub w * (bw_num w / bw_samples w).
(** Without antenna gain the received power is finite and not more than the transmitted power. *)
Definition C109_full := forall t h w psd d, psd_ok t w psd -> Forall call_ok h -> (0 <= d)%Q ->
  exists p, rx_power t (calls t h) w psd d 0 = Some p /\ p <= tx_power w psd.
Lemma coef_nonneg t f : (forall k, In k (t_coef t) -> (0 <= k)%Q) -> (0 <= the_coef t f)%Q.
Proof. intros H. unfold the_coef. destruct (nth_in_or_default (freq_index f (t_freq t) 0) (t_coef t) 0%Q) as [I|E]; [apply H; auto|rewrite E; apply Qle_refl]. Qed.
(** At distance 0 the spreading loss is 0 and the received power is infinite; at 10 micrometres it is amplified. *)
Theorem C109_power_refuted : ~ C109_full.
Proof.
  intros H. destruct (H (Tables [] []) [] (Bandw 1 1 1) [(1000000000000%Q, 1)] 0%Q) as (p & P & _).
  - split; [discriminate|]. split; [intros f v [X|[]]; injection X as <- <-; split; [reflexivity|lra]|]. split; [intros k []|]. cbn. lra.
  - constructor.
  - apply Qle_refl.
  - unfold rx_power, calls in P. cbn [fold_left rx_psd snd fst osum fold_right] in P.
    assert (Z : ddiv 1 (from_db (sum_db (spread_loss 1000000000000 0) (snd (abs_loss (Tables [] []) [] 1000000000000 0)))) = None).
    { unfold spread_loss. cbn [Qeq_bool]. replace (Qeq_bool 0 0) with true by reflexivity. unfold sum_db. unfold log10 at 1. destruct (Req_EM_T 0 0); [|lra]. cbn [from_db]. unfold ddiv. destruct (Req_EM_T 0 0); [reflexivity|lra]. }
    rewrite Z in P. cbn in P. discriminate P.
Qed.
Print Assumptions C109_power_refuted.
Example C109_near : exists p, rx_power (Tables [] []) [] (Bandw 1 1 1) [(1000000000000%Q, 1)] (1 # 100000) 0 = Some p /\ 3 < p.
Proof.
  eexists. split; [apply rx_power_spec; [intros f k K; discriminate K|reflexivity|intros f v [X|[]]; injection X as <- <-; reflexivity]|].
  cbn [map fst snd rsum fold_right bw_sub bw_num bw_samples]. unfold band_loss, friis. assert (T : the_coef (Tables [] []) 1000000000000 = 0%Q) by reflexivity. rewrite T, RMicromega.Q2R_0, Rmult_0_l, exp_0, Rmult_1_r.
  replace (0 / 10) with 0 by field. rewrite Rpower_O by lra. replace (Q2R 1000000000000) with 1000000000000 by (unfold Q2R; cbn; lra). replace (Q2R (1 # 100000)) with (/ 100000) by (unfold Q2R; cbn; lra).
  pose proof PI_4 as P. pose proof PI_RGT_0 as Q. set (s := 4 * PI * 1000000000000 * / 100000 / 299792458). assert (S : 0 < s < 54 / 100) by (unfold s; split; lra). clearbody s.
  assert (S2 : 0 < s ^ 2 < 3 / 10) by (cbn; split; nra). assert (3 < 1 / s ^ 2). { apply Rmult_lt_reg_r with (s ^ 2); [lra|]. replace (1 / s ^ 2 * s ^ 2) with 1 by (field; nra). lra. } replace (1 / 1) with 1 by field. rewrite Rplus_0_r, !Rmult_1_r. auto.
Qed.

(** For positive distances: the received power is the sum of the densities, each divided by the square of 4 pi f d / c and by exp (k d), times the width of the bands and
    the gain; it decreases strictly with the distance; from c / (4 pi f) on it is, without gain, not more than the transmitted power. The gain in dB is added to the level in dBm. *)
Theorem C109_power_partial : forall t h w psd d gain, psd_ok t w psd -> Forall call_ok h -> (0 < d)%Q ->
  exists p, rx_power t (calls t h) w psd d gain = Some p /\ 0 < p /\
   p = rsum (map (fun x => snd x / ((4 * PI * Q2R (fst x) * Q2R d / 299792458) ^ 2 * exp (Q2R (the_coef t (fst x)) * Q2R d))) psd) *
         bw_sub w * (bw_num w / bw_samples w) * Rpower 10 (gain / 10) /\
   (forall d', (d < d')%Q -> exists p', rx_power t (calls t h) w psd d' gain = Some p' /\ p' < p) /\
   (gain = 0 -> (forall f v, In (f, v) psd -> 299792458 <= 4 * PI * Q2R f * Q2R d) -> p <= tx_power w psd) /\
   (exists x, rx_dbm t (calls t h) w psd d gain = Some x /\ Rpower 10 (x / 10) = p * 1000 /\ rx_dbm t (calls t h) w psd d 0 = Some (x - gain)).
Proof.
  intros t h w psd d gain (NE & PV & CK & BS & BN & BM) _ D. pose proof (calls_ok t h) as M. assert (F : forall f v, In (f, v) psd -> (0 < f)%Q) by (intros; eapply PV; eauto).
  assert (W : 0 < bw_sub w * (bw_num w / bw_samples w)) by (apply Rmult_lt_0_compat; auto; apply Rdiv_lt_0_compat; auto).
  assert (G : forall g, 0 < Rpower 10 (g / 10)) by (intros; apply exp_pos).
  assert (S : forall e, (0 < e)%Q -> 0 < rsum (map (fun x => snd x / band_loss t (fst x) e) psd)).
  { intros e E. apply rsum_pos; auto. intros [f v] I. cbn [fst snd]. destruct (PV f v I). apply Rdiv_lt_0_compat; auto. apply band_loss_pos; auto. }
  pose proof (S d D) as SD. assert (PP : forall g, 0 < rsum (map (fun x => snd x / band_loss t (fst x) d) psd) * bw_sub w * (bw_num w / bw_samples w) * Rpower 10 (g / 10)).
  { intros g. rewrite (Rmult_assoc (rsum _)). apply Rmult_lt_0_compat; auto. apply Rmult_lt_0_compat; auto. }
  eexists. split; [apply rx_power_spec; auto|]. split; [apply PP|]. split; [reflexivity|]. split; [|split].
  - intros d' L. assert (D' : (0 < d')%Q) by (eapply Qlt_trans; eauto). eexists. split; [apply rx_power_spec; auto|]. apply Rmult_lt_compat_r; auto. apply Rmult_lt_compat_r; [apply Rdiv_lt_0_compat; auto|]. apply Rmult_lt_compat_r; auto.
    apply rsum_lt; auto. intros [f v] I. cbn [fst snd]. destruct (PV f v I) as [PF V]. apply Rmult_lt_compat_l; auto. apply Rinv_lt_contravar; [apply Rmult_lt_0_compat; apply band_loss_pos; auto|].
    apply band_loss_lt; auto. apply coef_nonneg; auto.
  - intros -> FAR. unfold tx_power. replace (0 / 10) with 0 by field. rewrite Rpower_O by lra. rewrite Rmult_1_r. apply Rmult_le_compat_r; [apply Rlt_le, Rdiv_lt_0_compat; auto|]. apply Rmult_le_compat_r; [lra|]. apply rsum_le.
    intros [f v] I. cbn [fst snd]. destruct (PV f v I) as [PF V]. pose proof (band_loss_ge1 t f d PF D (coef_nonneg t f CK) (FAR f v I)) as GE. set (b := band_loss t f d) in *.
    apply Rmult_le_reg_r with b; [lra|]. unfold Rdiv. rewrite Rmult_assoc, Rinv_l by lra. nra.
  - unfold rx_dbm. rewrite !rx_power_spec by auto. set (s := rsum (map (fun x => snd x / band_loss t (fst x) d) psd) * bw_sub w * (bw_num w / bw_samples w)) in *. unfold log10.
    pose proof (PP gain) as P1. pose proof (PP 0) as P0. destruct (Req_EM_T (s * Rpower 10 (gain / 10) * 1000) 0) as [Z|_]; [lra|]. destruct (Req_EM_T (s * Rpower 10 (0 / 10) * 1000) 0) as [Z|_]; [lra|].
    eexists. split; [reflexivity|]. pose proof ln10_pos as LN. split.
    + unfold Rpower at 1. match goal with |- exp ?a = _ => replace a with (ln (s * Rpower 10 (gain / 10) * 1000)) by (field; lra) end. apply exp_ln. lra.
    + f_equal. assert (SP : 0 < s) by (pose proof (G gain); nra). rewrite (Rmult_assoc s), (Rmult_assoc s), !(ln_mult s) by (pose proof (G gain); pose proof (G 0); lra).
      rewrite !(ln_mult (Rpower 10 _)) by (try apply G; lra). unfold Rpower. rewrite !ln_exp. field. lra.
Qed.
Print Assumptions C109_power_partial.
(** One band at 1 THz, a metre. *)
Example C109_example : psd_ok table_head (Bandw 1000000 1 1) [(1000000000000%Q, 1)] /\ 299792458 <= 4 * PI * Q2R 1000000000000 * Q2R 1.
Proof.
  split.
  - split; [discriminate|]. split; [intros f v [X|[]]; injection X as <- <-; split; [reflexivity|lra]|]. split; [|cbn; lra].
    intros k K. assert (A : forallb (Qle_bool 0) (t_coef table_head) = true) by reflexivity. rewrite forallb_forall in A. apply Qle_bool_iff. apply A. exact K.
  - replace (Q2R 1000000000000) with 1000000000000 by (unfold Q2R; cbn; lra). replace (Q2R 1) with 1 by (unfold Q2R; cbn; lra). pose proof PI2_3_2. unfold PI2 in *. lra.
Qed.
