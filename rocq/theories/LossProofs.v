(** Lemmas about the propagation loss. *)
From Coq Require Import ZArith List QArith Reals Qreals Bool Lia Lqa Lra.
From Verif Require Import LossModel.
Import ListNotations.

Lemma outside_spec f x : outside f x = true <-> (x < f - win \/ f + win < x)%Q.
Proof.
  unfold outside. rewrite orb_true_iff, !negb_true_iff. split.
  - intros [H|H]; [left|right]; apply Qnot_le_lt; intros L; apply Qle_bool_iff in L; congruence.
  - intros [H|H]; [left|right]; apply not_true_iff_false; intros L; apply Qle_bool_iff in L; apply (Qle_not_lt _ _ L); auto.
Qed.
Lemma outside_eq f g x : (f == g)%Q -> outside f x = outside g x.
Proof. intros E. apply eq_true_iff_eq. rewrite !outside_spec. Lqa.lra. Qed.
Lemma freq_index_eq f g l : (f == g)%Q -> forall j, freq_index f l j = freq_index g l j.
Proof. intros E. induction l as [|x l IH]; intros j; cbn; auto. rewrite (outside_eq _ _ x E). destruct (outside g x); auto. Qed.
Lemma freq_index_spec f l : forall j, exists n, freq_index f l j = (j + n)%nat /\ (n <= length l)%nat /\
  (forall i x, (i < n)%nat -> nth_error l i = Some x -> outside f x = true) /\ (forall x, nth_error l n = Some x -> outside f x = false).
Proof.
  induction l as [|x l IH]; intros j; cbn.
  - exists 0%nat. repeat split; try lia. intros x H. discriminate H.
  - destruct (outside f x) eqn:O.
    + destruct (IH (S j)) as (n & E & L & B & I). exists (S n). rewrite E. split; [lia|]. split; [lia|]. split.
      * intros [|i] y H N; cbn in N; [injection N as <-; auto|]. apply (B i); auto. lia.
      * intros y N. apply I. exact N.
    + exists 0%nat. repeat split; try lia. intros y N. injection N as <-. exact O.
Qed.
Lemma coef_loop_spec j coefs : forall i, (i <= j)%nat -> coef_loop false j i coefs = Some (nth (j - i) coefs 0%Q).
Proof.
  induction coefs as [|k r IH]; intros i L; cbn; [destruct (j - i)%nat; auto|].
  destruct (Nat.eqb_spec i j) as [->|N]; cbn; [rewrite Nat.sub_diag; auto|]. rewrite IH by lia. replace (j - i)%nat with (S (j - S i))%nat by lia. reflexivity.
Qed.
Lemma coef_loop_some z j coefs k : coef_loop z j 0 coefs = Some k -> k = nth j coefs 0%Q.
Proof.
  intros H. destruct z.
  - destruct coefs as [|x r]; cbn in H; [injection H as <-; destruct j; auto|]. destruct j; cbn in H; [injection H as <-; auto|discriminate H].
  - rewrite coef_loop_spec in H by lia. injection H as <-. rewrite Nat.sub_0_r. reflexivity.
Qed.

(** The coefficient the tables give for a frequency. *)
Definition the_coef (t : tables) (f : Q) : Q := nth (freq_index f (t_freq t) 0) (t_coef t) 0%Q.
Definition cache_ok (t : tables) (m : cache) : Prop := forall f k, cached m f = Some k -> k = the_coef t f.
Lemma abs_coef_ok t m f d : cache_ok t m -> cache_ok t (fst (abs_coef t m f d)).
Proof.
  intros H. unfold abs_coef. destruct (cached m f) eqn:C; [exact H|]. destruct (coef_loop _ _ _ _) eqn:L; [|exact H].
  intros g k. cbn [fst cached]. destruct (Qeq_bool f g) eqn:E; [|apply H]. intros X. injection X as <-. apply Qeq_bool_iff in E.
  apply coef_loop_some in L. unfold the_coef. rewrite <- (freq_index_eq _ _ _ E). exact L.
Qed.
Lemma calls_ok t h : cache_ok t (calls t h).
Proof.
  unfold calls. assert (G : forall m, cache_ok t m -> cache_ok t (fold_left (fun m x => fst (abs_coef t m (fst x) (snd x))) h m)).
  { induction h as [|x h IH]; intros m M; cbn; auto. apply IH. apply abs_coef_ok; auto. }
  apply G. intros f k H. discriminate H.
Qed.
Lemma abs_coef_value t m f d : cache_ok t m -> ~ (d == 0)%Q -> snd (abs_coef t m f d) = Some (the_coef t f).
Proof.
  intros M D. unfold abs_coef. destruct (cached m f) eqn:C; [cbn; f_equal; apply M; auto|].
  assert (E : Qeq_bool d 0 = false) by (apply not_true_iff_false; intros X; apply Qeq_bool_iff in X; auto). rewrite E, coef_loop_spec by lia. cbn [snd]. rewrite Nat.sub_0_r. reflexivity.
Qed.
Lemma abs_coef_zero t m f d : cache_ok t m -> snd (abs_coef t m f d) = None \/ snd (abs_coef t m f d) = Some (the_coef t f).
Proof.
  intros M. unfold abs_coef. destruct (cached m f) eqn:C; [right; cbn; f_equal; apply M; auto|]. destruct (coef_loop _ _ _ _) eqn:L; [|left; auto].
  right. cbn [snd]. f_equal. apply coef_loop_some in L. exact L.
Qed.

Open Scope R_scope.
Lemma ln10_pos : 0 < ln 10.
Proof. rewrite <- ln_1. apply ln_increasing; lra. Qed.
Lemma q2r_pos q : (0 < q)%Q -> 0 < Q2R q.
Proof. intros H. apply Qlt_Rlt in H. rewrite RMicromega.Q2R_0 in H. exact H. Qed.
Lemma q2r_nonneg q : (0 <= q)%Q -> 0 <= Q2R q.
Proof. intros H. apply Qle_Rle in H. rewrite RMicromega.Q2R_0 in H. exact H. Qed.

(** The sum in dB is the product. *)
Lemma from_db_sum a b : 0 < a -> 0 < b -> from_db (sum_db a b) = a * b.
Proof.
  intros A B. unfold sum_db, log10. destruct (Req_EM_T a 0); [lra|]. destruct (Req_EM_T b 0); [lra|]. cbn [from_db]. unfold Rpower.
  pose proof ln10_pos. replace ((10 * (ln a / ln 10) + 10 * (ln b / ln 10)) / 10 * ln 10) with (ln a + ln b) by (field; lra).
  rewrite <- ln_mult by auto. apply exp_ln. nra.
Qed.
Lemma spread_pos f d : (0 < f)%Q -> (0 < d)%Q -> spread_loss f d = (4 * PI * Q2R f * Q2R d / 299792458) * (4 * PI * Q2R f * Q2R d / 299792458) /\ 0 < 4 * PI * Q2R f * Q2R d / 299792458.
Proof.
  intros F D. assert (E : Qeq_bool d 0 = false). { apply not_true_iff_false. intros X. apply Qeq_bool_iff in X. rewrite X in D. exact (Qlt_irrefl _ D). }
  unfold spread_loss. rewrite E. split; [reflexivity|]. pose proof PI_RGT_0. apply q2r_pos in F, D. apply Rdiv_lt_0_compat; [|lra]. apply Rmult_lt_0_compat; auto. apply Rmult_lt_0_compat; auto. lra.
Qed.

(** The loss of a band: the square of 4 pi f d / c, times the exponential of coefficient times distance. *)
Definition friis (f d : Q) : R := (4 * PI * Q2R f * Q2R d / 299792458) ^ 2.
Definition band_loss (t : tables) (f d : Q) : R := friis f d * exp (Q2R (the_coef t f) * Q2R d).
Lemma band_loss_pos t f d : (0 < f)%Q -> (0 < d)%Q -> 0 < band_loss t f d.
Proof. intros F D. unfold band_loss, friis. destruct (spread_pos f d F D) as [_ P]. apply Rmult_lt_0_compat; [apply pow_lt; auto|apply exp_pos]. Qed.
Definition rsum (l : list R) : R := fold_right Rplus 0 l.
Lemma rx_psd_spec t d : (0 < d)%Q -> forall psd m, cache_ok t m -> (forall f v, In (f, v) psd -> (0 < f)%Q) ->
  snd (rx_psd t m psd d) = map (fun x => Some (snd x / band_loss t (fst x) d)) psd.
Proof.
  intros D. induction psd as [|[f v] r IH]; intros m M P; [reflexivity|]. cbn [rx_psd]. unfold abs_loss. cbn [fst snd map].
  assert (F : (0 < f)%Q) by (apply (P f v); left; auto).
  rewrite abs_coef_value; [|auto|intros X; rewrite X in D; exact (Qlt_irrefl _ D)]. rewrite IH; [|apply abs_coef_ok; auto|intros; apply (P f0 v0); right; auto]. f_equal.
  cbn [abs_value]. destruct (spread_pos f d F D) as [E S]. rewrite E, from_db_sum; [|nra|apply exp_pos].
  unfold ddiv. set (s := 4 * PI * Q2R f * Q2R d / 299792458) in *. pose proof (exp_pos (Q2R (the_coef t f) * Q2R d)) as X.
  destruct (Req_EM_T _ 0) as [Z|_]; [exfalso; assert (0 < s * s * exp (Q2R (the_coef t f) * Q2R d)) by (apply Rmult_lt_0_compat; auto; nra); lra|].
  f_equal. unfold band_loss, friis. fold s. f_equal. ring.
Qed.
Lemma osum_some {A} (g : A -> R) l : osum (map (fun x => Some (g x)) l) = Some (rsum (map g l)).
Proof. induction l as [|x l IH]; [reflexivity|]. unfold osum in *. cbn [map fold_right]. rewrite IH. reflexivity. Qed.
Lemma rx_power_spec t m w psd d gain : cache_ok t m -> (0 < d)%Q -> (forall f v, In (f, v) psd -> (0 < f)%Q) ->
  rx_power t m w psd d gain = Some (rsum (map (fun x => snd x / band_loss t (fst x) d) psd) * bw_sub w * (bw_num w / bw_samples w) * Rpower 10 (gain / 10)).
Proof. intros M D P. unfold rx_power. rewrite rx_psd_spec, osum_some by auto. reflexivity. Qed.

Lemma rsum_le {A} (g h : A -> R) l : (forall x, In x l -> g x <= h x) -> rsum (map g l) <= rsum (map h l).
Proof. intros H. induction l as [|x l IH]; [cbn; lra|]. cbn. pose proof (H x (or_introl eq_refl)). specialize (IH (fun y Y => H y (or_intror Y))). unfold rsum in IH. lra. Qed.
Lemma rsum_lt {A} (g h : A -> R) l : l <> [] -> (forall x, In x l -> g x < h x) -> rsum (map g l) < rsum (map h l).
Proof.
  intros N H. destruct l as [|x l]; [contradiction|]. cbn. pose proof (H x (or_introl eq_refl)).
  pose proof (rsum_le g h l (fun y Y => Rlt_le _ _ (H y (or_intror Y)))) as L. unfold rsum in L. lra.
Qed.
Lemma rsum_pos {A} (g : A -> R) l : l <> [] -> (forall x, In x l -> 0 < g x) -> 0 < rsum (map g l).
Proof.
  intros N H. pose proof (rsum_lt (fun _ => 0) g l N H) as L. assert (Z : rsum (map (fun _ : A => 0) l) = 0). { clear. induction l as [|x l IH]; cbn; auto. unfold rsum in IH. rewrite IH. ring. } lra.
Qed.
(** The loss grows with the distance. *)
Lemma band_loss_lt t f d d' : (0 < f)%Q -> (0 < d)%Q -> (d < d')%Q -> (0 <= the_coef t f)%Q -> band_loss t f d < band_loss t f d'.
Proof.
  intros F D L K. unfold band_loss. assert (D' : (0 < d')%Q) by (eapply Qlt_trans; eauto). destruct (spread_pos f d F D) as [_ P]. destruct (spread_pos f d' F D') as [_ P'].
  assert (X : friis f d < friis f d').
  { unfold friis. assert (Y : 4 * PI * Q2R f * Q2R d / 299792458 < 4 * PI * Q2R f * Q2R d' / 299792458).
    { unfold Rdiv. apply Rmult_lt_compat_r; [lra|]. apply Rmult_lt_compat_l; [|apply Qlt_Rlt; auto]. pose proof PI_RGT_0. apply q2r_pos in F. apply Rmult_lt_0_compat; auto. lra. }
    cbn [pow]. rewrite !Rmult_1_r. apply Rmult_gt_0_lt_compat; auto. }
  assert (E : exp (Q2R (the_coef t f) * Q2R d) <= exp (Q2R (the_coef t f) * Q2R d')).
  { destruct (Req_dec (Q2R (the_coef t f) * Q2R d) (Q2R (the_coef t f) * Q2R d')) as [->|N]; [lra|]. apply Rlt_le. apply exp_increasing.
    apply q2r_nonneg in K. apply Qlt_Rlt in L. nra. }
  pose proof (exp_pos (Q2R (the_coef t f) * Q2R d)). assert (0 <= friis f d) by (unfold friis; apply pow_le; lra). nra.
Qed.
Lemma band_loss_ge1 t f d : (0 < f)%Q -> (0 < d)%Q -> (0 <= the_coef t f)%Q -> 299792458 <= 4 * PI * Q2R f * Q2R d -> 1 <= band_loss t f d.
Proof.
  intros F D K L. unfold band_loss, friis. assert (X : 1 <= 4 * PI * Q2R f * Q2R d / 299792458) by lra. set (s := 4 * PI * Q2R f * Q2R d / 299792458) in *. clearbody s.
  assert (E : 1 <= exp (Q2R (the_coef t f) * Q2R d)).
  { apply q2r_nonneg in K. apply q2r_pos in D. assert (Z : 0 <= Q2R (the_coef t f) * Q2R d) by nra. pose proof (exp_ineq1_le (Q2R (the_coef t f) * Q2R d)). lra. }
  assert (1 <= s ^ 2) by (cbn; nra). nra.
Qed.
