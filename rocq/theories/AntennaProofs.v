(** Lemmas about the antenna and the gains in the channel. *)
From Coq Require Import ZArith List Reals Bool Lia Lra.
From Verif Require Import AntennaModel.
Import ListNotations.
Open Scope R_scope.

(** * The loops *)

Lemma wrap_bounds p : - PI < wrap p <= PI.
Proof.
  unfold wrap. pose proof PI_RGT_0 as P. set (y := (PI - p) / (2 * PI)). destruct (base_Int_part y) as [A B]. set (k := IZR (Int_part y)) in *.
  assert (Y : 2 * PI * y = PI - p) by (unfold y; field; lra). clearbody k y. split; nra.
Qed.
Lemma wrap_unique p r n : - PI < r <= PI -> r = p + 2 * PI * IZR n -> wrap p = r.
Proof.
  intros B E. pose proof (wrap_bounds p) as W. unfold wrap in *. set (k := Int_part ((PI - p) / (2 * PI))) in *. clearbody k. pose proof PI_RGT_0 as P.
  assert (k = n); [|subst; reflexivity]. assert (A : -1 < IZR k - IZR n < 1) by (subst r; split; nra). rewrite <- minus_IZR in A. destruct A as [A1 A2].
  apply lt_IZR in A1, A2. lia.
Qed.
Lemma wrap_id p : - PI < p <= PI -> wrap p = p.
Proof. intros H. apply (wrap_unique p p 0); auto. lra. Qed.
Lemma wrap_shift p n : wrap (p + 2 * PI * IZR n) = wrap p.
Proof.
  pose proof (wrap_bounds p) as B. symmetry. apply (wrap_unique p _ (n + Int_part ((PI - (p + 2 * PI * IZR n)) / (2 * PI)))%Z); [apply wrap_bounds|]. unfold wrap. rewrite plus_IZR. ring.
Qed.
Lemma add_loop_run n : forall p, - PI < p + 2 * PI * INR n <= PI -> add_loop p (p + 2 * PI * INR n).
Proof.
  pose proof PI_RGT_0 as P. induction n as [|n IH]; intros p B.
  - cbn in *. rewrite Rmult_0_r, Rplus_0_r in *. apply add_stop. lra.
  - rewrite S_INR in *. pose proof (pos_INR n). apply add_more; [nra|]. replace (p + 2 * PI * (INR n + 1)) with (p + (PI + PI) + 2 * PI * INR n) in * by ring. apply IH. lra.
Qed.
Lemma sub_loop_run n : forall p, - PI < p - 2 * PI * INR n <= PI -> sub_loop p (p - 2 * PI * INR n).
Proof.
  pose proof PI_RGT_0 as P. induction n as [|n IH]; intros p B.
  - cbn in *. rewrite Rmult_0_r, Rminus_0_r in *. apply sub_stop. lra.
  - rewrite S_INR in *. pose proof (pos_INR n). apply sub_more; [nra|]. replace (p - 2 * PI * (INR n + 1)) with (p - (PI + PI) - 2 * PI * INR n) in * by ring. apply IH. lra.
Qed.
(** The loops end, and give [wrap]. *)
Theorem loops_wrap p : loops p (wrap p).
Proof.
  pose proof (wrap_bounds p) as B. pose proof PI_RGT_0 as P. unfold wrap in *. set (k := Int_part ((PI - p) / (2 * PI))) in *. clearbody k. destruct (Z_le_gt_dec 0 k) as [K|K].
  - exists (p + 2 * PI * IZR k). split; [|apply sub_stop; lra]. assert (E : IZR k = INR (Z.to_nat k)) by (rewrite INR_IZR_INZ, Z2Nat.id; auto). rewrite E in *. apply add_loop_run; auto.
  - assert (E : p + 2 * PI * IZR k = p - 2 * PI * INR (Z.to_nat (- k))). { rewrite INR_IZR_INZ, Z2Nat.id, opp_IZR by lia. ring. }
    exists p. split; [apply add_stop; assert (IZR k <= -1) by (apply IZR_le; lia); nra|]. rewrite E in *. apply sub_loop_run; auto.
Qed.
Theorem loops_det p r : loops p r -> r = wrap p.
Proof.
  intros (q & A & S). assert (QA : - PI < q /\ exists n, q = p + 2 * PI * IZR n).
  { clear S. induction A as [p H|p q H A IH]; [split; [lra|exists 0%Z; lra]|]. destruct IH as (B & n & E). split; auto. exists (n + 1)%Z. rewrite plus_IZR. rewrite E at 1. ring. }
  destruct QA as (B & n & E). assert (QS : - PI < r <= PI /\ exists m, r = q + 2 * PI * IZR m).
  { clear A E n. induction S as [q H|q r H S IH]; [split; [lra|exists 0%Z; lra]|]. destruct IH as (C & m & F); [lra|]. split; auto. exists (m - 1)%Z. rewrite minus_IZR. rewrite F at 1. ring. }
  destruct QS as (C & m & F). symmetry. apply (wrap_unique p r (n + m)); auto. rewrite plus_IZR. rewrite F, E. ring.
Qed.

(** * The pattern *)

Lemma ln10_pos : 0 < ln 10.
Proof. rewrite <- ln_1. apply ln_increasing; lra. Qed.
Lemma cos_half_pos p : - PI < p < PI -> 0 < cos (p / 2).
Proof. intros H. apply cos_gt_0; lra. Qed.
Lemma pattern_value e p : - PI < p < PI -> pattern e p = Some (20 * e * (ln (cos (p / 2)) / ln 10)).
Proof.
  intros H. pose proof (cos_half_pos p H) as C. unfold pattern, dpow. destruct (Req_EM_T (cos (p / 2)) 0); [lra|]. unfold dlog10.
  destruct (Req_EM_T (Rpower (cos (p / 2)) e) 0) as [Z|_]; [unfold Rpower in Z; pose proof (exp_pos (e * ln (cos (p / 2)))); lra|].
  f_equal. unfold Rpower. rewrite ln_exp. field. pose proof ln10_pos. lra.
Qed.
Lemma pattern_pi e : pattern e PI = None.
Proof. unfold pattern, dpow. rewrite cos_PI2. destruct (Req_EM_T 0 0); [|lra]. unfold dlog10. destruct (Req_EM_T 0 0); [reflexivity|lra]. Qed.
Lemma pattern_zero e : pattern e 0 = Some 0.
Proof. pose proof PI_RGT_0. rewrite pattern_value by lra. replace (0 / 2) with 0 by field. rewrite cos_0, ln_1. f_equal. unfold Rdiv. ring. Qed.
Lemma exponent_pos bw : 0 < bw < 360 -> 0 < exponent bw /\ 0 < cos (bw * PI / 180 / 4) < 1.
Proof.
  intros H. pose proof PI_RGT_0 as P. set (x := bw * PI / 180 / 4). assert (X : 0 < x < PI / 2) by (unfold x; split; nra).
  assert (C : 0 < cos x) by (apply cos_gt_0; lra). assert (D : cos x < 1) by (rewrite <- cos_0; apply cos_decreasing_1; lra).
  split; [|auto]. unfold exponent. fold x. assert (L : ln (cos x) < 0) by (rewrite <- ln_1; apply ln_increasing; auto).
  pose proof ln10_pos as T. replace (-3 / (20 * (ln (cos x) / ln 10))) with (3 * ln 10 * / (20 * - ln (cos x))) by (field; lra).
  apply Rmult_lt_0_compat; [lra|]. apply Rinv_0_lt_compat. lra.
Qed.
Lemma pattern_half bw : 0 < bw < 360 -> pattern (exponent bw) (bw * PI / 180 / 2) = Some (-3).
Proof.
  intros H. pose proof PI_RGT_0 as P. rewrite pattern_value by (split; nra). destruct (exponent_pos bw H) as [_ [C D]]. replace (bw * PI / 180 / 2 / 2) with (bw * PI / 180 / 4) by field.
  unfold exponent. assert (L : ln (cos (bw * PI / 180 / 4)) < 0) by (rewrite <- ln_1; apply ln_increasing; auto). pose proof ln10_pos. f_equal. field. lra.
Qed.
Lemma pattern_sym e p : - PI < p < PI -> pattern e (- p) = pattern e p.
Proof. intros H. rewrite !pattern_value by lra. replace (- p / 2) with (- (p / 2)) by field. rewrite cos_neg. reflexivity. Qed.
Lemma pattern_decreasing e p q : 0 < e -> 0 <= p < q -> q < PI -> exists u v, pattern e p = Some u /\ pattern e q = Some v /\ v < u.
Proof.
  intros E H Q. pose proof PI_RGT_0 as P. rewrite !pattern_value by lra. eexists _, _. split; [reflexivity|]. split; [reflexivity|].
  assert (C : cos (q / 2) < cos (p / 2)) by (apply cos_decreasing_1; lra). assert (D : 0 < cos (q / 2)) by (apply cos_gt_0; lra).
  assert (L : ln (cos (q / 2)) < ln (cos (p / 2))) by (apply ln_increasing; auto). pose proof ln10_pos. apply Rmult_lt_compat_l; [lra|]. unfold Rdiv. apply Rmult_lt_compat_r; auto. apply Rinv_0_lt_compat; auto.
Qed.

(** * The channel *)

Lemma upd_nth {A} (f : A -> A) i : forall l k, nth_error (upd l i f) k = option_map (fun a => if Nat.eqb k i then f a else a) (nth_error l k).
Proof.
  intros l k. unfold upd. rewrite nth_error_map. assert (G : forall (l : list A) s k, nth_error (combine (seq s (length l)) l) k = option_map (fun a => ((s + k)%nat, a)) (nth_error l k)).
  { clear. induction l as [|a l IH]; intros s [|k]; cbn; auto; [rewrite Nat.add_0_r; reflexivity|]. rewrite IH. destruct (nth_error l k); cbn; auto. do 2 f_equal. lia. }
  rewrite G. cbn. destruct (nth_error l k); reflexivity.
Qed.
(** The antenna of device [i], not the sender, after the loop, and its gain: for some value of m_Rxorientation, which is that of the pair for directed pairs. *)
Definition pair_ro (sm : Z) (so : R) (a : ant) (ro : R) : R :=
  if ((sm =? 2) && (a_mode a =? 2))%Z then 0 else if ((sm =? 0) && (a_mode a =? 1))%Z then a_orient a else if ((sm =? 1) && (a_mode a =? 0))%Z then so else ro.
Lemma send_loop_nth az x sm so : forall ds j ro i a, nth_error ds i = Some a -> (j + i)%nat <> x ->
  exists ro', let g := antenna_gain az x (j + i) (mode_bool sm) (mode_bool (a_mode a)) (pair_ro sm so a ro') a in
    nth_error (fst (fst (send_loop az x sm so j ds ro))) i = Some (fst g) /\ nth_error (snd (send_loop az x sm so j ds ro)) i = Some (Some (snd g)).
Proof.
  induction ds as [|b ds IH]; intros j ro i a N X; [destruct i; discriminate N|]. cbn [send_loop]. destruct i as [|i].
  - injection N as ->. rewrite Nat.add_0_r in *. destruct (Nat.eqb_spec j x) as [->|_]; [contradiction|]. exists ro. unfold pair_ro. cbn [fst snd nth_error]. split; reflexivity.
  - cbn [nth_error] in N. replace (j + S i)%nat with (S j + i)%nat in * by lia. destruct (Nat.eqb j x); cbn [fst snd nth_error]; apply (IH _ _ i a N X).
Qed.
Lemma send_loop_sender az x sm so : forall ds j ro i a, nth_error ds i = Some a -> (j + i)%nat = x ->
  nth_error (fst (fst (send_loop az x sm so j ds ro))) i = Some a /\ nth_error (snd (send_loop az x sm so j ds ro)) i = Some None.
Proof.
  induction ds as [|b ds IH]; intros j ro i a N X; [destruct i; discriminate N|]. cbn [send_loop]. destruct i as [|i].
  - injection N as ->. rewrite Nat.add_0_r in *. rewrite (proj2 (Nat.eqb_eq j x) X). cbn. auto.
  - cbn [nth_error] in N. destruct (Nat.eqb_spec j x); [lia|]. cbn [fst snd nth_error]. apply IH; auto. lia.
Qed.
Lemma send_loop_length az x sm so : forall ds j ro, length (fst (fst (send_loop az x sm so j ds ro))) = length ds.
Proof. induction ds as [|b ds IH]; intros j ro; cbn [send_loop]; auto. destruct (Nat.eqb j x); cbn; rewrite IH; auto. Qed.
(** The antennas after a packet: that of the sender as before; those of the others differ at most in their orientation. *)
Lemma send_dev az c x s i a : nth_error (c_dev c) x = Some s -> nth_error (c_dev c) i = Some a ->
  (i = x -> nth_error (c_dev (fst (send az c x))) i = Some a) /\
  (i <> x -> exists ro, nth_error (c_dev (fst (send az c x))) i = Some (with_orient a (pair_ro (a_mode s) (a_orient s) a ro)) /\
     nth_error (snd (send az c x)) i = Some (Some (snd (antenna_gain az x i (mode_bool (a_mode s)) (mode_bool (a_mode a)) (pair_ro (a_mode s) (a_orient s) a ro) a)))).
Proof.
  intros S N. unfold send. rewrite S. cbn [fst snd c_dev]. split.
  - intros ->. apply send_loop_sender; auto.
  - intros X. destruct (send_loop_nth az x (a_mode s) (a_orient s) (c_dev c) 0 (c_ro c) i a N X) as (ro & A & B). exists ro. split; [exact A|exact B].
Qed.
Lemma send_len az c x : length (c_dev (fst (send az c x))) = length (c_dev c).
Proof. unfold send. destruct (nth_error (c_dev c) x); auto. cbn [fst c_dev]. apply send_loop_length. Qed.
