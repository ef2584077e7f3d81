(** Property C136: an antenna that is turned to an angle points there.
    The loops in degrees of TuneRxOrientation, thz-dir-antenna.cc:163-179, and the rotating antenna of GetRxOrientation, 188-206; reals as in AntennaModel. *)
From Coq Require Import ZArith List Reals Lra Lia.
From Verif Require Import AntennaModel AntennaProofs.
Open Scope R_scope.

(** 167-174 and 192-199. *)
Inductive dadd : R -> R -> Prop :=
| dadd_stop p : ~ p <= -360 -> dadd p p
| dadd_more p q : p <= -360 -> dadd (p + 360) q -> dadd p q.
Inductive dsub : R -> R -> Prop :=
| dsub_stop p : ~ p > 360 -> dsub p p
| dsub_more p q : p > 360 -> dsub (p - 360) q -> dsub p q.
Definition dloops (p r : R) : Prop := exists q, dadd p q /\ dsub q r.
(** TuneRxOrientation (phi_zero), 163-179. m_RxorientationDegrees is only logged. *)
Definition tunes (a : ant) (deg : R) (a' : ant) : Prop := exists r, dloops deg r /\ a' = tune a r.
(** GetRxOrientation, 188-206, at time [t] (in seconds) with the attributes InitialAngle [ini] (degrees) and TurningSpeed [speed] (turns in a second). *)
Definition rotates (a : ant) (ini speed t : R) (a' : ant) : Prop := exists r, dloops (ini + speed * 360 * t) r /\ a' = tune a r.

Lemma dadd_run n : forall p, -360 < p + 360 * INR n -> exists q, dadd p q /\ -360 < q /\ (q <= 0 \/ q = p).
Proof.
  induction n as [|n IH]; intros p B.
  - cbn in B. exists p. split; [apply dadd_stop; lra|]. split; [lra|auto].
  - destruct (Rle_dec p (-360)) as [H|H].
    + destruct (IH (p + 360)) as (q & A & L & R); [rewrite S_INR in B; lra|]. exists q. split; [apply dadd_more; auto|]. split; auto. left. lra.
    + exists p. split; [apply dadd_stop; auto|]. split; [lra|auto].
Qed.
Lemma dsub_run n : forall p, -360 < p -> p - 360 * INR n <= 360 -> exists q, dsub p q /\ -360 < q <= 360.
Proof.
  induction n as [|n IH]; intros p L B.
  - cbn in B. exists p. split; [apply dsub_stop; lra|lra].
  - destruct (Rgt_dec p 360) as [H|H].
    + destruct (IH (p - 360)) as (q & A & R); [lra|rewrite S_INR in B; lra|]. exists q. split; [apply dsub_more; auto|auto].
    + exists p. split; [apply dsub_stop; auto|lra].
Qed.
Lemma above x : exists n, x < INR n.
Proof.
  exists (Z.to_nat (up x)). destruct (archimed x) as [A _]. rewrite INR_IZR_INZ. destruct (Z_le_gt_dec 0 (up x)) as [H|H]; [rewrite Z2Nat.id; auto|].
  assert (U : IZR (up x) < 0) by (apply IZR_lt; lia). replace (Z.to_nat (up x)) with O by lia. cbn. lra.
Qed.
Lemma dloops_ex p : exists r, dloops p r.
Proof.
  destruct (above ((- p) / 360)) as [n N]. destruct (dadd_run n p) as (q & A & L & _); [lra|].
  destruct (above (q / 360)) as [m M]. destruct (dsub_run m q) as (r & S & _); [lra|lra|]. exists r, q. auto.
Qed.
Lemma dadd_fun p q : dadd p q -> forall q', dadd p q' -> q = q'.
Proof. induction 1; intros q' H'; inversion H'; subst; auto; try contradiction. Qed.
Lemma dsub_fun p q : dsub p q -> forall q', dsub p q' -> q = q'.
Proof. induction 1; intros q' H'; inversion H'; subst; auto; try contradiction. Qed.
Lemma dloops_fun p r r' : dloops p r -> dloops p r' -> r = r'.
Proof. intros (q & A & S) (q' & A' & S'). rewrite <- (dadd_fun _ _ A _ A') in S'. eapply dsub_fun; eauto. Qed.
Lemma dadd_turns p q : dadd p q -> -360 < q /\ exists k, q = p + 360 * IZR k.
Proof. induction 1 as [p H|p q H A [L (k & E)]]; [split; [lra|exists 0%Z; lra]|]. split; auto. exists (k + 1)%Z. rewrite plus_IZR. lra. Qed.
Lemma dsub_turns p q : dsub p q -> -360 < p -> -360 < q <= 360 /\ exists k, q = p + 360 * IZR k.
Proof. induction 1 as [p H|p q H A IH]; intros L; [split; [lra|exists 0%Z; lra]|]. destruct IH as (B & k & E); [lra|]. split; auto. exists (k - 1)%Z. rewrite minus_IZR. lra. Qed.
Lemma dloops_turns p r : dloops p r -> -360 < r <= 360 /\ exists k, r = p + 360 * IZR k.
Proof.
  intros (q & A & S). destruct (dadd_turns _ _ A) as (L & k & E). destruct (dsub_turns _ _ S L) as (B & k' & E'). split; auto. exists (k + k')%Z. rewrite plus_IZR. lra.
Qed.

(** * C136 *)

(** Turning an antenna by TuneRxOrientation always ends, with one result, an angle above -360 and up to 360 degrees (here in radians); nothing else changes. *)
Theorem C136_turning_ends : forall a deg, exists a', tunes a deg a' /\ (forall b, tunes a deg b -> b = a') /\ -2 * PI < a_orient a' <= 2 * PI /\
  a_mode a' = a_mode a /\ a_bw a' = a_bw a /\ a_exp a' = a_exp a /\ a_max a' = a_max a.
Proof.
  intros a deg. destruct (dloops_ex deg) as [r D]. exists (tune a r). split; [exists r; auto|]. split; [intros b (r' & D' & ->); rewrite (dloops_fun _ _ _ D D'); auto|].
  destruct (dloops_turns _ _ D) as [B _]. pose proof PI_RGT_0 as P. destruct a; cbn. repeat split; nra.
Qed.
Print Assumptions C136_turning_ends.

(** For every angle in degrees and every direction [dir] in radians: the antenna has its full gain exactly in the direction it was turned to, and less in every other; opposite to it (None) no power at all. *)
Theorem C136_points : forall a deg a', 0 < a_exp a -> tunes a deg a' ->
  forall dir, (rx_gain a' dir = Some (a_max a) <-> exists n, dir = deg * PI / 180 + 2 * PI * IZR n) /\
    (forall g, rx_gain a' dir = Some g -> g <= a_max a) /\ (rx_gain a' dir = None <-> exists n, dir = deg * PI / 180 + PI + 2 * PI * IZR n).
Proof.
  intros a deg a' E (r & D & ->) dir. destruct (dloops_turns _ _ D) as [_ (k & ->)]. pose proof PI_RGT_0 as P.
  unfold rx_gain. replace (a_exp (tune a (deg + 360 * IZR k))) with (a_exp a) by (destruct a; auto). replace (a_max (tune a (deg + 360 * IZR k))) with (a_max a) by (destruct a; auto).
  replace (a_orient (tune a (deg + 360 * IZR k))) with (deg * PI / 180 + 2 * PI * IZR k) by (destruct a; cbn; field).
  replace (dir - (deg * PI / 180 + 2 * PI * IZR k)) with (dir - deg * PI / 180 + 2 * PI * IZR (- k)) by (rewrite opp_IZR; ring). rewrite wrap_shift.
  set (x := dir - deg * PI / 180). pose proof (wrap_bounds x) as B. assert (WX : exists m, wrap x = x + 2 * PI * IZR m) by (eexists; reflexivity).
  assert (Z0 : wrap x = 0 <-> exists n, dir = deg * PI / 180 + 2 * PI * IZR n).
  { split; [intros W; destruct WX as [m M]; exists (- m)%Z; rewrite opp_IZR; unfold x in *; lra|]. intros [n N]. apply (wrap_unique x 0 (- n)); [lra|]. rewrite opp_IZR. unfold x. lra. }
  assert (ZP : wrap x = PI <-> exists n, dir = deg * PI / 180 + PI + 2 * PI * IZR n).
  { split; [intros W; destruct WX as [m M]; exists (- m)%Z; rewrite opp_IZR; unfold x in *; lra|]. intros [n N]. apply (wrap_unique x PI (- n)); [lra|]. rewrite opp_IZR. unfold x. lra. }
  rewrite <- Z0, <- ZP. clear Z0 ZP WX. generalize dependent (wrap x). intros y B.
  destruct (Req_dec y PI) as [->|NP]; [rewrite pattern_pi; cbn; split; [split; [discriminate|lra]|split; [discriminate|tauto]]|].
  assert (G : exists v, pattern (a_exp a) y = Some v /\ v <= 0 /\ (v = 0 <-> y = 0)).
  { destruct (Req_dec y 0) as [->|N0]; [exists 0; rewrite pattern_zero; repeat split; auto; lra|].
    assert (GP : forall z, 0 < z < PI -> exists v, pattern (a_exp a) z = Some v /\ v < 0).
    { intros z Z. destruct (pattern_decreasing (a_exp a) 0 z E) as (u & v & U & V & L); [lra|lra|]. rewrite pattern_zero in U. injection U as <-. eauto. }
    destruct (Rle_dec 0 y) as [H|H].
    - destruct (GP y) as (v & V & L); [lra|]. exists v. repeat split; auto; lra.
    - destruct (GP (- y)) as (v & V & L); [lra|]. rewrite pattern_sym in V by lra. exists v. repeat split; auto; lra. }
  destruct G as (v & -> & V & V0). cbn. split; [rewrite <- V0; split; [intros X; injection X as X; lra|intros ->; f_equal; lra]|]. split; [intros g X; injection X as <-; lra|]. split; [discriminate|intros; contradiction].
Qed.
Print Assumptions C136_points.

(** The rotating antenna: after whole turns it has the same gain in every direction, and at time [t] that of an antenna turned to the angle it has reached. *)
Theorem C136_rotation : forall a ini speed t t' k b b', speed * (t' - t) = IZR k -> rotates a ini speed t b -> rotates a ini speed t' b' ->
  (forall dir, rx_gain b' dir = rx_gain b dir) /\ tunes a (ini + speed * 360 * t) b.
Proof.
  intros a ini speed t t' k b b' T (r & D & ->) (r' & D' & ->). split; [|exists r; auto]. intros dir.
  destruct (dloops_turns _ _ D) as [_ (m & ->)]. destruct (dloops_turns _ _ D') as [_ (m' & ->)]. unfold rx_gain. destruct a as [am ab ae ax ao]. cbn [tune with_orient a_exp a_max a_orient]. do 2 f_equal.
  set (p := ini + speed * 360 * t + 360 * IZR m).
  replace (dir - (ini + speed * 360 * t' + 360 * IZR m') * PI / 180) with (dir - p * PI / 180 + 2 * PI * IZR (m - m' - k)); [apply wrap_shift|].
  rewrite !minus_IZR, <- T. unfold p. field.
Qed.
Print Assumptions C136_rotation.

(** 1000 degrees are 280; one turn in a millisecond, seen after three and a quarter turns. *)
Example C136_example : let a := Ant 1 40 (exponent 40) 14 0 in 0 < a_exp a /\ tunes a 1000 (tune a 280) /\ rotates a (-90) 1000 (325 / 100000) (tune a 360) /\ rotates a (-90) 1000 (25 / 100000) (tune a 0) /\
  rx_gain (tune a 360) 0 = Some 14 /\ rx_gain (tune a 0) 0 = Some 14.
Proof.
  cbv zeta. split; [apply exponent_pos; lra|]. pose proof PI_RGT_0 as P.
  assert (D : forall p, -360 < p <= 360 -> dloops p p) by (intros p B; exists p; split; [apply dadd_stop; lra|apply dsub_stop; lra]).
  split; [exists 280; split; [|reflexivity]; exists 1000; split; [apply dadd_stop; lra|]; do 2 (apply dsub_more; [lra|]); replace (1000 - 360 - 360) with 280 by lra; apply dsub_stop; lra|].
  split; [exists 360; split; [|reflexivity]; replace (-90 + 1000 * 360 * (325 / 100000)) with 1080 by lra; exists 1080; split; [apply dadd_stop; lra|]; do 2 (apply dsub_more; [lra|]); replace (1080 - 360 - 360) with 360 by lra; apply dsub_stop; lra|].
  split; [exists 0; split; [|reflexivity]; replace (-90 + 1000 * 360 * (25 / 100000)) with 0 by lra; apply D; lra|].
  unfold rx_gain. cbn [tune with_orient a_exp a_max a_orient]. split.
  - replace (0 - 360 * PI / 180) with (0 + 2 * PI * IZR (-1)) by lra. rewrite wrap_shift, wrap_id, pattern_zero by lra. cbn. f_equal. lra.
  - replace (0 - 0 * PI / 180) with 0 by lra. rewrite wrap_id, pattern_zero by lra. cbn. f_equal. lra.
Qed.
