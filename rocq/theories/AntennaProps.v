(** Properties of the directional antenna and of the antenna gains in the channel (C110-C113). *)
From Coq Require Import ZArith List Reals Bool Lia Lra.
From Verif Require Import AntennaModel AntennaProofs.
Import ListNotations.
Open Scope R_scope.

(** * C110: beamwidth *)

(** What can be done to the antenna from outside. *)
Inductive bop := BAttr (bw : R) | BSet (bw : R) | BMax (g : R).
Definition bstep (a : ant) (o : bop) : ant := match o with BAttr bw => attr_bw a bw | BSet bw => set_bw a bw | BMax g => attr_max a g end.
Definition bwidth (o : bop) : Prop := match o with BAttr bw | BSet bw => 0 < bw <= 180 | BMax _ => True end.
(** Half of GetBeamwidth () off the orientation of the antenna the gain is 3 dB less than MaxGain, once SetBeamwidth was called. *)
Definition C110_full := forall a ops, Forall bwidth ops -> (exists bw, In (BSet bw) ops) ->
  let a' := fold_left bstep ops a in
  rx_gain a' (a_orient a' + a_bw a' * PI / 180 / 2) = Some (a_max a' - 3).
Lemma cos20 : cos (80 * PI / 180 / 4) < cos (40 * PI / 180 / 4).
Proof. pose proof PI_RGT_0. apply cos_decreasing_1; lra. Qed.
(** The attribute BeamWidth does not change the exponent: 40 degrees by SetBeamwidth, then 80 by the attribute. *)
Theorem C110_beamwidth_refuted : ~ C110_full.
Proof.
  intros H. specialize (H (Ant 1 40 1 0 0) [BSet 40; BAttr 80]). cbn zeta in H. cbn [fold_left bstep] in H. unfold rx_gain in H. cbn [attr_bw set_bw a_mode a_bw a_exp a_max a_orient] in H.
  pose proof PI_RGT_0 as P. rewrite wrap_id in H by lra. replace (0 + 80 * PI / 180 / 2 - 0) with (80 * PI / 180 / 2) in H by field.
  rewrite pattern_value in H by lra. cbn [osum2] in H. specialize (H ltac:(repeat constructor; cbn; lra) ltac:(exists 40; left; reflexivity)). injection H as H.
  replace (80 * PI / 180 / 2 / 2) with (80 * PI / 180 / 4) in H by field. destruct (exponent_pos 40 ltac:(lra)) as [_ [A B]]. destruct (exponent_pos 80 ltac:(lra)) as [_ [C D]]. pose proof cos20 as E.
  unfold exponent in H. set (x := cos (40 * PI / 180 / 4)) in *. set (y := cos (80 * PI / 180 / 4)) in *. assert (LX : ln x < 0) by (rewrite <- ln_1; apply ln_increasing; lra). assert (LY : ln y < ln x) by (apply ln_increasing; lra).
  pose proof ln10_pos as T. replace (20 * (-3 / (20 * (ln x / ln 10))) * (ln y / ln 10) + 0) with (- 3 * (ln y / ln x)) in H by (field; lra).
  assert (Q : ln y / ln x = 1) by lra. assert (ln y = ln x) by (apply Rmult_eq_reg_r with (/ ln x); [fold (ln y / ln x); rewrite Q; field; lra|apply Rinv_neq_0_compat; lra]). lra.
Qed.
Print Assumptions C110_beamwidth_refuted.
(** It holds if the attribute was not changed after the last SetBeamwidth (the macro MAC layers call SetBeamwidth with GetBeamwidth (); no 180 degrees limit there). Then the gain is MaxGain in the
    direction of the orientation, the same on both sides, decreasing to both sides, minus infinity at the back, and has period 2 pi. MaxGain is what the attribute was set to last. *)
Theorem C110_beamwidth_partial : forall a ops bw ops', 0 < bw < 360 -> (forall o, In o ops' -> match o with BMax _ => True | _ => False end) ->
  let a' := fold_left bstep (ops ++ BSet bw :: ops') a in
  let g off := rx_gain a' (a_orient a' + off) in
  a_bw a' = bw /\
  g (bw * PI / 180 / 2) = Some (a_max a' - 3) /\ g (- (bw * PI / 180 / 2)) = Some (a_max a' - 3) /\
  g 0 = Some (a_max a') /\ g PI = None /\
  (forall p q, 0 <= p < q -> q < PI -> exists u v, g p = Some u /\ g (- p) = Some u /\ g q = Some v /\ g (- q) = Some v /\ v < u) /\
  (forall dir n, rx_gain a' (dir + 2 * PI * IZR n) = rx_gain a' dir) /\
  (forall ops1 m, ops' = ops1 ++ [BMax m] -> a_max a' = m).
Proof.
  intros a ops bw ops' B O a'. assert (MX : forall ops1 m, ops' = ops1 ++ [BMax m] -> a_max a' = m).
  { intros ops1 m E. unfold a'. rewrite E. change (BSet bw :: ops1 ++ [BMax m]) with ((BSet bw :: ops1) ++ [BMax m]). rewrite app_assoc, fold_left_app. reflexivity. }
  assert (X : a_exp a' = exponent bw /\ a_bw a' = bw).
  { unfold a'. rewrite fold_left_app. cbn [fold_left bstep]. generalize (fold_left bstep ops a). intros b.
    assert (G : forall l c, (forall o, In o l -> match o with BMax _ => True | _ => False end) -> a_exp c = exponent bw /\ a_bw c = bw -> a_exp (fold_left bstep l c) = exponent bw /\ a_bw (fold_left bstep l c) = bw).
    { induction l as [|o l IH]; intros c L C; [exact C|]. cbn [fold_left]. apply IH; [intros; apply L; right; auto|]. specialize (L o (or_introl eq_refl)). destruct o; try contradiction. exact C. }
    apply G; auto. }
  destruct X as [E W]. clearbody a'. cbn zeta. unfold rx_gain. rewrite E. pose proof PI_RGT_0 as P. destruct (exponent_pos bw B) as [EP _].
  assert (HB : 0 < bw * PI / 180 / 2 < PI) by (split; nra). assert (SH : forall y, a_orient a' + y - a_orient a' = y) by (intros; ring). split; [exact W|].
  split; [rewrite SH, wrap_id, pattern_half by (auto; lra); cbn [osum2]; f_equal; ring|]. split; [rewrite SH, wrap_id, pattern_sym, pattern_half by (auto; lra); cbn [osum2]; f_equal; ring|].
  split; [rewrite SH, wrap_id, pattern_zero by lra; cbn [osum2]; f_equal; ring|]. split; [rewrite SH, wrap_id, pattern_pi by lra; reflexivity|]. split.
  - intros p q H Q. rewrite !SH, !wrap_id by lra. rewrite !pattern_sym by lra. destruct (pattern_decreasing (exponent bw) p q EP H Q) as (u & v & U & V & L). rewrite U, V. cbn [osum2].
    exists (u + a_max a'), (v + a_max a'). repeat split; auto. lra.
  - split; [|exact MX]. intros dir n. replace (dir + 2 * PI * IZR n - a_orient a') with (dir - a_orient a' + 2 * PI * IZR n) by ring. rewrite wrap_shift. reflexivity.
Qed.
Print Assumptions C110_beamwidth_partial.
(** The loops that normalise an angle end, with the one equivalent angle above -pi and up to pi. *)
Theorem C110_loops : forall p, exists r, loops p r /\ - PI < r <= PI /\ (exists n, r = p + 2 * PI * IZR n) /\ (forall r', loops p r' -> r' = r).
Proof. intros p. exists (wrap p). split; [apply loops_wrap|]. split; [apply wrap_bounds|]. split; [exists (Int_part ((PI - p) / (2 * PI))); reflexivity|]. apply loops_det. Qed.
Print Assumptions C110_loops.
Example C110_example : let a := fold_left bstep [BAttr 80; BSet 40; BMax 14] (Ant 1 40 1 0 0) in a_bw a = 40 /\ a_max a = 14 /\ rx_gain a 0 = Some 14 /\ loops (3 * PI / 2) (- (PI / 2)).
Proof.
  cbn. split; [reflexivity|]. split; [reflexivity|]. pose proof PI_RGT_0. split; [unfold rx_gain; cbn; rewrite Rminus_0_r, wrap_id, pattern_zero by lra; cbn; f_equal; ring|].
  replace (- (PI / 2)) with (wrap (3 * PI / 2)) by (apply (wrap_unique _ _ (-1)); lra). apply loops_wrap.
Qed.

(** * C111: only its own MAC layer turns an antenna *)

(** The orientation a node was last given by its MAC layer, at first [o0]. *)
Definition tuned (o0 : nat -> R) (l : list aop) (i : nat) : R :=
  fold_left (fun o op => match op with OReceive j deg => if Nat.eqb j i then deg * PI / 180 else o | _ => o end) l (o0 i).
Definition modes01 (c : chan) : Prop := forall i a, nth_error (c_dev c) i = Some a -> a_mode a = 0%Z \/ a_mode a = 1%Z.
Definition oriented (o0 : nat -> R) (c : chan) : Prop := forall i a, nth_error (c_dev c) i = Some a -> a_orient a = o0 i.
(** After every run, each antenna that receives has the orientation its own MAC layer gave it last. *)
Definition C111_full := forall az c o0 l i a, modes01 c -> oriented o0 c ->
  nth_error (c_dev (arun az c l)) i = Some a -> a_mode a = 1%Z -> a_orient a = tuned o0 l i.
(** Node 0 is a transmitter, nodes 1 and 2 receive with orientations 0 and 1. When node 1 sends (a CTS, say) node 2 is turned to orientation 0. *)
Definition turn_net : chan := Chan [Ant 0 40 1 0 0; Ant 1 40 1 0 0; Ant 1 40 1 0 1] 0.
Definition turn_o0 (i : nat) : R := match i with 2%nat => 1 | _ => 0 end.
Theorem C111_turned_refuted : ~ C111_full.
Proof.
  intros H. assert (E : 0 = 1); [|lra]. apply (H (fun _ _ => 0) turn_net turn_o0 [OSend 1] 2%nat (Ant 1 40 1 0 0)).
  - intros i a N. destruct i as [|[|[|i]]]; cbn in N; try (injection N as <-; cbn; auto). destruct i; discriminate N.
  - intros i a N. destruct i as [|[|[|i]]]; cbn in N; try (injection N as <-; cbn; auto). destruct i; discriminate N.
  - reflexivity.
  - reflexivity.
Qed.
Print Assumptions C111_turned_refuted.
(** A receiving antenna sends only if it is the only one that receives. *)
Definition lone (az : nat -> nat -> R) (c : chan) (l : list aop) : Prop := forall l1 i l2 s, l = l1 ++ OSend i :: l2 ->
  nth_error (c_dev (arun az c l1)) i = Some s -> a_mode s = 0%Z \/ forall j a, nth_error (c_dev (arun az c l1)) j = Some a -> j <> i -> a_mode a = 0%Z.
Theorem C111_turned_partial : forall az c o0 l i a, modes01 c -> oriented o0 c -> lone az c l ->
  nth_error (c_dev (arun az c l)) i = Some a -> a_mode a = 1%Z -> a_orient a = tuned o0 l i.
Proof.
  intros az c o0 l i a M O L.
  assert (G : modes01 (arun az c l) /\ forall j b, nth_error (c_dev (arun az c l)) j = Some b -> a_mode b = 1%Z -> a_orient b = tuned o0 l j).
  2: { intros N A. apply G; auto. }
  induction l as [|op l IH] using rev_ind; [split; [exact M|intros j b N _; apply O; auto]|].
  destruct IH as [IM IO]. { intros l1 k l2 s E. apply (L l1 k (l2 ++ [op])). rewrite E, <- app_assoc. reflexivity. }
  unfold arun, tuned in *. rewrite fold_left_app. cbn [fold_left]. set (d := fold_left (astep az) l c) in *. destruct op as [x|x deg|x]; cbn [astep].
  - destruct (nth_error (c_dev d) x) as [s|] eqn:S; [|unfold send; rewrite S; cbn [fst]; split; [exact IM|]; intros j b N A; rewrite fold_left_app; cbn [fold_left]; apply IO; auto].
    assert (SPLIT : forall j b, nth_error (c_dev (fst (send az d x))) j = Some b -> exists b0, nth_error (c_dev d) j = Some b0 /\ a_mode b = a_mode b0 /\ (a_mode b0 = 1%Z -> a_orient b = a_orient b0)).
    { intros j b N. destruct (nth_error (c_dev d) j) as [b0|] eqn:N0; [|apply nth_error_None in N0; rewrite <- (send_len az d x) in N0; apply nth_error_None in N0; congruence].
      exists b0. split; [reflexivity|]. destruct (send_dev az d x s j b0 S N0) as [SX SN]. destruct (Nat.eq_dec j x) as [->|NE].
      - rewrite (SX eq_refl) in N. injection N as <-. auto.
      - destruct (SN NE) as (ro & R & _). rewrite R in N. injection N as <-. cbn [with_orient a_mode a_orient]. split; [reflexivity|]. intros A. unfold pair_ro. rewrite A.
        destruct (L l x [] s) as [S0|S0]; [reflexivity|exact S| |].
        + rewrite S0. reflexivity.
        + specialize (S0 j b0 N0 NE). congruence. }
    split.
    + intros j b N. destruct (SPLIT j b N) as (b0 & N0 & E & _). rewrite E. apply (IM j b0 N0).
    + intros j b N A. rewrite fold_left_app. cbn [fold_left]. destruct (SPLIT j b N) as (b0 & N0 & E & EO). rewrite EO by congruence. apply IO; [auto|congruence].
  - split; [intros j b N|intros j b N A; rewrite fold_left_app; cbn [fold_left]]; cbn [c_dev] in N; rewrite upd_nth in N; destruct (nth_error (c_dev d) j) as [b0|] eqn:N0; cbn [option_map] in N; try discriminate N; injection N as <-.
    + destruct (Nat.eqb j x); [right; reflexivity|apply (IM j b0 N0)].
    + rewrite (Nat.eqb_sym x j). destruct (Nat.eqb j x); [reflexivity|]. apply IO; auto.
  - split; [intros j b N|intros j b N A; rewrite fold_left_app; cbn [fold_left]]; cbn [c_dev] in N; rewrite upd_nth in N; destruct (nth_error (c_dev d) j) as [b0|] eqn:N0; cbn [option_map] in N; try discriminate N; injection N as <-.
    + destruct (Nat.eqb j x); [left; reflexivity|apply (IM j b0 N0)].
    + destruct (Nat.eqb j x); [discriminate A|]. apply IO; auto.
Qed.
Print Assumptions C111_turned_partial.
(** An access point and two clients: all may send, the access point turns. *)
Definition ap_net : chan := Chan [Ant 1 40 1 0 0; Ant 0 40 1 0 0; Ant 0 40 1 0 0] 0.
Example C111_example : modes01 ap_net /\ oriented (fun _ => 0) ap_net /\ lone (fun _ _ => 0) ap_net [OSend 1; OReceive 0 12; OSend 0] /\
  exists a, nth_error (c_dev (arun (fun _ _ => 0) ap_net [OSend 1; OReceive 0 12; OSend 0])) 0 = Some a /\ a_orient a = 12 * PI / 180.
Proof.
  split; [intros i a N; destruct i as [|[|[|i]]]; cbn in N; try (injection N as <-; cbn; auto); destruct i; discriminate N|].
  split; [intros i a N; destruct i as [|[|[|i]]]; cbn in N; try (injection N as <-; cbn; auto); destruct i; discriminate N|].
  split; [|eexists; split; reflexivity].
  intros l1 i l2 s E N. destruct l1 as [|o1 [|o2 [|o3 l1]]]; cbn in E.
  - injection E as <- <-. injection N as <-. left; reflexivity.
  - injection E as _ E _. discriminate E.
  - injection E as <- <- <- <-. right. intros j a J NE. destruct j as [|[|[|j]]]; cbn in J; [contradiction|injection J as <-; reflexivity|injection J as <-; reflexivity|destruct j; discriminate J].
  - injection E as _ _ _ E. destruct l1; discriminate E.
Qed.

(** * C112: the gain of a pair depends on the pair alone *)

Definition modes_in (ms : list Z) (c : chan) : Prop := forall i a, nth_error (c_dev c) i = Some a -> In (a_mode a) ms.
Definition C112_full := forall az c c' x i s a, modes_in [0; 1; 2]%Z c -> modes_in [0; 1; 2]%Z c' -> i <> x ->
  nth_error (c_dev c) x = Some s -> nth_error (c_dev c') x = Some s -> nth_error (c_dev c) i = Some a -> nth_error (c_dev c') i = Some a ->
  nth_error (snd (send az c x)) i = nth_error (snd (send az c' x)) i.
(** Node 0 is omnidirectional (mode 2), node 1 a directional transmitter: the orientation used for the gain from 0 to 1 is that of node 2, if node 2 sent before. *)
Definition stale_net (o : R) : chan := arun (fun _ _ => 0) (Chan [Ant 2 40 1 0 0; Ant 0 40 1 0 0; Ant 1 40 1 0 o] 0) [OSend 2; OReceive 1 0; OTransmit 1].
Theorem C112_pair_refuted : ~ C112_full.
Proof.
  intros H. specialize (H (fun _ _ => 0) (stale_net 0) (stale_net (- PI)) 0%nat 1%nat (Ant 2 40 1 0 0) (Ant 0 40 1 0 (0 * PI / 180))).
  assert (M : forall o, modes_in [0; 1; 2]%Z (stale_net o)). { intros o i a N. destruct i as [|[|[|i]]]; cbn in N; try (injection N as <-; cbn; auto). destruct i; discriminate N. }
  specialize (H (M 0) (M (- PI)) ltac:(discriminate) eq_refl eq_refl eq_refl eq_refl). cbn in H. injection H as H.
  pose proof PI_RGT_0 as P. replace (0 - - PI) with PI in H by ring. replace (0 - 0) with 0 in H by ring. rewrite !wrap_id in H by lra. rewrite pattern_pi, pattern_zero in H. discriminate H.
Qed.
Print Assumptions C112_pair_refuted.
(** For directional transmitters and receivers (modes 0 and 1) it depends on the two antennas and their directions only. *)
Theorem C112_pair_partial : forall az c c' x i s a, modes_in [0; 1]%Z c -> modes_in [0; 1]%Z c' -> i <> x ->
  nth_error (c_dev c) x = Some s -> nth_error (c_dev c') x = Some s -> nth_error (c_dev c) i = Some a -> nth_error (c_dev c') i = Some a ->
  nth_error (snd (send az c x)) i = nth_error (snd (send az c' x)) i.
Proof.
  intros az c c' x i s a M M' NE S S' A A'. destruct (send_dev az c x s i a S A) as [_ G]. destruct (send_dev az c' x s i a S' A') as [_ G']. destruct (G NE) as (r & _ & E). destruct (G' NE) as (r' & _ & E').
  rewrite E, E'. pose proof (M x s S) as MS. pose proof (M i a A) as MA. cbn in MS, MA. unfold pair_ro, antenna_gain, mode_bool. destruct MS as [<-|[<-|[]]], MA as [<-|[<-|[]]]; reflexivity.
Qed.
Print Assumptions C112_pair_partial.
Example C112_example : modes_in [0; 1]%Z ap_net /\ nth_error (c_dev ap_net) 0 = Some (Ant 1 40 1 0 0) /\
  nth_error (snd (send (fun _ _ => 0) ap_net 1)) 0 = nth_error (snd (send (fun _ _ => 0) (Chan (c_dev ap_net ++ [Ant 1 40 1 0 5]) 7) 1)) 0.
Proof.
  split; [intros i a N; destruct i as [|[|[|i]]]; cbn in N; try (injection N as <-; cbn; auto); destruct i; discriminate N|]. split; reflexivity.
Qed.

(** * C113: each antenna contributes its own gain *)

(** From receiver to transmitter and back: the pattern of the antenna with a direction, and MaxGain of the other one that points to it. Between omnidirectional antennas: MaxGain of both. *)
Definition C113_full := forall az c x i s a g, i <> x -> nth_error (c_dev c) x = Some s -> nth_error (c_dev c) i = Some a -> nth_error (snd (send az c x)) i = Some (Some g) ->
  (a_mode s = 1%Z -> a_mode a = 0%Z -> g = osum2 (rx_gain s (az i x)) (Some (a_max a))) /\
  (a_mode s = 0%Z -> a_mode a = 1%Z -> g = osum2 (rx_gain a (az x i)) (Some (a_max s))) /\
  (a_mode s = 2%Z -> a_mode a = 2%Z -> g = Some (a_max s + a_max a)).
(** Nanodevices set MaxGain to 40 dB (thz-mac-nano.cc:137-153), but the gain is 0. *)
Theorem C113_own_refuted : ~ C113_full.
Proof.
  intros H. destruct (H (fun _ _ => 0) (Chan [Ant 2 360 1 40 0; Ant 2 360 1 40 0] 0) 0%nat 1%nat (Ant 2 360 1 40 0) (Ant 2 360 1 40 0) (Some 0) ltac:(discriminate) eq_refl eq_refl eq_refl) as (_ & _ & E).
  specialize (E eq_refl eq_refl). injection E as E. cbn in E. lra.
Qed.
Print Assumptions C113_own_refuted.
(** For directed pairs exponent and MaxGain of the receiving device are used for both antennas: right if the antennas are of the same kind, and then the gain is the same in both directions. All other pairs have
    0 dB, whatever their antennas are. *)
Theorem C113_own_partial : forall az c x i s a g, i <> x -> nth_error (c_dev c) x = Some s -> nth_error (c_dev c) i = Some a -> nth_error (snd (send az c x)) i = Some (Some g) ->
  (a_mode s = 1%Z -> a_mode a = 0%Z -> a_exp s = a_exp a -> a_max s = a_max a -> g = osum2 (rx_gain s (az i x)) (Some (a_max a))) /\
  (a_mode s = 0%Z -> a_mode a = 1%Z -> a_max s = a_max a -> g = osum2 (rx_gain a (az x i)) (Some (a_max s))) /\
  (a_mode s = a_mode a -> g = Some 0) /\
  (forall g', a_mode s <> a_mode a -> modes01 c -> a_exp s = a_exp a -> a_max s = a_max a -> nth_error (snd (send az c i)) x = Some (Some g') -> g' = g).
Proof.
  intros az c x i s a g NE S A G. destruct (send_dev az c x s i a S A) as [_ H]. destruct (H NE) as (r & _ & E). rewrite E in G. injection G as <-.
  assert (TX : forall e m y, osum2 (pattern e (wrap (y - y))) (Some m) = Some m). { intros. pose proof PI_RGT_0. replace (y - y) with 0 by ring. rewrite wrap_id, pattern_zero by lra. cbn. f_equal. ring. }
  split; [|split; [|split]].
  - intros MS MA EX MX. unfold pair_ro, antenna_gain, mode_bool. rewrite MS, MA. cbn. rewrite TX. unfold rx_gain. rewrite EX, MX. reflexivity.
  - intros MS MA MX. unfold pair_ro, antenna_gain, mode_bool. rewrite MS, MA. cbn. rewrite TX. unfold rx_gain. rewrite MX. reflexivity.
  - intros MM. unfold antenna_gain. rewrite MM. destruct (mode_bool (a_mode a)); reflexivity.
  - intros g' MM M EX MX G'. destruct (send_dev az c i a x s A S) as [_ H']. destruct (H' (not_eq_sym NE)) as (r' & _ & E'). rewrite E' in G'. injection G' as <-.
    pose proof (M x s S) as MS. pose proof (M i a A) as MA. unfold pair_ro, antenna_gain, mode_bool.
    destruct MS as [MS|MS], MA as [MA|MA]; rewrite MS, MA in *; try congruence; cbn; rewrite !TX, EX, MX; reflexivity.
Qed.
Print Assumptions C113_own_partial.
Example C113_example : nth_error (snd (send (fun _ _ => 0) ap_net 1)) 0 = Some (Some (Some 0)) /\ nth_error (snd (send (fun _ _ => 0) ap_net 0)) 1 = Some (Some (Some 0)).
Proof.
  pose proof PI_RGT_0. cbn. rewrite Rminus_0_r, !wrap_id, pattern_zero by lra. cbn. split; repeat f_equal; ring.
Qed.
