(** Properties of the transmitted spectra (C103-C106). *)
From Coq Require Import ZArith List QArith Qfield Lia Bool Lqa FinFun.
From Verif Require Import WaveModel WaveProofs.
Import ListNotations.
Open Scope Q_scope.

Definition wok (c : wcfg) : Prop := 0 < w_sbw c /\ w_sbw c <= w_tbw c /\ (0 < w_samples c)%Z.
(** Adjacent, and each of positive width. *)
Definition adjacent (l : list band) : Prop := forall i b b', nth_error l i = Some b -> nth_error l (S i) = Some b' -> b_hi b == b_lo b'.
Definition proper (l : list band) : Prop := forall b, In b l -> b_lo b < b_hi b.

(** * C103: the sample bands divide the band *)

(** The bands of the macro spectrum have positive width, adjoin one another, and span the sub-bands: from half a sub-band below the
    start value on, m_numsb sub-bands. *)
Definition C103_full := forall c f0, wok c ->
  adjacent (psd_bands c f0) /\ proper (psd_bands c f0) /\
  (forall b, nth_error (psd_bands c f0) 0 = Some b -> b_lo b == f0 - (1 # 2) * w_sbw c) /\
  (forall b, nth_error (psd_bands c f0) (Z.to_nat (w_samples c - 1)) = Some b -> b_hi b == f0 - (1 # 2) * w_sbw c + inject_Z (numsb c) * w_sbw c).
(** With the default attributes there are 97 sub-bands and 100 samples; the quotient of the int values is 0, and all bands are empty. *)
Theorem C103_bands_refuted : ~ C103_full.
Proof.
  intros H. destruct (H wave_default 997878880000) as (_ & P & _); [repeat split; vm_compute; congruence|].
  assert (I : In (hd (Band 0 0) (psd_bands wave_default 997878880000)) (psd_bands wave_default 997878880000)) by (vm_compute; left; reflexivity).
  specialize (P _ I). vm_compute in P. discriminate P.
Qed.
Print Assumptions C103_bands_refuted.
Example C103_witness : numsb wave_default = 97%Z /\ (forall b, In b (psd_bands wave_default 997878880000) -> Qeq_bool (b_lo b) (b_hi b) = true).
Proof. split; [vm_compute; reflexivity|]. apply forallb_forall. vm_compute. reflexivity. Qed.

Lemma nth_upto n i j : nth_error (upto n) i = Some j -> j = Z.of_nat i /\ (Z.of_nat i < n)%Z.
Proof.
  unfold upto. rewrite nth_error_map. destruct (nth_error (seq 0 (Z.to_nat n)) i) as [k|] eqn:E; [|discriminate]. cbn. intros H. injection H as <-.
  assert (L : (i < Z.to_nat n)%nat). { rewrite <- (seq_length (Z.to_nat n) 0). apply nth_error_Some. congruence. }
  rewrite (nth_error_nth' _ 0%nat) in E by (rewrite seq_length; auto). injection E as <-. rewrite seq_nth by auto. lia.
Qed.
Lemma psd_nth c f0 i b : nth_error (psd_bands c f0) i = Some b ->
  b = Band (f0 - (1 # 2) * w_sbw c + inject_Z (Z.of_nat i) * w_sbw c * inject_Z (Z.quot (numsb c) (w_samples c)))
           (f0 - (1 # 2) * w_sbw c + inject_Z (Z.of_nat i + 1) * w_sbw c * inject_Z (Z.quot (numsb c) (w_samples c))).
Proof.
  unfold psd_bands. rewrite nth_error_map. destruct (nth_error (upto (w_samples c)) i) as [j|] eqn:E; [|discriminate]. cbn [option_map]. intros H. injection H as <-.
  apply nth_upto in E. destruct E as [-> _]. reflexivity.
Qed.
(** It holds if the number of samples divides the number of sub-bands. The bands always adjoin; they have positive width if there are not more samples than
    sub-bands. The bands of THzSpectrumWaveformInitializer are always sound. *)
Theorem C103_bands_partial : forall c f0, wok c ->
  adjacent (psd_bands c f0) /\
  ((w_samples c <= numsb c)%Z -> proper (psd_bands c f0)) /\
  (forall b, nth_error (psd_bands c f0) 0 = Some b -> b_lo b == f0 - (1 # 2) * w_sbw c) /\
  ((w_samples c | numsb c)%Z ->
   forall b, nth_error (psd_bands c f0) (Z.to_nat (w_samples c - 1)) = Some b -> b_hi b == f0 - (1 # 2) * w_sbw c + inject_Z (numsb c) * w_sbw c) /\
  adjacent (wave_bands c f0) /\ proper (wave_bands c f0) /\ Z.of_nat (length (wave_bands c f0)) = (numsb c + 1)%Z.
Proof.
  intros c f0 (S & T & N). assert (NS : (0 <= numsb c)%Z) by (apply qtrunc_nonneg; apply Qle_shift_div_l; lra).
  split; [|split; [|split; [|split; [|split; [|split]]]]].
  - intros i b b' B B'. rewrite (psd_nth _ _ _ _ B), (psd_nth _ _ _ _ B'). cbn [b_lo b_hi]. rewrite Nat2Z.inj_succ. unfold Z.succ. reflexivity.
  - intros L b B. apply In_nth_error in B. destruct B as [i B]. rewrite (psd_nth _ _ _ _ B). cbn [b_lo b_hi]. rewrite inject_Z_plus. change (inject_Z 1) with 1.
    assert (K : (0 < Z.quot (numsb c) (w_samples c))%Z) by (apply Z.quot_str_pos; lia). apply inj_pos in K.
    assert (0 < w_sbw c * inject_Z (Z.quot (numsb c) (w_samples c))) by nra. set (x := inject_Z (Z.of_nat i)). nra.
  - intros b B. rewrite (psd_nth _ _ _ _ B). cbn [b_lo]. change (inject_Z (Z.of_nat 0)) with 0. ring.
  - intros D b B. rewrite (psd_nth _ _ _ _ B). cbn [b_hi]. rewrite Z2Nat.id by lia. replace (w_samples c - 1 + 1)%Z with (w_samples c) by lia.
    rewrite (quot_exact (numsb c) (w_samples c)) by auto. ring.
  - intros i b b'. unfold wave_bands. rewrite !nth_error_map. destruct (nth_error (upto (numsb c + 1)) i) as [j|] eqn:E; [|discriminate]. destruct (nth_error (upto (numsb c + 1)) (Datatypes.S i)) as [k|] eqn:E'; [|discriminate].
    cbn [option_map]. intros X Y. injection X as <-. injection Y as <-. cbn [b_lo b_hi]. apply nth_upto in E, E'. destruct E as [-> _], E' as [-> _].
    rewrite Nat2Z.inj_succ. unfold Z.succ. rewrite inject_Z_plus. change (inject_Z 1) with 1. ring.
  - intros b B. apply in_map_iff in B. destruct B as (j & <- & _). cbn [b_lo b_hi]. nra.
  - unfold wave_bands. rewrite map_length. apply upto_length. lia.
Qed.
Print Assumptions C103_bands_partial.
(** The bands of a pulse: positive width, adjoining, one for each sample; the first has its middle at 0.1 THz, and together they are as wide as the 3.9 THz up to 4 THz, up to one sub-band. *)
Theorem C103_pulse : forall c, 0 < w_sbw c -> w_sbw c <= 3900000000000 -> (0 < w_samples c)%Z ->
  adjacent (pulse_bands c) /\ proper (pulse_bands c) /\ Z.of_nat (length (pulse_bands c)) = w_samples c /\
  exists first last, nth_error (pulse_bands c) 0 = Some first /\ nth_error (pulse_bands c) (Z.to_nat (w_samples c - 1)) = Some last /\
    b_mid first == 100000000000 /\ 3900000000000 - w_sbw c < b_hi last - b_lo first <= 3900000000000.
Proof.
  intros c S B N. assert (NP : (0 < pulse_numsb c)%Z /\ inject_Z (pulse_numsb c) * w_sbw c <= 3900000000000 /\ 3900000000000 < inject_Z (pulse_numsb c) * w_sbw c + w_sbw c).
  { unfold pulse_numsb. set (q := (4000000000000 - 100000000000) / w_sbw c). assert (Q : q * w_sbw c == 3900000000000) by (unfold q; field; lra). clearbody q.
    assert (Q1 : 1 <= q) by nra. destruct (qtrunc_spec q ltac:(lra)) as [A1 A2]. split; [|split; nra].
    assert (0 < inject_Z (qtrunc q)) by lra. rewrite Zlt_Qlt. exact H. }
  destruct NP as (P & L & U). pose proof (inj_pos _ P) as P'. pose proof (inj_pos _ N) as N'.
  assert (NTH : forall i, (Z.of_nat i < w_samples c)%Z -> exists b, nth_error (pulse_bands c) i = Some b).
  { intros i I. destruct (nth_error (pulse_bands c) i) as [b|] eqn:E; [eauto|]. apply nth_error_None in E. unfold pulse_bands in E. rewrite map_length in E. pose proof (upto_length (w_samples c) ltac:(lia)). lia. }
  assert (FORM : forall i b, nth_error (pulse_bands c) i = Some b ->
    b_lo b == 100000000000 + (inject_Z (Z.of_nat i) - (1 # 2)) * (inject_Z (pulse_numsb c) * w_sbw c / inject_Z (w_samples c)) /\
    b_hi b == 100000000000 + (inject_Z (Z.of_nat i) + (1 # 2)) * (inject_Z (pulse_numsb c) * w_sbw c / inject_Z (w_samples c))).
  { intros i b. unfold pulse_bands. rewrite nth_error_map. destruct (nth_error (upto (w_samples c)) i) as [j|] eqn:E; [|discriminate]. cbn [option_map]. intros X. injection X as <-.
    apply nth_upto in E. destruct E as [-> _]. cbn [b_lo b_hi]. split; field; split; lra. }
  set (n := inject_Z (pulse_numsb c)) in *. set (k := inject_Z (w_samples c)) in *. set (w := n * w_sbw c / k) in *.
  assert (WK : w * k == n * w_sbw c) by (unfold w; field; lra). assert (W : 0 < w) by (unfold w; apply Qlt_shift_div_l; [exact N'|nra]). clearbody w.
  split; [|split; [|split]].
  - intros i b b' E E'. destruct (FORM _ _ E) as [_ X]. destruct (FORM _ _ E') as [Y _]. rewrite X, Y, Nat2Z.inj_succ. unfold Z.succ. rewrite inject_Z_plus. change (inject_Z 1) with 1. ring.
  - intros b I. apply In_nth_error in I. destruct I as [i I]. destruct (FORM _ _ I) as [X Y]. rewrite X, Y. set (z := inject_Z (Z.of_nat i)). nra.
  - unfold pulse_bands. rewrite map_length. apply upto_length. lia.
  - destruct (NTH 0%nat ltac:(lia)) as [f F]. destruct (NTH (Z.to_nat (w_samples c - 1)) ltac:(lia)) as [t T]. exists f, t. split; [exact F|]. split; [exact T|].
    destruct (FORM _ _ F) as [F1 F2]. destruct (FORM _ _ T) as [_ T2]. change (inject_Z (Z.of_nat 0)) with 0 in *. rewrite Z2Nat.id in T2 by lia.
    replace (w_samples c - 1)%Z with (w_samples c + -1)%Z in T2 by lia. rewrite inject_Z_plus in T2. fold k in T2. change (inject_Z (-1)) with (-1) in T2.
    split; [unfold b_mid; rewrite F1, F2; field|]. assert (E : b_hi t - b_lo f == w * k) by (rewrite T2, F1; ring). rewrite E, WK. split; lra.
Qed.
Print Assumptions C103_pulse.
Example C103_pulse_example : 0 < w_sbw wave_default /\ w_sbw wave_default <= 3900000000000 /\ (0 < w_samples wave_default)%Z /\
  option_map (fun b => (Qred (b_lo b), Qred (b_hi b))) (nth_error (pulse_bands wave_default) 1) = Some (Qred (100000000000 + (1 # 2) * 5111 * 762940000 / 100), Qred (100000000000 + (3 # 2) * 5111 * 762940000 / 100)).
Proof. repeat split; vm_compute; try reflexivity; discriminate. Qed.
(** 96 sub-bands and 48 samples. *)
Definition wave_even : wcfg := Wcfg 1000000 96000000 1000000000 48.
Example C103_example : wok wave_even /\ numsb wave_even = 96%Z /\ (w_samples wave_even | numsb wave_even)%Z /\
  map (fun b => (Qred (b_lo b), Qred (b_hi b))) (firstn 2 (psd_bands wave_even 1000000000)) = [(999500000, 1001500000); (1001500000, 1003500000)].
Proof. split; [repeat split; vm_compute; congruence|]. split; [reflexivity|]. split; [exists 2%Z; reflexivity|]. vm_compute. reflexivity. Qed.

(** * C104: power of the flat spectrum *)

(** What a receiver integrates without loss and gain is the transmit power. *)
Definition C104_full := forall c p, wok c -> 0 < p -> integrate c (numsb c) (flat_psd c p) == p.
(** With the default attributes the power is multiplied with 97 * 0.76294 / 74.768, 1 percent too small. *)
Theorem C104_power_refuted : ~ C104_full.
Proof. intros H. specialize (H wave_default 1 ltac:(repeat split; vm_compute; congruence) ltac:(reflexivity)). vm_compute in H. discriminate H. Qed.
Print Assumptions C104_power_refuted.
(** It is at most the transmit power and lacks less than one sub-band. It is exact if TotalBandWidth is a multiple of SubBandWidth. *)
Theorem C104_power_partial : forall c p, wok c -> 0 < p ->
  p * (1 - w_sbw c / w_tbw c) < integrate c (numsb c) (flat_psd c p) <= p /\
  (forall n, w_tbw c == inject_Z n * w_sbw c -> integrate c (numsb c) (flat_psd c p) == p).
Proof.
  intros c p (S & T & N) P. assert (T0 : 0 < w_tbw c) by lra. pose proof (flat_power c p N T0) as F. destruct (numsb_spec c S T0) as [A B].
  assert (Q1 : inject_Z (numsb c) * w_sbw c / w_tbw c <= 1) by (apply Qle_shift_div_r; lra).
  assert (Q2 : 1 - w_sbw c / w_tbw c < inject_Z (numsb c) * w_sbw c / w_tbw c).
  { apply Qlt_shift_div_l; auto. assert (E : (1 - w_sbw c / w_tbw c) * w_tbw c == w_tbw c - w_sbw c) by (field; lra). lra. }
  split.
  - set (x := inject_Z (numsb c) * w_sbw c / w_tbw c) in *. set (y := w_sbw c / w_tbw c) in *. clearbody x y. split; rewrite F; nra.
  - intros n E. assert (N0 : (0 <= n)%Z). { destruct (Z_le_gt_dec 0 n) as [|G]; auto. exfalso. assert (X : inject_Z n <= 0) by (change 0 with (inject_Z 0); rewrite <- Zle_Qle; lia). nra. }
    assert (M : numsb c = n). { apply qtrunc_exact; auto. rewrite E. field. lra. } rewrite F, M, <- E. field. lra.
Qed.
Print Assumptions C104_power_partial.
Example C104_example : wok wave_even /\ integrate wave_even (numsb wave_even) (flat_psd wave_even (1 # 100)) == 1 # 100.
Proof. split; [repeat split; vm_compute; congruence|]. vm_compute. reflexivity. Qed.

(** * C105: the mask *)

(** The spectrum of CreateTxPowerSpectralDensityMask has the transmit power: the sum over the bands of density times width. *)
Definition C105_full := forall c p, wok c -> qsum (map (fun x => snd x * w_sbw c) (mask_writes c p)) == p.
(** With twice the number of sub-bands the power is doubled. *)
Theorem C105_mask_refuted : ~ C105_full.
Proof. intros H. specialize (H (Wcfg 1000000 192000000 1000000000 1) 1 ltac:(repeat split; vm_compute; congruence)). vm_compute in H. discriminate H. Qed.
Print Assumptions C105_mask_refuted.
(** The power is multiplied with a quarter of the bands per group, so it is right exactly for 96 to 119 sub-bands. No index is outside the bands, none is written twice. *)
Theorem C105_mask_partial : forall c p, wok c -> 0 < p ->
  (qsum (map (fun x => snd x * w_sbw c) (mask_writes c p)) == p <-> (96 <= numsb c < 120)%Z) /\
  (forall i v, In (i, v) (mask_writes c p) -> (0 <= i)%Z /\ (Z.to_nat i < length (wave_bands c 0))%nat) /\
  NoDup (map fst (mask_writes c p)).
Proof.
  intros c p (S & T & N) P. assert (T0 : 0 < w_tbw c) by lra. assert (NS : (0 <= numsb c)%Z) by (apply qtrunc_nonneg; apply Qle_shift_div_l; lra).
  split; [|split].
  - pose proof (mask_total c p S T0) as M. unfold mask_power in M. rewrite M. rewrite Z.quot_div_nonneg by lia. set (k := (numsb c / 24)%Z).
    assert (K : (96 <= numsb c < 120)%Z <-> k = 4%Z).
    { unfold k. pose proof (Z.div_mod (numsb c) 24 ltac:(lia)). pose proof (Z.mod_pos_bound (numsb c) 24 ltac:(lia)). split; intros; lia. }
    rewrite K. split.
    + intros E. assert (inject_Z k == 4). { assert (X : inject_Z k == p * (inject_Z k / 4) * 4 / p) by (field; lra). rewrite X, E. field. lra. }
      change 4 with (inject_Z 4) in H. apply (proj1 (inject_Z_injective k 4)) in H. exact H.
    + intros ->. field.
  - intros i v I. pose proof (mask_bounds c p S T0 i v I). split; [lia|]. unfold wave_bands. rewrite map_length.
    pose proof (upto_length (numsb c + 1) ltac:(lia)). lia.
  - unfold mask_writes. set (n := Z.quot (numsb c) 24). assert (N0 : (0 <= n)%Z) by (apply Z.quot_pos; lia).
    assert (G : forall l, NoDup l -> NoDup (map fst (flat_map (fun g => map (fun i => ((n * g + i)%Z, p / (160269584 # 10000000) * mask_factor g / w_sbw c)) (upto n)) l))).
    { induction l as [|g l IH]; intros ND; [constructor|]. inversion ND; subst. cbn [flat_map]. rewrite map_app, map_map. cbn [fst].
      assert (D : NoDup (map (fun x => (n * g + x)%Z) (upto n))).
      { apply FinFun.Injective_map_NoDup; [intros x y; lia|]. unfold upto. apply FinFun.Injective_map_NoDup; [intros x y; lia|apply seq_NoDup]. }
      assert (X : forall z, In z (map (fun x => (n * g + x)%Z) (upto n)) -> ~ In z (map fst (flat_map (fun g0 => map (fun i => ((n * g0 + i)%Z, p / (160269584 # 10000000) * mask_factor g0 / w_sbw c)) (upto n)) l))).
      { intros z Z1 Z2. apply in_map_iff in Z1. destruct Z1 as (x & <- & X). apply in_upto in X. apply in_map_iff in Z2. destruct Z2 as ([z w] & E & Z2). cbn in E. subst z.
        apply in_flat_map in Z2. destruct Z2 as (g' & G' & Z2). apply in_map_iff in Z2. destruct Z2 as (y & E & Y). apply in_upto in Y. injection E as E _.
        assert (g = g') by nia. subst. contradiction. }
      revert D X. generalize (map (fun x => (n * g + x)%Z) (upto n)). specialize (IH H2). induction l0 as [|z l0 IH0]; intros D X; cbn [app]; auto. inversion D; subst. constructor; [|apply IH0; auto; intros; apply X; right; auto].
      intros I. apply in_app_or in I. destruct I as [I|I]; [contradiction|]. apply (X z); auto. left; auto. }
    apply G. apply FinFun.Injective_map_NoDup; [intros x y; lia|]. unfold upto. apply FinFun.Injective_map_NoDup; [intros x y; lia|apply seq_NoDup].
Qed.
Print Assumptions C105_mask_partial.
Example C105_example : wok wave_default /\ numsb wave_default = 97%Z /\ length (mask_writes wave_default 1) = 48%nat.
Proof. split; [repeat split; vm_compute; congruence|]. vm_compute. auto. Qed.

(** * C106: power of the pulse *)

(** What a receiver integrates without loss and gain is the transmit power, for every shape of the pulse. *)
Definition C106_full := forall c shape p, 0 < w_sbw c -> (0 < w_samples c)%Z -> (forall f, 0 < shape f) -> 0 < p -> integrate c (pulse_numsb c) (pulse_psd c shape p) == p.
(** With the default attributes there are 5111 sub-bands: the power is multiplied with 51.11 / 51. *)
Theorem C106_pulse_refuted : ~ C106_full.
Proof.
  intros H. specialize (H wave_default (fun _ => 1) 1 ltac:(reflexivity) ltac:(reflexivity) (fun _ => eq_refl) eq_refl).
  rewrite pulse_power in H; [vm_compute in H; discriminate H|reflexivity|split; vm_compute; congruence|reflexivity].
Qed.
Print Assumptions C106_pulse_refuted.
(** With at most as many samples as sub-bands it is at least the transmit power and less than twice of it; it is exact if and only if the number of samples divides
    that of the sub-bands. *)
Theorem C106_pulse_partial : forall c shape p, 0 < w_sbw c -> (0 < w_samples c <= pulse_numsb c)%Z -> (forall f, 0 < shape f) -> 0 < p ->
  p <= integrate c (pulse_numsb c) (pulse_psd c shape p) < 2 * p /\
  (integrate c (pulse_numsb c) (pulse_psd c shape p) == p <-> (w_samples c | pulse_numsb c)%Z).
Proof.
  intros c shape p S N G P. rewrite (pulse_power c shape p S N G). set (n := pulse_numsb c) in *. set (k := w_samples c) in *. clearbody n k.
  assert (Q : (0 < Z.quot n k)%Z) by (apply Z.quot_str_pos; lia). rewrite Z.quot_div_nonneg in * by lia. set (q := (n / k)%Z) in *.
  assert (A : (k * q <= n < k * (q + 1))%Z) by (unfold q; split; [apply Z.mul_div_le; lia|pose proof (Z.mul_succ_div_gt n k ltac:(lia)); unfold Z.succ in *; lia]).
  assert (KQ : 0 < inject_Z k * inject_Z q) by (rewrite <- inject_Z_mult; apply inj_pos; nia).
  assert (L1 : 1 <= inject_Z n / (inject_Z k * inject_Z q)). { apply Qle_shift_div_l; auto. rewrite Qmult_1_l, <- inject_Z_mult, <- Zle_Qle. lia. }
  assert (L2 : inject_Z n / (inject_Z k * inject_Z q) < 2). { apply Qlt_shift_div_r; auto. change 2 with (inject_Z 2). rewrite <- !inject_Z_mult, <- Zlt_Qlt. nia. }
  split; [set (x := inject_Z n / (inject_Z k * inject_Z q)) in *; clearbody x; split; nra|]. split.
  - intros E. assert (X : inject_Z n == inject_Z k * inject_Z q).
    { assert (Y : inject_Z n == p * (inject_Z n / (inject_Z k * inject_Z q)) * (inject_Z k * inject_Z q) / p) by (field; repeat split; nra). rewrite Y, E. field. lra. }
    rewrite <- inject_Z_mult in X. apply (proj1 (inject_Z_injective _ _)) in X. exists q. lia.
  - intros [m M]. assert (q = m) by (unfold q; rewrite M; apply Z.div_mul; lia). subst m. rewrite M at 1. rewrite inject_Z_mult. field. split; nra.
Qed.
Print Assumptions C106_pulse_partial.
Example C106_example : pulse_numsb wave_default = 5111%Z /\ (0 < w_samples wave_default <= pulse_numsb wave_default)%Z /\
  pulse_numsb (Wcfg 762940000 74768000000 1034500000000 269) = 5111%Z /\ (269 | 5111)%Z.
Proof. split; [reflexivity|]. split; [split; vm_compute; congruence|]. split; [reflexivity|]. exists 19%Z. reflexivity. Qed.
