(** Properties C121 and C122: frequencies of the bands, spectrum over the whole table. *)
From Coq Require Import ZArith List QArith Lia Lqa Sorted.
From Verif Require Import WaveModel WaveProofs FreqModel.
Import ListNotations.
Open Scope Q_scope.

(** * C121: the frequencies of the bands *)

(** A sorted table: numbers below the start frequency, then the others. *)
Lemma sorted_split fs t : StronglySorted Qle t -> exists lo hi, t = lo ++ hi /\ (forall x, In x lo -> Qle_bool fs x = false) /\ (forall x, In x hi -> Qle_bool fs x = true).
Proof.
  induction 1 as [|f r S IH F]; [exists [], []; repeat split; intros x []|]. destruct (Qle_bool fs f) eqn:E.
  - exists [], (f :: r). split; auto. split; [intros x []|]. intros x [<-|I]; auto. rewrite Forall_forall in F. apply Qle_bool_iff. apply Qle_bool_iff in E. eapply Qle_trans; [exact E|apply F; auto].
  - destruct IH as (lo & hi & -> & A & B). exists (f :: lo), hi. split; auto. split; auto. intros x [<-|I]; auto.
Qed.
Lemma below_split fs lo hi : (forall x, In x lo -> Qle_bool fs x = false) -> (forall x, In x hi -> Qle_bool fs x = true) ->
  below fs (lo ++ hi) = Z.of_nat (length lo) /\ skip_below fs (lo ++ hi) = tl hi.
Proof.
  intros A B. induction lo as [|f lo IH].
  - cbn [app length]. destruct hi as [|f hi]; [auto|]. cbn [below skip_below]. rewrite (B f (or_introl eq_refl)). auto.
  - cbn [app below skip_below length]. rewrite (A f (or_introl eq_refl)). destruct IH as [-> ->]; [intros; apply A; right; auto|]. split; [lia|auto].
Qed.
Lemma loop_hi fs n hi : (forall x, In x hi -> Qle_bool fs x = true) -> forall i, (i < n)%Z ->
  fst (store_loop fs n i hi) = combine (map (fun k => i + k)%Z (upto (Z.min (n - i) (Z.of_nat (length hi))))) hi /\
  snd (store_loop fs n i hi) = Z.min n (i + Z.of_nat (length hi))%Z.
Proof.
  induction hi as [|f hi IH]; intros B i L.
  - cbn [store_loop fst snd length]. split; [destruct (map _ _); reflexivity|lia].
  - cbn [store_loop]. rewrite (B f (or_introl eq_refl)). assert (UC : forall m, (0 < m)%Z -> map (fun k => i + k)%Z (upto m) = i :: map (fun k => (i + 1) + k)%Z (upto (m - 1))).
    { intros m M. unfold upto. replace (Z.to_nat m) with (S (Z.to_nat (m - 1))) by lia. cbn [seq map]. f_equal; [lia|]. rewrite <- seq_shift, !map_map. apply map_ext. intros. lia. }
    destruct (Z.eqb_spec (i + 1) n) as [E|E].
    + cbn [fst snd length]. replace (Z.min (n - i) (Z.of_nat (S (length hi)))) with 1%Z by lia. rewrite UC by lia. split; [|lia]. cbn. reflexivity.
    + destruct (IH ltac:(intros; apply B; right; auto) (i + 1)%Z ltac:(lia)) as [I1 I2]. cbn [fst snd]. rewrite I1, I2. cbn [length]. split; [|lia].
      rewrite UC by lia. cbn [combine]. f_equal. f_equal. f_equal. f_equal. lia.
Qed.
Lemma loop_split fs n lo hi : (forall x, In x lo -> Qle_bool fs x = false) -> store_loop fs n 0 (lo ++ hi) = (map (fun f => (0%Z, f)) lo ++ fst (store_loop fs n 0 hi), snd (store_loop fs n 0 hi)).
Proof.
  intros A. induction lo as [|f lo IH]; [cbn; destruct (store_loop fs n 0 hi); reflexivity|]. cbn [app store_loop]. rewrite (A f (or_introl eq_refl)), IH by (intros; apply A; right; auto). reflexivity.
Qed.
Lemma element_app k u v : element k (u ++ v) = match element k v with Some x => Some x | None => element k u end.
Proof.
  unfold element. rewrite fold_left_app. generalize (fold_left (fun x (e : Z * Q) => if (fst e =? k)%Z then Some (snd e) else x) u None). induction v as [|e v IH]; intros o; cbn [fold_left]; [destruct o; reflexivity|].
  rewrite IH. rewrite (IH (if (fst e =? k)%Z then Some (snd e) else None)). destruct (fold_left _ v None); auto. destruct (fst e =? k)%Z; auto.
Qed.
Lemma element_combine hi m k : (0 <= k < m)%Z -> (m <= Z.of_nat (length hi))%Z -> element k (combine (upto m) hi) = nth_error hi (Z.to_nat k).
Proof.
  intros K M. assert (G : forall hi i j, (j <= length hi)%nat -> element k (combine (map Z.of_nat (seq i j)) hi) = if ((Z.of_nat i <=? k) && (k <? Z.of_nat (i + j)))%bool%Z then nth_error hi (Z.to_nat k - i) else None).
  { clear. induction hi as [|f hi IH]; intros i j L.
    - cbn [length] in L. destruct j; [|lia]. cbn. destruct ((Z.of_nat i <=? k) && (k <? Z.of_nat (i + 0)))%bool%Z; [|reflexivity]. destruct (Z.to_nat k - i)%nat; reflexivity.
    - destruct j as [|j].
      + cbn [seq map combine]. change (element k []) with (@None Q). destruct (Z.leb_spec (Z.of_nat i) k); cbn [andb]; auto. destruct (Z.ltb_spec k (Z.of_nat (i + 0))); auto. lia.
      + cbn [seq map combine]. change ((Z.of_nat i, f) :: combine (map Z.of_nat (seq (S i) j)) hi) with ([(Z.of_nat i, f)] ++ combine (map Z.of_nat (seq (S i) j)) hi). rewrite element_app.
        cbn [length] in L. rewrite IH by lia. unfold element at 1. cbn [fold_left fst snd]. destruct (Z.eqb_spec (Z.of_nat i) k) as [E|E].
        * assert (X : ((Z.of_nat (S i) <=? k) && (k <? Z.of_nat (S i + j)))%bool%Z = false). { destruct (Z.leb_spec (Z.of_nat (S i)) k); auto. lia. } rewrite X.
          assert (Y : ((Z.of_nat i <=? k) && (k <? Z.of_nat (i + S j)))%bool%Z = true). { apply Bool.andb_true_iff. split; [apply Z.leb_le|apply Z.ltb_lt]; lia. } rewrite Y. replace (Z.to_nat k - i)%nat with 0%nat by lia. reflexivity.
        * replace (S i + j)%nat with (i + S j)%nat by lia. destruct (Z.leb_spec (Z.of_nat (S i)) k) as [L1|L1], (Z.leb_spec (Z.of_nat i) k) as [L2|L2]; cbn [andb]; try lia; auto.
          destruct (k <? Z.of_nat (i + S j))%Z eqn:L3; auto. apply Z.ltb_lt in L3. replace (Z.to_nat k - i)%nat with (S (Z.to_nat k - S i)) by lia. cbn [nth_error]. destruct (nth_error hi _) eqn:N; auto. }
  unfold upto. rewrite G by lia. assert (Y : ((Z.of_nat 0 <=? k) && (k <? Z.of_nat (0 + Z.to_nat m)))%bool%Z = true). { apply Bool.andb_true_iff. split; [apply Z.leb_le|apply Z.ltb_lt]; lia. } rewrite Y. rewrite Nat.sub_0_r. reflexivity.
Qed.

(** FreqSeqStart and FreqSeqEnd are the numbers, from 1 on, of the first and the last of the m_numsb frequencies from the start frequency on, if the
    sorted table has that many. FreqBands gives these frequencies. *)
Definition C121_full := forall fs n t lo hi, StronglySorted Qle t -> t = lo ++ hi -> (forall x, In x lo -> ~ fs <= x) -> (forall x, In x hi -> fs <= x) -> (0 < n <= Z.of_nat (length hi))%Z ->
  freq_seq_start fs t = (Z.of_nat (length lo) + 1)%Z /\ freq_seq_end fs n t = (Z.of_nat (length lo) + n)%Z /\
  forall k, (0 <= k < n)%Z -> element k (freq_bands fs n t) = nth_error hi (Z.to_nat k).
(** FreqSeqEnd does not count the first one. *)
Theorem C121_numbers_refuted : ~ C121_full.
Proof.
  intros H. destruct (H 5 2%Z [1; 5; 6] [1] [5; 6]) as (_ & X & _).
  - repeat constructor; vm_compute; discriminate.
  - reflexivity.
  - intros x [<-|[]]. vm_compute. intros Y. apply Y. reflexivity.
  - intros x [<-|[<-|[]]]; vm_compute; discriminate.
  - cbn. lia.
  - vm_compute in X. discriminate X.
Qed.
Print Assumptions C121_numbers_refuted.
(** FreqSeqEnd is right if the table has more, otherwise one too small. All elements written are among the first [n]. *)
Theorem C121_numbers_partial : forall fs n t lo hi, StronglySorted Qle t -> t = lo ++ hi -> (forall x, In x lo -> ~ fs <= x) -> (forall x, In x hi -> fs <= x) -> (0 < n <= Z.of_nat (length hi))%Z ->
  freq_seq_start fs t = (Z.of_nat (length lo) + 1)%Z /\
  (forall u, nth_error hi 0 = Some (freq_start_value fs u t)) /\
  freq_seq_end fs n t = (Z.of_nat (length lo) + if n =? Z.of_nat (length hi) then n - 1 else n)%Z /\
  (forall k, (0 <= k < n)%Z -> element k (freq_bands fs n t) = nth_error hi (Z.to_nat k)) /\
  (forall i f, In (i, f) (freq_bands fs n t) -> (0 <= i < n)%Z).
Proof.
  intros fs n t lo hi S E A' B' N.
  assert (A : forall x, In x lo -> Qle_bool fs x = false). { intros x I. destruct (Qle_bool fs x) eqn:Q; auto. apply Qle_bool_iff in Q. destruct (A' x I Q). }
  assert (B : forall x, In x hi -> Qle_bool fs x = true) by (intros x I; apply Qle_bool_iff; auto). subst t.
  destruct (below_split fs lo hi A B) as [L1 L2].
  split; [unfold freq_seq_start; rewrite L1; lia|]. split.
  { intros u. unfold freq_start_value. destruct hi as [|f hi]; [cbn in N; lia|]. cbn [nth_error]. f_equal. clear -A B. revert u. induction lo as [|x lo IH]; intros u; cbn [app start_value].
    - rewrite (B f (or_introl eq_refl)). reflexivity.
    - rewrite (A x (or_introl eq_refl)). apply IH. intros; apply A; right; auto. }
  split.
  { unfold freq_seq_end. rewrite L1, L2. destruct hi as [|f hi]; [cbn in N; lia|]. cbn [tl]. destruct (loop_hi fs n hi ltac:(intros; apply B; right; auto) 0 ltac:(lia)) as [_ ->].
    cbn [length] in *. destruct (Z.eqb_spec n (Z.of_nat (Datatypes.S (length hi)))); lia. }
  unfold freq_bands. rewrite loop_split by auto. destruct (loop_hi fs n hi B 0 ltac:(lia)) as [X _]. cbn [fst]. rewrite X. replace (Z.min (n - 0) (Z.of_nat (length hi))) with n by lia.
  assert (M0 : map (fun k => (0 + k)%Z) (upto n) = upto n) by (rewrite <- (map_id (upto n)) at 2; apply map_ext; intros; lia). rewrite M0. split.
  - intros k K. rewrite element_app, element_combine by lia. destruct (nth_error hi (Z.to_nat k)) eqn:Q; auto. apply nth_error_None in Q. lia.
  - intros i f I. apply in_app_or in I. destruct I as [I|I]; [apply in_map_iff in I; destruct I as (g & G & _); injection G as <- _; lia|]. apply in_combine_l, in_upto in I. lia.
Qed.
Print Assumptions C121_numbers_partial.
Example C121_example : freq_seq_start 5 [1; 2; 5; 6; 9] = 3%Z /\ freq_seq_end 5 2 [1; 2; 5; 6; 9] = 4%Z /\ element 1 (freq_bands 5 2 [1; 2; 5; 6; 9]) = Some 6.
Proof. vm_compute. auto. Qed.

(** FreqBands writes to a vector of m_numsb + 1 elements, made by THzSpectrumWaveformInitializer. *)
Definition C121_bounds_full := forall c t n, n = numsb c \/ n = pulse_numsb c -> StronglySorted Qle t -> forall i f, In (i, f) (freq_bands (fstart c) n t) -> (0 <= i < numsb c + 1)%Z.
(** Once THzPulseSpectrumWaveformInitializer has changed m_numsb, it writes beyond the end. *)
Theorem C121_bounds_refuted : ~ C121_bounds_full.
Proof.
  intros H. specialize (H wave_default (repeat 2000000000000 120) _ (or_intror eq_refl)). assert (S : StronglySorted Qle (repeat 2000000000000 120)).
  { generalize 120%nat. induction n; constructor; auto. apply Forall_forall. intros x I. apply repeat_spec in I. subst x. apply Qle_refl. }
  specialize (H S 110%Z 2000000000000). assert (I : In (110%Z, 2000000000000) (freq_bands (fstart wave_default) (pulse_numsb wave_default) (repeat 2000000000000 120))).
  { assert (E : nth_error (freq_bands (fstart wave_default) (pulse_numsb wave_default) (repeat 2000000000000 120)) 110 = Some (110%Z, 2000000000000)) by (vm_compute; reflexivity). eapply nth_error_In. exact E. }
  specialize (H I). assert (E : numsb wave_default = 97%Z) by (vm_compute; reflexivity). rewrite E in H. lia.
Qed.
Print Assumptions C121_bounds_refuted.

(** * C122: the spectrum over the whole table *)

(** Each element of CreateAllPowerSpectralDensity belongs to its band: the frequency it was computed for is inside. *)
Definition C122_full := forall c t k f b, 0 < w_sbw c -> nth_error t k = Some f -> nth_error (all_bands c t) k = Some b -> b_lo b <= f <= b_hi b.
(** The bands begin at 89.9378 GHz, the table at 0. *)
Theorem C122_all_refuted : ~ C122_full.
Proof. intros H. destruct (H wave_default [0] 0%nat 0 _ eq_refl eq_refl eq_refl) as [X _]. vm_compute in X. apply X. reflexivity. Qed.
Print Assumptions C122_all_refuted.
(** Proved: element [k] is the value for the number [k] of the table, each once; all are within the bands; the last band gets none. It belongs
    to its band exactly if the table has 89.9378 GHz + k sub-bands there, up to half a sub-band. *)
Theorem C122_all_partial : forall c shape t,
  (forall k f, nth_error t k = Some f -> nth_error (all_psd shape t) k = Some (Z.of_nat k, shape f)) /\
  length (all_psd shape t) = length t /\ length (all_bands c t) = S (length t) /\
  (forall k f b, nth_error t k = Some f -> nth_error (all_bands c t) k = Some b ->
     (b_lo b <= f <= b_hi b <-> - (1 # 2) * w_sbw c <= f - (89937800000 + inject_Z (Z.of_nat k) * w_sbw c) <= (1 # 2) * w_sbw c)).
Proof.
  intros c shape t. assert (UL : forall n, length (upto (Z.of_nat n)) = n) by (intros; unfold upto; rewrite map_length, seq_length; lia).
  assert (UN : forall n k, (k < n)%nat -> nth_error (upto (Z.of_nat n)) k = Some (Z.of_nat k)).
  { intros n k L. unfold upto. rewrite Nat2Z.id. apply map_nth_error. rewrite (nth_error_nth' _ 0%nat) by (rewrite seq_length; auto). rewrite seq_nth by auto. reflexivity. }
  split.
  { intros k f F. unfold all_psd. assert (L : (k < length t)%nat) by (apply nth_error_Some; congruence).
    assert (G : forall (u : list Z) (v : list Q) k x y, nth_error u k = Some x -> nth_error v k = Some y -> nth_error (combine u v) k = Some (x, y)).
    { clear. induction u as [|a u IH]; intros [|b v] [|k] x y X Y; cbn in *; try discriminate; try congruence. auto. }
    apply G; [apply UN; auto|]. apply map_nth_error. auto. }
  split; [unfold all_psd; rewrite combine_length, map_length, UL; lia|]. split.
  { unfold all_bands. rewrite map_length. replace (Z.of_nat (length t) + 1)%Z with (Z.of_nat (S (length t))) by lia. apply UL. }
  intros k f b F B. unfold all_bands in B. assert (L : (k < length t)%nat) by (apply nth_error_Some; congruence).
  replace (Z.of_nat (length t) + 1)%Z with (Z.of_nat (S (length t))) in B by lia. erewrite map_nth_error in B by (apply UN; lia). injection B as <-. cbn [b_lo b_hi].
  set (x := inject_Z (Z.of_nat k) * w_sbw c). 
  assert (E1 : 89937800000 + (inject_Z (Z.of_nat k) - (1 # 2)) * w_sbw c == 89937800000 + x - (1 # 2) * w_sbw c) by (unfold x; ring).
  assert (E2 : 89937800000 + (inject_Z (Z.of_nat k) + (1 # 2)) * w_sbw c == 89937800000 + x + (1 # 2) * w_sbw c) by (unfold x; ring).
  rewrite E1, E2. clearbody x. split; intros [P Q]; split; lra.
Qed.
Print Assumptions C122_all_partial.
Example C122_example : nth_error (all_psd (fun f => f * 2) [0; 7]) 1 = Some (1%Z, 7 * 2).
Proof. reflexivity. Qed.
