(** Lemmas about spectra. *)
From Coq Require Import ZArith List QArith Qfield Lia Bool Lqa.
From Verif Require Import WaveModel.
Import ListNotations.
Open Scope Q_scope.

Lemma upto_length n : (0 <= n)%Z -> Z.of_nat (length (upto n)) = n.
Proof. intros. unfold upto. rewrite map_length, seq_length. lia. Qed.
Lemma in_upto n j : In j (upto n) <-> (0 <= j < n)%Z.
Proof.
  unfold upto. rewrite in_map_iff. split.
  - intros (k & <- & K). apply in_seq in K. lia.
  - intros H. exists (Z.to_nat j). split; [lia|]. apply in_seq. lia.
Qed.
Lemma qsum_const {A} (v : Q) (l : list A) : qsum (map (fun _ => v) l) == inject_Z (Z.of_nat (length l)) * v.
Proof.
  induction l as [|x l IH]; [cbn; ring|]. unfold qsum in *. cbn [map fold_right length]. rewrite IH, Nat2Z.inj_succ. unfold Z.succ. rewrite inject_Z_plus. change (inject_Z 1) with 1. ring.
Qed.
Lemma qsum_scale {A} (g : A -> Q) k (l : list A) : qsum (map (fun x => g x * k) l) == qsum (map g l) * k.
Proof. induction l as [|x l IH]; [cbn; ring|]. unfold qsum in *. cbn [map fold_right]. rewrite IH. ring. Qed.
Lemma qsum_app l l' : qsum (l ++ l') == qsum l + qsum l'.
Proof. induction l as [|x l IH]; cbn [app]; [unfold qsum; cbn; ring|]. unfold qsum in *. cbn [fold_right]. rewrite IH. ring. Qed.
Lemma qsum_pos {A} (g : A -> Q) l : l <> [] -> (forall x, 0 < g x) -> 0 < qsum (map g l).
Proof.
  intros N G. destruct l as [|x l]; [contradiction|]. clear N. revert x. induction l as [|y l IH]; intros x.
  - cbn. rewrite Qplus_0_r. auto.
  - change (qsum (map g (x :: y :: l))) with (g x + qsum (map g (y :: l))). specialize (IH y). specialize (G x). lra.
Qed.

(** Truncation of a positive quotient. *)
Lemma qtrunc_spec q : 0 <= q -> inject_Z (qtrunc q) <= q < inject_Z (qtrunc q) + 1.
Proof.
  intros H. unfold qtrunc. destruct q as [n d]. unfold Qle in H. cbn in H. cbn [Qnum Qden].
  assert (N : (0 <= n)%Z) by lia. rewrite Z.quot_div_nonneg by lia.
  pose proof (Z.mul_div_le n (Zpos d) ltac:(lia)) as A. pose proof (Z.mul_succ_div_gt n (Zpos d) ltac:(lia)) as B.
  change 1 with (inject_Z 1). rewrite <- inject_Z_plus. unfold inject_Z, Qle, Qlt. cbn [Qnum Qden]. split; nia.
Qed.
Lemma qtrunc_exact n q : q == inject_Z n -> (0 <= n)%Z -> qtrunc q = n.
Proof.
  intros E N. assert (P0 : 0 <= inject_Z n) by (change 0 with (inject_Z 0); rewrite <- Zle_Qle; auto). assert (P : 0 <= q) by lra. pose proof (qtrunc_spec q P) as [A0 B0].
  assert (A : inject_Z (qtrunc q) <= inject_Z n) by lra. assert (B : inject_Z n < inject_Z (qtrunc q) + 1) by lra.
  change 1 with (inject_Z 1) in B. rewrite <- inject_Z_plus in B. rewrite <- Zle_Qle in A. rewrite <- Zlt_Qlt in B. lia.
Qed.
Lemma qtrunc_nonneg q : 0 <= q -> (0 <= qtrunc q)%Z.
Proof. intros H. unfold qtrunc. destruct q as [n d]. unfold Qle in H. cbn in *. apply Z.quot_pos; lia. Qed.
Lemma inj_pos n : (0 < n)%Z -> 0 < inject_Z n.
Proof. intros. change 0 with (inject_Z 0). rewrite <- Zlt_Qlt. auto. Qed.
Lemma inj_nonneg n : (0 <= n)%Z -> 0 <= inject_Z n.
Proof. intros. change 0 with (inject_Z 0). rewrite <- Zle_Qle. auto. Qed.
Lemma quot_exact a b : (0 <= a)%Z -> (0 < b)%Z -> (b | a)%Z -> inject_Z a == inject_Z (Z.quot a b) * inject_Z b.
Proof.
  intros A B [k ->]. rewrite Z.quot_mul by lia. rewrite inject_Z_mult. reflexivity.
Qed.

(** Power of the flat spectrum. *)
Lemma flat_power c p : (0 < w_samples c)%Z -> 0 < w_tbw c ->
  integrate c (numsb c) (flat_psd c p) == p * (inject_Z (numsb c) * w_sbw c / w_tbw c).
Proof.
  intros S T. unfold integrate, flat_psd. rewrite qsum_const, upto_length by lia. pose proof (inj_pos _ S). field. split; lra.
Qed.
Lemma numsb_spec c : 0 < w_sbw c -> 0 < w_tbw c -> inject_Z (numsb c) * w_sbw c <= w_tbw c /\ w_tbw c - w_sbw c < inject_Z (numsb c) * w_sbw c.
Proof.
  intros S T. unfold numsb. assert (P : 0 <= w_tbw c / w_sbw c) by (apply Qle_shift_div_l; lra). destruct (qtrunc_spec _ P) as [A B].
  assert (E : w_tbw c / w_sbw c * w_sbw c == w_tbw c) by (field; lra).
  set (x := w_tbw c / w_sbw c) in *. set (n := inject_Z (qtrunc x)) in *. clearbody x n. rewrite <- E. split; nra.
Qed.

(** Power of the pulse. *)
Lemma pulse_power c shape p : 0 < w_sbw c -> (0 < w_samples c <= pulse_numsb c)%Z -> (forall f, 0 < shape f) ->
  integrate c (pulse_numsb c) (pulse_psd c shape p) == p * (inject_Z (pulse_numsb c) / (inject_Z (w_samples c) * inject_Z (Z.quot (pulse_numsb c) (w_samples c)))).
Proof.
  intros B S G. unfold integrate, pulse_psd. rewrite (qsum_scale (fun b => shape (b_mid b))). unfold energy_constant.
  assert (P : 0 < qsum (map (fun b => shape (b_mid b)) (pulse_bands c))).
  { apply qsum_pos; auto. unfold pulse_bands. destruct (upto (w_samples c)) eqn:E; [|discriminate]. pose proof (upto_length (w_samples c)). rewrite E in H. cbn in H. lia. }
  set (q := qsum (map (fun b => shape (b_mid b)) (pulse_bands c))) in *. clearbody q.
  pose proof (inj_pos (w_samples c) ltac:(lia)). assert (K : (0 < Z.quot (pulse_numsb c) (w_samples c))%Z) by (apply Z.quot_str_pos; lia). apply inj_pos in K. field. repeat split; lra.
Qed.

(** Power of the mask. *)
Definition mask_power (c : wcfg) (p : Q) : Q := qsum (map (fun x => snd x * w_sbw c) (mask_writes c p)).
Lemma mask_total c p : 0 < w_sbw c -> 0 < w_tbw c -> mask_power c p == p * (inject_Z (Z.quot (numsb c) 24) / 4).
Proof.
  intros S T. unfold mask_power, mask_writes. set (n := Z.quot (numsb c) 24).
  assert (N : (0 <= n)%Z). { apply Z.quot_pos; [|lia]. apply qtrunc_nonneg. apply Qle_shift_div_l; lra. }
  assert (G : forall l, qsum (map (fun x => snd x * w_sbw c) (flat_map (fun g => map (fun i => ((n * g + i)%Z, p / (160269584 # 10000000) * mask_factor g / w_sbw c)) (upto n)) l)) ==
    inject_Z n * (p / (160269584 # 10000000)) * qsum (map mask_factor l)).
  { induction l as [|g l IH]; [cbn; ring|]. cbn [flat_map map]. rewrite map_app, qsum_app, IH, map_map. cbn [snd]. rewrite (qsum_const (p / (160269584 # 10000000) * mask_factor g / w_sbw c * w_sbw c)), upto_length by auto.
    unfold qsum at 2. cbn [fold_right]. fold (qsum (map mask_factor l)). field. lra. }
  rewrite G. assert (M : qsum (map mask_factor (map (fun k => (k + 7)%Z) (upto 12))) == 40067396 # 10000000) by (vm_compute; reflexivity).
  rewrite M. field.
Qed.
Lemma mask_bounds c p : 0 < w_sbw c -> 0 < w_tbw c -> forall i v, In (i, v) (mask_writes c p) -> (0 <= i < numsb c + 1)%Z.
Proof.
  intros S T i v I. unfold mask_writes in I. set (n := Z.quot (numsb c) 24) in *. apply in_flat_map in I. destruct I as (g & G & I).
  apply in_map_iff in G. destruct G as (k & <- & K). apply in_upto in K. apply in_map_iff in I. destruct I as (j & E & J). apply in_upto in J. injection E as <- _.
  assert (NS : (0 <= numsb c)%Z) by (apply qtrunc_nonneg; apply Qle_shift_div_l; lra).
  assert (B : (24 * n <= numsb c)%Z) by (unfold n; rewrite Z.quot_div_nonneg by lia; apply Z.mul_div_le; lia). nia.
Qed.
