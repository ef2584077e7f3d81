(** Proofs about the applications. *)
From Coq Require Import ZArith List Lia Bool.
From Verif Require Import Base AppModel.
Import ListNotations.
Open Scope Z_scope.

(** Every datagram carries the number of datagrams accepted before it, counted from [n]. *)
Fixpoint numbered (n : Z) (l : list tdg) : Prop :=
  match l with
  | [] => True
  | d :: r => td_seq d = n mod 2 ^ 32 /\ numbered (if td_ok d then n + 1 else n) r
  end.
Fixpoint accepted (l : list tdg) : Z :=
  match l with [] => 0 | d :: r => (if td_ok d then 1 else 0) + accepted r end.

Lemma numbered_app l : forall n r, numbered n l -> numbered (n + accepted l) r -> numbered n (l ++ r).
Proof.
  induction l as [|d l IH]; intros n r; cbn [numbered app accepted].
  - rewrite Z.add_0_r. auto.
  - intros [A B] C. split; auto. apply IH; auto. destruct (td_ok d).
    + rewrite <- Z.add_assoc. exact C.
    + exact C.
Qed.

Lemma numbered_shift l n : forall m, n mod 2 ^ 32 = m mod 2 ^ 32 -> numbered n l -> numbered m l.
Proof.
  revert n. induction l as [|d l IH]; intros n m E; cbn [numbered]; auto.
  intros [A B]. split; [congruence|]. apply (IH (if td_ok d then n + 1 else n)); auto.
  destruct (td_ok d); auto. rewrite <- (Z.add_mod_idemp_l n), <- (Z.add_mod_idemp_l m), E by (change (2^32) with 4294967296; lia). reflexivity.
Qed.

Lemma accepted_app l r : accepted (l ++ r) = accepted l + accepted r.
Proof. induction l as [|d l IH]; cbn [accepted app]; lia. Qed.

Definition sizes (l : list tdg) : list Z := map td_size l.

Lemma tc_packets_spec ok xs : forall s, tc_sent s = tc_sent s mod 2 ^ 32 ->
  let '(s', ds) := tc_packets ok xs s in
  tc_entries s' = tc_entries s /\ tc_cur s' = tc_cur s /\ tc_max s' = tc_max s /\
  sizes ds = map (Z.max 12) xs /\ numbered (tc_sent s) ds /\ tc_sent s' = (tc_sent s + accepted ds) mod 2 ^ 32.
Proof.
  induction xs as [|x xs IH]; intros s W; cbn [tc_packets].
  - cbn. rewrite Z.add_0_r. auto 10.
  - unfold tc_packet.
    set (s1 := Tcl (tc_entries s) (tc_cur s) (tc_max s)
       (if ok (tc_calls s) then (tc_sent s + 1) mod 2 ^ 32 else tc_sent s) (S (tc_calls s))).
    assert (W1 : tc_sent s1 = tc_sent s1 mod 2 ^ 32).
    { subst s1. cbn [tc_sent]. destruct (ok (tc_calls s)); auto. rewrite Z.mod_mod; auto. change (2^32) with 4294967296. lia. }
    specialize (IH s1 W1). destruct (tc_packets ok xs s1) as [s' ds].
    destruct IH as [A [B [C [D [E F]]]]]. subst s1. cbn [tc_entries tc_cur tc_max tc_sent] in *.
    repeat split; auto.
    + cbn [sizes map]. f_equal; auto. cbn [td_size]. destruct (Z.gtb_spec x 12); lia.
    + cbn [td_ok]. destruct (ok (tc_calls s)); auto. eapply numbered_shift; [|exact E].
      rewrite Z.mod_mod; auto. change (2^32) with 4294967296. lia.
    + rewrite F. cbn [accepted td_ok]. destruct (ok (tc_calls s)).
      * rewrite Z.add_mod_idemp_l by (change (2^32) with 4294967296; lia). f_equal. lia.
      * f_equal.
Qed.

Fixpoint total (l : list Z) : Z := match l with [] => 0 | x :: r => x + total r end.
Lemma total_app a b : total (a ++ b) = total a + total b.
Proof. induction a; cbn [total app]; lia. Qed.
Lemma total_repeat x n : total (repeat x n) = Z.of_nat n * x.
Proof. induction n; cbn [total repeat]; lia. Qed.

Lemma map_repeat {A B} (f : A -> B) x n : map f (repeat x n) = repeat (f x) n.
Proof. induction n; cbn; congruence. Qed.

Lemma frame_total max size : 12 <= max -> 0 <= size ->
  total (map (Z.max 12) (frame_sizes max size)) = size - size mod max + Z.max 12 (size mod max).
Proof.
  intros M S. unfold frame_sizes. rewrite map_app, total_app, map_repeat, total_repeat. cbn [map total].
  pose proof (Z.div_mod size max ltac:(lia)). pose proof (Z.div_pos size max ltac:(lia) ltac:(lia)).
  replace (Z.max 12 max) with max by lia. rewrite Z2Nat.id by lia. lia.
Qed.

Lemma frame_bound max size : 12 <= max -> 0 <= size -> Forall (fun x => x <= max) (map (Z.max 12) (frame_sizes max size)).
Proof.
  intros M S. unfold frame_sizes. rewrite map_app, map_repeat. apply Forall_app. split.
  - apply Forall_forall. intros x X. apply repeat_spec in X. lia.
  - constructor; [|constructor]. pose proof (Z.mod_pos_bound size max ltac:(lia)). lia.
Qed.

(** ** Termination of an activation *)

(** If entry [j] has a delay and is [d] > 0 steps ahead of the current one, an activation sends
    at most [d] frames. *)
Lemma tc_send_terminates ok n : forall s d,
  (0 < d <= n)%nat -> (tc_cur s < length (tc_entries s))%nat -> tc_max s <> 0 -> tc_sent s = tc_sent s mod 2 ^ 32 ->
  (exists e, nth_error (tc_entries s) (Nat.modulo (tc_cur s + d) (length (tc_entries s))) = Some e /\ te_time e <> 0) ->
  exists s' delay ds, tc_send ok n s = TDone s' delay ds /\ delay <> 0 /\
    tc_entries s' = tc_entries s /\ tc_max s' = tc_max s /\ (tc_cur s' < length (tc_entries s'))%nat /\
    numbered (tc_sent s) ds /\ tc_sent s' = (tc_sent s + accepted ds) mod 2 ^ 32.
Proof.
  induction n as [|n IH]; intros s d D L M W [e [N T]]; [lia|]. cbn [tc_send].
  destruct (nth_error (tc_entries s) (tc_cur s)) as [e0|] eqn:N0; [|apply nth_error_None in N0; lia].
  rewrite (proj2 (Z.eqb_neq _ _) M).
  pose proof (tc_packets_spec ok (frame_sizes (tc_max s) (te_size e0)) s W) as P.
  destruct (tc_packets ok (frame_sizes (tc_max s) (te_size e0)) s) as [s1 ds]. destruct P as [A [B [C [_ [Q F]]]]].
  cbn [tc_entries]. rewrite A, B. set (len := length (tc_entries s)) in *.
  assert (L1 : (Nat.modulo (S (tc_cur s)) len < len)%nat) by (apply Nat.mod_upper_bound; lia).
  destruct (nth_error (tc_entries s) (Nat.modulo (S (tc_cur s)) len)) as [e1|] eqn:N1;
    [|apply nth_error_None in N1; fold len in N1; lia].
  destruct (Z.eqb_spec (te_time e1) 0) as [Z0|Z0].
  - set (s2 := Tcl (tc_entries s) (Nat.modulo (S (tc_cur s)) len) (tc_max s1) (tc_sent s1) (tc_calls s1)).
    assert (D1 : (1 < d)%nat).
    { destruct (Nat.eq_dec d 1) as [->|]; [|lia]. rewrite Nat.add_1_r in N. rewrite N1 in N. injection N as <-. congruence. }
    destruct (IH s2 (d - 1)%nat) as [s' [delay [ds' [H1 [H2 [H3 [H4 [H5 [H6 H7]]]]]]]]].
    + lia.
    + subst s2. cbn [tc_cur tc_entries]. exact L1.
    + subst s2. cbn [tc_max]. congruence.
    + subst s2. cbn [tc_sent]. rewrite F, Z.mod_mod; auto. change (2^32) with 4294967296. lia.
    + exists e. split; auto. subst s2. cbn [tc_cur tc_entries]. fold len.
      rewrite Nat.add_mod_idemp_l by lia. replace (S (tc_cur s) + (d - 1))%nat with (tc_cur s + d)%nat by lia. exact N.
    + subst s2. cbn [tc_entries tc_max tc_sent] in *. rewrite H1. exists s', delay, (ds ++ ds').
      repeat split; auto; try congruence.
      * apply numbered_app; auto. eapply numbered_shift; [|exact H6]. rewrite F, Z.mod_mod; auto. change (2^32) with 4294967296. lia.
      * rewrite H7, F, accepted_app, Z.add_mod_idemp_l by (change (2^32) with 4294967296; lia). f_equal. lia.
  - eexists _, _, _. split; [reflexivity|]. cbn [tc_entries tc_max tc_cur tc_sent]. auto 10.
Qed.

Lemma reach_index (cur j len : nat) : (cur < len)%nat -> (j < len)%nat ->
  exists d, (0 < d <= len)%nat /\ Nat.modulo (cur + d) len = j.
Proof.
  intros A B. destruct (Nat.lt_ge_cases cur j).
  - exists (j - cur)%nat. split; [lia|]. replace (cur + (j - cur))%nat with j by lia. apply Nat.mod_small. auto.
  - exists (j + len - cur)%nat. split; [lia|]. replace (cur + (j + len - cur))%nat with (j + 1 * len)%nat by lia.
    rewrite Nat.mod_add by lia. apply Nat.mod_small. auto.
Qed.

Lemma load_length l : forall p, length (load p l) = length l.
Proof. induction l as [|x l IH]; intros p; cbn [load]; auto. destruct (tl_b x); cbn; auto. Qed.
