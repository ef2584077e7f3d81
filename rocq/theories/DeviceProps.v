(** Properties C36 and C37: the net device. *)
From Coq Require Import ZArith List Lia Bool.
From Verif Require Import Base DeviceModel.
Import ListNotations.
Open Scope Z_scope.

Lemma llc_round proto p : 0 <= proto < 65536 -> remove_llc (add_llc proto p) = Some (proto, p).
Proof.
  intros H. cbn [remove_llc add_llc app]. f_equal. f_equal. pose proof (Z.div_mod proto 256 ltac:(lia)). lia.
Qed.

(** ** C36: round trip *)

Definition delivered (own src : Z) (proto : Z) (p q : list Z) : Prop :=
  dev_forward own q src own = [FTraceRx p src; FUp p proto src].
Definition C36_full := forall own src proto p,
  0 <= own < 2 ^ 48 -> is_group own = false -> 0 <= proto < 65536 ->
  delivered own src proto p (dev_send proto p).

Lemma blank_length : Z.of_nat (length blank_packet) = 65000.
Proof. unfold blank_packet. rewrite repeat_length. apply Z2Nat.id. discriminate. Qed.
Lemma some_list n : 0 <= n -> exists p : list Z, Z.of_nat (length p) = n.
Proof. intros H. exists (repeat 7 (Z.to_nat n)). rewrite repeat_length. apply Z2Nat.id. exact H. Qed.

(** A payload of 59996 bytes arrives as 65000 zero bytes. *)
Theorem C36_round_trip_refuted : ~ C36_full.
Proof.
  intros F. destruct (some_list 59996 ltac:(discriminate)) as [p L].
  specialize (F 2 1 2048 p ltac:(lia) eq_refl ltac:(lia)). unfold delivered, dev_send in F.
  pose proof blank_length as M. revert F M. generalize blank_packet. intros q F M.
  replace (Z.of_nat (length (add_llc 2048 p))) with 60004 in F
    by (unfold add_llc; rewrite app_length, Nat2Z.inj_add, L; reflexivity).
  rewrite Z.eqb_refl in F.
  unfold dev_forward in F. rewrite llc_round in F by lia. change (packet_type 2 2) with Host in F.
  assert (E : q = p) by congruence. rewrite E, L in M. discriminate M.
Qed.
Print Assumptions C36_round_trip_refuted.

Theorem C36_round_trip_partial : forall own src proto p,
  0 <= own < 2 ^ 48 -> is_group own = false -> 0 <= proto < 65536 ->
  Z.of_nat (length p) <> 59996 ->
  delivered own src proto p (dev_send proto p) /\ delivered own src proto p (dev_send_from proto p).
Proof.
  intros own src proto p O G P L.
  assert (E : dev_send proto p = add_llc proto p).
  { unfold dev_send. destruct (Z.eqb_spec (Z.of_nat (length (add_llc proto p))) 60004) as [X|X]; auto.
    unfold add_llc in X. rewrite app_length in X. cbn in X. lia. }
  unfold dev_send_from. rewrite E. unfold delivered, dev_forward. rewrite llc_round by auto. unfold packet_type.
  destruct (own =? broadcast); auto. rewrite G, Z.eqb_refl. auto.
Qed.
Print Assumptions C36_round_trip_partial.

Example C36_example : delivered 66 5 2048 [1; 2; 3] (dev_send 2048 [1; 2; 3]) /\ is_group 66 = false.
Proof. split; reflexivity. Qed.

(** ** C37: the address filter *)

(** The first byte of a group address is odd. *)
Definition first_byte (a : Z) : Z := a / 2 ^ 40.
Lemma group_odd a : 0 <= a -> is_group a = Z.odd (first_byte a).
Proof. intros A. unfold is_group, first_byte. rewrite Z.testbit_odd, Z.shiftr_div_pow2 by lia. reflexivity. Qed.

Theorem C37_filter : forall own p src dest, 0 <= dest < 2 ^ 48 -> (8 <= length p)%nat ->
  ((exists q proto, In (FUp q proto src) (dev_forward own p src dest)) <->
     dest = broadcast \/ Z.odd (first_byte dest) = true \/ dest = own) /\
  ((exists q, In (FTraceRx q src) (dev_forward own p src dest)) <->
     dest = broadcast \/ Z.odd (first_byte dest) = true \/ dest = own).
Proof.
  intros own p src dest D L.
  assert (R : exists proto q, remove_llc p = Some (proto, q)).
  { do 8 (destruct p as [|? p]; [cbn in L; lia|]). cbn. eauto. }
  destruct R as [proto [q R]]. unfold dev_forward. rewrite R.
  rewrite <- (group_odd dest) by lia. unfold packet_type.
  destruct (Z.eqb_spec dest broadcast) as [E1|E1].
  { split; split; auto; intros _; [exists q, proto|exists q]; cbn; auto. }
  destruct (is_group dest) eqn:E2.
  { split; split; auto; intros _; [exists q, proto|exists q]; cbn; auto. }
  destruct (Z.eqb_spec dest own) as [E3|E3].
  { split; split; auto; intros _; [exists q, proto|exists q]; cbn; auto. }
  split; split.
  - intros [q' [pr []]].
  - intros [X|[X|X]]; [tauto|discriminate|tauto].
  - intros [q' []].
  - intros [X|[X|X]]; [tauto|discriminate|tauto].
Qed.
Print Assumptions C37_filter.

Example C37_example :
  dev_forward 66 (add_llc 2048 [9]) 5 67 = [] /\
  dev_forward 66 (add_llc 2048 [9]) 5 (2 ^ 40 + 67) = [FTraceRx [9] 5; FUp [9] 2048 5] /\
  dev_forward 66 (add_llc 2048 [9]) 5 broadcast = [FTraceRx [9] 5; FUp [9] 2048 5].
Proof. repeat split. Qed.
