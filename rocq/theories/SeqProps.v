(** Properties C06-C08: duplicate suppression. *)
From Coq Require Import ZArith List Lia Bool Sorting.Sorted.
From Verif Require Import Base SeqModel SeqSpec SeqProofs.
Import ListNotations.
Open Scope Z_scope.

(** C06: for every history of arrivals and every source, the accepted sequence numbers are
    strictly increasing, hence pairwise distinct. *)
Theorem C06_at_most_once :
  forall (h : list (addr * Z)) (a : addr),
  StronglySorted Z.lt (accepted a h (decisions h)) /\ NoDup (accepted a h (decisions h)).
Proof.
  intros h a. destruct (accepted_sorted h [] a) as [S _]. split. exact S.
  apply sorted_nodup. exact S.
Qed.
Print Assumptions C06_at_most_once.

(** The k-th arrival is accepted exactly when it beats every earlier arrival of its source. *)
Theorem C06_decision_characterised :
  forall h i a s, nth_error h i = Some (a, s) ->
  (nth_error (decisions h) i = Some true <->
   forall j s', (j < i)%nat -> nth_error h j = Some (a, s') -> s' < s).
Proof.
  intros h i a s H. unfold decisions. rewrite (decision_iff h [] i a s H). cbn. tauto.
Qed.
Print Assumptions C06_decision_characterised.

Definition ex_hist : list (addr * Z) := [(7, 1); (9, 1); (7, 1); (7, 3); (9, 1); (7, 2); (7, 4)].
Example C06_nonvacuous :
  decisions ex_hist = [true; true; false; true; false; false; true] /\
  accepted 7 ex_hist (decisions ex_hist) = [1; 3; 4].
Proof. split; reflexivity. Qed.

(** C07: the decisions for source [a] are those made on the history of [a] alone. *)
Theorem C07_sources_independent :
  forall h a, decisions_of a h (decisions h) = decisions (from a h).
Proof. intros h a. apply decisions_same_lookup. reflexivity. Qed.
Print Assumptions C07_sources_independent.

Corollary C07_other_sources_irrelevant :
  forall h h' a, from a h = from a h' ->
  decisions_of a h (decisions h) = decisions_of a h' (decisions h').
Proof. intros h h' a E. rewrite !C07_sources_independent, E. reflexivity. Qed.
Print Assumptions C07_other_sources_irrelevant.

Example C07_nonvacuous :
  from 9 ex_hist = [(9, 1); (9, 1)] /\ decisions_of 9 ex_hist (decisions ex_hist) = [true; false].
Proof. split; reflexivity. Qed.

(** C08, full statement: an arrival that never occurred before is accepted. False: after
    sequence number 65535 the counter of the sender wraps to 0 and the frame is refused. *)
Theorem C08_fresh_delivered_refuted :
  exists h i a s, nth_error h i = Some (a, s) /\ Forall (fun x => u16 (snd x)) h /\
    (forall j, (j < i)%nat -> nth_error h j <> Some (a, s)) /\
    nth_error (decisions h) i = Some false /\
    (* consecutive numbers of a 16-bit counter *)
    s = wrap16 (snd (nth (i - 1) h (0, 0)) + 1).
Proof.
  exists [(7, 65534); (7, 65535); (7, 0)], 2%nat, 7, 0.
  repeat split.
  - repeat constructor; unfold u16; cbn; lia.
  - intros [|[|j]] L; cbn; try discriminate. lia.
Qed.
Print Assumptions C08_fresh_delivered_refuted.

(** C08, second cause: reordering. Frame 1 arriving after frame 2 is refused for ever. *)
Theorem C08_reordered_refuted :
  exists h i a s, nth_error h i = Some (a, s) /\
    (forall j, (j < i)%nat -> nth_error h j <> Some (a, s)) /\
    nth_error (decisions h) i = Some false.
Proof.
  exists [(7, 2); (7, 1)], 1%nat, 7, 1. repeat split.
  intros [|j] L; cbn; try discriminate. lia.
Qed.
Print Assumptions C08_reordered_refuted.

(** C08, extent of the failure: with 16-bit numbers at most 65536 frames of one source are
    ever accepted, and none after number 65535 was seen. *)
Theorem C08_at_most_65536_ever :
  forall h a, Forall (fun x => u16 (snd x)) h ->
  Z.of_nat (length (accepted a h (decisions h))) <= 65536.
Proof.
  intros h a U. destruct (C06_at_most_once h a) as [S _].
  pose proof (sorted_length _ 0 S) as B. apply B. clear B S.
  generalize (decisions h). induction h as [|[a' s] h IH]; intros ds; cbn; [constructor|].
  destruct ds as [|d ds]; [constructor|]. inversion U as [|? ? U1 U2]; subst. unfold u16 in U1. cbn in U1.
  destruct ((a' =? a) && d); [constructor; [exact U1|]|]; apply IH; exact U2.
Qed.
Print Assumptions C08_at_most_65536_ever.

Theorem C08_dead_after_65535 :
  forall h i j a s, Forall (fun x => u16 (snd x)) h -> (i < j)%nat ->
  nth_error h i = Some (a, 65535) -> nth_error h j = Some (a, s) ->
  nth_error (decisions h) j = Some false.
Proof.
  intros h i j a s U L Hi Hj.
  destruct (nth_error (decisions h) j) as [[]|] eqn:E; auto.
  - apply (C06_decision_characterised h j a s Hj) with (j := i) (s' := 65535) in E; auto.
    rewrite Forall_forall in U. specialize (U (a, s) (nth_error_In _ _ Hj)).
    unfold u16 in U. cbn in U. lia.
  - apply nth_error_None in E. unfold decisions in E. rewrite run_length in E.
    assert (j < length h)%nat by (apply nth_error_Some; congruence). lia.
Qed.
Print Assumptions C08_dead_after_65535.

(** C08, what holds: if the distinct numbers of a source arrive in increasing order
    (repetitions allowed), every frame not seen before is accepted. Missing: wrapped or
    reordered numbers. *)
Theorem C08_fresh_delivered_partial :
  forall h i a s,
  (forall j k s1 s2, (j < k)%nat -> nth_error h j = Some (a, s1) -> nth_error h k = Some (a, s2) -> s1 <= s2) ->
  nth_error h i = Some (a, s) ->
  (forall j, (j < i)%nat -> nth_error h j <> Some (a, s)) ->
  nth_error (decisions h) i = Some true.
Proof.
  intros h i a s M Hi F. apply (C06_decision_characterised h i a s Hi).
  intros j s' L Hj. specialize (M j i s' s L Hj Hi). specialize (F j L).
  assert (s' <> s) by congruence. lia.
Qed.
Print Assumptions C08_fresh_delivered_partial.

Example C08_partial_nonvacuous :
  decisions [(7, 1); (7, 1); (7, 5); (7, 6); (7, 6)] = [true; false; true; true; false].
Proof. reflexivity. Qed.
