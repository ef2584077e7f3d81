From Coq Require Import ZArith List Lia Bool Sorting.Sorted.
From Verif Require Import Base SeqModel SeqSpec.
Import ListNotations.
Open Scope Z_scope.

(** Last accepted number of a source. *)
Fixpoint lookup (l : seqlist) (a : addr) : option Z :=
  match l with
  | [] => None
  | (a', s) :: r => if a' =? a then Some s else lookup r a
  end.

Lemma is_new_spec l a s :
  fst (is_new l a s) = match lookup l a with None => true | Some s' => s >? s' end /\
  (forall b, lookup (snd (is_new l a s)) b =
     if a =? b then Some (match lookup l a with None => s | Some s' => Z.max s s' end)
     else lookup l b).
Proof.
  induction l as [|[a' s'] r [IH1 IH2]]; cbn [is_new lookup].
  - split; [reflexivity|]. intros b. cbn. destruct (a =? b); reflexivity.
  - destruct (Z.eqb_spec a' a) as [->|N].
    + destruct (Z.gtb_spec s s'); cbn [fst snd]; (split; [lia || reflexivity|]).
      * intros b. cbn. destruct (a =? b); auto. f_equal. lia.
      * intros b. cbn. destruct (a =? b); auto. f_equal. lia.
    + destruct (is_new r a s) as [d r'] eqn:E. cbn [fst snd] in *. split; [exact IH1|].
      intros b. cbn. rewrite IH2. destruct (Z.eqb_spec a' b) as [->|M].
      * destruct (Z.eqb_spec a b); [congruence|reflexivity].
      * reflexivity.
Qed.

Lemma is_new_fst l a s :
  fst (is_new l a s) = match lookup l a with None => true | Some s' => s >? s' end.
Proof. apply is_new_spec. Qed.

Lemma is_new_lookup l a s b :
  lookup (snd (is_new l a s)) b =
     if a =? b then Some (match lookup l a with None => s | Some s' => Z.max s s' end)
     else lookup l b.
Proof. apply is_new_spec. Qed.

(** The state for source [a] summarises all earlier arrivals of [a]: their maximum. *)
Definition below (o : option Z) (s : Z) : Prop :=
  match o with None => True | Some m => m < s end.

Lemma run_cons l a s r :
  fst (run_seq l ((a, s) :: r)) = fst (is_new l a s) :: fst (run_seq (snd (is_new l a s)) r).
Proof. cbn. destruct (is_new l a s). cbn. destruct (run_seq s0 r). reflexivity. Qed.

Lemma run_length l h : length (fst (run_seq l h)) = length h.
Proof.
  revert l. induction h as [|[a s] r IH]; intros l; [reflexivity|].
  rewrite run_cons. cbn. f_equal. apply IH.
Qed.

(** Exact characterisation of every decision. *)
Lemma decision_iff h : forall l i a s,
  nth_error h i = Some (a, s) ->
  nth_error (fst (run_seq l h)) i = Some true <->
  (below (lookup l a) s /\
   forall j s', (j < i)%nat -> nth_error h j = Some (a, s') -> s' < s).
Proof.
  induction h as [|[a0 s0] r IH]; intros l i a s Hi.
  - destruct i; discriminate.
  - rewrite run_cons. destruct i as [|i]; cbn in Hi |- *.
    + injection Hi as -> ->. rewrite is_new_fst. split.
      * intros E. injection E as E. split.
        -- unfold below. destruct (lookup l a); [|exact I]. destruct (Z.gtb_spec s z); [lia|discriminate].
        -- intros j s' L. lia.
      * intros [B _]. unfold below in B. destruct (lookup l a); [|reflexivity].
        destruct (Z.gtb_spec s z); [reflexivity|lia].
    + rewrite (IH _ _ _ _ Hi). rewrite is_new_lookup. split.
      * intros [B F]. split.
        -- destruct (Z.eqb_spec a0 a) as [->|N]; [|exact B]. unfold below in *.
           destruct (lookup l a); [lia|exact I].
        -- intros [|j] s' L E; cbn in E.
           ++ injection E as -> ->. rewrite Z.eqb_refl in B. unfold below in B.
              destruct (lookup l a); lia.
           ++ apply (F j); [lia|exact E].
      * intros [B F]. split.
        -- destruct (Z.eqb_spec a0 a) as [->|N]; [|exact B]. unfold below in *.
           specialize (F 0%nat s0 ltac:(lia) eq_refl). destruct (lookup l a); lia.
        -- intros j s' L E. apply (F (S j)); [lia|exact E].
Qed.

Lemma accepted_sorted h : forall l a,
  StronglySorted Z.lt (accepted a h (fst (run_seq l h))) /\
  Forall (below (lookup l a)) (accepted a h (fst (run_seq l h))).
Proof.
  induction h as [|[a0 s0] r IH]; intros l a.
  - cbn. split; constructor.
  - rewrite run_cons. cbn [accepted].
    destruct (IH (snd (is_new l a0 s0)) a) as [S F]. rewrite is_new_lookup in F.
    rewrite is_new_fst.
    destruct (Z.eqb_spec a0 a) as [->|N]; cbn [andb].
    + destruct (lookup l a) as [m|].
      * destruct (Z.gtb_spec s0 m) as [G|G].
        -- split.
           ++ constructor; [exact S|]. eapply Forall_impl; [|exact F]. unfold below. intros; lia.
           ++ constructor. unfold below; lia. eapply Forall_impl; [|exact F]. unfold below. intros; lia.
        -- split; [exact S|]. eapply Forall_impl; [|exact F]. unfold below. intros; lia.
      * split.
        -- constructor; [exact S|]. eapply Forall_impl; [|exact F]. unfold below. intros; lia.
        -- constructor. exact I. eapply Forall_impl; [|exact F]. unfold below. intros; exact I.
    + split; assumption.
Qed.

Lemma sorted_nodup l : StronglySorted Z.lt l -> NoDup l.
Proof.
  induction 1 as [|x l S IH F]; constructor; auto.
  intros I. rewrite Forall_forall in F. specialize (F _ I). lia.
Qed.

(** Independence of sources. *)
Lemma decisions_same_lookup h : forall l l' a,
  lookup l a = lookup l' a ->
  decisions_of a h (fst (run_seq l h)) = fst (run_seq l' (from a h)).
Proof.
  induction h as [|[a0 s0] r IH]; intros l l' a E; [reflexivity|].
  rewrite run_cons. cbn [decisions_of from filter fst].
  destruct (Z.eqb_spec a0 a) as [->|N].
  - rewrite run_cons. f_equal.
    + rewrite !is_new_fst, E. reflexivity.
    + apply IH. rewrite !is_new_lookup, E. reflexivity.
  - apply IH. rewrite is_new_lookup. destruct (Z.eqb_spec a0 a); [contradiction|exact E].
Qed.

(** Sorted list of 16-bit numbers has at most 65536 elements. *)
Lemma sorted_length l lo : StronglySorted Z.lt l -> Forall (fun x => lo <= x < 65536) l ->
  Z.of_nat (length l) <= Z.max 0 (65536 - lo).
Proof.
  intros S. revert lo. induction S as [|x l S IH F]; intros lo G; [cbn; lia|].
  inversion G as [|? ? G1 G2]; subst. cbn [length]. rewrite Nat2Z.inj_succ.
  specialize (IH (x + 1)).
  assert (Z.of_nat (length l) <= Z.max 0 (65536 - (x + 1))).
  { apply IH. rewrite Forall_forall in *. intros y Hy. specialize (F y Hy). specialize (G2 y Hy). lia. }
  lia.
Qed.
