From Coq Require Import ZArith List Lia Bool.
From Verif Require Import EnergyModel EnergySpec.
Import ListNotations.
Open Scope Z_scope.

Lemma erun_app p s l1 l2 :
  erun p s (l1 ++ l2) =
  (fst (erun p (fst (erun p s l1)) l2), snd (erun p s l1) ++ snd (erun p (fst (erun p s l1)) l2)).
Proof.
  revert s. induction l1 as [|o l IH]; intros s; cbn.
  - destruct (erun p s l2); reflexivity.
  - destruct (estep p s o) as [s' u]. rewrite IH. destruct (erun p s' l) as [s'' us].
    cbn. destruct (erun p s'' l2). reflexivity.
Qed.

Lemma cost_nonneg p tx rx : eparams_ok p -> 0 <= tx -> 0 <= rx -> 0 <= cost p tx rx.
Proof. intros [] A B. unfold cost. nia. Qed.

Lemma estep_nonneg p s o : eparams_ok p -> eop_ok o -> 0 <= e_rem s -> 0 <= e_rem (fst (estep p s o)).
Proof.
  intros P O H. destruct o; cbn.
  - destruct ((e_now s <=? t) && forallb (fun c => t <=? c) (e_chains s)); cbn; [destruct P; lia|exact H].
  - destruct (nth_error (e_chains s) i); [|exact H].
    destruct (forallb _ _); cbn; [destruct P; lia|exact H].
  - unfold book. destruct (Z.geb_spec (e_rem s - cost p tx rx) 0); cbn; lia.
  - destruct O. unfold give_back. pose proof (cost_nonneg p tx rx P H0 H1). cbn. lia.
Qed.


Lemma erun_cons p s o l :
  erun p s (o :: l) = (fst (erun p (fst (estep p s o)) l),
                       snd (estep p s o) :: snd (erun p (fst (estep p s o)) l)).
Proof. cbn. destruct (estep p s o) as [s' u]. cbn. destruct (erun p s' l). reflexivity. Qed.

Lemma erun_nonneg p l : forall s, eparams_ok p -> Forall eop_ok l -> 0 <= e_rem s ->
  0 <= e_rem (fst (erun p s l)).
Proof.
  induction l as [|o l IH]; intros s P F H; [exact H|].
  rewrite erun_cons. cbn [fst]. inversion F; subst. apply IH; auto using estep_nonneg.
Qed.

(** Effect of one step on the level, by its answer. *)
Lemma estep_effect p s o :
  e_rem (fst (estep p s o)) =
  match snd (estep p s o) with
  | UBooked true tx rx => e_rem s - bytes_energy p tx rx
  | UReturned tx rx => e_rem s + bytes_energy p tx rx
  | UHarvested _ => e_rem s + ep_harvest p
  | UInit _ => ep_initial p + ep_harvest p
  | _ => e_rem s
  end.
Proof.
  destruct o; cbn.
  - destruct ((e_now s <=? t) && forallb (fun c => t <=? c) (e_chains s)); reflexivity.
  - destruct (nth_error (e_chains s) i); [|reflexivity].
    destruct (forallb _ _); reflexivity.
  - unfold book. destruct (_ >=? 0); reflexivity.
  - reflexivity.
Qed.

Lemma erun_conservation p l : forall s,
  forallb (fun u => negb (is_init u)) (snd (erun p s l)) = true ->
  e_rem (fst (erun p s l)) =
  e_rem s + total_harvested p (snd (erun p s l)) + total_returned p (snd (erun p s l))
  - total_booked p (snd (erun p s l)).
Proof.
  unfold total_harvested, total_returned, total_booked.
  induction l as [|o l IH]; intros s; [cbn; lia|].
  rewrite erun_cons. cbn [fst snd map sum forallb].
  rewrite andb_true_iff. intros [N H]. rewrite (IH _ H). rewrite estep_effect.
  destruct (snd (estep p s o)) as [[]| | | |]; cbn in N; try discriminate; lia.
Qed.

Lemma conservation p l1 t l2 :
  let s := fst (erun p einit l1) in
  let s1 := estep p s (OInit t) in
  let r := erun p (fst s1) l2 in
  is_init (snd s1) = true ->
  forallb (fun u => negb (is_init u)) (snd r) = true ->
  let us := snd s1 :: snd r in
  e_rem (fst r) = ep_initial p + total_harvested p us + total_returned p us - total_booked p us.
Proof.
  intros s s1 r I N us. subst r.
  rewrite (erun_conservation p l2 (fst s1) N). subst s1. rewrite estep_effect.
  subst us. unfold total_harvested, total_returned, total_booked. cbn [map sum].
  destruct (snd (estep p s (OInit t))); try discriminate. lia.
Qed.

Lemma book_spec p r tx rx :
  (fst (book p r tx rx) = true <-> bytes_energy p tx rx <= r) /\
  (fst (book p r tx rx) = true -> snd (book p r tx rx) = r - bytes_energy p tx rx) /\
  (fst (book p r tx rx) = false -> snd (book p r tx rx) = r).
Proof.
  unfold book. change (cost p tx rx) with (bytes_energy p tx rx).
  destruct (Z.geb_spec (r - bytes_energy p tx rx) 0); cbn; repeat split; intros; try congruence; lia.
Qed.

Lemma book_return p r tx rx :
  fst (book p r tx rx) = true -> give_back p (snd (book p r tx rx)) tx rx = r.
Proof. unfold book, give_back. destruct (_ >=? 0); cbn; [lia|discriminate]. Qed.

Lemma forallb_refl_single t : forallb (fun c : Z => t <=? c) [t] = true.
Proof. cbn. rewrite Z.leb_refl. reflexivity. Qed.

Lemma callback_iff p s i b :
  snd (estep p s (OHarvest i)) = UHarvested b ->
  (b = true <-> e_rem (fst (estep p s (OHarvest i))) = ep_callback p).
Proof.
  cbn. destruct (nth_error (e_chains s) i); [|discriminate].
  destruct (forallb _ _); cbn; [|discriminate].
  injection 1 as <-. apply Z.eqb_eq.
Qed.

(** With a single chain, [k] harvests in a row. *)
Lemma harvests p k : forall s c, e_chains s = [c] ->
  fst (erun p s (repeat (OHarvest 0) k)) =
    EState (e_rem s + Z.of_nat k * ep_harvest p)
           (match k with O => e_now s | S k' => c + Z.of_nat k' * ep_interval p end)
           [c + Z.of_nat k * ep_interval p]
  /\ forall j u, nth_error (snd (erun p s (repeat (OHarvest 0) k))) j = Some u ->
     u = UHarvested (e_rem s + (Z.of_nat j + 1) * ep_harvest p =? ep_callback p).
Proof.
  induction k as [|k IH]; intros s c E.
  - split; [|intros [] ?; discriminate]. destruct s; cbn in *. subst. f_equal; [lia|f_equal; lia].
  - cbn [repeat]. rewrite erun_cons. cbn [fst snd].
    assert (X : estep p s (OHarvest 0) =
       (EState (e_rem s + ep_harvest p) c [c + ep_interval p],
        UHarvested (e_rem s + ep_harvest p =? ep_callback p))).
    { cbn [estep]. rewrite E. cbn [nth_error]. rewrite forallb_refl_single. reflexivity. }
    rewrite X. cbn [fst snd].
    destruct (IH (EState (e_rem s + ep_harvest p) c [c + ep_interval p]) _ eq_refl) as [A B].
    split.
    + rewrite A. cbn [e_rem e_now]. f_equal; [lia| |f_equal; lia].
      destruct k; lia.
    + intros [|j] u; cbn [nth_error].
      * injection 1 as <-. f_equal. f_equal. lia.
      * intros H. rewrite (B _ _ H). cbn [e_rem]. rewrite Nat2Z.inj_succ. f_equal. f_equal. lia.
Qed.

Lemma erun_inv (P : estate -> Prop) p : (forall s o, P s -> P (fst (estep p s o))) ->
  forall l s, P s -> P (fst (erun p s l)).
Proof.
  intros St. induction l as [|o l IH]; intros s H; [exact H|]. rewrite erun_cons. cbn. auto.
Qed.

(** Number of pending harvest chains = number of DoInitialize calls executed. *)
Lemma length_remove_nth {A} (l : list A) : forall i x, nth_error l i = Some x ->
  S (length (remove_nth i l)) = length l.
Proof.
  induction l as [|y l IH]; intros [|i] x H; cbn in *; try discriminate; [reflexivity|].
  f_equal. eauto.
Qed.

Lemma chains_count p l : forall s,
  length (e_chains (fst (erun p s l))) =
  (length (e_chains s) + length (filter is_init (snd (erun p s l))))%nat.
Proof.
  induction l as [|o l IH]; intros s; [cbn; lia|].
  rewrite erun_cons. cbn [fst snd]. rewrite IH.
  assert (length (e_chains (fst (estep p s o))) =
          (length (e_chains s) + if is_init (snd (estep p s o)) then 1 else 0)%nat) as ->.
  { destruct o; cbn.
    - destruct ((e_now s <=? t) && forallb (fun c => t <=? c) (e_chains s)); cbn.
      + rewrite app_length. reflexivity. + lia.
    - destruct (nth_error (e_chains s) i) eqn:E; [|cbn; lia].
      destruct (forallb _ _); cbn; [|lia].
      rewrite app_length. cbn. apply length_remove_nth in E. lia.
    - unfold book. destruct (_ >=? 0); cbn; lia.
    - lia. }
  cbn [filter]. destruct (is_init (snd (estep p s o))); cbn [length]; lia.
Qed.

(** One chain started at t0: harvest count and next harvest time are tied to the clock. *)
Definition one_chain (p : eparams) (t0 : Z) (s : estate) (n : Z) : Prop :=
  e_chains s = [t0 + n * ep_interval p] /\ e_now s = t0 + (n - 1) * ep_interval p.

Lemma one_chain_run p t0 l : forall s n,
  one_chain p t0 s n ->
  filter is_init (snd (erun p s l)) = [] ->
  one_chain p t0 (fst (erun p s l)) (n + Z.of_nat (length (filter is_harvest (snd (erun p s l))))).
Proof.
  induction l as [|o l IH]; intros s n I N; [cbn; rewrite Z.add_0_r; exact I|].
  rewrite erun_cons in *. cbn [fst snd filter] in *.
  destruct (is_init (snd (estep p s o))) eqn:NI; [discriminate|].
  destruct I as [C W].
  assert (one_chain p t0 (fst (estep p s o)) (n + (if is_harvest (snd (estep p s o)) then 1 else 0))) as I2.
  { destruct o.
    - cbn in NI |- *. destruct ((e_now s <=? t) && forallb (fun c => t <=? c) (e_chains s)); [discriminate|].
      cbn. rewrite Z.add_0_r. split; assumption.
    - cbn [estep]. rewrite C. destruct i as [|i]; cbn [nth_error].
      + rewrite forallb_refl_single. cbn. split; cbn; [f_equal|]; lia.
      + destruct i; cbn; rewrite Z.add_0_r; split; assumption.
    - cbn. destruct (book p (e_rem s) tx rx). cbn. rewrite Z.add_0_r. split; assumption.
    - cbn. rewrite Z.add_0_r. split; assumption. }
  specialize (IH _ _ I2 N).
  destruct (is_harvest (snd (estep p s o))); cbn [length].
  - rewrite Nat2Z.inj_succ. replace (n + Z.succ (Z.of_nat (length (filter is_harvest (snd (erun p (fst (estep p s o)) l))))))
      with (n + 1 + Z.of_nat (length (filter is_harvest (snd (erun p (fst (estep p s o)) l))))) by lia. exact IH.
  - rewrite Z.add_0_r in IH. exact IH.
Qed.

Lemma callback_reached p s c k :
  e_chains s = [c] -> ep_callback p = e_rem s + (Z.of_nat k + 1) * ep_harvest p ->
  0 < ep_harvest p ->
  let us := snd (erun p s (repeat (OHarvest 0) (S k))) in
  length us = S k /\
  forall j, (j <= k)%nat -> nth_error us j = Some (UHarvested (Nat.eqb j k)).
Proof.
  intros C E H us.
  assert (L : forall l s, length (snd (erun p s l)) = length l).
  { clear. induction l; intros s; [reflexivity|]. rewrite erun_cons. cbn. rewrite IHl. reflexivity. }
  assert (length us = S k) as LU by (unfold us; rewrite L, repeat_length; reflexivity).
  split; [exact LU|].
  intros j J. destruct (nth_error us j) as [u|] eqn:N.
  - destruct (harvests p (S k) s c C) as [_ B]. rewrite (B _ _ N). f_equal. f_equal.
    destruct (Nat.eqb_spec j k).
    + subst. apply Z.eqb_eq. lia.
    + apply Z.eqb_neq. rewrite E. nia.
  - apply nth_error_None in N. lia.
Qed.
