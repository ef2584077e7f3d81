(** Proofs about the nano PHY. *)
From Coq Require Import ZArith List Lia Bool Sorting.Sorted Permutation.
From Verif Require Import Base EnergyModel NanoModel PhyModel PhySpec.
Import ListNotations.
Open Scope Z_scope.

(** ** SortArray *)

Lemma sort_pass_perm l : forall x, Permutation (x :: l) (fst (sort_pass x l) :: snd (sort_pass x l)).
Proof.
  induction l as [|y l IH]; intros x; cbn [sort_pass]; [reflexivity|].
  destruct (x >? y).
  - specialize (IH y). destruct (sort_pass y l) as [m r]. cbn [fst snd] in *.
    rewrite perm_swap. rewrite perm_swap. apply (Permutation_trans (l' := x :: y :: l)); [reflexivity|].
    rewrite IH. apply perm_swap.
  - specialize (IH x). destruct (sort_pass x l) as [m r]. cbn [fst snd] in *.
    rewrite perm_swap, IH. apply perm_swap.
Qed.

Lemma sort_pass_min l : forall x, fst (sort_pass x l) <= x /\ Forall (Z.le (fst (sort_pass x l))) (snd (sort_pass x l)).
Proof.
  induction l as [|y l IH]; intros x; cbn [sort_pass]; [cbn; split; [lia|constructor]|].
  destruct (Z.gtb_spec x y) as [G|G].
  - destruct (IH y) as [A B]. destruct (sort_pass y l) as [m r]. cbn [fst snd] in *.
    split; [lia|]. constructor; auto. lia.
  - destruct (IH x) as [A B]. destruct (sort_pass x l) as [m r]. cbn [fst snd] in *.
    split; [lia|]. constructor; auto. lia.
Qed.

Lemma sort_loop_ok n : forall l, (length l <= n)%nat -> Permutation l (sort_loop n l) /\ StronglySorted Z.le (sort_loop n l).
Proof.
  induction n as [|n IH]; intros l L; destruct l as [|x l]; cbn [sort_loop length] in *; try lia;
    try (split; [reflexivity|constructor]).
  pose proof (sort_pass_perm l x) as P. pose proof (sort_pass_min l x) as [_ M].
  destruct (sort_pass x l) as [m r]. cbn [fst snd] in *.
  assert (length r = length l) as LR by (apply Permutation_length in P; cbn in P; lia).
  destruct (IH r ltac:(lia)) as [Q S]. split.
  - rewrite P. constructor. exact Q.
  - constructor; auto. rewrite Forall_forall in *. intros y Y. apply M. eapply Permutation_in; [symmetry; exact Q|exact Y].
Qed.

Lemma sort_array_perm l : Permutation l (sort_array l).
Proof. apply sort_loop_ok. auto. Qed.
Lemma sort_array_sorted l : StronglySorted Z.le (sort_array l).
Proof. apply sort_loop_ok. auto. Qed.

(** ** Below 2^53 the arithmetic is exact *)

Lemma rnd_id z : Z.abs z < 2 ^ 53 -> rnd z = z.
Proof. intros H. unfold rnd. rewrite (proj2 (Z.ltb_lt _ _) H). reflexivity. Qed.

Lemma rem_bounds a b : 0 < b -> - b < Z.rem a b < b.
Proof.
  intros B. pose proof (Z.rem_bound_abs a b ltac:(lia)) as H. lia.
Qed.

Lemma rem_div a b : exists q, a = b * q + Z.rem a b.
Proof. exists (Z.quot a b). apply Z.quot_rem'. Qed.

Lemma rem_mod_pos a b : 0 <= a -> 0 < b -> Z.rem a b = a mod b.
Proof. intros. apply Z.rem_mod_nonneg; lia. Qed.

Section Exact.
Variable c : pconf.
Variable s : phy.
Hypothesis C : pconf_ok c.
Hypothesis E : early c s.

Let now := y_now s.
Let ts := p_ts c.
Let p := p_pulse c.

(** The exact version of [next_pulse]. *)
Definition np (st : Z) : Z :=
  if Z.rem (now - st) ts <? p then now - Z.rem (now - st) ts else now + ts - Z.rem (now - st) ts.

Lemma big : 2 ^ 53 = 2 * 2 ^ 52. Proof. reflexivity. Qed.

Lemma E1 : 0 <= now /\ now + 2 * ts <= 2 ^ 52.
Proof. destruct E as [A [B _]]. auto. Qed.
Lemma Cp : 0 < p /\ 2 * p <= ts. Proof. exact C. Qed.

Ltac bnd := pose proof E1; pose proof Cp; pose proof big; lia.

Lemma np_exact st : In st (ongoing s) -> next_pulse c now st = np st.
Proof.
  intros I. destruct E as [_ [_ D]]. specialize (D st I). unfold next_pulse, np. fold ts p.
  pose proof (rem_bounds (now - st) ts ltac:(bnd)).
  rewrite (rnd_id (now - st)) by bnd. rewrite (rnd_id ts) by bnd. rewrite (rnd_id p) by bnd. rewrite (rnd_id now) by bnd.
  destruct (Z.ltb_spec (Z.rem (now - st) ts) p).
  - apply rnd_id. bnd.
  - rewrite (rnd_id (now + ts)) by bnd. apply rnd_id. bnd.
Qed.

Lemma pulses_exact : pulses c now (ongoing s) = now :: map np (ongoing s) ++ [now + ts].
Proof.
  unfold pulses. fold ts. rewrite (rnd_id now) by bnd. rewrite (rnd_id (now + ts)) by bnd. f_equal. f_equal.
  apply map_ext_in. intros st I. apply np_exact, I.
Qed.

Lemma np_bounds st : now - p < np st < now + ts.
Proof.
  unfold np. pose proof (rem_bounds (now - st) ts ltac:(bnd)). pose proof Cp.
  destruct (Z.ltb_spec (Z.rem (now - st) ts) p); lia.
Qed.

Lemma np_phase st : exists k, np st = st + k * ts.
Proof.
  unfold np. destruct (rem_div (now - st) ts) as [q Q].
  destruct (_ <? _); [exists q|exists (q + 1)]; lia.
Qed.

Lemma np_early st : np st < now -> 0 < (now - st) mod ts < p /\ np st = now - (now - st) mod ts.
Proof.
  unfold np. pose proof (rem_bounds (now - st) ts ltac:(bnd)). pose proof Cp.
  destruct (Z.ltb_spec (Z.rem (now - st) ts) p); [|lia]. intros L.
  assert (0 < Z.rem (now - st) ts) by lia.
  assert (0 <= now - st).
  { destruct (Z.le_gt_cases 0 (now - st)); auto.
    pose proof (Z.rem_nonpos (now - st) ts ltac:(lia) ltac:(lia)). lia. }
  rewrite <- rem_mod_pos by lia. lia.
Qed.

Definition arr : list Z := sort_array (pulses c now (ongoing s)).

Lemma in_arr x : In x arr <-> x = now \/ x = now + ts \/ exists st, In st (ongoing s) /\ x = np st.
Proof.
  unfold arr. assert (P := sort_array_perm (pulses c now (ongoing s))).
  assert (H : In x (sort_array (pulses c now (ongoing s))) <-> In x (pulses c now (ongoing s)))
    by (split; apply Permutation_in; [symmetry|]; exact P).
  rewrite H, pulses_exact. cbn. rewrite in_app_iff, in_map_iff. cbn. split.
  - intros [H1|[[st [H1 H2]]|[H1|[]]]]; eauto.
  - intros [->|[->|[st [H1 ->]]]]; eauto.
Qed.

Lemma arr_top x : In x arr -> x <= now + ts.
Proof.
  rewrite in_arr. pose proof Cp. intros [->|[->|[st [_ ->]]]]; try lia.
  pose proof (np_bounds st). lia.
Qed.

(** The search on a sorted list whose largest element is [lim]. *)
Lemma search_spec lim a : (forall x, In x a -> x <= lim) -> In lim a -> StronglySorted Z.le a ->
  (forall x, In x a -> Z.abs x + 2 * p < 2 ^ 53) ->
  match search lim p a with
  | OutOfBounds => False
  | Slot z => exists x y, z = x + p /\ In x a /\ In y a /\ x + 2 * p <= y /\
                forall w, In w a -> w <= x \/ y <= w
  | NoSlot => forall x y, In x a -> In y a -> x + 2 * p <= y -> exists w, In w a /\ x < w < y
  end.
Proof.
  pose proof Cp as P.
  induction a as [|x a IH]; intros T L S B; [destruct L|].
  inversion S as [|x' a' S1 S2]; subst. rewrite Forall_forall in S2.
  cbn [search]. destruct (Z.eqb_spec x lim) as [->|NE].
  - assert (A : forall y, In y a -> y = lim).
    { intros y Y. specialize (S2 y Y). specialize (T y (or_intror Y)). lia. }
    assert (R : search lim p a = NoSlot).
    { clear - A. induction a as [|y a IH]; auto. cbn. rewrite (A y (or_introl eq_refl)), Z.eqb_refl.
      apply IH. intros z Z. apply A. right. auto. }
    rewrite R. intros u v U V G.
    assert (u = lim) by (destruct U as [<-|U]; auto). assert (v = lim) by (destruct V as [<-|V]; auto). lia.
  - destruct L as [L|L]; [congruence|]. destruct a as [|y a]; [destruct L|].
    rewrite (rnd_id (x + 2 * p)) by (specialize (B x (or_introl eq_refl)); lia).
    destruct (Z.leb_spec (x + 2 * p) y) as [G|G].
    + rewrite (rnd_id (x + p)) by (specialize (B x (or_introl eq_refl)); lia).
      exists x, y. repeat split; auto; [left; auto|right; left; auto|].
      intros w [<-|[<-|W]]; [left; lia|right; lia|]. right.
      inversion S1 as [|y' a' S3 S4]; subst. rewrite Forall_forall in S4. auto.
    + specialize (IH ltac:(intros; apply T; right; auto) L S1 ltac:(intros; apply B; right; auto)).
      destruct (search lim p (y :: a)).
      * destruct IH as [u [v [I1 [I2 [I3 [I4 I5]]]]]]. exists u, v. repeat split; auto; try (right; auto; fail).
        intros w [<-|W]; auto.
      * intros u v U V G2. destruct U as [<-|U], V as [<-|V]; try lia.
        -- assert (x <= y) by (apply S2; left; auto).
           assert (y <= v) by (destruct V as [<-|V]; [lia|]; inversion S1 as [|y' a' S3 S4]; subst;
             rewrite Forall_forall in S4; auto).
           destruct (Z.eq_dec x y) as [->|].
           ++ destruct (IH y v (or_introl eq_refl) V G2) as [w [W1 W2]]. exists w. split; auto. right. auto.
           ++ exists y. split; [right; left; auto|]. lia.
        -- pose proof (S2 u U). lia.
        -- destruct (IH u v U V G2) as [w [W1 W2]]. exists w. split; auto. right. auto.
      * exact IH.
Qed.

Lemma arr_abs x : In x arr -> Z.abs x + 2 * p < 2 ^ 53.
Proof.
  rewrite in_arr. pose proof Cp. pose proof E1. pose proof big.
  intros [->|[->|[st [_ ->]]]]; try lia. pose proof (np_bounds st). lia.
Qed.

Lemma place_search : ongoing s <> [] -> place c now (y_txs s) (y_rxs s) = search (now + ts) p arr.
Proof.
  intros NE. unfold place. fold ts p. rewrite (rnd_id now), (rnd_id ts), (rnd_id p), (rnd_id (now + ts)) by bnd.
  unfold arr. fold (ongoing s). destruct (y_txs s) eqn:X; auto. destruct (y_rxs s) eqn:Y; auto.
  exfalso. apply NE. unfold ongoing. rewrite X, Y. reflexivity.
Qed.

Lemma place_spec : ongoing s <> [] ->
  match place c now (y_txs s) (y_rxs s) with
  | OutOfBounds => False
  | Slot z => exists x y, z = x + p /\ In x arr /\ In y arr /\ x + 2 * p <= y /\
                forall w, In w arr -> w <= x \/ y <= w
  | NoSlot => forall x y, In x arr -> In y arr -> x + 2 * p <= y -> exists w, In w arr /\ x < w < y
  end.
Proof.
  intros NE. rewrite place_search by auto. apply search_spec.
  - apply arr_top.
  - apply in_arr. auto.
  - apply sort_array_sorted.
  - apply arr_abs.
Qed.

Lemma place_in_bounds : place c now (y_txs s) (y_rxs s) <> OutOfBounds.
Proof.
  destruct (list_eq_dec Z.eq_dec (ongoing s) []) as [X|X].
  - unfold ongoing in X. apply app_eq_nil in X. destruct X as [X Y].
    apply map_eq_nil in X. apply map_eq_nil in Y. rewrite X, Y. discriminate.
  - pose proof (place_spec X) as H. intros B. rewrite B in H. exact H.
Qed.

(** Overlapping trains are those whose starts are closer than a pulse, up to whole symbols. *)
Lemma overlap_near x y : trains_overlap p ts x y <-> exists k, Z.abs (x - (y + k * ts)) < p.
Proof.
  split.
  - intros [m [k [t [A B]]]]. exists (k - m). lia.
  - intros [k K]. exists 0, k, (Z.max x (y + k * ts)). lia.
Qed.

Lemma overlap_np x st : trains_overlap p ts x st <-> trains_overlap p ts x (np st).
Proof.
  destruct (np_phase st) as [q Q]. rewrite !overlap_near. split; intros [k K].
  - exists (k - q). rewrite Q. replace (st + q * ts + (k - q) * ts) with (st + k * ts) by lia. exact K.
  - exists (k + q). rewrite Q in K. replace (st + (k + q) * ts) with (st + q * ts + k * ts) by lia. exact K.
Qed.

Lemma place_window z : ongoing s <> [] -> place c now (y_txs s) (y_rxs s) = Slot z ->
  now + p <= z <= now + ts - p.
Proof.
  intros NE PL. pose proof (place_spec NE) as H. rewrite PL in H. destruct H as [x [y [-> [X [Y [G H]]]]]].
  pose proof (H now ltac:(apply in_arr; auto)) as N. pose proof (arr_top y Y). pose proof Cp.
  destruct N as [N|N]; [lia|].
  assert (now - p < x).
  { apply in_arr in X. destruct X as [->|[->|[st [_ ->]]]]; try lia. pose proof (np_bounds st). lia. }
  lia.
Qed.

Lemma place_disjoint z st : place c now (y_txs s) (y_rxs s) = Slot z -> In st (ongoing s) ->
  trains_overlap p ts z st -> 0 < (now - st) mod ts < p.
Proof.
  intros PL I O. assert (NE : ongoing s <> []) by (intros X; rewrite X in I; destruct I).
  pose proof (place_window z NE PL) as W. pose proof (place_spec NE) as H. rewrite PL in H.
  destruct H as [x [y [-> [X [Y [G H]]]]]]. rewrite overlap_np, overlap_near in O. destruct O as [k K].
  pose proof (np_bounds st) as B. pose proof Cp.
  specialize (H (np st) ltac:(apply in_arr; eauto)).
  assert (np st < now).
  { destruct (Z.lt_ge_cases (np st) now); auto. exfalso.
    assert (k <= -1 \/ k = 0 \/ 1 <= k) as [A|[->|A]] by lia; [|lia|].
    - assert (k * ts <= - ts) by nia. lia.
    - assert (ts <= k * ts) by nia. lia. }
  apply np_early. auto.
Qed.

Lemma no_slot x : ongoing s <> [] -> place c now (y_txs s) (y_rxs s) = NoSlot ->
  now + p <= x <= now + ts - p -> exists st, In st (ongoing s) /\ trains_overlap p ts x st.
Proof.
  intros NE PL W. pose proof (place_spec NE) as H. rewrite PL in H. pose proof Cp.
  enough (F : forall n u v, (Z.to_nat (v - u) <= n)%nat -> In u arr -> In v arr -> u <= x - p -> x + p <= v ->
    exists w, In w arr /\ Z.abs (x - w) < p).
  { destruct (F _ now (now + ts) (le_n _)) as [w [A B]]; try (apply in_arr; auto); try lia.
    apply in_arr in A. destruct A as [->|[->|[st [I ->]]]]; try lia.
    exists st. split; auto. rewrite overlap_np, overlap_near. exists 0. lia. }
  induction n as [|n IH]; intros u v L U V A B; [lia|].
  destruct (H u v U V ltac:(lia)) as [w [K1 K2]].
  destruct (Z.le_gt_cases w (x - p)); [apply (IH w v); auto; lia|].
  destruct (Z.le_gt_cases (x + p) w); [apply (IH u w); auto; lia|].
  exists w. split; auto. lia.
Qed.

(** [close_to] *)
Lemma close_exact st : Z.abs st <= 2 ^ 52 -> close_to c now st = (Z.rem (now - (st - p)) ts <? 2 * p).
Proof.
  intros I. unfold close_to. fold ts p.
  rewrite (rnd_id (st - p)) by bnd. rewrite (rnd_id now) by bnd. rewrite (rnd_id ts) by bnd.
  rewrite (rnd_id (now - (st - p))) by bnd. reflexivity.
Qed.

Lemma overlap_mod st : trains_overlap p ts now st <-> 0 < (now - st + p) mod ts < 2 * p.
Proof.
  pose proof Cp. rewrite overlap_near.
  pose proof (Z.div_mod (now - st + p) ts ltac:(lia)) as D.
  pose proof (Z.mod_pos_bound (now - st + p) ts ltac:(lia)) as M. split.
  - intros [k K].
    assert (k = (now - st + p) / ts).
    { apply (Z.div_unique _ _ _ (now - st + p - ts * k)); lia. }
    subst k. lia.
  - intros K. exists ((now - st + p) / ts). lia.
Qed.

Lemma close_overlap st : Z.abs st <= 2 ^ 52 -> trains_overlap p ts now st -> close_to c now st = true.
Proof.
  intros I O. rewrite close_exact by auto. apply Z.ltb_lt. rewrite overlap_mod in O. pose proof Cp.
  destruct (Z.le_gt_cases 0 (now - (st - p))).
  - rewrite rem_mod_pos by lia. replace (now - (st - p)) with (now - st + p) by lia. lia.
  - pose proof (Z.rem_nonpos (now - (st - p)) ts ltac:(lia) ltac:(lia)). lia.
Qed.

Lemma close_reasons st : Z.abs st <= 2 ^ 52 -> close_to c now st = true ->
  trains_overlap p ts now st \/ (now - st + p) mod ts = 0 \/ now + p < st.
Proof.
  intros I. rewrite close_exact by auto. rewrite Z.ltb_lt. intros O. rewrite overlap_mod. pose proof Cp.
  destruct (Z.le_gt_cases 0 (now - (st - p))); [|lia].
  rewrite rem_mod_pos in O by lia. replace (now - (st - p)) with (now - st + p) in O by lia.
  pose proof (Z.mod_pos_bound (now - st + p) ts ltac:(lia)). lia.
Qed.
End Exact.

(** ** Bookkeeping *)

Lemma erase_perm {A} (f : A -> bool) l x : find f l = Some x -> Permutation l (x :: erase_first f l).
Proof.
  induction l as [|y l IH]; cbn; [discriminate|]. destruct (f y) eqn:Fy.
  - intros [= ->]. reflexivity.
  - intros H. rewrite perm_swap. constructor. auto.
Qed.

Lemma remove_nth_perm {A} (l : list A) : forall i x, nth_error l i = Some x -> Permutation l (x :: remove_nth i l).
Proof.
  induction l as [|y l IH]; intros [|i] x; cbn; try discriminate.
  - intros [= ->]. reflexivity.
  - intros H. rewrite perm_swap. constructor. auto.
Qed.

Lemma same_tx_eq a b : same_tx a b = true <-> a = b.
Proof.
  unfold same_tx. destruct a, b. cbn. rewrite andb_true_iff, !Z.eqb_eq. split; [intros [-> ->]; auto|intros [= -> ->]; auto].
Qed.

Lemma find_same a l : In a l -> find (same_tx a) l = Some a.
Proof.
  induction l as [|y l IH]; cbn; [intros []|]. destruct (same_tx a y) eqn:X.
  - apply same_tx_eq in X. subst. auto.
  - intros [->|I]; auto. rewrite (proj2 (same_tx_eq a a) eq_refl) in X. discriminate.
Qed.

Definition tx_inv (s : phy) (tr : list pout) : Prop :=
  Permutation (y_txs s) (y_dels s) /\
  exists dead, Permutation (transmitted tr) (y_txs s ++ dead) /\
    forall d, In d dead -> o_start d + o_dur d <= y_now s.

Lemma transmitted_app a b : transmitted (a ++ b) = transmitted a ++ transmitted b.
Proof. apply flat_map_app. Qed.

Lemma tx_inv_step low c s tr e : tx_inv s tr -> ptimely s e = true ->
  tx_inv (fst (pstep low c s e)) (tr ++ snd (pstep low c s e)).
Proof.
  intros [P [dead [D1 D2]]] T. unfold tx_inv.
  destruct e as [dur|i|id dur pow junk|id|t]; cbn [pstep].
  - unfold send. destruct (place _ _ _ _); cbn [fst snd y_txs y_dels y_now];
      rewrite transmitted_app; cbn [transmitted flat_map app]; rewrite ?app_nil_r; [|eauto|eauto].
    split; [apply Permutation_app_tail, P|]. exists dead. split; auto.
    rewrite D1, <- !app_assoc. apply Permutation_app_head, Permutation_app_comm.
  - unfold delete_tx. cbn [ptimely] in T. destruct (nth_error (y_dels s) i) as [d|] eqn:N; [|discriminate].
    apply Z.eqb_eq in T. cbn [fst snd y_txs y_dels y_now]. rewrite app_nil_r.
    assert (I : In d (y_txs s)) by (apply nth_error_In in N; eapply Permutation_in; [symmetry; exact P|exact N]).
    pose proof (erase_perm _ _ _ (find_same d _ I)) as E. pose proof (remove_nth_perm _ _ _ N) as R. split.
    + apply (Permutation_cons_inv (a := d)). rewrite <- E, <- R. exact P.
    + exists (d :: dead). split.
      * rewrite D1, E at 1. cbn [app]. apply Permutation_middle.
      * intros x [<-|X]; [lia|auto].
  - unfold rx_start. destruct (existsb _ _); cbn [fst snd y_txs y_dels y_now];
      rewrite transmitted_app; cbn [transmitted flat_map app]; rewrite ?app_nil_r; eauto.
  - unfold rx_end. destruct (find _ (y_rxs s)); cbn [fst snd y_txs y_dels y_now];
      rewrite transmitted_app; cbn [transmitted flat_map app]; rewrite ?app_nil_r; eauto.
  - cbn [ptimely] in T. apply andb_prop in T. destruct T as [T _]. apply Z.leb_le in T.
    cbn [fst snd y_txs y_dels y_now]. rewrite app_nil_r. split; auto. exists dead. split; auto.
    intros d I. specialize (D2 d I). lia.
Qed.

Lemma prun_inv low c (J : phy -> list pout -> Prop) :
  (forall s tr e, J s tr -> ptimely s e = true -> J (fst (pstep low c s e)) (tr ++ snd (pstep low c s e))) ->
  forall l s tr, J s tr -> ptimely_run low c s l = true ->
  J (fst (prun low c s l)) (tr ++ snd (prun low c s l)).
Proof.
  intros ST. induction l as [|e l IH]; intros s tr H T; cbn [prun ptimely_run] in *.
  - rewrite app_nil_r. exact H.
  - apply andb_prop in T. destruct T as [T1 T2]. specialize (ST s tr e H T1).
    destruct (pstep low c s e) as [s1 o1]. cbn [fst snd] in *. specialize (IH s1 _ ST T2).
    destruct (prun low c s1 l) as [s2 o2]. cbn [fst snd] in *. rewrite app_assoc. exact IH.
Qed.

Lemma tx_exact low c l : ptimely_run low c phy0 l = true ->
  tx_inv (fst (prun low c phy0 l)) (snd (prun low c phy0 l)).
Proof.
  intros T. apply (prun_inv low c tx_inv (tx_inv_step low c) l phy0 []); auto.
  split; [constructor|]. exists []. split; [constructor|intros d []].
Qed.

(** Receptions: ids *)
Definition started (l : list pev) : list Z := flat_map (fun e => match e with PRx id _ _ _ => [id] | _ => [] end) l.
Definition held (id : Z) (s : phy) : nat := length (filter (fun r => r_id r =? id) (y_rxs s)).

Lemma accepted_app id a b : accepted_rx id (a ++ b) = (accepted_rx id a + accepted_rx id b)%nat.
Proof. unfold accepted_rx. rewrite filter_app, app_length. reflexivity. Qed.
Lemma reports_app id a b : reports id (a ++ b) = (reports id a + reports id b)%nat.
Proof. unfold reports. rewrite filter_app, app_length. reflexivity. Qed.

Lemma held_hit low c now pow all id l :
  length (filter (fun r => r_id r =? id) (map (hit low c now pow all) l)) = length (filter (fun r => r_id r =? id) l).
Proof.
  induction l as [|r l IH]; auto. cbn [map filter].
  replace (r_id (hit low c now pow all r)) with (r_id r) by (unfold hit; destruct (close_to _ _ _); auto).
  destruct (r_id r =? id); cbn [length]; auto.
Qed.

Lemma filter_perm_length {A} (f : A -> bool) l l' : Permutation l l' -> length (filter f l) = length (filter f l').
Proof.
  induction 1; cbn; auto; try (destruct (f x); cbn; congruence); try congruence.
  destruct (f x), (f y); reflexivity.
Qed.

(** Accepted receptions are either still held or have been reported. *)
Lemma held_step low c id s e :
  (held id (fst (pstep low c s e)) + reports id (snd (pstep low c s e)) =
   held id s + accepted_rx id (snd (pstep low c s e)))%nat.
Proof.
  destruct e as [dur|i|i dur pow junk|i|t]; cbn [pstep].
  - unfold send. destruct (place _ _ _ _); reflexivity.
  - unfold delete_tx. destruct (nth_error _ _); reflexivity.
  - unfold rx_start. destruct (existsb _ _); [reflexivity|].
    unfold held. cbn [fst snd y_rxs]. rewrite filter_app, app_length, held_hit. unfold reports, accepted_rx.
    cbn [filter r_id]. destruct (i =? id); cbn [length]; lia.
  - unfold rx_end. destruct (find _ (y_rxs s)) as [r|] eqn:F; [|reflexivity].
    unfold held. cbn [fst snd y_rxs]. rewrite (filter_perm_length _ _ _ (erase_perm _ _ _ F)).
    apply find_some in F. destruct F as [_ F]. apply Z.eqb_eq in F.
    unfold reports, accepted_rx. cbn [filter]. rewrite F. destruct (i =? id); cbn [length]; lia.
  - reflexivity.
Qed.

Lemma held_run low c id l : forall s,
  (held id (fst (prun low c s l)) + reports id (snd (prun low c s l)) =
   held id s + accepted_rx id (snd (prun low c s l)))%nat.
Proof.
  induction l as [|e l IH]; intros s; cbn [prun]; [reflexivity|].
  pose proof (held_step low c id s e). destruct (pstep low c s e) as [s1 o1]. specialize (IH s1).
  destruct (prun low c s1 l) as [s2 o2]. cbn [fst snd] in *. rewrite reports_app, accepted_app. lia.
Qed.

Lemma accepted_step low c id s e :
  (accepted_rx id (snd (pstep low c s e)) <= count_occ Z.eq_dec (started [e]) id)%nat /\
  (In (PDropped id) (snd (pstep low c s e)) ->
   accepted_rx id (snd (pstep low c s e)) = 0%nat /\ (count_occ Z.eq_dec (started [e]) id > 0)%nat).
Proof.
  destruct e as [dur|i|i dur pow junk|i|t]; cbn [pstep].
  - unfold send. destruct (place _ _ _ _); cbn; split; auto; intros [X|[]]; discriminate.
  - unfold delete_tx. destruct (nth_error _ _); cbn; split; auto; intros [].
  - unfold rx_start. destruct (existsb _ _); cbn; destruct (Z.eq_dec i id) as [->|X]; cbn; split; auto; try lia.
    + intros [[= Y]|[]]. congruence.
    + rewrite Z.eqb_refl. auto.
    + intros [[=]|[]].
    + rewrite (proj2 (Z.eqb_neq i id) X). auto.
    + intros [[=]|[]].
  - unfold rx_end. destruct (find _ (y_rxs s)); cbn; split; auto; intros X; [destruct X as [[=]|[]]|destruct X].
  - cbn. split; auto. intros [].
Qed.

Lemma started_cons e l : started (e :: l) = started [e] ++ started l.
Proof. unfold started. cbn [flat_map]. rewrite app_nil_r. reflexivity. Qed.

Lemma accepted_run low c id l : forall s,
  (accepted_rx id (snd (prun low c s l)) <= count_occ Z.eq_dec (started l) id)%nat /\
  (In (PDropped id) (snd (prun low c s l)) ->
   (accepted_rx id (snd (prun low c s l)) < count_occ Z.eq_dec (started l) id)%nat).
Proof.
  induction l as [|e l IH]; intros s; cbn [prun]; [cbn; split; auto; intros []|].
  pose proof (accepted_step low c id s e) as [A B]. destruct (pstep low c s e) as [s1 o1].
  specialize (IH s1). destruct (prun low c s1 l) as [s2 o2]. cbn [fst snd] in *. destruct IH as [C D].
  rewrite started_cons, count_occ_app, accepted_app. split; [lia|].
  rewrite in_app_iff. intros [X|X]; [apply B in X|apply D in X]; lia.
Qed.

(** ** Interference *)

Lemma own_intf_sum c now l : forall acc,
  own_intf c now l acc = acc + fold_right Z.add 0 (map r_pow (filter (fun r => close_to c now (r_start r)) l)).
Proof.
  induction l as [|r l IH]; intros acc; cbn [own_intf filter]; [cbn; lia|].
  rewrite IH. destruct (close_to _ _ _); cbn [map fold_right]; lia.
Qed.

Lemma close_power_sum c now id l :
  close_power c now id l =
  fold_right Z.add 0 (map r_pow (filter (fun r => negb (r_id r =? id) && close_to c now (r_start r)) l)).
Proof.
  induction l as [|r l IH]; cbn [close_power filter]; auto.
  destruct (_ && _); cbn [map fold_right]; lia.
Qed.
