(** The packets a client is responsible for. *)
From Coq Require Import ZArith List Lia Bool Permutation Sorted.
From Verif Require Import Base HeaderModel SeqModel EnergyModel MacModel MacSpec MacProofs MacAcct MacResp ApModel ClientModel ClientSpec ClientCase.
Import ListNotations.
Open Scope Z_scope.

Lemma lacc_app a b : lacc_of (a ++ b) = lacc_of a ++ lacc_of b.
Proof. apply flat_map_app. Qed.
Lemma lrep_app k a b : lrep_of k (a ++ b) = lrep_of k a ++ lrep_of k b.
Proof. apply flat_map_app. Qed.
Lemma lsnd_app a b : lsnd_of (a ++ b) = lsnd_of a ++ lsnd_of b.
Proof. apply flat_map_app. Qed.
Lemma lrcv_app a b : lrcv_of (a ++ b) = lrcv_of a ++ lrcv_of b.
Proof. apply flat_map_app. Qed.
Lemma ltmo_app k q a b : ltmo_of k q (a ++ b) = (ltmo_of k q a + ltmo_of k q b)%nat.
Proof. unfold ltmo_of. rewrite filter_app, app_length. reflexivity. Qed.
Lemma in_lacc p o : In p (lacc_of o) <-> In (LAcc p) o.
Proof.
  unfold lacc_of. rewrite in_flat_map. split.
  - intros [x [X Y]]. destruct x; cbn in Y; try contradiction. destruct Y as [->|[]]. auto.
  - intros X. exists (LAcc p). split; auto. left. auto.
Qed.
Lemma in_lrep b p o : In p (lrep_of b o) <-> In (LRep b p) o.
Proof.
  unfold lrep_of. rewrite in_flat_map. split.
  - intros [x [X Y]]. destruct x as [| | |ok q| | |]; cbn in Y; try contradiction. destruct (eqb b ok) eqn:E; [|contradiction]. apply eqb_prop in E. destruct Y as [->|[]]. subst. auto.
  - intros X. exists (LRep b p). split; auto. rewrite eqb_reflx. left. auto.
Qed.
Lemma in_lsnd f o : In f (lsnd_of o) <-> exists m, In (LSnd f m) o.
Proof.
  unfold lsnd_of. rewrite in_flat_map. split.
  - intros [x [X Y]]. destruct x; cbn in Y; try contradiction. destruct Y as [->|[]]. eauto.
  - intros [m X]. exists (LSnd f m). split; auto. left. auto.
Qed.
Lemma in_lrcv f h : In f (lrcv_of h) <-> exists e, In (e, LERxEnd f true) h.
Proof.
  unfold lrcv_of. rewrite in_flat_map. split.
  - intros [[e ev] [X Y]]. cbn in Y. destruct ev as [| | |g [|]| |]; try contradiction. destruct Y as [->|[]]. eauto.
  - intros [e X]. eexists. split; [exact X|]. left. auto.
Qed.

(** ** SendDataDone *)
Definition lkeep (d : list kframe) (x : kframe) : bool := negb (existsb (fun p => kf_id x =? kf_id p) d).
Lemma ldone_spec ok sq : forall n l q l' q' d k em ub, (length l <= n)%nat -> ldone_loop ok sq q l = (l', q', d, k, em, ub) ->
  Permutation (map lr_pkt l) (d ++ map lr_pkt l') /\ (forall r, In r l' -> In r l) /\
  (forall p, In p d -> kf_seq p = sq) /\ q' = (if ok then filter (lkeep d) q else q) /\
  0 <= k /\ (k = 0 -> l' = l /\ q' = q /\ d = []) /\ (em = true -> ok = true /\ q' = []) /\ (ub = true -> d <> []) /\
  (k <> 0 <-> exists r, In r l /\ kf_seq (lr_pkt r) = sq).
Proof.
  induction n as [|n IH]; intros l q l' q' d k em ub L E.
  { destruct l; [|cbn in L; lia]. cbn in E. injection E as <- <- <- <- <- <-. cbn.
    assert (X : q = filter (lkeep []) q) by (induction q; cbn; f_equal; auto).
    repeat split; auto; try contradiction; try discriminate; try lia; try (destruct ok; auto; fail); try (intros []; auto; fail); try (intros [? [[] _]]). }
  destruct l as [|r t].
  { cbn in E. injection E as <- <- <- <- <- <-. cbn.
    assert (X : q = filter (lkeep []) q) by (induction q; cbn; f_equal; auto).
    repeat split; auto; try contradiction; try discriminate; try lia; try (destruct ok; auto; fail); try (intros []; auto; fail); try (intros [? [[] _]]). }
  cbn [ldone_loop] in E. cbn [length] in L. destruct (Z.eqb_spec (kf_seq (lr_pkt r)) sq) as [S|S].
  - assert (EX : exists r0, In r0 (r :: t) /\ kf_seq (lr_pkt r0) = sq) by (exists r; split; [left|]; auto).
    assert (C : (ok = true /\ q = []) \/ match ok, q with true, [] => False | _, _ => True end) by (destruct ok, q; auto).
    destruct C as [[-> ->]|C].
    { injection E as <- <- <- <- <- <-. cbn. repeat split; auto; try contradiction; try discriminate; try lia. }
    set (q1 := if ok then kremove (lr_pkt r) q else q) in *.
    assert (E' : match t with [] => ([], q1, [lr_pkt r], 1, false, true)
      | n0 :: t' => let '(l'0, q2, d0, k0, em0, ub0) := ldone_loop ok sq q1 t' in (n0 :: l'0, q2, lr_pkt r :: d0, k0 + 1, em0, ub0) end
      = (l', q', d, k, em, ub)) by (unfold q1; destruct ok, q; try contradiction; exact E).
    clear E. destruct t as [|n0 t'].
    { injection E' as <- <- <- <- <- <-. cbn. repeat split; auto; try contradiction; try discriminate; try lia.
      - intros p [<-|[]]. auto.
      - unfold q1. destruct ok; auto. unfold kremove, lkeep. cbn. apply filter_ext. intros x. rewrite orb_false_r. auto. }
    destruct (ldone_loop ok sq q1 t') as [[[[[l0 q2] d0] k0] em0] ub0] eqn:D. injection E' as <- <- <- <- <- <-.
    cbn in L. destruct (IH t' q1 l0 q2 d0 k0 em0 ub0 ltac:(lia) D) as [A1 [A2 [A3 [A4 [A5 [A6 [A7 [A8 A9]]]]]]]].
    repeat split; auto; try lia.
    + cbn [map app]. apply perm_skip. rewrite A1. apply Permutation_middle.
    + intros x [<-|X]; [right; left; auto|right; right; auto].
    + intros p [<-|P]; auto.
    + rewrite A4. unfold q1. destruct ok; auto. unfold kremove. rewrite filter_filter. apply filter_ext. intros x.
      unfold lkeep. cbn. rewrite negb_orb. auto.
    + apply A7; auto.
    + apply A7; auto.
    + discriminate.
  - destruct (ldone_loop ok sq q t) as [[[[[l0 q2] d0] k0] em0] ub0] eqn:D. injection E as <- <- <- <- <- <-.
    destruct (IH t q l0 q2 d0 k0 em0 ub0 ltac:(lia) D) as [A1 [A2 [A3 [A4 [A5 [A6 [A7 [A8 A9]]]]]]]].
    repeat split; auto; try lia.
    + cbn [map app]. rewrite A1. apply Permutation_middle.
    + intros x [<-|X]; [left; auto|right; auto].
    + destruct (A6 H) as [-> _]. auto.
    + destruct (A6 H) as [_ [X _]]. auto.
    + destruct (A6 H) as [_ [_ X]]. auto.
    + apply A7; auto.
    + apply A7; auto.
    + intros X. apply A9 in X. destruct X as [x [X1 X2]]. exists x. split; auto. right. auto.
    + intros [x [[<-|X1] X2]]; [contradiction|]. apply A9. eauto.
Qed.


Lemma ldone_sub ok sq : forall n l q l' q' d k em ub, (length l <= n)%nat -> ldone_loop ok sq q l = (l', q', d, k, em, ub) -> sublist l' l.
Proof.
  induction n as [|n IH]; intros l q l' q' d k em ub L E.
  { destruct l; [|cbn in L; lia]. cbn in E. injection E as <- <- <- <- <- <-. constructor. }
  destruct l as [|r t]. { cbn in E. injection E as <- <- <- <- <- <-. constructor. }
  cbn [ldone_loop] in E. cbn [length] in L. destruct (kf_seq (lr_pkt r) =? sq).
  - assert (C : (ok = true /\ q = []) \/ match ok, q with true, [] => False | _, _ => True end) by (destruct ok, q; auto).
    destruct C as [[-> ->]|C].
    { injection E as <- <- <- <- <- <-. apply sub_refl. }
    set (q1 := if ok then kremove (lr_pkt r) q else q) in *.
    assert (E' : match t with [] => ([], q1, [lr_pkt r], 1, false, true)
      | n0 :: t' => let '(l'0, q2, d0, k0, em0, ub0) := ldone_loop ok sq q1 t' in (n0 :: l'0, q2, lr_pkt r :: d0, k0 + 1, em0, ub0) end
      = (l', q', d, k, em, ub)) by (unfold q1; destruct ok, q; try contradiction; exact E).
    clear E. destruct t as [|n0 t'].
    { injection E' as <- <- <- <- <- <-. constructor. }
    destruct (ldone_loop ok sq q1 t') as [[[[[l0 q2] d0] k0] em0] ub0] eqn:D. injection E' as <- <- <- <- <- <-.
    cbn in L. apply sub_drop, sub_keep. eapply (IH t'); [lia|exact D].
  - destruct (ldone_loop ok sq q t) as [[[[[l0 q2] d0] k0] em0] ub0] eqn:D. injection E as <- <- <- <- <- <-.
    apply sub_keep. eapply (IH t); [lia|exact D].
Qed.
Lemma sub_map {A B} (f : A -> B) l l' : sublist l l' -> sublist (map f l) (map f l').
Proof. induction 1; cbn; constructor; auto. Qed.

(** Events [LKResult] are added to the pending ones. *)
Definition results_at (n : nat) (s : lst) : list ltimer :=
  map (fun i => Ltimer (l_uid s + Z.of_nat i) (l_now s) LKResult) (seq 0 n).
Lemma ltimes_eq n : forall s, ltimes n (lsched 0 LKResult) s = lset_uid (l_uid s + Z.of_nat n) (lset_timers (l_timers s ++ results_at n s) s).
Proof.
  induction n as [|n IH]; intros s; cbn [ltimes].
  - unfold results_at. cbn. rewrite app_nil_r, Z.add_0_r. destruct s; reflexivity.
  - rewrite IH. unfold results_at. cbn [seq map]. rewrite <- seq_shift, map_map. dl s. unfold lsched, lset_timers, lset_uid. lproj.
    assert (X : map (fun i => Ltimer (s_uid + 1 + Z.of_nat i) s_now LKResult) (seq 0 n) = map (fun x => Ltimer (s_uid + Z.of_nat (S x)) s_now LKResult) (seq 0 n)).
    { apply map_ext. intros i. f_equal. lia. }
    rewrite X, <- app_assoc. cbn [app]. rewrite !Z.add_0_r. f_equal. lia.
Qed.

(** What SendDataDone does. *)
Lemma l_done_eq ok sq s l q d k em ub : ldone_loop ok sq (l_queue s) (l_rec s) = (l, q, d, k, em, ub) -> k <> 0 ->
  l_done ok sq s =
    (lset_sent (if ok then wrap16 (l_sent s + Z.of_nat (length d)) else l_sent s)
     (lset_disc (if ok then l_disc s else wrap16 (l_disc s + Z.of_nat (length d)))
     (lset_uid (l_uid s + Z.of_nat (length d)) (lset_timers (l_timers s ++ results_at (length d) s) (lset_res (negb em) (lset_queue q (lset_rec l s)))))),
     map (LRep ok) d ++ if ub then [LUb] else []).
Proof.
  intros E K. unfold l_done. rewrite E. apply Z.eqb_neq in K. rewrite K. rewrite ltimes_eq. f_equal.
  destruct ok; destruct s; reflexivity.
Qed.
Lemma l_done_none ok sq s l q d em ub : ldone_loop ok sq (l_queue s) (l_rec s) = (l, q, d, 0, em, ub) -> l_done ok sq s = (s, []).
Proof. intros E. unfold l_done. rewrite E. reflexivity. Qed.

(** ** Records after a timeout *)
Lemma update1_pkt sq f l : (forall r, lr_pkt (f r) = lr_pkt r) -> map lr_pkt (update1 sq f l) = map lr_pkt l.
Proof. intros F. induction l as [|r l IH]; auto. cbn. destruct (kf_seq (lr_pkt r) =? sq); cbn; [rewrite F|rewrite IH]; auto. Qed.
Lemma find1_in sq l r : find1 sq l = Some r -> In r l /\ kf_seq (lr_pkt r) = sq.
Proof. intros F. apply find_some in F. destruct F as [F1 F2]. apply Z.eqb_eq in F2. auto. Qed.
Lemma find1_none sq l : find1 sq l = None -> forall r, In r l -> kf_seq (lr_pkt r) <> sq.
Proof. intros F r R E. pose proof (find_none _ _ F r R) as X. cbn in X. apply Z.eqb_neq in X. contradiction. Qed.
Lemma kremove_filter f l : kremove f l = filter (lkeep [f]) l.
Proof. unfold kremove, lkeep. apply filter_ext. intros x. cbn. rewrite orb_false_r. auto. Qed.

(** ** A step as seen by the packets *)
Definition lsilent (o : list lout) : Prop := lacc_of o = [] /\ lrep_of true o = [] /\ lrep_of false o = [].
Inductive lview (c : lcfg) (s : lst) (s' : lst) (o : list lout) : Prop :=
| V_calm : lsilent o -> map lr_pkt (l_rec s') = map lr_pkt (l_rec s) -> sublist (l_queue s') (l_queue s) -> l_seq s' = l_seq s ->
    l_sent s' = l_sent s -> l_disc s' = l_disc s -> l_ids s <= l_ids s' ->
    (l_queue s' <> l_queue s -> exists r, In r (l_rec s) /\ l_queue s' = kremove (lr_pkt r) (l_queue s) /\
       exists t, In t (l_timers s') /\ lt_kind t = LKDone false (kf_seq (lr_pkt r))) -> lview c s s' o
| V_enq size dst : o = [LAcc (the_data c size dst s); LRet false] ->
    s' = (lset_ids (l_ids s + 1) (lset_rec (l_rec s ++ [Lrec (the_data c size dst s) 0 0])
       (lset_queue (l_queue s ++ [the_data c size dst s]) (lset_seq (wrap16 (l_seq s + 1)) s)))) -> lview c s s' o
| V_done i t ok sq l q d k em ub : nth_error (l_timers s) i = Some t -> lt_kind t = LKDone ok sq ->
    ldone_loop ok sq (l_queue s) (l_rec s) = (l, q, d, k, em, ub) -> k <> 0 ->
    l_rec s' = l -> l_queue s' = q -> l_seq s' = l_seq s -> l_ids s' = l_ids s ->
    l_sent s' = (if ok then wrap16 (l_sent s + Z.of_nat (length d)) else l_sent s) ->
    l_disc s' = (if ok then l_disc s else wrap16 (l_disc s + Z.of_nat (length d))) ->
    o = map (LRep ok) d ++ (if ub then [LUb] else []) -> lview c s s' o.

Definition same_pkts (s s' : lst) : Prop :=
  map lr_pkt (l_rec s') = map lr_pkt (l_rec s) /\ l_queue s' = l_queue s /\ l_seq s' = l_seq s /\
  l_sent s' = l_sent s /\ l_disc s' = l_disc s /\ l_ids s <= l_ids s'.
Lemma same_view c s s' o : lsilent o -> same_pkts s s' -> lview c s s' o.
Proof. intros S (E1 & E2 & E3 & E4 & E5 & E6). apply V_calm; auto; rewrite E2; [apply sub_refl|intros X; contradiction]. Qed.
Lemma same_pkts_trans s1 s2 s3 : same_pkts s1 s2 -> same_pkts s2 s3 -> same_pkts s1 s3.
Proof. unfold same_pkts. intuition (try congruence; lia). Qed.
Lemma same_ltry f s : same_pkts s (ltry f s).
Proof. unfold ltry. destruct (lcan s), (lready s); destruct s; unfold same_pkts; cbn; repeat split; lia. Qed.
Lemma same_lcancel u s : same_pkts s (lcancel u s).
Proof. destruct u; destruct s; unfold same_pkts; cbn; repeat split; lia. Qed.
Lemma same_decrease s : same_pkts s (decrease s).
Proof.
  unfold decrease. destruct (find1 _ _); [|unfold same_pkts; repeat split; lia].
  destruct (_ =? 0); dl s; unfold same_pkts; lproj; rewrite update1_pkt by auto; repeat split; lia.
Qed.
Lemma silent_lsnt f m s : lsilent (lsnt f m s).
Proof. unfold lsnt. destruct (lcan s); repeat split. Qed.
Lemma silent_nil : lsilent [].
Proof. repeat split. Qed.
Lemma silent_app a b : lsilent a -> lsilent b -> lsilent (a ++ b).
Proof. unfold lsilent. rewrite lacc_app, !lrep_app. intros (-> & -> & ->) (-> & -> & ->). auto. Qed.
Lemma same_cts f l : forall s, same_pkts s (cts_loop f l s).
Proof.
  induction l as [|r l IH]; intros s; cbn [cts_loop]; [unfold same_pkts; repeat split; lia|].
  destruct (_ =? _); auto. eapply same_pkts_trans; [|apply IH]. dl s. unfold same_pkts. lproj. repeat split; lia.
Qed.

Lemma tcase_view limit life ack sq s s' o : tcase limit life ack sq s s' o ->
  lsilent o /\ map lr_pkt (l_rec s') = map lr_pkt (l_rec s) /\ l_seq s' = l_seq s /\ l_sent s' = l_sent s /\ l_disc s' = l_disc s /\ l_ids s' = l_ids s /\
  sublist (l_queue s') (l_queue s) /\
  (l_queue s' <> l_queue s -> exists r, In r (l_rec s) /\ l_queue s' = kremove (lr_pkt r) (l_queue s) /\
       exists t, In t (l_timers s') /\ lt_kind t = LKDone false (kf_seq (lr_pkt r))).
Proof.
  intros T. destruct T.
  - repeat split; auto; [apply sub_refl|intros X; contradiction].
  - dl s. lproj. rewrite update1_pkt by auto. repeat split; auto; [apply sub_filter|]. intros _. exists r. destruct (find1_in _ _ _ H) as [H1 H2].
    repeat split; auto. eexists. split; [apply in_or_app; right; left; reflexivity|]. cbn. congruence.
  - dl s. lproj. rewrite update1_pkt by auto. destruct (_ >=? 32); repeat split; auto; try apply sub_refl; intros X; contradiction.
Qed.

(** The states through which a step goes have the same packets up to the queue. *)
Lemma view_pre c s s0 s' o : l_rec s0 = l_rec s -> l_queue s0 = l_queue s -> l_seq s0 = l_seq s -> l_sent s0 = l_sent s -> l_disc s0 = l_disc s -> l_ids s0 = l_ids s ->
  lsilent o /\ map lr_pkt (l_rec s') = map lr_pkt (l_rec s0) /\ l_seq s' = l_seq s0 /\ l_sent s' = l_sent s0 /\ l_disc s' = l_disc s0 /\ l_ids s' = l_ids s0 /\
  sublist (l_queue s') (l_queue s0) /\
  (l_queue s' <> l_queue s0 -> exists r, In r (l_rec s0) /\ l_queue s' = kremove (lr_pkt r) (l_queue s0) /\
       exists t, In t (l_timers s') /\ lt_kind t = LKDone false (kf_seq (lr_pkt r))) -> lview c s s' o.
Proof.
  intros E1 E2 E3 E4 E5 E6 (H1 & H2 & H3 & H4 & H5 & H6 & H7 & H8). rewrite E1, E2, E3, E4, E5, E6 in *. apply V_calm; auto. lia.
Qed.

Ltac samet := unfold same_pkts; try unfold lcancel; lproj; repeat split; lia.
Lemma step_view c e s ev s' o : lcase c e s ev s' o -> lview c s s' o.
Proof.
  intros C. destruct C.
  - apply same_view; [repeat split|samet].
  - eapply V_enq; reflexivity.
  - apply same_view; [apply silent_nil|]. dl s. samet.
  - apply same_view; [apply silent_nil|]. eapply same_pkts_trans; [apply (same_lcancel (l_sde s))|]. destruct (lcancel _ _); samet.
  - apply same_view; [apply silent_nil|samet].
  - apply same_view; [apply silent_nil|]. dl s. samet.
  - apply same_view; [apply silent_nil|]. dl s. samet.
  - apply same_view; [apply silent_nil|]. dl s. samet.
  - (* CTA, 3-way *)
    assert (X : lsilent o1 /\ map lr_pkt (l_rec s1) = map lr_pkt (l_rec s) /\ l_seq s1 = l_seq s /\ l_sent s1 = l_sent s /\ l_disc s1 = l_disc s /\ l_ids s1 = l_ids s /\
      sublist (l_queue s1) (l_queue s) /\
      (l_queue s1 <> l_queue s -> exists r, In r (l_rec s) /\ l_queue s1 = kremove (lr_pkt r) (l_queue s) /\
       exists t, In t (l_timers s1) /\ lt_kind t = LKDone false (kf_seq (lr_pkt r)))).
    { destruct H5 as [A|s1 o1 A T].
      - dl s. lproj. repeat split; auto; [apply sub_refl|intros X; contradiction].
      - apply tcase_view in T. destruct T as (T1 & T2 & T3 & T4 & T5 & T6 & T7 & T8). destruct s, s1; lproj. repeat split; auto; apply T1. }
    destruct X as (X1 & X2 & X3 & X4 & X5 & X6 & X7 & X8).
    assert (Y : lsilent o2 /\ same_pkts s1 s2 /\ (forall t, In t (l_timers s1) -> In t (l_timers s2))).
    { clear - H6. destruct H6.
      - split; [apply silent_nil|]. split; [apply same_decrease|]. unfold decrease. destruct (find1 _ _); auto. destruct (_ =? 0); destruct s1; auto.
      - split; [apply silent_nil|]. dl s1. split; [samet|]. auto.
      - split; [repeat split|]. dl s1. split; [samet|]. auto.
      - split; [apply silent_nil|]. dl s1. split; [samet|]. lproj. intros. apply in_or_app. auto. }
    destruct Y as (Y1 & (Y2 & Y3 & Y4 & Y5 & Y6 & Y7) & Y8).
    apply V_calm; try congruence; try lia; [apply silent_app; auto|].
    rewrite Y3. intros N. destruct (X8 N) as [r [R1 [R2 [t [T1 T2]]]]]. exists r. repeat split; auto. eauto.
  - destruct H3; (apply same_view; [try destruct (_ <? 0); repeat split|]).
    + eapply same_pkts_trans; [|apply same_decrease]. dl s. samet.
    + dl s. samet.
    + dl s. samet.
  - apply same_view; [apply silent_nil|]. dl s. samet.
  - apply same_view; [apply silent_nil|]. eapply same_pkts_trans; [|apply same_cts]. dl s. samet.
  - apply same_view; [apply silent_nil|]. dl s. samet.
  - apply same_view; [apply silent_nil|]. dl s. samet.
  - apply same_view; [apply silent_lsnt|]. subst s0. eapply same_pkts_trans; [|apply same_ltry]. dl s. samet.
  - apply same_view; [apply silent_lsnt|]. subst s0. eapply same_pkts_trans; [|apply same_ltry]. dl s. samet.
  - apply same_view; [apply silent_nil|]. subst s0. dl s. samet.
  - apply same_view; [apply silent_nil|]. subst s0. dl s. samet.
  - apply same_view; [destruct (_ <? 0); repeat split|]. subst s0. dl s. samet.
  - eapply view_pre; [..|eapply tcase_view; eauto]; subst s0; destruct s; reflexivity.
  - subst s0. destruct (ldone_loop ok sq (l_queue s) (l_rec s)) as [[[[[l q] d] k] em] ub] eqn:D.
    assert (D' : ldone_loop ok sq (l_queue (lset_timers (remove_nth i (l_timers s)) s)) (l_rec (lset_timers (remove_nth i (l_timers s)) s)) = (l, q, d, k, em, ub)) by (destruct s; exact D).
    destruct (Z.eq_dec k 0) as [->|K].
    + rewrite (l_done_none _ _ _ _ _ _ _ _ D'). cbn [fst snd]. apply same_view; [apply silent_nil|]. destruct s; samet.
    + rewrite (l_done_eq _ _ _ _ _ _ _ _ _ D' K). cbn [fst snd]. eapply V_done; eauto; destruct s; reflexivity.
  - apply same_view; [destruct (l_res s); repeat split|]. subst s0. destruct s; samet.
  - apply same_view; [apply silent_nil|samet].
  - apply same_view; [apply silent_nil|]. destruct s; samet.
Qed.

(** ** Accounting *)
Lemma nodup_snoc1 {A} (l : list A) x : NoDup l -> ~ In x l -> NoDup (l ++ [x]).
Proof. intros N I. apply NoDup_rev in N. rewrite <- (rev_involutive (l ++ [x])). apply NoDup_rev. rewrite rev_app_distr. cbn. constructor; auto. rewrite <- in_rev. auto. Qed.

Record lacct (c : lcfg) (q0 : Z) (s : lst) (o : list lout) : Prop := Lacct {
  la_perm : Permutation (lacc_of o) (lrep_of true o ++ lrep_of false o ++ map lr_pkt (l_rec s));
  la_sub : sublist (map lr_pkt (l_rec s)) (lacc_of o);
  la_queue : sublist (l_queue s) (lacc_of o);
  la_ids : NoDup (map kf_id (lacc_of o));
  la_bound : forall p, In p (lacc_of o) -> kf_id p < l_ids s;
  la_num : forall i p, nth_error (lacc_of o) i = Some p -> kf_seq p = (q0 + 1 + Z.of_nat i) mod 65536;
  la_seq : l_seq s = (q0 + Z.of_nat (length (lacc_of o))) mod 65536;
  la_sent : l_sent s = Z.of_nat (length (lrep_of true o)) mod 65536;
  la_disc : l_disc s = Z.of_nat (length (lrep_of false o)) mod 65536;
  la_form : forall p, In p (lacc_of o) -> kf_type p = T_DATA /\ kf_src p = lc_addr c
}.

Lemma rep_map ok d (ub : bool) : lacc_of (map (LRep ok) d ++ (if ub then [LUb] else [])) = [] /\
  lrep_of ok (map (LRep ok) d ++ (if ub then [LUb] else [])) = d /\ lrep_of (negb ok) (map (LRep ok) d ++ (if ub then [LUb] else [])) = [].
Proof.
  rewrite lacc_app, !lrep_app. assert (X : lacc_of (if ub then [LUb] else []) = [] /\ forall b, lrep_of b (if ub then [LUb] else []) = []) by (destruct ub; auto).
  destruct X as [-> X]. rewrite !X, !app_nil_r. repeat split.
  - induction d; auto.
  - induction d as [|p d IH]; auto. cbn. rewrite eqb_reflx. cbn. f_equal. auto.
  - induction d as [|p d IH]; auto. cbn. destruct ok; auto.
Qed.

Lemma lacct_step c q0 s o s' o' : lview c s s' o' -> lacct c q0 s o -> lacct c q0 s' (o ++ o').
Proof.
  intros V [A1 A2 A3 A4 A5 A6 A7 A8 A9 A10]. destruct V.
  - destruct H as (S1 & S2 & S3).
    assert (X : lacc_of (o ++ o') = lacc_of o /\ lrep_of true (o ++ o') = lrep_of true o /\ lrep_of false (o ++ o') = lrep_of false o).
    { rewrite lacc_app, !lrep_app, S1, S2, S3, !app_nil_r. auto. }
    destruct X as (X1 & X2 & X3). constructor; rewrite ?X1, ?X2, ?X3; auto; try congruence.
    + eapply sub_trans; [exact A3|auto].
    + intros p P. apply A5 in P. lia.
  - subst o' s'.
    assert (X : lacc_of (o ++ [LAcc (the_data c size dst s); LRet false]) = lacc_of o ++ [the_data c size dst s] /\ forall b, lrep_of b (o ++ [LAcc (the_data c size dst s); LRet false]) = lrep_of b o).
    { rewrite lacc_app. split; auto. intros b. rewrite lrep_app. cbn. rewrite app_nil_r. auto. }
    destruct X as (X1 & X2). set (p := the_data c size dst s) in *.
    assert (SQ : wrap16 (l_seq s + 1) = (q0 + 1 + Z.of_nat (length (lacc_of o))) mod 65536).
    { unfold wrap16. rewrite A7. change (2 ^ 16) with 65536. rewrite Zplus_mod_idemp_l. f_equal. lia. }
    constructor; rewrite ?X1, ?X2; auto; dl s; lproj.
    + rewrite map_app. cbn [map]. rewrite !app_assoc. apply Permutation_app_tail. rewrite <- !app_assoc. auto.
    + rewrite map_app. apply sub_app. auto.
    + apply sub_app. auto.
    + rewrite map_app. apply nodup_snoc1; auto. intros I. apply in_map_iff in I. destruct I as [x [I1 I2]]. apply A5 in I2. unfold p in I1. cbn in I1. lia.
    + intros x I. apply in_app_or in I. destruct I as [I|[<-|[]]]; [apply A5 in I; lia|]. cbn. lia.
    + intros i x N. destruct (Nat.lt_ge_cases i (length (lacc_of o))) as [L|L].
      * rewrite nth_error_app1 in N by auto. auto.
      * rewrite nth_error_app2 in N by auto. destruct (i - length (lacc_of o))%nat as [|n] eqn:E; cbn in N; [|destruct n; discriminate].
        injection N as <-. cbn [p the_data kf_seq]. lproj. rewrite SQ. f_equal. lia.
    + rewrite SQ, app_length. cbn [length]. f_equal. lia.
    + intros x I. apply in_app_or in I. destruct I as [I|[<-|[]]]; [auto|]. cbn. auto.
  - destruct (ldone_spec ok sq (length (l_rec s)) _ _ _ _ _ _ _ _ (le_n _) H1) as (B1 & B2 & B3 & B4 & B5 & B6 & B7 & B8 & B9).
    pose proof (ldone_sub ok sq (length (l_rec s)) _ _ _ _ _ _ _ _ (le_n _) H1) as B10.
    destruct (rep_map ok d ub) as (R1 & R2 & R3). rewrite <- H9 in R1, R2, R3.
    constructor; rewrite ?lacc_app, ?lrep_app, ?R1, ?app_nil_r; auto; try congruence.
    + destruct ok; cbn [negb] in R3; rewrite R2, R3, ?app_nil_r; rewrite A1, H3.
      * rewrite <- !app_assoc. apply Permutation_app_head. rewrite B1. rewrite !app_assoc. apply Permutation_app_tail. apply Permutation_app_comm.
      * rewrite <- !app_assoc. apply Permutation_app_head. apply Permutation_app_head. auto.
    + rewrite H3. eapply sub_trans; [exact A2|]. apply sub_map. auto.
    + rewrite H4, B4. destruct ok; auto. eapply sub_trans; [exact A3|apply sub_filter].
    + intros p P. rewrite H6. auto.
    + rewrite H7. destruct ok; cbn [negb] in R3; rewrite ?R2, ?R3, ?app_nil_r; auto. rewrite A8. unfold wrap16. change (2 ^ 16) with 65536. rewrite Zplus_mod_idemp_l, app_length. f_equal. lia.
    + rewrite H8. destruct ok; cbn [negb] in R3; rewrite ?R2, ?R3, ?app_nil_r; auto. rewrite A9. unfold wrap16. change (2 ^ 16) with 65536. rewrite Zplus_mod_idemp_l, app_length. f_equal. lia.
Qed.

Lemma lacct_reach P c q0 h s o : 0 <= q0 < 65536 -> lreach P c q0 h s o -> lacct c q0 s o.
Proof.
  intros U R. induction R as [|h s o e ev R IH V HP].
  - constructor; cbn [lacc_of lrep_of flat_map linit l_rec l_queue l_ids l_seq l_sent l_disc map app length].
    + constructor.
    + constructor.
    + constructor.
    + constructor.
    + intros p [].
    + intros [] p H; discriminate H.
    + rewrite Z.add_0_r, Z.mod_small; auto.
    + reflexivity.
    + reflexivity.
    + intros p [].
  - eapply lacct_step; [|exact IH]. eapply step_view. apply step_lcase. auto.
Qed.

Lemma lunique c q0 s o p p' : lacct c q0 s o -> Z.of_nat (length (lacc_of o)) <= 65536 -> In p (lacc_of o) -> In p' (lacc_of o) ->
  kf_seq p = kf_seq p' -> p = p'.
Proof.
  intros A L P P' E. apply In_nth_error in P, P'. destruct P as [i I], P' as [j J].
  assert (X := nth_error_Some (lacc_of o) i). assert (Y := nth_error_Some (lacc_of o) j). rewrite I in X. rewrite J in Y.
  destruct X as [X _], Y as [Y _]. specialize (X ltac:(discriminate)). specialize (Y ltac:(discriminate)).
  pose proof (la_num _ _ _ _ A i p I). pose proof (la_num _ _ _ _ A j p' J).
  assert (Z.of_nat i = Z.of_nat j) by (apply (wrap16_inj (q0 + 1)); try lia; unfold wrap16; change (2 ^ 16) with 65536; congruence).
  assert (i = j) by lia. congruence.
Qed.
