(** A client that sends nothing any more; the end of a backoff; broadcast packets. *)
From Coq Require Import ZArith List Lia Bool Permutation.
From Verif Require Import Base HeaderModel SeqModel EnergyModel MacModel MacSpec MacAcct MacResp ApModel ClientModel ClientSpec ClientCase ClientAcct ClientInv ClientFifo ClientOrder ClientCount ClientRetry ClientMore.
Import ListNotations.
Open Scope Z_scope.

Lemma lreach_last P c q0 h x s o : lreach P c q0 (h ++ [x]) s o ->
  exists s0 o0, lreach P c q0 h s0 o0 /\ lvalid s0 (snd x) = true /\ P s0 (snd x) /\ s = fst (lstep c (fst x) s0 (snd x)) /\ o = o0 ++ snd (lstep c (fst x) s0 (snd x)).
Proof.
  intros R. inversion R as [E|h' s' o' e ev R' V HP E]; [destruct h; discriminate|].
  apply app_inj_tail in E. destruct E as [-> <-]. exists s', o'. auto.
Qed.
Lemma lreach_det P c q0 h s o s' o' : lreach P c q0 h s o -> lreach P c q0 h s' o' -> s' = s /\ o' = o.
Proof. intros R1 R2. apply lreach_run in R1. apply lreach_run in R2. rewrite R1 in R2. injection R2 as <- <-. auto. Qed.
Lemma lreach_prefix P c q0 h h2 : forall s2 o2, lreach P c q0 (h ++ h2) s2 o2 -> exists s o o', lreach P c q0 h s o /\ o2 = o ++ o'.
Proof.
  induction h2 as [|x h2 IH] using rev_ind; intros s2 o2 R.
  - rewrite app_nil_r in R. exists s2, o2, []. rewrite app_nil_r. auto.
  - rewrite app_assoc in R. apply lreach_last in R. destruct R as (s0 & o0 & R & _ & _ & _ & ->). destruct (IH _ _ R) as (s & o & o' & R' & ->).
    exists s, o, (o' ++ snd (lstep c (fst x) s0 (snd x))). rewrite app_assoc. auto.
Qed.

Ltac no_out := let X := fresh in intros ? ? X; exfalso; exact X.
(** ** A backoff without record *)
Definition idle_kind (k : lkind) : Prop :=
  match k with LKDummy f => kf_type f = T_RTS /\ kf_flags f = 1 | LKDone _ _ | LKResult => True | _ => False end.
Record stuck (s : lst) : Prop := Stuck {
  sk_bo : l_boact s = true;
  sk_rec : forall r, In r (l_rec s) -> kf_seq (lr_pkt r) <> l_boseq s;
  sk_ans : l_answered s = true;
  sk_timers : forall t, In t (l_timers s) -> idle_kind (lt_kind t)
}.
Definition no_cts (c : lcfg) (h : list (lenv * levent)) : Prop := forall f, In f (lrcv_of h) -> kf_type f = T_CTS -> kf_dst f <> lc_addr c.
Lemma find1_absent q l : (forall r, In r l -> kf_seq (lr_pkt r) <> q) -> find1 q l = None.
Proof.
  intros H. unfold find1. destruct (find _ l) as [r|] eqn:E; auto. apply find_some in E. destruct E as [E1 E2]. apply Z.eqb_eq in E2. exfalso. eapply H; eauto.
Qed.
Lemma stuck_step c e s ev s' o : lcase c e s ev s' o -> stuck s ->
  (forall f, ev = LERxEnd f true -> kf_type f = T_CTS -> kf_dst f <> lc_addr c) -> (forall p, In p (lacc_of o) -> kf_seq p <> l_boseq s) ->
  stuck s' /\ l_boseq s' = l_boseq s /\ (forall f m, In (LSnd f m) o -> kf_type f = T_RTS /\ kf_flags f = 1) /\ (forall a q, ~ In (LTmo a q) o).
Proof.
  intros C ST NC NA. pose proof ST as [A1 A2 A3 A4].
  assert (SAME : forall s', l_boact s' = true -> l_boseq s' = l_boseq s -> l_answered s' = true -> (forall r, In r (l_rec s') -> In r (l_rec s)) ->
    (forall t, In t (l_timers s') -> idle_kind (lt_kind t)) -> stuck s').
  { intros x E1 E2 E3 E4 E5. split; auto. intros r R. rewrite E2. auto. }
  assert (RT : forall i t, In t (remove_nth i (l_timers s)) -> idle_kind (lt_kind t)) by (intros i t T; apply A4; eapply remove_nth_in; eauto).
  destruct C; try (split; [|split; [reflexivity|split; [no_out|no_out]]]).
  - split; [auto|split; [reflexivity|split]]; [intros ? ? [I|[]]; discriminate|intros ? ? [I|[]]; discriminate].
  - split; [|split; [reflexivity|split]]; [|intros ? ? [I|[I|[]]]; discriminate|intros ? ? [I|[I|[]]]; discriminate].
    split; auto. intros r R. assert (R' : In r (l_rec s ++ [Lrec (the_data c size dst s) 0 0])) by exact R.
    apply in_app_or in R'. destruct R' as [R'|[<-|[]]]; [apply A2; auto|]. apply (NA (the_data c size dst s)). left. auto.
  - apply SAME; auto.
  - split; [|split; [destruct (l_sde s); reflexivity|split; [no_out|no_out]]].
    destruct (l_sde s) as [u|]; apply SAME; auto. intros t T. apply A4. apply (filter_In (fun t => negb (lt_id t =? u)) t (l_timers s)). exact T.
  - exact ST.
  - apply SAME; auto. intros t T. assert (T' : In t (l_timers s ++ [Ltimer (l_uid s) (l_now s + boslots c e) (LKDummy (the_dummy c e f s))])) by exact T.
    apply in_app_or in T'. destruct T' as [T'|[<-|[]]]; auto. cbn. auto.
  - apply SAME; auto.
  - apply SAME; auto.
  - destruct H5 as [A|s1 o1 A T]; [|congruence].
    destruct H6 as [B|B|B R|r t B S R]; try (change (l_boact s = false) in B; congruence).
    cbn [app]. assert (E : decrease (lset_state LIdle s) = lset_state LIdle s).
    { unfold decrease. rewrite find1_absent; auto. }
    rewrite E. split; [|split; [reflexivity|split; [no_out|no_out]]]. apply SAME; auto.
  - destruct H3 as [B|B R|r t B R]; try (change (l_boact s = false) in B; congruence).
    assert (E : decrease (lset_state LIdle s) = lset_state LIdle s).
    { unfold decrease. rewrite find1_absent; auto. }
    rewrite E. split; [|split; [reflexivity|split; [no_out|no_out]]]. apply SAME; auto.
  - apply SAME; auto.
  - exfalso. eapply NC; eauto.
  - apply SAME; auto.
  - apply SAME; auto. intros t T. assert (T' : In t (filter (fun t => negb (lt_id t =? u)) (l_timers s) ++ [Ltimer (l_uid s) (l_now s + psec) (LKDone true (kf_seq f))])) by exact T.
    apply in_app_or in T'. destruct T' as [T'|[<-|[]]]; [|exact I]. apply filter_In in T'. apply A4. apply T'.
  - subst s0. set (s0 := lset_timers (remove_nth i (l_timers s)) s). destruct (ltry_fields f s0) as (_ & _ & E1 & E2 & _ & E3 & E4 & _).
    pose proof (nth_error_In _ _ H) as IN. pose proof (A4 _ IN) as K. rewrite H1 in K. cbn in K.
    split; [|split; [rewrite E4; reflexivity|]].
    + apply SAME; [rewrite E3; exact A1|rewrite E4; reflexivity|rewrite E1; exact A3|rewrite E2; auto|rewrite ltry_timers; apply RT].
    + unfold lsnt. destruct (lcan s0); split; try (no_out; fail).
      * intros g m [X|[]]. injection X as <- <-. exact K.
      * intros a q [X|[]]. discriminate X.
  - exfalso. apply nth_error_In in H. specialize (A4 _ H). rewrite H1 in A4. exact A4.
  - exfalso. apply nth_error_In in H. specialize (A4 _ H). rewrite H1 in A4. exact A4.
  - exfalso. apply nth_error_In in H. specialize (A4 _ H). rewrite H1 in A4. exact A4.
  - exfalso. apply nth_error_In in H. specialize (A4 _ H). rewrite H1 in A4. exact A4.
  - exfalso. apply nth_error_In in H. specialize (A4 _ H). rewrite H1 in A4. exact A4.
  - subst s0. destruct (ldone_loop ok sq (l_queue s) (l_rec s)) as [[[[[l qq] d] k] em] ub] eqn:D.
    assert (D' : ldone_loop ok sq (l_queue (lset_timers (remove_nth i (l_timers s)) s)) (l_rec (lset_timers (remove_nth i (l_timers s)) s)) = (l, qq, d, k, em, ub)) by (destruct s; exact D).
    destruct (Z.eq_dec k 0) as [->|N].
    + rewrite (l_done_none _ _ _ _ _ _ _ _ D'). cbn [fst snd]. split; [|split; [reflexivity|split; [no_out|no_out]]]. apply SAME; auto. apply RT.
    + rewrite (l_done_eq _ _ _ _ _ _ _ _ _ D' N). cbn [fst snd].
      destruct (ldone_spec ok sq (length (l_rec s)) _ _ _ _ _ _ _ _ (le_n _) D) as (_ & B2 & _).
      split; [|split; [reflexivity|split]].
      * apply SAME; auto. intros x X. assert (X' : In x (remove_nth i (l_timers s) ++ results_at (length d) s)) by exact X.
        apply in_app_or in X'. destruct X' as [X'|X']; [eapply RT; eauto|]. apply in_map_iff in X'. destruct X' as [j [<- _]]. exact I.
      * intros g m X. apply in_app_or in X. destruct X as [X|X]; [apply in_map_iff in X; destruct X as [? [X _]]; discriminate X|]. destruct ub; [destruct X as [X|[]]; discriminate X|contradiction].
      * intros g m X. apply in_app_or in X. destruct X as [X|X]; [apply in_map_iff in X; destruct X as [? [X _]]; discriminate X|]. destruct ub; [destruct X as [X|[]]; discriminate X|contradiction].
  - subst s0. split; [|split; [reflexivity|]].
    + apply SAME; auto. apply RT.
    + destruct (l_res s); split; intros ? ? X; cbn in X; try contradiction; destruct X as [X|[]]; discriminate X.
  - exact ST.
  - apply SAME; auto.
Qed.
Lemma lrcv_snoc h x : lrcv_of (h ++ [x]) = lrcv_of h ++ lrcv_of [x].
Proof. unfold lrcv_of. rewrite flat_map_app. reflexivity. Qed.
(** Whatever happens from a stuck state on, unless a CTS comes or the numbers begin to recur: nothing but dummy RTS is sent. *)
Lemma stuck_forever P c q0 h s o h2 : lreach P c q0 h s o -> stuck s -> numbered o (l_boseq s) -> 0 <= q0 < 65536 ->
  forall s2 o2, lreach P c q0 (h ++ h2) s2 o2 -> no_cts c h2 -> Z.of_nat (length (lacc_of o2)) <= 65536 ->
  exists o', o2 = o ++ o' /\ stuck s2 /\ l_boseq s2 = l_boseq s /\ (forall f m, In (LSnd f m) o' -> kf_type f = T_RTS /\ kf_flags f = 1) /\ (forall a q, ~ In (LTmo a q) o').
Proof.
  intros R ST NB U. induction h2 as [|x h2 IH] using rev_ind; intros s2 o2 R2 NC L.
  - rewrite app_nil_r in R2. destruct (lreach_det _ _ _ _ _ _ _ _ R R2) as [-> ->]. exists []. rewrite app_nil_r. split; auto. split; [exact ST|]. split; auto. split; no_out.
  - rewrite app_assoc in R2. pose proof (lacct_reach _ _ _ _ _ _ U R2) as A2. apply lreach_last in R2. destruct R2 as (s1 & o1 & R1 & V & HP & -> & ->).
    assert (L1 : Z.of_nat (length (lacc_of o1)) <= 65536) by (rewrite lacc_app, app_length in L; lia).
    assert (NC1 : no_cts c h2) by (intros f F; apply NC; rewrite lrcv_snoc; apply in_or_app; auto).
    destruct (IH _ _ R1 NC1 L1) as (o' & E & ST1 & B & S1 & T1).
    pose proof (lacct_reach _ _ _ _ _ _ U R1) as A1.
    pose proof (new_num _ _ _ _ _ _ A1 A2 L) as NEW.
    destruct (stuck_step c (fst x) s1 (snd x) _ _ (step_lcase _ _ _ _ V) ST1) as (K1 & K2 & K3 & K4).
    + intros f F. apply NC. rewrite lrcv_snoc. apply in_or_app. right. destruct x as [e ev]. cbn in F. subst ev. left. auto.
    + intros p Ip E2. apply (NEW p Ip). rewrite E2, B, E. apply numbered_app. auto.
    + exists (o' ++ snd (lstep c (fst x) s1 (snd x))). rewrite E, app_assoc. split; auto. split; [exact K1|]. split; [congruence|]. split.
      * intros f m H. apply in_app_or in H. destruct H as [H|H]; [apply (S1 f m H)|apply (K3 f m H)].
      * intros a q X. apply in_app_or in X. destruct X as [X|X]; [apply (T1 a q X)|apply (K4 a q X)].
Qed.

(** ** The end of a backoff *)
Definition announces (c : lcfg) (f : kframe) : Prop :=
  kf_type f = T_CTA /\ (lc_ways c = 1 \/ lc_ways c = 3 /\ kf_flags f <> 1 /\ (kf_flags f = 2 -> kf_dst f <> lc_addr c)).
Definition hear (l : list (lenv * kframe)) : list (lenv * levent) := flat_map (fun x => [(fst x, LERxStart); (fst x, LERxEnd (snd x) true)]) l.
Definition quiet (s : lst) : Prop := l_state s <> LTx /\ l_state s <> LWaitAck.

Lemma rx_quiet s : quiet s -> exists s1, l_rx_start s = (s1, []) /\ l_state s1 = LRx /\ l_rec s1 = l_rec s /\ l_queue s1 = l_queue s /\ l_boact s1 = l_boact s /\ l_boseq s1 = l_boseq s /\
  l_answered s1 = l_answered s /\ l_now s1 = l_now s /\ l_sector s1 = l_sector s /\ (forall t, In t (l_timers s1) -> In t (l_timers s)).
Proof.
  intros [Q1 Q2]. unfold l_rx_start. assert (E : is_lstate LTx s || is_lstate LWaitAck s = false) by (unfold is_lstate; destruct (l_state s); auto; contradiction).
  rewrite E. eexists. split; [reflexivity|]. destruct (l_sde s) as [u|]; repeat split; auto.
  intros t T. apply (filter_In (fun t => negb (lt_id t =? u)) t (l_timers s)). exact T.
Qed.
(** During a backoff an announcement only counts. *)
Lemma hear_bo c e f s : announces c f -> l_state s = LRx -> l_queue s <> [] -> l_boact s = true -> l_answered s = true ->
  l_rx_end c e f true s = (decrease (lset_state LIdle s), []).
Proof.
  intros [T A] ST Q B AN. unfold l_rx_end. unfold is_lstate. rewrite ST. cbn [orb negb]. rewrite T. cbn [Z.eqb Pos.eqb T_CTA].
  assert (Q' : exists p q, l_queue (lset_state LIdle s) = p :: q) by (change (l_queue (lset_state LIdle s)) with (l_queue s); destruct (l_queue s); [contradiction|eauto]).
  destruct Q' as (p & q & Q').
  destruct (Z.eqb_spec T_CTA T_CTA) as [_|X]; [|contradiction].
  destruct (Z.eqb_spec (lc_ways c) 1) as [W|W].
  - unfold receive_cta1. rewrite lseq_eq. cbn [llift fst snd app]. rewrite Q'. change (l_boact (lset_state LIdle s)) with (l_boact s). rewrite B. reflexivity.
  - destruct A as [A|(W3 & F1 & F2)]; [contradiction|]. rewrite W3. cbn [Z.eqb Pos.eqb].
    unfold receive_cta3. rewrite lseq_eq. cbn [llift fst snd app].
    apply Z.eqb_neq in F1. rewrite F1.
    assert (G : (kf_flags f =? 2) && (kf_dst f =? lc_addr c) = false).
    { destruct (Z.eqb_spec (kf_flags f) 2) as [E|E]; auto. cbn. apply Z.eqb_neq. auto. }
    rewrite G. rewrite Q'. rewrite lseq_eq. change (l_answered (lset_state LIdle s)) with (l_answered s). rewrite AN. cbn [fst snd app].
    change (l_boact (lset_state LIdle s)) with (l_boact s). rewrite B. reflexivity.
Qed.
Lemma find1_update sq f l r : find1 sq l = Some r -> (forall x, lr_pkt (f x) = lr_pkt x) -> find1 sq (update1 sq f l) = Some (f r).
Proof.
  intros F P. unfold find1 in *. induction l as [|x l IH]; [discriminate|]. cbn in *. destruct (kf_seq (lr_pkt x) =? sq) eqn:E.
  - injection F as ->. cbn. rewrite P, E. auto.
  - cbn. rewrite E. auto.
Qed.
Record waiting (k : Z) (ps : list kframe) (q : list kframe) (sec : Z) (s : lst) : Prop := Waiting {
  wt_quiet : quiet s; wt_queue : l_queue s = q; wt_ans : l_answered s = true; wt_pk : map lr_pkt (l_rec s) = ps; wt_sec : l_sector s = sec;
  wt_bo : l_boact s = (0 <? k);
  wt_life : 0 < k -> exists r, find1 (l_boseq s) (l_rec s) = Some r /\ lr_life r = k
}.
Lemma waiting_one c e f k ps q sec s : waiting k ps q sec s -> announces c f -> 0 < k < 65536 -> q <> [] ->
  exists s', lrun c s (hear [(e, f)]) = (s', []) /\ waiting (k - 1) ps q sec s'.
Proof.
  intros [W1 W2 W3 W4 W5 W6 W7] A K Q. destruct (rx_quiet s W1) as (s1 & E1 & E2 & E3 & E4 & E5 & E6 & E7 & E8 & E9 & E10).
  assert (B : l_boact s1 = true) by (rewrite E5, W6; apply Z.ltb_lt; lia).
  pose proof (hear_bo c e f s1 A E2 ltac:(congruence) B ltac:(congruence)) as H.
  cbn [hear flat_map app fst snd lrun lstep]. rewrite E1, H. eexists. split; [reflexivity|].
  destruct (W7 ltac:(lia)) as (r & F & L). rewrite <- E6, <- E3 in F.
  unfold decrease. change (l_rec (lset_state LIdle s1)) with (l_rec s1). change (l_boseq (lset_state LIdle s1)) with (l_boseq s1). rewrite F, L.
  assert (WR : wrap16 (k - 1) = k - 1) by (unfold wrap16; change (2 ^ 16) with 65536; apply Z.mod_small; lia). rewrite WR.
  set (g := fun x => Lrec (lr_pkt x) (lr_retry x) (k - 1)).
  assert (G1 : map lr_pkt (update1 (l_boseq s1) g (l_rec s1)) = ps) by (rewrite update1_pkt; [congruence|auto]).
  assert (G2 : find1 (l_boseq s1) (update1 (l_boseq s1) g (l_rec s1)) = Some (g r)) by (apply find1_update; auto).
  destruct (Z.eqb_spec (k - 1) 0) as [Z|Z].
  - split; cbn [lset_boact lset_rec lset_state l_queue l_answered l_rec l_sector l_boact l_boseq quiet l_state]; auto; try congruence.
    + split; cbn; discriminate.
    + rewrite Z. reflexivity.
    + intros X. lia.
  - split; cbn [lset_boact lset_rec lset_state l_queue l_answered l_rec l_sector l_boact l_boseq quiet l_state]; auto; try congruence.
    + split; cbn; discriminate.
    + rewrite B. symmetry. apply Z.ltb_lt. lia.
    + intros _. exists (g r). split; auto.
Qed.
Lemma hear_app a b : hear (a ++ b) = hear a ++ hear b.
Proof. unfold hear. apply flat_map_app. Qed.
Lemma waiting_many c ps q sec l : forall k s, waiting k ps q sec s -> (forall x, In x l -> announces c (snd x)) -> q <> [] -> Z.of_nat (length l) <= k < 65536 ->
  exists s', lrun c s (hear l) = (s', []) /\ waiting (k - Z.of_nat (length l)) ps q sec s'.
Proof.
  induction l as [|[e f] l IH]; intros k s W A Q L.
  - exists s. split; [reflexivity|]. cbn. rewrite Z.sub_0_r. auto.
  - cbn [length] in L. rewrite Nat2Z.inj_succ in L.
    destruct (waiting_one c e f k ps q sec s W (A _ (or_introl eq_refl)) ltac:(lia) Q) as (s1 & R1 & W1).
    destruct (IH (k - 1) s1 W1 ltac:(intros; apply A; right; auto) Q ltac:(lia)) as (s2 & R2 & W2).
    exists s2. change ((e, f) :: l) with ([(e, f)] ++ l). rewrite hear_app, lrun_app, R1, R2. split; auto.
    rewrite app_length. cbn [length]. replace (k - Z.of_nat (1 + length l)) with (k - 1 - Z.of_nat (length l)) by lia. auto.
Qed.
(** Without backoff the announcement of the own sector leads to an RTS (3-way) or to the packet (1-way), for the oldest packet. *)
Lemma hear_send c e f s r t : announces c f -> l_state s = LRx -> l_queue s <> [] -> l_boact s = false -> l_answered s = true -> l_rec s = r :: t ->
  (lc_ways c <> 1 -> l_sector s <= -1 \/ kf_sector f = l_sector s) ->
  let s' := fst (l_rx_end c e f true s) in
  exists tm, l_timers s' = l_timers s ++ [tm] /\
    (lc_ways c = 1 -> lt_kind tm = LKData (lr_pkt r) 0 /\ lt_due tm = l_now s + fair c e) /\
    (lc_ways c <> 1 -> lt_kind tm = LKRts (lr_pkt r) /\ lt_due tm = l_now s + boslots c e).
Proof.
  intros [T A] ST Q B AN R SEC. unfold l_rx_end. unfold is_lstate. rewrite ST. cbn [orb negb]. rewrite T.
  assert (Q' : exists p q, l_queue (lset_state LIdle s) = p :: q) by (change (l_queue (lset_state LIdle s)) with (l_queue s); destruct (l_queue s); [contradiction|eauto]).
  destruct Q' as (p & q & Q').
  destruct (Z.eqb_spec T_CTA T_CTA) as [_|X]; [|contradiction].
  destruct (Z.eqb_spec (lc_ways c) 1) as [W|W].
  - unfold receive_cta1. rewrite lseq_eq. cbn [llift fst snd app]. rewrite Q'. change (l_boact (lset_state LIdle s)) with (l_boact s). rewrite B.
    change (l_rec (lset_state LIdle s)) with (l_rec s). rewrite R. unfold lsched_neg. cbn [fst snd].
    eexists. split; [reflexivity|]. split; [|intros; contradiction]. intros _. split; reflexivity.
  - destruct A as [A|(W3 & F1 & F2)]; [contradiction|]. rewrite W3. cbn [Z.eqb Pos.eqb].
    unfold receive_cta3. rewrite lseq_eq. cbn [llift fst snd app].
    apply Z.eqb_neq in F1. rewrite F1.
    assert (G : (kf_flags f =? 2) && (kf_dst f =? lc_addr c) = false).
    { destruct (Z.eqb_spec (kf_flags f) 2) as [E|E]; auto. cbn. apply Z.eqb_neq. auto. }
    rewrite G. rewrite Q'. rewrite lseq_eq. change (l_answered (lset_state LIdle s)) with (l_answered s). rewrite AN. cbn [fst snd app].
    change (l_boact (lset_state LIdle s)) with (l_boact s). rewrite B. change (l_sector (lset_state LIdle s)) with (l_sector s).
    assert (G2 : (l_sector s >? -1) && negb (kf_sector f =? l_sector s) = false).
    { destruct (SEC W) as [X|X]; [|rewrite X, Z.eqb_refl; apply andb_false_r]. rewrite Z.gtb_ltb. destruct (Z.ltb_spec (-1) (l_sector s)); [lia|auto]. }
    rewrite G2. change (l_rec (lset_state LIdle s)) with (l_rec s). rewrite R. cbn [fst snd].
    eexists. split; [reflexivity|]. split; [intros; lia|]. intros _. split; reflexivity.
Qed.

Lemma sub_len {A} (l l' : list A) : sublist l l' -> length l = length l' -> l = l'.
Proof.
  assert (G : forall (l l' : list A), sublist l l' -> (length l <= length l')%nat) by (induction 1; cbn; lia).
  induction 1 as [l|x l l' S IH|x l l' S IH]; intros E; cbn in E.
  - destruct l; [auto|discriminate].
  - f_equal. auto.
  - apply G in S. lia.
Qed.
(** ** A broadcast packet at the head of the queue in 1-way mode *)
Record blocked (s : lst) : Prop := Blocked {
  bk_rec : forall r t, l_rec s = r :: t -> kf_dst (lr_pkt r) = bcast;
  bk_timers : forall t, In t (l_timers s) -> exists p m, lt_kind t = LKData p m /\ kf_dst p = bcast;
  bk_acks : l_acks s = []
}.
Lemma blocked_step c e s ev s' o : lcase c e s ev s' o -> lc_ways c = 1 -> blocked s ->
  (forall f, ev = LERxEnd f true -> kf_type f = T_CTS -> kf_dst f <> lc_addr c) ->
  (l_rec s = [] -> forall p, In p (lacc_of o) -> kf_dst p = bcast) ->
  blocked s' /\ lsnd_of o = [] /\ lrep_of true o = [] /\ lrep_of false o = [].
Proof.
  intros C W BK NC FB. pose proof BK as [A1 A2 A3].
  assert (SAME : forall s', map lr_pkt (l_rec s') = map lr_pkt (l_rec s) -> l_acks s' = [] -> (forall t, In t (l_timers s') -> exists p m, lt_kind t = LKData p m /\ kf_dst p = bcast) -> blocked s').
  { intros x E1 E2 E3. split; auto. intros r t E. rewrite E in E1. destruct (l_rec s) as [|r0 t0] eqn:E0; [discriminate E1|]. cbn in E1. injection E1 as E1 _. rewrite E1. eapply A1; eauto. }
  assert (RT : forall i t, In t (remove_nth i (l_timers s)) -> exists p m, lt_kind t = LKData p m /\ kf_dst p = bcast) by (intros i t T; apply A2; eapply remove_nth_in; eauto).
  destruct C; try (split; [|split; [reflexivity|split; reflexivity]]); try congruence.
  - split; auto. intros r t E. assert (E' : l_rec s ++ [Lrec (the_data c size dst s) 0 0] = r :: t) by exact E.
    destruct (l_rec s) as [|r0 t0] eqn:E0.
    + cbn in E'. injection E' as <- <-. cbn [lr_pkt]. apply FB; auto. left. auto.
    + injection E' as <- _. eapply A1; eauto.
  - apply SAME; auto.
  - destruct (l_sde s) as [u|]; apply SAME; auto. intros t T. apply A2. apply (filter_In (fun t => negb (lt_id t =? u)) t (l_timers s)). exact T.
  - apply SAME; auto.
  - destruct H3 as [B|B R|r t B R].
    + split; [|auto]. apply SAME.
      * unfold decrease. destruct (find1 _ _) as [x|]; auto. destruct (wrap16 (lr_life x - 1) =? 0); change (map lr_pkt (update1 (l_boseq s) (fun y => Lrec (lr_pkt y) (lr_retry y) (wrap16 (lr_life x - 1))) (l_rec s)) = map lr_pkt (l_rec s)); rewrite update1_pkt; auto.
      * unfold decrease. destruct (find1 _ _) as [x|]; auto. destruct (wrap16 (lr_life x - 1) =? 0); auto.
      * rewrite dec_timers. exact A2.
    + split; [|auto]. apply SAME; auto.
    + split; [|destruct (_ <? 0); auto].
      apply SAME; auto. intros x X. assert (X' : In x (l_timers s ++ [Ltimer (l_uid s) (l_now s + fair c e) (LKData (lr_pkt r) 0)])) by exact X.
      apply in_app_or in X'. destruct X' as [X'|[<-|[]]]; auto. cbn. exists (lr_pkt r), 0. split; auto. eapply A1. exact R.
  - apply SAME; auto.
  - exfalso. eapply NC; eauto.
  - apply SAME; auto.
  - exfalso. rewrite A3 in H2. discriminate H2.
  - exfalso. apply nth_error_In in H. destruct (A2 _ H) as (p & m & X & _). congruence.
  - exfalso. apply nth_error_In in H. destruct (A2 _ H) as (p' & m & X & _). congruence.
  - subst s0. apply SAME; auto. apply RT.
  - exfalso. apply nth_error_In in H. destruct (A2 _ H) as (p' & m' & X & Y). congruence.
  - exfalso. apply nth_error_In in H. destruct (A2 _ H) as (p' & m' & X & Y). congruence.
  - exfalso. apply nth_error_In in H. destruct (A2 _ H) as (p' & m' & X & Y). congruence.
  - exfalso. apply nth_error_In in H. destruct (A2 _ H) as (p' & m' & X & Y). congruence.
  - exfalso. apply nth_error_In in H. destruct (A2 _ H) as (p' & m' & X & Y). congruence.
  - apply SAME; auto.
Qed.
Lemma blocked_reach P c q0 h s o : 0 <= q0 < 65536 -> lc_ways c = 1 -> lreach P c q0 h s o -> no_cts c h ->
  (forall p l, lacc_of o = p :: l -> kf_dst p = bcast) ->
  blocked s /\ lsnd_of o = [] /\ map lr_pkt (l_rec s) = lacc_of o /\ lrep_of true o = [] /\ lrep_of false o = [].
Proof.
  intros U W R. induction R as [|h s o e ev R IH V HP]; intros NC FB.
  - split; [split; cbn; auto; discriminate + contradiction|]. auto.
  - assert (NC0 : no_cts c h) by (intros f F; apply NC; rewrite lrcv_snoc; apply in_or_app; auto).
    assert (FB0 : forall p l, lacc_of o = p :: l -> kf_dst p = bcast) by (intros p l E; eapply FB; rewrite lacc_app, E; reflexivity).
    destruct (IH NC0 FB0) as (B & S & M & R1 & R2). pose proof (step_lcase c e s ev V) as C.
    destruct (blocked_step _ _ _ _ _ _ C W B) as (B' & S' & R1' & R2').
    + intros f E. apply NC. rewrite lrcv_snoc. apply in_or_app. right. subst ev. left. auto.
    + intros E p Ip. rewrite E in M. cbn in M. destruct (lacc_of (snd (lstep c e s ev))) as [|p0 l0] eqn:E0; [contradiction|].
      assert (X : lacc_of (o ++ snd (lstep c e s ev)) = p0 :: l0) by (rewrite lacc_app, <- M, E0; reflexivity).
      assert (Y : l0 = []).
      { destruct (step_view _ _ _ _ _ _ C) as [Q _ _ _ _ _ _ _|? ? Q _|? ? ? ? ? ? ? ? ? ? _ _ _ _ _ _ _ _ _ _ Q].
        - destruct Q as (Q & _). rewrite Q in E0. discriminate.
        - rewrite Q in E0. cbn in E0. congruence.
        - rewrite Q in E0. rewrite (proj1 (rep_map _ _ _)) in E0. discriminate. }
      subst l0. destruct Ip as [<-|[]]. eapply FB. exact X.
    + split; auto. rewrite lsnd_app, !lrep_app, S, S', R1, R1', R2, R2'. repeat split; auto.
      pose proof (lacct_reach _ _ _ _ _ _ U (LR1 _ _ _ _ _ _ e ev R V HP)) as A. pose proof (la_perm _ _ _ _ A) as PM. pose proof (la_sub _ _ _ _ A) as SB.
      rewrite !lrep_app, R1, R1', R2, R2' in PM. cbn in PM. symmetry in PM. apply Permutation_length in PM.
      apply sub_len; auto.
Qed.
