(** The results file of the client. *)
From Coq Require Import ZArith QArith List Bool Lia Permutation.
From Verif Require Import Base HeaderModel SeqModel EnergyModel MacModel MacAcct ApModel ClientModel ClientSpec ClientCase ClientAcct ClientInv ClientRetry ClientFifo ClientNeg StatModel StatProofs.
Import ListNotations.
Open Scope Z_scope.

Definition isres (t : ltimer) : bool := match lt_kind t with LKResult => true | _ => false end.
Definition rtm (s : lst) : list ltimer := filter isres (l_timers s).

Lemma isres_filter l u : (forall t, In t l -> lt_id t = u -> isres t = false) -> filter isres (filter (fun t => negb (lt_id t =? u)) l) = filter isres l.
Proof.
  induction l as [|t l IH]; intros H; auto. cbn [filter]. destruct (Z.eqb_spec (lt_id t) u) as [E|E]; cbn [negb filter].
  - rewrite (H t) by (auto; left; auto). apply IH. intros. apply H; auto. right. auto.
  - rewrite IH; auto. intros. apply H; auto. right. auto.
Qed.
Lemma isres_fire l : forall i t, nth_error l i = Some t -> isres t = false -> filter isres (remove_nth i l) = filter isres l.
Proof.
  induction l as [|x l IH]; intros [|i] t N E; try discriminate N; cbn [nth_error remove_nth] in *.
  - injection N as ->. cbn. rewrite E. auto.
  - cbn [filter]. rewrite (IH i t); auto.
Qed.
Lemma isres_add l t : isres t = false -> filter isres (l ++ [t]) = filter isres l.
Proof. intros E. rewrite filter_app. cbn. rewrite E, app_nil_r. auto. Qed.
Lemma isres_cts f l : forall now u, filter isres (cts_new f now u l) = [].
Proof. induction l as [|r l IH]; intros now u; auto. cbn [cts_new]. destruct (_ =? _); [|auto]. cbn. apply IH. Qed.

Definition ekind (s : lst) (ev : levent) : option lkind := match ev with LETimer i => option_map lt_kind (nth_error (l_timers s) i) | _ => None end.
Lemma tcase_rtm limit life ack sq s s' o : tcase limit life ack sq s s' o -> rtm s' = rtm s.
Proof. intros T. destruct T; try reflexivity. apply isres_add. reflexivity. Qed.
Lemma rtm_results n s : filter isres (results_at n s) = results_at n s /\ map lt_due (results_at n s) = repeat (l_now s) n.
Proof.
  unfold results_at. generalize 0%nat. induction n as [|n IH]; intros k; [auto|]. cbn [seq map filter repeat]. destruct (IH (S k)) as [E1 E2].
  rewrite E1, E2. split; reflexivity.
Qed.

Lemma rtm_step c e s ev s' o : lcase c e s ev s' o -> ids_ok s ->
  match ekind s ev with
  | Some LKResult => exists i t, ev = LETimer i /\ nth_error (l_timers s) i = Some t /\ lt_kind t = LKResult /\ rtm s' = filter isres (remove_nth i (l_timers s)) /\ lsilent o
  | Some (LKDone ok _) => exists d, flat_map (lstat1 (l_now s)) o = map (fun p => SRep ok p (l_now s)) d /\
      map lt_due (rtm s') = map lt_due (rtm s) ++ repeat (l_now s) (length d) /\ incl d (map lr_pkt (l_rec s))
  | _ => rtm s' = rtm s /\ lrep_of true o = [] /\ lrep_of false o = []
  end.
Proof.
  intros C I. destruct C; unfold ekind; rewrite ?H; cbn [option_map]; rewrite ?H1;
    try (split; [reflexivity|split; reflexivity]).
  - split; [|split; reflexivity]. destruct (l_sde s) as [u|] eqn:E; [|reflexivity]. change (filter isres (filter (fun t => negb (lt_id t =? u)) (l_timers s)) = rtm s).
    apply isres_filter. intros t T X. destruct (io_sde _ I u E) as [_ Y]. destruct (Y t T X) as [p Z]. unfold isres. rewrite Z. reflexivity.
  - split; [apply isres_add; reflexivity|split; reflexivity].
  - assert (X : rtm s1 = rtm s /\ lsilent o1).
    { destruct H5 as [A|s1 o1 A T]; [split; [reflexivity|apply silent_nil]|].
      apply tcase_view in T as T'. destruct T' as [T' _]. split; [|exact T']. exact (tcase_rtm _ _ _ _ _ _ _ T). }
    destruct X as [X1 X2]. assert (Y : rtm s2 = rtm s1 /\ lsilent o2).
    { destruct H6 as [B|B|B|r t B S R].
      - split; [|apply silent_nil]. destruct (dec_ids s1) as (_ & _ & _ & E4 & _). unfold rtm. rewrite E4. reflexivity.
      - split; [reflexivity|apply silent_nil].
      - split; [reflexivity|repeat split].
      - split; [apply isres_add; reflexivity|apply silent_nil]. }
    destruct Y as [Y1 Y2]. destruct (silent_app _ _ X2 Y2) as (_ & Z1 & Z2). split; [congruence|auto].
  - destruct H3 as [B|B|r t B R].
    + split; [|split; reflexivity]. destruct (dec_ids (lset_state LIdle s)) as (_ & _ & _ & E4 & _). unfold rtm. rewrite E4. reflexivity.
    + split; [reflexivity|split; reflexivity].
    + split; [apply isres_add; reflexivity|destruct (_ <? 0); split; reflexivity].
  - split; [|split; reflexivity]. unfold rtm. rewrite cts_timers, filter_app, isres_cts, app_nil_r. reflexivity.
  - split; [|split; reflexivity].
    change (filter isres (filter (fun t => negb (lt_id t =? u)) (l_timers s) ++ [Ltimer (l_uid s) (l_now s + psec) (LKDone true (kf_seq f))]) = rtm s).
    rewrite isres_add by reflexivity. apply isres_filter. apply find_some in H2. destruct H2 as [F _].
    intros t T X. destruct (io_acks _ I _ F) as [_ Y]. unfold isres. rewrite (Y t T X). reflexivity.
  - subst s0. match goal with |- context [ltry ?a ?b] => destruct (ltry_ids a b) as (_ & _ & _ & E4) end. split.
    + unfold rtm. rewrite E4. apply (isres_fire _ _ _ H). unfold isres. rewrite H1. reflexivity.
    + apply silent_lsnt.
  - subst s0. match goal with |- context [ltry ?a ?b] => destruct (ltry_ids a b) as (_ & _ & _ & E4) end. split.
    + unfold rtm. rewrite E4. apply (isres_fire _ _ _ H). unfold isres. rewrite H1. reflexivity.
    + apply silent_lsnt.
  - subst s0. split; [|split; reflexivity]. apply (isres_fire _ _ _ H). unfold isres. rewrite H1. reflexivity.
  - subst s0. split; [|split; reflexivity]. apply (isres_fire _ _ _ H). unfold isres. rewrite H1. reflexivity.
  - subst s0. split; [|destruct (_ <? 0); split; reflexivity].
    change (filter isres (remove_nth i (l_timers s) ++ [Ltimer (l_uid s) (l_now s + ack_wait c s) (LKAck (kf_seq p))]) = rtm s).
    rewrite isres_add by reflexivity. apply (isres_fire _ _ _ H). unfold isres. rewrite H1. reflexivity.
  - subst s0. apply tcase_view in H2 as T'. destruct T' as [(_ & T1 & T2) _]. split; [|auto].
    rewrite (tcase_rtm _ _ _ _ _ _ _ H2). apply (isres_fire _ _ _ H). unfold isres. rewrite H1. reflexivity.
  - subst s0. destruct (ldone_loop ok sq (l_queue s) (l_rec s)) as [[[[[l qq] d] k] em] ub] eqn:D.
    assert (D' : ldone_loop ok sq (l_queue (lset_timers (remove_nth i (l_timers s)) s)) (l_rec (lset_timers (remove_nth i (l_timers s)) s)) = (l, qq, d, k, em, ub)) by (destruct s; exact D).
    assert (F : filter isres (remove_nth i (l_timers s)) = rtm s) by (apply (isres_fire _ _ _ H); unfold isres; rewrite H1; reflexivity).
    destruct (Z.eq_dec k 0) as [->|K].
    + rewrite (l_done_none _ _ _ _ _ _ _ _ D'). exists []. cbn [fst snd flat_map map repeat length]. rewrite app_nil_r. split; [reflexivity|]. split; [|intros x []].
      f_equal. exact F.
    + rewrite (l_done_eq _ _ _ _ _ _ _ _ _ D' K). cbn [fst snd]. exists d. split; [|split].
      * rewrite flat_map_app. assert (X : flat_map (lstat1 (l_now s)) (if ub then [LUb] else []) = []) by (destruct ub; reflexivity). rewrite X, app_nil_r.
        clear. induction d as [|p d IH]; auto. cbn. f_equal. auto.
      * change (map lt_due (filter isres (remove_nth i (l_timers s) ++ results_at (length d) (lset_timers (remove_nth i (l_timers s)) s))) =
          map lt_due (rtm s) ++ repeat (l_now s) (length d)).
        rewrite filter_app, F. destruct (rtm_results (length d) (lset_timers (remove_nth i (l_timers s)) s)) as [R1 R2]. rewrite R1, map_app, R2. reflexivity.
      * destruct (ldone_spec ok sq (length (l_rec s)) _ _ _ _ _ _ _ _ (le_n _) D) as (B1 & _).
        intros x X. eapply Permutation_in; [apply Permutation_sym; exact B1|]. apply in_or_app; auto.
  - subst s0. exists i, t. repeat split; auto; destruct (l_res s); reflexivity.
Qed.

(** ** The log *)
Lemma llog_app c : forall h1 s h2, llog c s (h1 ++ h2) = llog c s h1 ++ llog c (fst (lrun c s h1)) h2.
Proof.
  induction h1 as [|[e ev] h1 IH]; intros s h2; cbn [app llog lrun]; auto. rewrite IH, app_assoc. destruct (lstep c e s ev) as [s1 o1]. cbn [fst].
  destruct (lrun c s1 h1); reflexivity.
Qed.
Definition llogx (s : lst) (ev : levent) (s' : lst) (o : list lout) : list (sev kframe) :=
  match ekind s ev with Some LKResult => [SWrite] | _ => [] end ++ flat_map (lstat1 (l_now s)) o ++
  match ekind s ev with
  | Some (LKDone _ sq) => if existsb (fun r => kf_seq (lr_pkt r) =? sq) (l_rec s) && negb (l_res s') then [SEmpty (l_now s)] else []
  | _ => []
  end.
Lemma llog1_eq c e s ev : llog1 c e s ev = llogx s ev (fst (lstep c e s ev)) (snd (lstep c e s ev)).
Proof. unfold llog1, llogx. destruct (lstep c e s ev); reflexivity. Qed.
Lemma llog_snoc P c q0 h s o e ev : lreach P c q0 h s o ->
  llog c (linit q0) (h ++ [(e, ev)]) = llog c (linit q0) h ++ llogx s ev (fst (lstep c e s ev)) (snd (lstep c e s ev)).
Proof. intros R. rewrite llog_app, (lreach_run _ _ _ _ _ _ R). cbn [fst llog]. rewrite app_nil_r, llog1_eq. reflexivity. Qed.

(** The log tells the same packets as the outputs. *)
Lemma accs_stat t o : map fst (accs (flat_map (lstat1 t) o)) = lacc_of o.
Proof. induction o as [|[] o IH]; cbn; auto. f_equal. auto. Qed.
Lemma reps_stat t o : map (fun x => snd (fst x)) (filter (fun x => fst (fst x)) (reps (flat_map (lstat1 t) o))) = lrep_of true o /\
  map (fun x => snd (fst x)) (filter (fun x => negb (fst (fst x))) (reps (flat_map (lstat1 t) o))) = lrep_of false o.
Proof.
  induction o as [|x o [IH1 IH2]]; [auto|]. cbn [flat_map]. rewrite !reps_app, !filter_app, !map_app, IH1, IH2. destruct x as [| | |ok p| | |]; try (split; reflexivity). destruct ok; split; reflexivity.
Qed.
Lemma accs_llogx s ev s' o : map fst (accs (llogx s ev s' o)) = lacc_of o.
Proof.
  unfold llogx. rewrite !accs_app, !map_app, accs_stat.
  assert (X : map fst (accs match ekind s ev with Some LKResult => [@SWrite kframe] | _ => [] end) = []) by (destruct (ekind s ev) as [[]|]; reflexivity).
  rewrite X. cbn [app].
  assert (Y : accs (match ekind s ev with Some (LKDone _ sq) => if existsb (fun r => kf_seq (lr_pkt r) =? sq) (l_rec s) && negb (l_res s') then [@SEmpty kframe (l_now s)] else [] | _ => [] end) = [])
    by (destruct (ekind s ev) as [[]|]; try reflexivity; destruct (_ && _); reflexivity).
  rewrite Y. apply app_nil_r.
Qed.
Lemma accs_llog P c q0 h s o : lreach P c q0 h s o -> map fst (accs (llog c (linit q0) h)) = lacc_of o.
Proof.
  intros R. induction R as [|h s o e ev R IH V HP]; auto. rewrite (llog_snoc _ _ _ _ _ _ _ _ R), accs_app, map_app, IH, lacc_app, accs_llogx. reflexivity.
Qed.

(** The instants at which SendDataDone finds a record. *)
Definition marks {F} (g : list (sev F)) : list Z := flat_map (fun x => match x with SRep _ _ t => [t] | SEmpty t => [t] | _ => [] end) g.
Lemma marks_app {F} (a b : list (sev F)) : marks (a ++ b) = marks a ++ marks b. Proof. apply flat_map_app. Qed.
Lemma silent_stat t o : lrep_of true o = [] -> lrep_of false o = [] -> exists A, flat_map (lstat1 t) o = map (fun p => SAcc p t) A.
Proof.
  induction o as [|[] o IH]; cbn; intros H1 H2; try (destruct (IH H1 H2) as [A ->]); try (exists A; reflexivity).
  - exists []. reflexivity.
  - exists (p :: A). reflexivity.
  - destruct ok; discriminate.
Qed.
Lemma known_add {F} (g : list (sev F)) g1 : known g -> (forall ok p t, In (SRep ok p t) g1 -> exists t0, In (p, t0) (accs g)) -> known (g ++ g1).
Proof.
  intros K H a ok p t b E. revert g1 H E. induction b as [|x b IH] using rev_ind; intros g1 H E.
  - destruct g1 as [|y g1 _] using rev_ind.
    + rewrite app_nil_r in E. eapply K; eauto.
    + rewrite app_assoc in E. apply app_inj_tail in E. destruct E as [E ->]. destruct (H ok p t) as [t0 I]; [apply in_or_app; right; left; auto|].
      exists t0. rewrite <- E, accs_app. apply in_or_app; auto.
  - destruct g1 as [|y g1 _] using rev_ind.
    + rewrite app_nil_r in E. eapply K; eauto.
    + rewrite app_assoc in E. rewrite app_comm_cons, app_assoc in E. apply app_inj_tail in E. destruct E as [E _].
      apply (IH g1); [|exact E]. intros ok' p' t' I. apply (H ok' p' t'). apply in_or_app; auto.
Qed.

Lemma log_ok P c q0 h s o : 0 <= q0 < 65536 -> lreach P c q0 h s o -> known (llog c (linit q0) h) /\ distinct kf_id (llog c (linit q0) h).
Proof.
  intros U R. split.
  - induction R as [|h s o e ev R IH V HP]; [intros a ok p t b E; destruct a; discriminate E|].
    rewrite (llog_snoc _ _ _ _ _ _ _ _ R). apply known_add; [exact IH|].
    intros ok p t I. pose proof (rtm_step _ _ _ _ _ _ (step_lcase c e s ev V) (ids_reach _ _ _ _ _ _ R)) as X.
    assert (J : In (SRep ok p t) (flat_map (lstat1 (l_now s)) (snd (lstep c e s ev)))).
    { unfold llogx in I. apply in_app_or in I. destruct I as [I|I]; [destruct (ekind s ev) as [[]|]; try contradiction I; destruct I as [I|[]]; discriminate I|].
      apply in_app_or in I. destruct I as [I|I]; [exact I|]. destruct (ekind s ev) as [[]|]; try contradiction I. destruct (_ && _); [destruct I as [I|[]]; discriminate I|contradiction I]. }
    assert (Q : lrep_of true (snd (lstep c e s ev)) = [] -> lrep_of false (snd (lstep c e s ev)) = [] -> False).
    { intros Q1 Q2. destruct (silent_stat (l_now s) _ Q1 Q2) as [A E]. rewrite E in J. apply in_map_iff in J. destruct J as [x [J _]]. discriminate J. }
    destruct (ekind s ev) as [[]|]; try (destruct X as (_ & X1 & X2); destruct (Q X1 X2); fail).
    + destruct X as (d & X1 & _ & X3). rewrite X1 in J. apply in_map_iff in J. destruct J as [x [J K]]. injection J as _ -> _.
      apply X3 in K. pose proof (lacct_reach _ _ _ _ _ _ U R) as AC. assert (L : In p (lacc_of o)).
      { eapply Permutation_in; [apply Permutation_sym; apply (la_perm _ _ _ _ AC)|]. apply in_or_app. right. apply in_or_app. right. exact K. }
      rewrite <- (accs_llog _ _ _ _ _ _ R) in L. apply in_map_iff in L. destruct L as [[y t0] [L1 L2]]. cbn in L1. subst y. eauto.
    + destruct X as (i & u & _ & _ & _ & _ & _ & X1 & X2). destruct (Q X1 X2).
  - unfold distinct. rewrite <- (map_map fst kf_id), (accs_llog _ _ _ _ _ _ R). apply (la_ids _ _ _ _ (lacct_reach _ _ _ _ _ _ U R)).
Qed.

Lemma ww_acc {F} (b : bool) (A : list F) (t : Z) : ww b (map (fun p => SAcc p t) A) = true /\ pnd b (map (fun p => SAcc p t) A) = b /\ marks (map (fun p => SAcc p t) A) = [].
Proof. induction A as [|p A (IH1 & IH2 & IH3)]; cbn; auto. Qed.
Lemma remove_le {A} (l : list A) : forall i x, nth_error l i = Some x -> forall P : A -> bool, P x = true -> length (filter P (remove_nth i l)) = pred (length (filter P l)).
Proof.
  induction l as [|y l IH]; intros [|i] x N P E; try discriminate N; cbn [nth_error remove_nth filter] in *.
  - injection N as ->. rewrite E. reflexivity.
  - rewrite <- (IH i x N P E) || idtac. pose proof (IH i x N P E) as X. destruct (P y); cbn [length]; rewrite X; auto.
    assert (In x (filter P l)) by (apply filter_In; split; [eapply nth_error_In; eauto|auto]). destruct (filter P l); [contradiction|reflexivity].
Qed.

(** While results come at different instants each is written before the next. *)
Lemma ww_reach c q0 h s o : lreach ontime c q0 h s o -> NoDup (marks (llog c (linit q0) h)) ->
  ww false (llog c (linit q0) h) = true /\ (forall t, In t (marks (llog c (linit q0) h)) -> t <= l_now s) /\
  (if pnd false (llog c (linit q0) h) then map lt_due (rtm s) = [l_now s] /\ In (l_now s) (marks (llog c (linit q0) h)) else rtm s = []).
Proof.
  intros R. induction R as [|h s o e ev R IH V HP]; [cbn; repeat split; intros; contradiction|].
  rewrite (llog_snoc _ _ _ _ _ _ _ _ R), marks_app, ww_app, pnd_app. set (g := llog c (linit q0) h) in *.
  set (s' := fst (lstep c e s ev)). set (o' := snd (lstep c e s ev)). intros N.
  assert (N1 : NoDup (marks g)) by (clear - N; induction (marks g) as [|x l IH]; [constructor|]; inversion N as [|? ? A B]; subst; constructor; [intros X; apply A; apply in_or_app; auto|auto]).
  destruct (IH N1) as (W & T & D). clear IH. rewrite W. cbn [andb].
  pose proof (step_lcase c e s ev V) as C. fold s' o' in C. clearbody s' o'.
  pose proof (rtm_step _ _ _ _ _ _ C (ids_reach _ _ _ _ _ _ R)) as X.
  destruct (step_rx _ _ _ _ _ _ C) as [NW _].
  assert (LE : l_now s <= l_now s').
  { destruct NW as [->|E]; [lia|]. rewrite E in HP. unfold ontime, ltimely in HP. apply andb_true_iff in HP. destruct HP as [HP _]. apply Z.leb_le in HP. auto. }
  assert (T' : forall t, In t (marks g) -> t <= l_now s') by (intros t I; apply T in I; lia).
  (* nothing done to results *)
  assert (CALM : rtm s' = rtm s -> lrep_of true o' = [] -> lrep_of false o' = [] -> llogx s ev s' o' = flat_map (lstat1 (l_now s)) o' ->
    ww (pnd false g) (llogx s ev s' o') = true /\ (forall t, In t (marks g ++ marks (llogx s ev s' o')) -> t <= l_now s') /\
    (if pnd (pnd false g) (llogx s ev s' o') then map lt_due (rtm s') = [l_now s'] /\ In (l_now s') (marks g ++ marks (llogx s ev s' o')) else rtm s' = [])).
  { intros E1 E2 E3 E4. rewrite E4. destruct (silent_stat (l_now s) o' E2 E3) as [A EA]. rewrite EA. destruct (ww_acc (pnd false g) A (l_now s)) as (W1 & W2 & W3).
    rewrite W1, W2, W3, app_nil_r, E1. split; [auto|]. split; [auto|].
    destruct (pnd false g); [|exact D]. destruct D as [D1 D2].
    destruct NW as [->|E]; [auto|]. assert (Y : l_now s' = l_now s); [|rewrite Y; auto].
    rewrite E in HP. unfold ontime, ltimely in HP. apply andb_true_iff in HP. destruct HP as [_ HP]. rewrite forallb_forall in HP.
    destruct (rtm s) as [|x [|]] eqn:Ex; try discriminate D1. injection D1 as D1. assert (I : In x (l_timers s)).
    { assert (I : In x (rtm s)) by (rewrite Ex; left; auto). apply filter_In in I. apply I. }
    apply HP in I. apply Z.leb_le in I. lia. }
  remember (ekind s ev) as k eqn:Ek. destruct k as [[]|];
    try (destruct X as (X1 & X2 & X3); apply CALM; auto; unfold llogx; rewrite <- Ek; cbn [app]; apply app_nil_r).
  - (* SendDataDone *)
    destruct X as (d & X1 & X2 & X3).
    assert (TM : l_now s' = l_now s) by (destruct NW as [A|A]; [exact A|subst ev; discriminate Ek]).
    assert (EL : llogx s ev s' o' = map (fun p => SRep ok p (l_now s)) d ++ (if existsb (fun r => kf_seq (lr_pkt r) =? sq) (l_rec s) && negb (l_res s') then [SEmpty (l_now s)] else [])).
    { unfold llogx. rewrite <- Ek. cbn [app]. rewrite X1. reflexivity. }
    rewrite EL in *. clear EL. set (E := if _ && _ then [SEmpty (l_now s)] else []) in *.
    assert (ED : E = [] \/ E = [SEmpty (l_now s)]) by (unfold E; destruct (_ && _); auto). clearbody E.
    assert (M : marks (map (fun p => SRep ok p (l_now s)) d ++ E) = repeat (l_now s) (length d + length E)).
    { rewrite marks_app. rewrite repeat_app. f_equal; [clear; induction d as [|p d IH]; [reflexivity|]; cbn [map length repeat]; rewrite <- IH; reflexivity|destruct ED as [->| ->]; reflexivity]. }
    rewrite M in *. assert (LN : (length d + length E <= 1)%nat).
    { clear - N. destruct (length d + length E)%nat as [|[|n]]; auto. exfalso. clear - N. induction (marks g) as [|x l IH]; inversion N as [|? ? A B]; subst; auto. apply A. left. auto. }
    assert (ZN : (length d + length E)%nat <> 0%nat -> pnd false g = false).
    { intros NZ. destruct (pnd false g); auto. exfalso. destruct D as [_ D]. destruct (length d + length E)%nat as [|[|]]; try lia. cbn [repeat] in N.
      clear - N D. induction (marks g) as [|x l IH]; [contradiction|]. inversion N as [|? ? A B]; subst. destruct D as [->|D]; [apply A; apply in_or_app; right; left; auto|auto]. }
    assert (T2 : forall t, In t (marks g ++ repeat (l_now s) (length d + length E)) -> t <= l_now s').
    { intros t I. apply in_app_or in I. destruct I as [I|I]; [auto|]. apply repeat_spec in I. lia. }
    destruct d as [|p [|]]; [| |cbn in LN; lia].
    + cbn [map app length repeat] in *. rewrite app_nil_r in X2. destruct ED as [->| ->].
      * cbn [ww pnd length repeat Nat.add app] in *. rewrite TM, app_nil_r. split; [auto|]. split; [intros t I; apply T; auto|].
        destruct (pnd false g); [rewrite X2; auto|]. destruct (rtm s'); auto. rewrite D in X2. discriminate X2.
      * rewrite (ZN ltac:(cbn; lia)) in *. cbn [ww pnd negb andb]. split; [auto|]. split; [auto|]. destruct (rtm s'); auto. rewrite D in X2. discriminate X2.
    + destruct ED as [->| ->]; [|cbn in LN; lia]. rewrite (ZN ltac:(cbn; lia)) in *. cbn [map app ww pnd negb andb length Nat.add repeat] in *. split; [auto|]. split; [auto|].
      rewrite X2, D, TM. split; [reflexivity|]. apply in_or_app. right. left. auto.
  - (* ResultsRecord *)
    destruct X as (i & t & -> & X1 & X2 & X3 & X4 & X5 & X6).
    assert (TM : l_now s' = l_now s) by (destruct NW as [A|A]; [exact A|discriminate A]).
    assert (EL : llogx s (LETimer i) s' o' = [SWrite]).
    { unfold llogx. rewrite <- Ek. destruct (silent_stat (l_now s) o' X5 X6) as [A EA]. rewrite EA. cbn [app]. rewrite app_nil_r.
      assert (Z : map fst (accs (map (fun p => SAcc p (l_now s)) A)) = []) by (rewrite <- EA, accs_stat; exact X4). destruct A; [reflexivity|discriminate Z]. }
    rewrite EL in *. cbn [marks flat_map app ww pnd]. rewrite app_nil_r.
    assert (I : In t (rtm s)) by (apply filter_In; split; [eapply nth_error_In; eauto|unfold isres; rewrite X2; reflexivity]).
    destruct (pnd false g); [|rewrite D in I; contradiction]. destruct D as [D _]. split; [reflexivity|]. split; [auto|].
    rewrite X3. assert (L : length (filter isres (remove_nth i (l_timers s))) = 0%nat).
    { rewrite (remove_le _ _ _ X1 isres) by (unfold isres; rewrite X2; reflexivity). fold (rtm s). rewrite <- (map_length lt_due), D. reflexivity. }
    destruct (filter isres (remove_nth i (l_timers s))); [reflexivity|discriminate L].
Qed.

(** Packets are accepted from above. *)
Lemma accs_from P c q0 h s o p t0 : lreach P c q0 h s o -> In (p, t0) (accs (llog c (linit q0) h)) ->
  exists e size dst, In (e, LEEnq size dst) h /\ lc_min c <= size /\ kf_size p = size + 17.
Proof.
  intros R. induction R as [|h s o e ev R IH V HP]; [contradiction|]. rewrite (llog_snoc _ _ _ _ _ _ _ _ R), accs_app. intros I. apply in_app_or in I.
  destruct I as [I|I]; [destruct (IH I) as (e1 & z & d & A & B); exists e1, z, d; split; [apply in_or_app; auto|auto]|].
  apply (in_map fst) in I. rewrite accs_llogx in I. cbn [fst] in I. pose proof (step_lcase c e s ev V) as C. remember (snd (lstep c e s ev)) as o1. remember (fst (lstep c e s ev)) as s1.
  pose proof (step_view _ _ _ _ _ _ C) as W. destruct W as [(S & _)|size dst E E'|i t ok sq l q d k em ub N1 N2 N3 N4 N5 N6 N7 N8 N9 N10 E].
  - rewrite S in I. contradiction.
  - destruct C; try discriminate E.
    + exists e, size0, dst0. injection E as E. split; [apply in_or_app; right; left; reflexivity|]. split; [auto|]. destruct I as [<-|[]]. reflexivity.
    + exfalso. assert (X : lacc_of (o1 ++ o2) <> []) by (rewrite E; discriminate). apply X. rewrite lacc_app.
      assert (Y : lacc_of o1 = []) by (destruct H5 as [|? ? A T]; [reflexivity|]; apply tcase_view in T; apply T). rewrite Y. destruct H6; reflexivity.
    + exfalso. assert (X : lacc_of o2 <> []) by (rewrite E; discriminate). apply X. destruct H3; try reflexivity. destruct (_ <? 0); reflexivity.
    + exfalso. destruct (silent_lsnt f 0 s0) as [X _]. rewrite E in X. discriminate X.
    + exfalso. destruct (silent_lsnt (the_rts c p0 s) 0 s0) as [X _]. rewrite E in X. discriminate X.
    + exfalso. apply tcase_view in H2. destruct H2 as [[X _] _]. rewrite E in X. discriminate X.
    + exfalso. unfold l_done in E. destruct (ldone_loop _ _ _ _) as [[[[[l q] d] k] em] ub]. destruct (k =? 0); [discriminate E|]. cbn [snd] in E.
      destruct d as [|x d]; [destruct ub; discriminate E|discriminate E].
    + exfalso. destruct (l_res s); discriminate E.
  - exfalso. rewrite E in I. destruct (rep_map ok d ub) as (X & _). rewrite X in I. contradiction.
Qed.
