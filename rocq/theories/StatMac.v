(** The log of the macro MAC: each result is written before the next comes. *)
From Coq Require Import ZArith QArith List Bool Lia Permutation.
From Verif Require Import Base HeaderModel SeqModel SeqProofs EnergyModel MacModel MacSpec MacProofs MacAcct MacSteps MacInv MacResp MacLive MacUb MacScript ClientModel StatModel StatProofs StatClient.
Import ListNotations.
Open Scope Z_scope.

Definition mres (t : mtimer) : bool := match mt_kind t with MKResult => true | _ => false end.
Definition mrt (s : mst) : list mtimer := filter mres (m_timers s).

Lemma mres_cancel l u : (forall t, In t l -> mt_id t = u -> mres t = false) -> filter mres (filter (fun t => negb (mt_id t =? u)) l) = filter mres l.
Proof.
  intros H. induction l as [|t l IH]; auto. cbn [filter]. destruct (Z.eqb_spec (mt_id t) u) as [E|E]; cbn [negb filter].
  - rewrite (H t (or_introl eq_refl) E). apply IH. intros; apply H; auto. right; auto.
  - rewrite IH; auto. intros; apply H; auto. right; auto.
Qed.
Lemma mres_fire l : forall i t, nth_error l i = Some t -> mres t = false -> filter mres (remove_nth i l) = filter mres l.
Proof.
  induction l as [|y l IH]; intros [|i] t N E; try discriminate N; cbn [nth_error remove_nth filter] in *.
  - injection N as ->. rewrite E. reflexivity.
  - rewrite (IH i t N E). reflexivity.
Qed.
Lemma mres_add l t : mres t = false -> filter mres (l ++ [t]) = filter mres l.
Proof. intros E. rewrite filter_app. cbn [filter]. rewrite E. apply app_nil_r. Qed.
Lemma mres_tail s s' : tail s s' -> mrt s' = mrt s.
Proof.
  intros T. destruct T as [_ [_ [_ [_ [_ [_ [_ [_ [[l [L1 L2]] _]]]]]]]]]. unfold mrt. rewrite L1, filter_app.
  replace (filter mres l) with (@nil mtimer); [apply app_nil_r|]. clear L1. induction L2 as [|t l [[K|K] _] L IH]; cbn [filter]; auto; unfold mres at 1; rewrite K; exact IH.
Qed.
Lemma mres_times n : forall s, map mt_due (mrt (times n (msched 0 MKResult) s)) = map mt_due (mrt s) ++ repeat (m_now s) n.
Proof.
  induction n as [|n IH]; intros s; cbn [times repeat]; [rewrite app_nil_r; auto|]. rewrite IH. unfold mrt. ss. rewrite filter_app, map_app. cbn [filter mres mt_kind map mt_due].
  rewrite Z.add_0_r, <- app_assoc. reflexivity.
Qed.
Lemma mres_bump e sq l : forall s l' s', bump e sq l s = (l', s') -> mrt s' = mrt s.
Proof.
  induction l as [|r l IH]; intros s l' s' B; cbn [bump] in B; [injection B as <- <-; auto|].
  destruct (mf_seq (mr_pkt r) =? sq).
  - match type of B with context [bump e sq l ?x] => set (s1 := x) in B end. destruct (bump e sq l s1) as [t' s2] eqn:B2. injection B as <- <-. rewrite (IH _ _ _ B2). unfold s1, mrt.
    destruct (5 <=? _); ss; apply mres_add; reflexivity.
  - destruct (bump e sq l s) as [t' s2] eqn:B2. injection B as <- <-. eauto.
Qed.
Lemma mres_tmo e sq s : mrt (fst (timeout e sq s)) = mrt s.
Proof. unfold timeout. destruct (bump e sq (m_rec s) (set_state MIdle s)) as [l s1] eqn:B. cbn [fst]. apply mres_bump in B. exact B. Qed.
Lemma mres_backoff e s : mrt (fst (backoff_start e s)) = mrt s.
Proof.
  unfold backoff_start, mrt. cbv zeta. set (s2 := if m_borem s =? 0 then _ else _). assert (X : m_timers s2 = m_timers s) by (unfold s2; destruct (_ =? _); reflexivity). clearbody s2.
  destruct (_ || _); ss; rewrite X; apply mres_add; reflexivity.
Qed.

(** How many results SendDataDone schedules. *)
Lemma done_count ok sq : forall n l q l' q' d k em ub, (length l <= n)%nat -> done_loop ok sq q l = (l', q', d, k, em, ub) ->
  k = Z.of_nat (length d + if em then 1 else 0).
Proof.
  induction n as [|n IH]; intros l q l' q' d k em ub L E.
  { destruct l; [|cbn in L; lia]. cbn in E. injection E as <- <- <- <- <- <-. reflexivity. }
  destruct l as [|r t]; [cbn in E; injection E as <- <- <- <- <- <-; reflexivity|].
  cbn [done_loop] in E. cbn [length] in L. destruct (mf_seq (mr_pkt r) =? sq).
  - assert (G : forall q1 l'' q'' d'' k'' em'' ub'', match t with [] => ([], q1, [mr_pkt r], 1, false, true) | n0 :: t' =>
        let '(l1, q2, d1, k1, em1, ub1) := done_loop ok sq q1 t' in (n0 :: l1, q2, mr_pkt r :: d1, k1 + 1, em1, ub1) end = (l'', q'', d'', k'', em'', ub'') ->
        k'' = Z.of_nat (length d'' + if em'' then 1 else 0)).
    { intros q1 l'' q'' d'' k'' em'' ub'' E'. destruct t as [|n0 t']; [injection E' as <- <- <- <- <- <-; reflexivity|].
      destruct (done_loop ok sq q1 t') as [[[[[l1 q2] d1] k1] em1] ub1] eqn:E2. injection E' as <- <- <- <- <- <-.
      cbn [length] in L. pose proof (IH t' q1 l1 q2 d1 k1 em1 ub1 ltac:(lia) E2) as IH'. cbn [length]. rewrite IH'. lia. }
    destruct ok; [destruct q; [injection E as <- <- <- <- <- <-; reflexivity|]|]; eapply G; exact E.
  - destruct (done_loop ok sq q t) as [[[[[l1 q2] d1] k1] em1] ub1] eqn:E2. injection E as <- <- <- <- <- <-.
    apply (IH t q l1 q2 d1 k1 em1 ub1); [lia|exact E2].
Qed.
Lemma mrt_done ok sq s : exists d (em : bool), flat_map (mstat1 (m_now s)) (snd (send_data_done ok sq s)) = map (fun p => SRep ok p (m_now s)) d /\
  map mt_due (mrt (fst (send_data_done ok sq s))) = map mt_due (mrt s) ++ repeat (m_now s) (length d + if em then 1 else 0) /\
  ((length d + if em then 1 else 0)%nat <> 0%nat -> m_res (fst (send_data_done ok sq s)) = negb em) /\ incl d (map mr_pkt (m_rec s)).
Proof.
  unfold send_data_done. destruct (done_loop ok sq (m_queue s) (m_rec s)) as [[[[[l q] d] k] em] ub] eqn:E.
  pose proof (done_count ok sq _ _ _ _ _ _ _ _ _ (le_n _) E) as K. destruct (done_spec ok sq _ _ _ _ _ _ _ _ _ (le_n _) E) as [P _].
  assert (I : incl d (map mr_pkt (m_rec s))). { intros x X. eapply Permutation_in; [apply Permutation_sym; exact P|]. apply in_or_app; auto. }
  destruct (Z.eqb_spec k 0) as [Z0|Z0].
  - exists [], false. cbn [fst snd]. cbn. rewrite app_nil_r. repeat split; try tauto. intros x [].
  - exists d, em. cbv zeta. cbn [fst snd]. assert (N : (length d + if em then 1 else 0)%nat = Z.to_nat k) by lia. rewrite N.
    split; [|split; [|split; [|exact I]]].
    + rewrite flat_map_app. replace (flat_map (mstat1 (m_now s)) (if ub then [OUb] else [])) with (@nil (sev mframe)) by (destruct ub; reflexivity).
      rewrite app_nil_r. clear. induction d as [|p d IH]; [reflexivity|]. cbn [map flat_map mstat1 app]. rewrite IH. reflexivity.
    + rewrite <- mres_times. destruct (Z.of_nat (length d) =? 0), ok; reflexivity.
    + intros _. destruct (Z.of_nat (length d) =? 0), ok; reflexivity.
Qed.

Definition mekind (s : mst) (ev : mevent) : option mkind := match ev with ETimer i => option_map mt_kind (nth_error (m_timers s) i) | _ => None end.
(** What a step does to the results. *)
Definition r_write (s : mst) (ev : mevent) (s' : mst) (o : list mout) : Prop :=
  exists i t, ev = ETimer i /\ nth_error (m_timers s) i = Some t /\ mt_kind t = MKResult /\ m_timers s' = remove_nth i (m_timers s) /\ flat_map (mstat1 (m_now s)) o = [].
Definition r_done (s : mst) (ev : mevent) (s' : mst) (o : list mout) : Prop :=
  mekind s ev <> Some MKResult /\ exists ok d (em : bool), flat_map (mstat1 (m_now s)) o = map (fun p => SRep ok p (m_now s)) d /\
  map mt_due (mrt s') = map mt_due (mrt s) ++ repeat (m_now s) (length d + if em then 1 else 0) /\
  ((length d + if em then 1 else 0)%nat <> 0%nat -> m_res s' = negb em) /\ incl d (map mr_pkt (m_rec s)).
Definition r_calm (s : mst) (ev : mevent) (s' : mst) (o : list mout) : Prop :=
  mekind s ev <> Some MKResult /\ mrt s' = mrt s /\ exists A, flat_map (mstat1 (m_now s)) o = map (fun p => SAcc p (m_now s)) A.

Lemma hush_stat c t o : hush c o -> flat_map (mstat1 t) o = [].
Proof. intros [H _]. induction o as [|x o IH]; auto. cbn [flat_map]. rewrite (H x (or_introl eq_refl)), IH; auto. intros y Y. apply H. right; auto. Qed.

Lemma mrt_step c e s ev s' o : scase c e s ev s' o -> Ids s -> r_write s ev s' o \/ r_done s ev s' o \/ r_calm s ev s' o.
Proof.
  intros C IX.
  assert (FK : forall i x, nth_error (m_timers s) i = Some x -> mt_kind x <> MKResult ->
    mekind s (ETimer i) <> Some MKResult /\ mrt (set_timers (remove_nth i (m_timers s)) s) = mrt s).
  { intros i x N K. split; [unfold mekind; rewrite N; cbn; congruence|]. unfold mrt. ss. apply (mres_fire _ _ x N). unfold mres. destruct (mt_kind x); congruence. }
  assert (QUIET : forall ev s' o, mekind s ev <> Some MKResult -> mrt s' = mrt s -> flat_map (mstat1 (m_now s)) o = [] -> r_write s ev s' o \/ r_done s ev s' o \/ r_calm s ev s' o).
  { intros ev' s'' o' A B D. right. right. split; [auto|]. split; [auto|]. exists []. exact D. }
  assert (NK : forall ev, (forall i, ev <> ETimer i) -> mekind s ev <> Some MKResult) by (intros [] N; cbn; try discriminate; destruct (N i); auto).
  scd C; cbn [fst snd] in *.
  - apply QUIET; auto. apply NK. discriminate.
  - destruct (enq_spec c size dst junk s L) as [O [_ [_ [_ [_ [_ [_ [_ [_ [_ [_ [_ [_ [_ [_ [_ [_ [_ [_ [_ TM]]]]]]]]]]]]]]]]]]]].
    right. right. split; [apply NK; discriminate|]. rewrite O. split; [|eexists [_]; reflexivity]. unfold mrt. rewrite TM, mres_add by reflexivity.
    destruct (m_rot s) as [u|] eqn:RO; auto. apply mres_cancel. intros t I E. destruct (i_rot _ IX u RO) as [_ P]. unfold mres. rewrite (P t I E). reflexivity.
  - apply QUIET; auto. apply NK. discriminate.
  - apply QUIET; auto. destruct ev; cbn; try discriminate. destruct (nth_error (m_timers s) i) eqn:N; [|discriminate]. destruct (N3 i m eq_refl); auto.
  - apply QUIET; [apply NK; discriminate|apply mres_tail in TL; exact TL|eauto using hush_stat].
  - right. left. split; [apply NK; discriminate|]. destruct (mrt_done true (mf_seq f) (set_state MIdle (set_air None s))) as (d & em & D1 & D2 & D3 & D4).
    subst s1. exists true, d, em. rewrite flat_map_app, (hush_stat _ _ _ HU), app_nil_r. split; [exact D1|].
    rewrite (mres_tail _ _ TL). split; [exact D2|]. split; [|exact D4]. intros N. rewrite <- (D3 N). apply TL.
  - apply QUIET; [apply NK; discriminate| |eauto using hush_stat]. rewrite (mres_tail _ _ TL). destruct TB as [TB|[u [U1 [U2 TB]]]]; rewrite (mres_tail _ _ TB); auto.
    apply mres_cancel. intros t I E. destruct (i_bo _ IX u U1) as [_ P]. unfold mres. rewrite (P t I E). reflexivity.
  - apply QUIET; [apply NK; discriminate|apply mres_tail in TL; exact TL|eauto using hush_stat].
  - apply QUIET; [apply NK; discriminate| |eauto using hush_stat]. unfold mrt. ss. rewrite mres_add by reflexivity. exact (mres_tail _ _ TL).
  - apply QUIET; [apply NK; discriminate|apply mres_tail in TL; exact TL|eauto using hush_stat].
  - apply QUIET; [apply NK; discriminate| |eauto using hush_stat]. unfold mrt. ss. rewrite mres_add by reflexivity.
    rewrite mres_cancel; [exact (mres_tail _ _ TL)|]. pose proof (ids_tail _ _ (ids_data _ _ IX) TL) as IX1.
    assert (CT : m_cts s1 = m_cts s) by apply TL. apply find_some in F. destruct F as [F _]. rewrite <- CT in F.
    intros t I E. destruct (i_cts _ IX1 _ F) as [_ P]. unfold mres. rewrite (P t I E). reflexivity.
  - apply QUIET; [apply NK; discriminate| |rewrite flat_map_app, (hush_stat _ _ _ HU); reflexivity]. unfold mrt. ss.
    rewrite mres_cancel; [exact (mres_tail _ _ TL)|]. pose proof (ids_tail _ _ (ids_data _ _ IX) TL) as IX1.
    assert (CT : m_cts s1 = m_cts s) by apply TL. apply find_some in F. destruct F as [F _]. rewrite <- CT in F.
    intros t I E. destruct (i_cts _ IX1 _ F) as [_ P]. unfold mres. rewrite (P t I E). reflexivity.
  - destruct (forward_out f (set_state MIdle s)) as [FO FS]. rewrite FS in E1. rewrite FO in E2. subst s1 o1.
    apply QUIET; [apply NK; discriminate|apply mres_tail in TL; exact TL|]. rewrite flat_map_app, (hush_stat _ _ _ HU), app_nil_r. match goal with |- context [if ?b then [OUp f] else _] => destruct b end; reflexivity.
  - destruct (forward_out f s2) as [FO FS]. rewrite FO, FS. subst s2.
    apply QUIET; [apply NK; discriminate| |rewrite flat_map_app, (hush_stat _ _ _ HU); cbn [app]; match goal with |- context [if ?b then [OUp f] else _] => destruct b end; reflexivity].
    unfold mrt. ss. rewrite mres_add by reflexivity. exact (mres_tail _ _ TL).
  - apply QUIET; [apply NK; discriminate| |reflexivity]. unfold mrt. ss. rewrite mres_add by reflexivity. apply mres_cancel.
    apply find_some in F. destruct F as [F _]. intros t I E. destruct (i_ack _ IX _ F) as [_ P]. unfold mres. rewrite (P t I E). reflexivity.
  - destruct (FK i x FN) as [A B]; [congruence|]. apply QUIET; auto. rewrite <- B. apply mres_tail. apply (mild_cca c e).
  - destruct (FK i x FN) as [A B]; [congruence|]. apply QUIET; auto. rewrite <- B. apply mres_backoff.
  - destruct (FK i x FN) as [A B]; [congruence|]. apply QUIET; auto.
  - destruct (FK i x FN) as [B D]; [congruence|]. apply QUIET; eauto using hush_stat. exact (eq_trans (mres_tail _ _ TL) D).
  - destruct (FK i x FN) as [G D]; [congruence|]. apply QUIET; [auto| |exact (hush_stat _ _ _ HU)]. unfold mrt. ss. rewrite mres_add by reflexivity. exact (eq_trans (mres_tail _ _ TL) D).
  - destruct (FK i x FN) as [G D]; [congruence|]. apply QUIET; [auto| |exact (hush_stat _ _ _ HU)]. exact (eq_trans (mres_tail _ _ TL) D).
  - destruct (FK i x FN) as [G D]; [destruct K as [[K _]|K]; congruence|]. apply QUIET; [auto| |exact (hush_stat _ _ _ HU)]. unfold mrt. ss. rewrite mres_add by reflexivity. exact (eq_trans (mres_tail _ _ TL) D).
  - destruct (FK i x FN) as [G D]; [congruence|]. apply QUIET; [auto| |exact (hush_stat _ _ _ HU)]. exact (eq_trans (mres_tail _ _ TL) D).
  - destruct (FK i x FN) as [G D]; [congruence|]. apply QUIET; auto.
  - destruct (FK i x FN) as [G D]; [congruence|]. apply QUIET; eauto using hush_stat. exact (eq_trans (mres_tail _ _ TL) D).
  - destruct (FK i x FN) as [G D]; [destruct K as [[K _]|[K _]]; congruence|]. apply QUIET; [auto| |destruct (timeout_spec e sq s1) as [-> _]; reflexivity].
    rewrite mres_tmo. destruct K as [[_ ->]|[_ ->]]; exact D.
  - destruct (FK i x FN) as [G D]; [destruct K as [(a & b & d & K & _)|(a & b & K & _)]; congruence|]. apply QUIET; [auto| |exact (hush_stat _ _ _ HU)]. exact (eq_trans (mres_tail _ _ TL) D).
  - destruct (FK i x FN) as [G E]; [congruence|]. apply QUIET; [auto| |exact (hush_stat _ _ _ HU)]. exact (eq_trans (mres_tail _ _ TL) E).
  - destruct (FK i x FN) as [G D]; [destruct K as [(a & b & d & K)|(a & b & K)]; congruence|]. apply QUIET; eauto using hush_stat. exact (eq_trans (mres_tail _ _ TL) D).
  - destruct (FK i x FN) as [G D]; [congruence|]. right. left. split; [auto|].
    destruct (mrt_done ok sq (set_timers (remove_nth i (m_timers s)) s)) as (d & em & D1 & D2 & D3 & D4). exists ok, d, em. rewrite D in D2. auto.
  - left. exists i, x. destruct (m_res s); repeat split; auto.
  - destruct (FK i x FN) as [G D]; [congruence|]. apply QUIET; auto. unfold mrt. ss. rewrite mres_add by reflexivity. exact D.
Qed.

(** ** Executions and their log *)
Inductive mway (real : bool) (c : mcfg) (q0 : Z) : list (menv * mevent) -> mst -> list mout -> Prop :=
| MW0 : mway real c q0 [] (minit q0) []
| MW1 h s o e ev : mway real c q0 h s o -> (real = true -> mtimely s ev = true) ->
    mway real c q0 (h ++ [(e, ev)]) (fst (mstep c e s ev)) (o ++ snd (mstep c e s ev)).
Lemma mway_reach b c q0 h s o : mway b c q0 h s o -> mreach c q0 (map snd h) s o.
Proof. induction 1; [constructor|]. rewrite map_app. cbn [map snd]. constructor. auto. Qed.
Lemma mway_free b c q0 h s o : mway b c q0 h s o -> mway false c q0 h s o.
Proof. induction 1; constructor; auto. discriminate. Qed.
Lemma mrun_snoc c : forall h s e ev, mrun c s (h ++ [(e, ev)]) =
  (fst (mstep c e (fst (mrun c s h)) ev), snd (mrun c s h) ++ snd (mstep c e (fst (mrun c s h)) ev)).
Proof.
  induction h as [|[e0 ev0] h IH]; intros s e ev; cbn [app mrun].
  - cbn [mrun fst snd app]. destruct (mstep c e s ev). rewrite app_nil_r. reflexivity.
  - destruct (mstep c e0 s ev0) as [s1 o1]. rewrite IH. destruct (mrun c s1 h) as [s2 o2]. cbn [fst snd]. rewrite app_assoc. reflexivity.
Qed.
Lemma mway_run b c q0 h s o : mway b c q0 h s o -> mrun c (minit q0) h = (s, o).
Proof. induction 1; auto. rewrite mrun_snoc, IHmway. reflexivity. Qed.
Lemma timely_snoc c : forall h s e ev, mtimely_run c s (h ++ [(e, ev)]) = mtimely_run c s h && mtimely (fst (mrun c s h)) ev.
Proof.
  induction h as [|[e0 ev0] h IH]; intros s e ev; cbn [app mtimely_run mrun].
  - cbn [fst andb]. apply andb_true_r.
  - rewrite IH, andb_assoc. destruct (mstep c e0 s ev0) as [s1 o1]. cbn [fst]. destruct (mrun c s1 h). reflexivity.
Qed.
Lemma mway_timely c q0 h : mtimely_run c (minit q0) h = true -> mway true c q0 h (fst (mrun c (minit q0) h)) (snd (mrun c (minit q0) h)).
Proof.
  induction h as [|[e ev] h IH] using rev_ind; intros T; [constructor|]. rewrite timely_snoc in T. apply andb_true_iff in T. destruct T as [T1 T2].
  rewrite mrun_snoc. cbn [fst snd]. constructor; auto.
Qed.
Lemma x_way c q0 l : x_ok c q0 l = true -> mway true c q0 (xrun c q0 l) (x_st c q0 l) (x_out c q0 l).
Proof. apply mway_timely. Qed.

Definition mlogx (s : mst) (ev : mevent) (s' : mst) (o : list mout) : list (sev mframe) :=
  match mekind s ev with Some MKResult => [SWrite] | _ => [] end ++ flat_map (mstat1 (m_now s)) o ++
  (if (m_results s <? m_results s')%nat && negb (m_res s') then [SEmpty (m_now s)] else []).
Lemma mlog1_eq c e s ev : mlog1 c e s ev = mlogx s ev (fst (mstep c e s ev)) (snd (mstep c e s ev)).
Proof. unfold mlog1, mlogx. f_equal. destruct ev; cbn; auto. destruct (nth_error (m_timers s) i); auto. Qed.
Lemma mlog_app c : forall h1 s h2, mlog c s (h1 ++ h2) = mlog c s h1 ++ mlog c (fst (mrun c s h1)) h2.
Proof.
  induction h1 as [|[e ev] h1 IH]; intros s h2; cbn [app mlog mrun]; auto. rewrite IH, app_assoc. destruct (mstep c e s ev) as [s1 o1]. cbn [fst].
  destruct (mrun c s1 h1); reflexivity.
Qed.
Lemma mlog_snoc b c q0 h s o e ev : mway b c q0 h s o ->
  mlog c (minit q0) (h ++ [(e, ev)]) = mlog c (minit q0) h ++ mlogx s ev (fst (mstep c e s ev)) (snd (mstep c e s ev)).
Proof. intros R. rewrite mlog_app, (mway_run _ _ _ _ _ _ R). cbn [fst mlog]. rewrite app_nil_r, mlog1_eq. reflexivity. Qed.

(** The log tells the same packets as the outputs. *)
Lemma accs_mstat t o : map fst (accs (flat_map (mstat1 t) o)) = acc_of o.
Proof. induction o as [|[] o IH]; cbn; auto. f_equal. auto. Qed.
Lemma reps_mstat t o b : map (fun r => snd (fst r)) (filter (fun r => eqb b (fst (fst r))) (reps (flat_map (mstat1 t) o))) = rep_of b o.
Proof.
  induction o as [|x o IH]; [reflexivity|]. cbn [flat_map]. rewrite reps_app, filter_app, map_app, IH. destruct x; try reflexivity. cbn. destruct b, ok; reflexivity.
Qed.
Lemma accs_mlogx s ev s' o : accs (mlogx s ev s' o) = accs (flat_map (mstat1 (m_now s)) o).
Proof.
  unfold mlogx. rewrite !accs_app.
  assert (X : accs match mekind s ev with Some MKResult => [@SWrite mframe] | _ => [] end = []) by (destruct (mekind s ev) as [[]|]; reflexivity). rewrite X. cbn [app].
  assert (Y : accs (if (m_results s <? m_results s')%nat && negb (m_res s') then [@SEmpty mframe (m_now s)] else []) = []) by (destruct (_ && _); reflexivity).
  rewrite Y. apply app_nil_r.
Qed.
Lemma reps_mlogx s ev s' o : reps (mlogx s ev s' o) = reps (flat_map (mstat1 (m_now s)) o).
Proof.
  unfold mlogx. rewrite !reps_app.
  assert (X : reps match mekind s ev with Some MKResult => [@SWrite mframe] | _ => [] end = []) by (destruct (mekind s ev) as [[]|]; reflexivity). rewrite X. cbn [app].
  assert (Y : reps (if (m_results s <? m_results s')%nat && negb (m_res s') then [@SEmpty mframe (m_now s)] else []) = []) by (destruct (_ && _); reflexivity).
  rewrite Y. apply app_nil_r.
Qed.
Lemma accs_mlog b c q0 h s o : mway b c q0 h s o -> map fst (accs (mlog c (minit q0) h)) = acc_of o.
Proof.
  intros R. induction R as [|h s o e ev R IH T]; auto. rewrite (mlog_snoc _ _ _ _ _ _ _ _ R), accs_app, map_app, IH, acc_app, accs_mlogx, accs_mstat. reflexivity.
Qed.
Lemma reps_mlog b c q0 h s o : mway b c q0 h s o -> forall ok, map (fun r => snd (fst r)) (filter (fun r => eqb ok (fst (fst r))) (reps (mlog c (minit q0) h))) = rep_of ok o.
Proof.
  intros R ok. induction R as [|h s o e ev R IH T]; auto. rewrite (mlog_snoc _ _ _ _ _ _ _ _ R), reps_app, filter_app, map_app, IH, rep_app, reps_mlogx, reps_mstat. reflexivity.
Qed.

Lemma mlog_ok b c q0 h s o : 0 <= q0 < 65536 -> mway b c q0 h s o -> known (mlog c (minit q0) h) /\ distinct mf_id (mlog c (minit q0) h).
Proof.
  intros U R. split.
  - induction R as [|h s o e ev R IH T]; [intros a ok p t b0 E; destruct a; discriminate E|].
    rewrite (mlog_snoc _ _ _ _ _ _ _ _ R). apply known_add; [exact IH|].
    intros ok p t I.
    assert (J : In (SRep ok p t) (flat_map (mstat1 (m_now s)) (snd (mstep c e s ev)))).
    { unfold mlogx in I. apply in_app_or in I. destruct I as [I|I]; [destruct (mekind s ev) as [[]|]; try contradiction I; destruct I as [I|[]]; discriminate I|].
      apply in_app_or in I. destruct I as [I|I]; [exact I|]. destruct (_ && _); [destruct I as [I|[]]; discriminate I|contradiction I]. }
    destruct (mrt_step _ _ _ _ _ _ (cases c e s ev) (MacUb.ids_reach _ _ _ _ _ (mway_reach _ _ _ _ _ _ R))) as [X|[X|X]].
    + destruct X as (i & x & _ & _ & _ & _ & X). rewrite X in J. contradiction J.
    + destruct X as (_ & ok' & d & em & X & _ & _ & X4). rewrite X in J. apply in_map_iff in J. destruct J as [y [J K]]. injection J as _ -> _.
      apply X4 in K. pose proof (acct_reach _ _ _ _ _ U (mway_reach _ _ _ _ _ _ R)) as AC. assert (L : In p (acc_of o)).
      { eapply Permutation_in; [apply Permutation_sym; apply (ac_perm _ _ _ _ AC)|]. apply in_or_app. right. apply in_or_app. right. exact K. }
      rewrite <- (accs_mlog _ _ _ _ _ _ R) in L. apply in_map_iff in L. destruct L as [[y t0] [L1 L2]]. cbn in L1. subst y. eauto.
    + destruct X as (_ & _ & A & X). rewrite X in J. apply in_map_iff in J. destruct J as [y [J _]]. discriminate J.
  - unfold distinct. rewrite <- (map_map fst mf_id), (accs_mlog _ _ _ _ _ _ R). apply (ac_nodup _ _ _ _ (acct_reach _ _ _ _ _ U (mway_reach _ _ _ _ _ _ R))).
Qed.

Lemma step_now c e s ev s' o : scase c e s ev s' o -> m_now s' = m_now s \/ ev = ETick (m_now s').
Proof.
  intros C. scd C; cbn [fst snd] in *; auto; try (left; revert TL; intros TL; apply tail_now in TL; revert TL; ss; auto; fail).
  - left. destruct (enq_keeps c size dst junk s L) as (_ & _ & _ & _ & _ & _ & _ & _ & _ & _ & _ & E). exact E.
  - left. rewrite (tail_now _ _ TL). subst s1. destruct (sdd_keeps true (mf_seq f) (set_state MIdle (set_air None s))) as (_ & _ & _ & _ & _ & _ & _ & _ & _ & _ & _ & E). exact E.
  - left. rewrite (tail_now _ _ TL). destruct TB as [TB|[u [_ [_ TB]]]]; rewrite (tail_now _ _ TB); reflexivity.
  - left. rewrite (tail_now _ _ TL). subst s1. rewrite (proj2 (forward_out f _)). reflexivity.
  - left. subst s2. rewrite (proj2 (forward_out f _)). ss. exact (tail_now _ _ TL).
  - left. destruct (mild_cca c e (set_timers (remove_nth i (m_timers s)) s)) as [T _]. exact (tail_now _ _ T).
  - left. unfold backoff_start. cbv zeta. match goal with |- context [if ?b =? 0 then _ else _] => destruct (b =? 0) end; match goal with |- context [if ?b || ?d then _ else _] => destruct (b || d) end; reflexivity.
  - left. destruct (tmo_keeps e sq s1) as (_ & _ & _ & _ & _ & _ & _ & _ & _ & _ & _ & E). rewrite E. destruct K as [[_ ->]|[_ ->]]; reflexivity.
  - left. destruct (sdd_keeps ok sq (set_timers (remove_nth i (m_timers s)) s)) as (_ & _ & _ & _ & _ & _ & _ & _ & _ & _ & _ & E). exact E.
Qed.

Lemma tick_out c e s t s' o : scase c e s (ETick t) s' o -> o = [].
Proof. intros C. inversion C; reflexivity. Qed.

(** While results come at different instants and never with an empty queue, each is written before the next. *)
Definition noempty {F} (g : list (sev F)) : Prop := forall t, ~ In (SEmpty t) g.
Lemma ww_mway c q0 h s o : mway true c q0 h s o -> NoDup (map snd (reps (mlog c (minit q0) h))) -> noempty (mlog c (minit q0) h) ->
  ww false (mlog c (minit q0) h) = true /\
  (if pnd false (mlog c (minit q0) h) then map mt_due (mrt s) = [m_now s] /\ In (m_now s) (map snd (reps (mlog c (minit q0) h))) else mrt s = []).
Proof.
  intros R. induction R as [|h s o e ev R IH HP]; [cbn; auto|]. specialize (HP eq_refl).
  rewrite (mlog_snoc _ _ _ _ _ _ _ _ R), reps_app, map_app, ww_app, pnd_app, reps_mlogx. set (g := mlog c (minit q0) h) in *.
  pose proof (cases c e s ev) as C. set (s' := fst (mstep c e s ev)) in *. set (o' := snd (mstep c e s ev)) in *. clearbody s' o'. intros N NE.
  assert (N1 : NoDup (map snd (reps g))) by (clear - N; induction (map snd (reps g)) as [|x l IH]; [constructor|]; inversion N as [|? ? A B]; subst; constructor; [intros X; apply A; apply in_or_app; auto|auto]).
  assert (NE1 : noempty g) by (intros t I; apply (NE t), in_or_app; auto).
  destruct (IH N1 NE1) as (W & D). clear IH. rewrite W. cbn [andb].
  assert (EX : (if (m_results s <? m_results s')%nat && negb (m_res s') then [@SEmpty mframe (m_now s)] else []) = []).
  { destruct (_ && _) eqn:E; auto. exfalso. apply (NE (m_now s)). apply in_or_app. right. unfold mlogx. rewrite E. apply in_or_app. right. apply in_or_app. right. left. auto. }
  unfold mlogx in *. rewrite EX in *. rewrite app_nil_r in *.
  pose proof (step_now _ _ _ _ _ _ C) as NW.
  assert (KEEP : mrt s' = mrt s -> if pnd false g then map mt_due (mrt s') = [m_now s'] /\ In (m_now s') (map snd (reps g)) else mrt s' = []).
  { intros E1. rewrite E1. destruct (pnd false g); [|exact D]. destruct D as [D1 D2]. destruct NW as [->|E]; [auto|]. assert (Y : m_now s' = m_now s); [|rewrite Y; auto].
    rewrite E in HP. unfold mtimely in HP. apply andb_true_iff in HP. destruct HP as [HP0 HP]. apply Z.leb_le in HP0. rewrite forallb_forall in HP.
    destruct (mrt s) as [|x [|]] eqn:Ex; try discriminate D1. injection D1 as D1. assert (I : In x (m_timers s)).
    { assert (I : In x (mrt s)) by (rewrite Ex; left; auto). apply filter_In in I. apply I. }
    apply HP in I. apply Z.leb_le in I. lia. }
  destruct (mrt_step _ _ _ _ _ _ C (MacUb.ids_reach _ _ _ _ _ (mway_reach _ _ _ _ _ _ R))) as [X|[X|X]].
  - (* ResultsRecord *)
    destruct X as (i & t & -> & X1 & X2 & X3 & X4). rewrite X4 in *. cbn [reps flat_map map]. unfold mekind. rewrite X1. cbn [option_map]. rewrite X2. cbn [app ww pnd]. rewrite andb_true_r.
    assert (I : In t (mrt s)) by (apply filter_In; split; [eapply nth_error_In; eauto|unfold mres; rewrite X2; reflexivity]).
    destruct (pnd false g); [|rewrite D in I; contradiction]. destruct D as [D _]. split; [reflexivity|].
    unfold mrt. rewrite X3. assert (L : length (filter mres (remove_nth i (m_timers s))) = 0%nat).
    { rewrite (remove_le _ _ _ X1 mres) by (unfold mres; rewrite X2; reflexivity). fold (mrt s). rewrite <- (map_length mt_due), D. reflexivity. }
    destruct (filter mres (remove_nth i (m_timers s))); [reflexivity|discriminate L].
  - (* SendDataDone *)
    destruct X as (NK & ok & d & em & X1 & X2 & X3 & X4). rewrite X1 in *.
    assert (EK : match mekind s ev with Some MKResult => [@SWrite mframe] | _ => [] end = []) by (destruct (mekind s ev) as [[]|]; auto; destruct NK; auto). rewrite EK in *. cbn [app] in *.
    assert (EM : em = false).
    { destruct em; auto. exfalso. rewrite X3 in EX by lia. assert (L : (m_results s <? m_results s')%nat = true).
      { apply Nat.ltb_lt. unfold m_results. fold (mrt s). fold (mrt s'). change (length (mrt s) < length (mrt s'))%nat.
        rewrite <- (map_length mt_due (mrt s)), <- (map_length mt_due (mrt s')), X2, app_length, repeat_length. lia. }
      rewrite L in EX. discriminate EX. }
    subst em. rewrite Nat.add_0_r in *.
    assert (M : map snd (reps (map (fun p => SRep ok p (m_now s)) d)) = repeat (m_now s) (length d)).
    { clear. induction d as [|p d IH]; [reflexivity|]. cbn [map length repeat]. rewrite <- IH. reflexivity. }
    rewrite M in *.
    destruct d as [|p [|p2 d]].
    + cbn [map ww pnd length repeat app] in *. rewrite app_nil_r in *. split; [auto|]. assert (L : length (mrt s') = length (mrt s)) by (rewrite <- !(map_length mt_due), X2; reflexivity).
      destruct (pnd false g).
      * rewrite X2. destruct D as [D1 D2]. destruct NW as [->|E]; [auto|].
        rewrite E in HP. unfold mtimely in HP. apply andb_true_iff in HP. destruct HP as [HP0 HP]. apply Z.leb_le in HP0. rewrite forallb_forall in HP.
        assert (Y : m_now s' = m_now s); [|rewrite Y; auto]. destruct (mrt s) as [|x [|]] eqn:Ex; try discriminate D1. injection D1 as D1. assert (I : In x (m_timers s)).
        { assert (I : In x (mrt s)) by (rewrite Ex; left; auto). apply filter_In in I. apply I. }
        apply HP in I. apply Z.leb_le in I. lia.
      * rewrite D in L. destruct (mrt s'); [auto|discriminate L].
    + assert (PF : pnd false g = false).
      { destruct (pnd false g); auto. exfalso. destruct D as [_ D]. cbn [length repeat] in N. clear - N D. induction (map snd (reps g)) as [|x l IH]; [contradiction|].
        inversion N as [|? ? A B]; subst. destruct D as [->|D]; [apply A; apply in_or_app; right; left; auto|auto]. }
      rewrite PF in *. cbn [map ww pnd negb andb length repeat] in *. rewrite D in X2. cbn [map app] in X2.
      assert (TM : m_now s' = m_now s).
      { destruct NW as [A|A]; [exact A|]. exfalso. rewrite A in C. apply tick_out in C. subst o'. discriminate X1. }
      rewrite TM, X2. split; [auto|]. split; [auto|]. apply in_or_app. right. left. auto.
    + exfalso. cbn [length repeat] in N. clear - N. induction (map snd (reps g)) as [|x l IH]; inversion N as [|? ? A B]; subst; auto. apply A. left. auto.
  - destruct X as (NK & X1 & A & X2). rewrite X2 in *.
    assert (EK : match mekind s ev with Some MKResult => [@SWrite mframe] | _ => [] end = []) by (destruct (mekind s ev) as [[]|]; auto; destruct NK; auto). rewrite EK. cbn [app].
    destruct (ww_acc (pnd false g) A (m_now s)) as (W1 & W2 & _). rewrite W1, W2.
    assert (RA : reps (map (fun p => SAcc p (m_now s)) A) = []) by (clear; induction A; cbn; auto). rewrite RA. cbn [map]. rewrite app_nil_r. split; [auto|]. apply KEEP. auto.
Qed.
