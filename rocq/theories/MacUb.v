(** Undefined behaviour and the antenna of the macro MAC. *)
From Coq Require Import ZArith List Lia Bool.
From Verif Require Import Base HeaderModel SeqModel EnergyModel MacModel MacSpec MacProofs MacAcct MacSteps MacInv MacResp MacLive.
Import ListNotations.
Open Scope Z_scope.

(** ** Undefined behaviour *)
Lemma done_ub ok sq : forall n l q l' q' d k em ub, (length l <= n)%nat -> done_loop ok sq q l = (l', q', d, k, em, ub) -> ub = true ->
  exists a r, l = a ++ [r] /\ In (mr_pkt r) d.
Proof.
  induction n as [|n IH]; intros l q l' q' d k em ub L D U.
  - destruct l; [|cbn [length] in L; lia]. cbn in D. injection D as _ _ _ _ _ <-. discriminate.
  - destruct l as [|r t]; [cbn in D; injection D as _ _ _ _ _ <-; discriminate|]. cbn [done_loop] in D. cbn [length] in L.
    destruct (_ =? sq).
    + assert (X : (exists t', t = t' /\ (r :: t, [], [], 1, true, false) = (l', q', d, k, em, ub)) \/
        match t with
        | [] => ([], if ok then mremove (mr_pkt r) q else q, [mr_pkt r], 1, false, true)
        | n :: t' => let '(l', q2, d, k, em, ub) := done_loop ok sq (if ok then mremove (mr_pkt r) q else q) t' in (n :: l', q2, mr_pkt r :: d, k + 1, em, ub)
        end = (l', q', d, k, em, ub)) by (destruct ok, q; eauto).
      destruct X as [[_ [_ X]]|X]; [injection X as _ _ _ _ _ <-; discriminate|].
      destruct t as [|r2 t]; [injection X as _ _ <- _ _ _; exists [], r; split; [auto|left; auto]|].
      destruct (done_loop ok sq _ t) as [[[[[l2 q2] d2] k2] em2] ub2] eqn:E. injection X as _ _ <- _ _ ->.
      destruct (IH t _ _ _ _ _ _ _ ltac:(cbn [length] in L; lia) E U) as [a [r3 [-> X]]]. exists (r :: r2 :: a), r3. split; auto. right. auto.
    + destruct (done_loop ok sq q t) as [[[[[l2 q2] d2] k2] em2] ub2] eqn:E. injection D as _ _ <- _ _ ->.
      destruct (IH t _ _ _ _ _ _ _ ltac:(lia) E U) as [a [r3 [-> X]]]. exists (r :: a), r3. split; auto.
Qed.

Lemma data_some c e s ev s' o : scase c e s ev s' o -> m_data s <> None -> m_data s' <> None.
Proof.
  intros C D0. assert (SN : forall q l d, d <> None -> scan q d l <> None).
  { intros n l. induction l as [|r l IH]; cbn [scan]; auto. intros d D. destruct (_ =? _); [discriminate|]. apply IH. discriminate. }
  scd C; cbn [fst snd] in *; auto; try (rewrite (tail_data _ _ TL); auto; ss; auto; discriminate).
  - destruct (enq_spec c size dst junk s L) as [_ [_ [_ [_ [_ [_ [_ [_ [_ [_ [_ [_ [_ [_ [-> _]]]]]]]]]]]]]]]. discriminate.
  - rewrite (tail_data _ _ TL). subst s1. destruct (sdd_keeps true (mf_seq f) (set_state MIdle (set_air None s))) as [_ [_ [X _]]]. rewrite X. auto.
  - rewrite (tail_data _ _ TL). destruct TB as [TB|[u [_ [_ TB]]]]; rewrite (tail_data _ _ TB); auto.
  - ss. rewrite (tail_data _ _ TL). auto.
  - ss. rewrite (tail_data _ _ TL). ss. auto.
  - ss. rewrite (tail_data _ _ TL). ss. auto.
  - rewrite (tail_data _ _ TL), E1. destruct (forward_out f (set_state MIdle s)) as [_ ->]. auto.
  - destruct (forward_out f s2) as [_ ->]. subst s2. ss. rewrite (tail_data _ _ TL). auto.
  - destruct (mild_cca c e (set_timers (remove_nth i (m_timers s)) s)) as [TL _]. rewrite (tail_data _ _ TL). auto.
  - unfold backoff_start. cbv zeta. destruct (_ =? _), (_ || _); auto.
  - ss. rewrite (tail_data _ _ TL). ss. discriminate.
  - ss. rewrite (tail_data _ _ TL). ss. discriminate.
  - destruct (tmo_keeps e sq s1) as [_ [_ [X _]]]. rewrite X. destruct K as [[_ ->]|[_ ->]]; auto.
  - destruct (sdd_keeps ok sq (set_timers (remove_nth i (m_timers s)) s)) as [_ [_ [X _]]]. rewrite X. auto.
Qed.

(** Only Enqueue accepts packets. *)
Lemma acc_enq c e s ev s' o pk : scase c e s ev s' o -> In (OAcc pk) o -> m_data s' = Some pk /\ exists size dst junk, ev = EEnq size dst junk /\ 15000 <= wrap16 size.
Proof.
  intros C IN.
  assert (HH : forall l, hush c l -> In (OAcc pk) l -> False) by (intros l [H _] I; specialize (H _ I); discriminate).
  assert (FW : forall g y, In (OAcc pk) (snd (forward_new g y)) -> False).
  { intros g y. destruct (forward_out g y) as [-> _]. destruct (fst (is_new _ _ _)); [intros [X|[]]; discriminate X|intros []]. }
  assert (SD : forall b n y, In (OAcc pk) (snd (send_data_done b n y)) -> False).
  { intros b n y. destruct (sdd_spec b n y) as [l [qq [d [k [em [ub D]]]]]]. do 22 destruct D as [_ D]. rewrite D.
    intros I. apply in_app_or in I. destruct I as [I|I]; [|destruct ub; [destruct I as [I|[]]; discriminate I|destruct I]].
    apply in_map_iff in I. destruct I as [z [Z1 _]]. discriminate Z1. }
  scd C; cbn [fst snd] in *; try (exfalso; eapply HH; eassumption); try destruct IN as [IN|IN]; try discriminate IN; try contradiction; try (exfalso; eapply HH; eassumption).
  - destruct (enq_spec c size dst junk s L) as [E1 E]. do 13 destruct E as [_ E]. destruct E as [E _]. rewrite E1 in IN. destruct IN as [X|[X|[]]]; [|discriminate X].
    injection X as <-. split; eauto.
  - exfalso. apply in_app_or in IN. destruct IN as [IN|IN]; eauto.
  - exfalso. apply in_app_or in IN. destruct IN as [IN|IN]; [eapply HH; eassumption|destruct IN as [X|[]]; discriminate X].
  - exfalso. apply in_app_or in IN. destruct IN as [IN|IN]; [|eapply HH; eassumption]. subst. eauto.
  - exfalso. apply in_app_or in IN. destruct IN as [IN|IN]; [eapply HH; eassumption|]. eauto.
  - destruct (timeout_spec e sq s1) as [T1 _]. rewrite T1 in IN. destruct IN as [X|[]]. discriminate X.
  - destruct IN as [X|X]; [discriminate X|]. exfalso; eapply HH; eassumption.
  - exfalso; eauto.
  - exfalso. destruct (m_res s); [destruct IN|destruct IN as [X|[]]; discriminate X].
Qed.

Lemma data_reach c q0 h s o : mreach c q0 h s o -> m_queue s <> [] \/ m_cts s <> [] -> m_data s <> None.
Proof.
  intros R. induction R as [|h s o e ev R IH]; [cbn; intros [X|X]; contradiction|].
  pose proof (cases c e s ev) as C. intros X.
  destruct (m_queue s) as [|p q] eqn:Q; [|eapply data_some; eauto; apply IH; left; discriminate].
  destruct (m_cts s) as [|y l] eqn:CT; [|eapply data_some; eauto; apply IH; right; discriminate].
  destruct X as [X|X].
  - destruct (m_queue (fst (mstep c e s ev))) as [|p l] eqn:Q2; [contradiction|].
    destruct (queue_new _ _ _ _ _ _ p C) as [Y|Y]; [rewrite Q2; left; auto|rewrite Q in Y; destruct Y|].
    destruct (acc_enq _ _ _ _ _ _ _ C Y) as [-> _]. discriminate.
  - destruct (m_cts (fst (mstep c e s ev))) as [|y l] eqn:Q2; [contradiction|].
    destruct (cts_new _ _ _ _ _ _ y C) as [Y|[p [q [Y _]]]]; [rewrite Q2; left; auto|rewrite CT in Y; destruct Y|congruence].
Qed.

Lemma sdd_ub ok sq s : In OUb (snd (send_data_done ok sq s)) ->
  exists a r, m_rec s = a ++ [r] /\ In (ORep ok (mr_pkt r)) (snd (send_data_done ok sq s)).
Proof.
  destruct (sdd_spec ok sq s) as [l [q [d [k [em [ub [DL D]]]]]]]. do 21 destruct D as [_ D]. rewrite D. intros I. apply in_app_or in I. destruct I as [I|I].
  - apply in_map_iff in I. destruct I as [z [Z1 _]]. discriminate Z1.
  - destruct ub; [|destruct I]. destruct (done_ub ok sq _ _ _ _ _ _ _ _ _ (le_n _) DL eq_refl) as [a [r [A B]]]. exists a, r. split; auto.
    apply in_or_app. left. apply in_map. auto.
Qed.

Lemma scan_some sq l : forall d, scan sq (Some d) l = None -> False.
Proof. induction l as [|r l IH]; intros d; cbn [scan]; [discriminate|]. destruct (_ =? _); [discriminate|apply IH]. Qed.

Lemma ub_reach c q0 h s oh e ev : nsec <= mc_slot c -> mreach c q0 h s oh -> In OUb (snd (mstep c e s ev)) ->
  (exists a r ok, m_rec s = a ++ [r] /\ In (ORep ok (mr_pkt r)) (snd (mstep c e s ev))) \/
  (exists i t, ev = ETimer i /\ nth_error (m_timers s) i = Some t /\ mt_kind t = MKResult /\ m_res s = false).
Proof.
  intros SLT R IN. pose proof (data_reach _ _ _ _ _ R) as DA. pose proof (cases c e s ev) as C.
  assert (HH : forall l, hush c l -> l = []) by (intros l [_ H]; auto).
  remember (fst (mstep c e s ev)) as sx eqn:EX. remember (snd (mstep c e s ev)) as ox eqn:EO. clear EX EO.
  scd C; cbn [fst snd] in *; try apply HH in HU; subst; try destruct IN as [IN|IN]; try discriminate IN; try contradiction.
  - destruct (enq_spec c size dst junk s L) as [E1 _]. rewrite E1 in IN. destruct IN as [X|[X|[]]]; discriminate X.
  - rewrite app_nil_r in *. left. destruct (sdd_ub _ _ _ IN) as [a [r [A1 A2]]]. exists a, r, true. auto.
  - exfalso. destruct (find_fst _ _ _ _ F) as [-> FI]. apply DA; [right; intros X; rewrite X in FI; destruct FI|].
    destruct (m_data s) as [d|] eqn:DD; auto. exfalso. eapply scan_some; eauto.
  - exfalso. rewrite app_nil_r in IN. destruct (forward_out f (set_state MIdle s)) as [E _]. rewrite E in IN. destruct (fst (is_new _ _ _)); [destruct IN as [X|[]]; discriminate X|destruct IN].
  - exfalso. cbn [app] in IN. match type of IN with context [forward_new f ?y] => destruct (forward_out f y) as [E _] end. rewrite E in IN. destruct (fst (is_new _ _ _)); [destruct IN as [X|[]]; discriminate X|destruct IN].
  - exfalso. destruct (timeout_spec e sq s1) as [T1 _]. rewrite T1 in IN. destruct IN as [X|[]]. discriminate X.
  - lia.
  - lia.
  - left. destruct (sdd_ub _ _ _ IN) as [a [r [A1 A2]]]. exists a, r, ok. auto.
  - right. exists i, x. destruct (m_res s); [destruct IN|auto].
Qed.

(** ** The antenna *)
Lemma ids_reach c q0 h s o : mreach c q0 h s o -> Ids s.
Proof. induction 1; [apply ids_init|]. eapply ids_step; eauto. apply cases. Qed.

(** Until the first packet is accepted a rotation of the antenna is pending. *)
Lemma rot_step c e s ev s' o : scase c e s ev s' o -> Ids s -> (forall p, ~ In (OAcc p) o) ->
  (exists t, In t (m_timers s) /\ mt_kind t = MKRot) -> exists t, In t (m_timers s') /\ mt_kind t = MKRot.
Proof.
  intros C I NA RT. destruct RT as [t [T1 T2]].
  assert (FI : forall i y g, nth_error (m_timers s) i = Some y -> mt_kind y <> MKRot -> (In t (remove_nth i (m_timers s)) -> In t (m_timers g)) -> exists t, In t (m_timers g) /\ mt_kind t = MKRot).
  { intros i y g N K S. exists t. split; auto. apply S. destruct (in_not_removed i _ t y T1 N) as [->|Y]; auto. contradiction. }
  assert (CA : forall u, (forall y, In y (m_timers s) -> mt_id y = u -> mt_kind y <> MKRot) -> mt_id t <> u) by (intros u H E; apply (H t T1 E T2)).
  scd C; cbn [fst snd] in *; eauto;
    try (exists t; split; [eapply tail_in; [exact TL|exact T1]|exact T2]);
    try (eapply FI; [exact FN|congruence|intros Y; eapply tail_in; [exact TL|exact Y]]);
    try (eapply FI; [exact FN|congruence|intros Y; ss; apply in_or_app; left; eapply tail_in; [exact TL|exact Y]]).
  - exfalso. destruct (enq_spec c size dst junk s L) as [E _]. apply (NA (enq_pkt c size dst junk s)). rewrite E. left. auto.
  - exists t. split; auto. eapply tail_in; [exact TL|]. subst s1. destruct (sdd_spec true (mf_seq f) (set_state MIdle (set_air None s))) as [l [q [d [k [em [ub D']]]]]]. do 20 destruct D' as [_ D']. apply D'. auto.
  - exists t. split; auto. eapply tail_in; [exact TL|]. destruct TB as [TB|[u [U1 [_ TB]]]]; (eapply tail_in; [exact TB|]); auto.
    ss. apply filter_In. split; auto. apply negb_true_iff, Z.eqb_neq, CA. intros y Y1 Y2. destruct (i_bo _ I _ U1) as [_ X]. rewrite (X y Y1 Y2). discriminate.
  - exists t. split; auto. ss. apply in_or_app. left. eapply tail_in; eauto.
  - destruct (find_fst _ _ _ _ F) as [-> FX]. exists t. split; auto. ss. apply in_or_app. left. apply filter_In. split; [eapply tail_in; [exact TL|exact T1]|].
    apply negb_true_iff, Z.eqb_neq, CA. intros y Y1 Y2. destruct (i_cts _ I _ FX) as [_ X]. rewrite (X y Y1 Y2). discriminate.
  - destruct (find_fst _ _ _ _ F) as [-> FX]. exists t. split; auto. ss. apply filter_In. split; [eapply tail_in; [exact TL|exact T1]|].
    apply negb_true_iff, Z.eqb_neq, CA. intros y Y1 Y2. destruct (i_cts _ I _ FX) as [_ X]. rewrite (X y Y1 Y2). discriminate.
  - exists t. split; auto. eapply tail_in; [exact TL|]. subst s1. destruct (forward_out f (set_state MIdle s)) as [_ ->]. auto.
  - exists t. split; auto. destruct (forward_out f s2) as [_ ->]. subst s2. ss. apply in_or_app. left. eapply tail_in; eauto.
  - destruct (find_fst _ _ _ _ F) as [-> FX]. exists t. split; auto. ss. apply in_or_app. left. apply filter_In. split; auto.
    apply negb_true_iff, Z.eqb_neq, CA. intros y Y1 Y2. destruct (i_ack _ I _ FX) as [_ X]. rewrite (X y Y1 Y2). discriminate.
  - destruct (mild_cca c e (set_timers (remove_nth i (m_timers s)) s)) as [TL _]. eapply FI; [exact FN|congruence|]. intros Y. eapply tail_in; [exact TL|exact Y].
  - eapply FI; [exact FN|congruence|]. intros Y. unfold backoff_start. cbv zeta. destruct (_ =? _), (_ || _); ss; apply in_or_app; auto.
  - eapply FI; [exact FN|congruence|]. auto.
  - eapply FI; [exact FN|destruct K as [[K _]|K]; congruence|]. intros Y. ss. apply in_or_app. left. eapply tail_in; [exact TL|exact Y].
  - eapply FI; [exact FN|congruence|]. auto.
  - eapply FI; [exact FN|destruct K as [[K _]|[K _]]; congruence|]. intros Y. destruct (timeout_spec e sq s1) as [_ TS]. do 19 destruct TS as [_ TS]. destruct TS as [KP _].
    apply KP. destruct K as [[_ ->]|[_ ->]]; auto.
  - eapply FI; [exact FN| |intros Y; eapply tail_in; [exact TL|exact Y]]. destruct K as [[? [? [? [K _]]]]|[? [? [K _]]]]; congruence.
  - eapply FI; [exact FN| |intros Y; eapply tail_in; [exact TL|exact Y]]. destruct K as [[? [? [? K]]]|[? [? K]]]; congruence.
  - eapply FI; [exact FN|congruence|]. intros Y. destruct (sdd_spec ok sq (set_timers (remove_nth i (m_timers s)) s)) as [l [q [d [k [em [ub D']]]]]]. do 20 destruct D' as [_ D']. apply D'. auto.
  - eapply FI; [exact FN|congruence|]. auto.
  - eexists. split; [ss; apply in_or_app; right; left; reflexivity|reflexivity].
Qed.

Lemma rot_reach c q0 h s o : mreach c q0 h s o -> acc_of o = [] -> exists t, In t (m_timers s) /\ mt_kind t = MKRot.
Proof.
  intros R. induction R as [|h s o e ev R IH]; intros A.
  - exists (Mtimer 0 0 MKRot). split; [left|]; auto.
  - rewrite acc_app in A. apply app_eq_nil in A. destruct A as [A1 A2]. eapply rot_step; eauto using cases, ids_reach.
    intros p P. apply in_acc in P. rewrite A2 in P. destruct P.
Qed.

(** Without a pending rotation there is never one again, and the antenna stays in transmitter mode. *)
Definition deaf (s : mst) : Prop := m_mode s = 0 /\ forall t, In t (m_timers s) -> mt_kind t <> MKRot.
Lemma mode_new c e s ev s' o : scase c e s ev s' o -> m_mode s' = m_mode s \/ (exists p, In (OAcc p) o /\ m_mode s' = 0) \/
  exists i t, ev = ETimer i /\ nth_error (m_timers s) i = Some t /\ mt_kind t = MKRot.
Proof.
  intros C. scd C; cbn [fst snd] in *; auto; try (left; rewrite (tail_mode _ _ TL); auto; fail); try (left; ss; rewrite (tail_mode _ _ TL); auto; fail).
  - destruct (enq_spec c size dst junk s L) as [E1 [_ [_ [_ [_ [_ [_ [E _]]]]]]]]. right. left. exists (enq_pkt c size dst junk s). rewrite E1. split; [left|]; auto.
  - left. rewrite (tail_mode _ _ TL), E1. apply (sdd_keeps true (mf_seq f) (set_state MIdle (set_air None s))).
  - left. rewrite (tail_mode _ _ TL). destruct TB as [TB|[u [_ [_ TB]]]]; rewrite (tail_mode _ _ TB); auto.
  - left. rewrite (tail_mode _ _ TL), E1. destruct (forward_out f (set_state MIdle s)) as [_ ->]. auto.
  - left. destruct (forward_out f s2) as [_ ->]. subst s2. ss. apply (tail_mode _ _ TL).
  - left. destruct (mild_cca c e (set_timers (remove_nth i (m_timers s)) s)) as [TL _]. rewrite (tail_mode _ _ TL). auto.
  - left. apply (bo_keeps e (set_timers (remove_nth i (m_timers s)) s)).
  - left. destruct (tmo_keeps e sq s1) as [_ [_ [_ [_ [_ [_ [_ [_ [_ [_ [X _]]]]]]]]]]]. rewrite X. destruct K as [[_ ->]|[_ ->]]; auto.
  - left. apply (sdd_keeps ok sq (set_timers (remove_nth i (m_timers s)) s)).
  - right. right. exists i, x. auto.
Qed.
Lemma deaf_step c e s ev : deaf s -> deaf (fst (mstep c e s ev)).
Proof.
  intros [D1 D2]. pose proof (cases c e s ev) as C.
  split.
  - destruct (mode_new _ _ _ _ _ _ C) as [X|[[p [_ X]]|[i [t [_ [N K]]]]]]; [congruence|auto|]. exfalso. eapply D2; eauto. eapply nth_in; eauto.
  - intros t T K. destruct (timer_new _ _ _ _ _ _ t C T) as [X|[X _]]; [eapply D2; eauto|]. rewrite K in X. inversion X as [| | | |i y E1 E2 E3| | | | | | |]. apply (D2 y); auto. eapply nth_in; eauto.
Qed.
