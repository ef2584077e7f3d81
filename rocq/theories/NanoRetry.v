(** Retry counters, discards and backoff of one nano MAC (C16, C17). *)
From Coq Require Import ZArith List Lia Bool Sorting.Sorted.
From Verif Require Import Base HeaderModel SeqModel EnergyModel NanoModel NanoProofs NanoSpec NanoOut.
Import ListNotations.
Open Scope Z_scope.

Lemma seq_inj_w c s tr p q : W c s tr -> s_ids s <= 65536 ->
  acc p tr -> acc q tr -> f_seq p = f_seq q -> p = q.
Proof.
  intros H B P Q E. apply (w_uniq _ _ _ _ _ _ _ _ _ _ H); auto.
  apply (w_hist _ _ _ _ _ _ _ _ _ _ H) in P, Q. destruct P as [_ [_ [P PB]]], Q as [_ [_ [Q QB]]].
  rewrite P, Q in E. unfold wrap16 in E. change (2 ^ 16) with 65536 in E.
  pose proof (Z.div_mod (f_body p + 1) 65536 ltac:(lia)).
  pose proof (Z.div_mod (f_body q + 1) 65536 ltac:(lia)).
  pose proof (Z.mod_pos_bound (f_body p + 1) 65536 ltac:(lia)).
  pose proof (Z.mod_pos_bound (f_body q + 1) 65536 ltac:(lia)).
  rewrite E in *. nia.
Qed.

Definition timeout_of (n : Z) (o : out) : bool := match o with OTimeout m => m =? n | _ => false end.

Lemma timeouts_app p a b : timeouts p (a ++ b) = timeouts p a + timeouts p b.
Proof. unfold timeouts. rewrite filter_app, app_length. lia. Qed.

Lemma timeouts_none p o : (forall n, ~ In (OTimeout n) o) -> timeouts p o = 0.
Proof.
  intros H. unfold timeouts. replace (filter _ o) with (@nil out); [reflexivity|].
  symmetry. induction o as [|x o IH]; [reflexivity|]. cbn.
  destruct x; try (apply IH; intros n N; apply (H n); right; auto).
  exfalso. apply (H sq). left; auto.
Qed.

Lemma timeouts_nonneg p o : 0 <= timeouts p o.
Proof. unfold timeouts. lia. Qed.

Lemma timeouts_in p tr : timeouts p tr <> 0 -> In (OTimeout (f_seq p)) tr.
Proof.
  unfold timeouts. intros H. destruct (filter _ tr) as [|x l] eqn:F; [cbn in H; lia|].
  assert (In x (x :: l)) as X by (left; auto). rewrite <- F in X. apply filter_In in X.
  destruct X as [X Y]. destruct x; try discriminate. apply Z.eqb_eq in Y. subst. auto.
Qed.

Definition R (c : config) (s : state) (tr : list out) : Prop :=
  (forall t, In t (s_tx s) -> t_retry t = timeouts (t_pkt t) tr /\ t_retry t < c_retry c) /\
  (forall n, In (OTimeout n) tr -> exists p, acc p tr /\ f_seq p = n).

Lemma calm_no_timeout o n : forallb calm o = true -> ~ In (OTimeout n) o.
Proof. intros Q H. rewrite forallb_forall in Q. specialize (Q _ H). discriminate. Qed.
Lemma calm_no_accept o p : forallb calm o = true -> ~ In (OAccept p) o.
Proof. intros Q H. rewrite forallb_forall in Q. specialize (Q _ H). discriminate. Qed.
Lemma calm_no_done o ok p : forallb calm o = true -> ~ In (ODone ok p) o.
Proof. intros Q H. rewrite forallb_forall in Q. specialize (Q _ H). discriminate. Qed.
Lemma calm_no_backoff o p r d : forallb calm o = true -> ~ In (OBackoff p r d) o.
Proof. intros Q H. rewrite forallb_forall in Q. specialize (Q _ H). discriminate. Qed.

Lemma R_same c s s' tr o : R c s tr -> s_tx s' = s_tx s -> (forall n, ~ In (OTimeout n) o) -> R c s' (tr ++ o).
Proof.
  intros [A B] T N. split.
  - rewrite T. intros t H. rewrite timeouts_app, (timeouts_none _ o N), Z.add_0_r. auto.
  - intros n H. apply in_app_or in H. destruct H as [H|H]; [|exfalso; eapply N, H].
    destruct (B n H) as [p [P E]]. exists p. auto using acc_app.
Qed.

Lemma R_sub c s s' tr o : R c s tr -> (forall t, In t (s_tx s') -> In t (s_tx s)) ->
  (forall n, ~ In (OTimeout n) o) -> R c s' (tr ++ o).
Proof.
  intros [A B] T N. split.
  - intros t H. rewrite timeouts_app, (timeouts_none _ o N), Z.add_0_r. auto.
  - intros n H. apply in_app_or in H. destruct H as [H|H]; [|exfalso; eapply N, H].
    destruct (B n H) as [p [P E]]. exists p. auto using acc_app.
Qed.

Lemma done_no_timeout ok l n : ~ In (OTimeout n) (map (fun t => ODone ok (t_pkt t)) l).
Proof. intros H. apply in_map_iff in H. destruct H as [t [E _]]. discriminate. Qed.

Lemma tx_first_calm c s : forallb calm (snd (tx_first c s)) = true.
Proof. apply (tame_tx_first c s). Qed.

(** The pending packet with a given sequence number, when there is one. *)
Lemma retry_cases c s tr n arg draw (s1 : state) :
  W c s tr -> s_ids s <= 65536 -> s_tx s1 = s_tx s ->
  match arg with Some q => acc q tr /\ f_seq q = n | None => True end ->
  (~ (exists t, In t (s_tx s) /\ f_seq (t_pkt t) = n) /\ retry_or_discard c n arg draw s1 = (s1, [])) \/
  exists t0 a b, s_tx s = a ++ t0 :: b /\ f_seq (t_pkt t0) = n /\
    (forall x, In x (a ++ b) -> f_seq (t_pkt x) <> n) /\
    let k := wrap16 (t_retry t0 + 1) in
    ((c_retry c <= k /\ s_tx (fst (retry_or_discard c n arg draw s1)) = a ++ b /\
      snd (retry_or_discard c n arg draw s1) = [ODone false (t_pkt t0)]) \/
     (k < c_retry c /\ s_tx (fst (retry_or_discard c n arg draw s1)) = a ++ Tx (t_pkt t0) k :: b /\
      retry_or_discard c n arg draw s1 = backoff c (t_pkt t0) k draw (set_tx (a ++ Tx (t_pkt t0) k :: b) s1))).
Proof.
  intros H B T A. unfold retry_or_discard. rewrite T.
  destruct (bump n (s_tx s)) as [[t l]|] eqn:BU.
  2:{ left. split; [|reflexivity]. intros [t [I E]]. eapply bump_none; eauto. }
  right. apply bump_spec in BU. destruct BU as [t0 [a [b [E1 [E2 [P [R0 [S F]]]]]]]].
  exists t0, a, b.
  assert (U : forall x, In x (a ++ b) -> f_seq (t_pkt x) <> n).
  { intros x X E. assert (In x (s_tx s)) as X'.
    { rewrite E1. apply in_app_or in X. apply in_or_app. destruct X; [|right; right]; auto. }
    assert (In t0 (s_tx s)) as T0 by (rewrite E1; apply in_or_app; right; left; auto).
    pose proof (seq_inj_w c s tr (t_pkt x) (t_pkt t0) H B (w_tx _ _ _ _ _ _ _ _ _ _ H _ X')
                  (w_tx _ _ _ _ _ _ _ _ _ _ H _ T0) ltac:(congruence)) as EQ.
    assert (x = t0) as -> .
    { apply (sorted_inj (fun t => f_body (t_pkt t)) (s_tx s)); auto;
        [apply (w_sorted _ _ _ _ _ _ _ _ _ _ H)|congruence]. }
    pose proof (w_sorted _ _ _ _ _ _ _ _ _ _ H) as ST. apply sorted_NoDup in ST.
    rewrite E1, map_app in ST. cbn in ST. apply NoDup_remove_2 in ST.
    apply ST. rewrite <- map_app. apply (in_map (fun t => f_body (t_pkt t))). auto. }
  assert (TE : t = Tx (t_pkt t0) (wrap16 (t_retry t0 + 1))) by (destruct t; cbn in *; congruence).
  split; auto. split; auto. split; auto. cbv zeta.
  assert (t_retry t = wrap16 (t_retry t0 + 1)) as RT by auto. rewrite RT.
  destruct (Z.leb_spec (c_retry c) (wrap16 (t_retry t0 + 1))) as [L|L].
  - left. split; auto.
    assert (SQ : f_seq (match arg with Some p => p | None => t_pkt t end) = n).
    { destruct arg; [tauto|congruence]. }
    assert (FM : filter (fun t => negb (f_seq (t_pkt t) =? n)) l = a ++ b /\
                 filter (fun t => f_seq (t_pkt t) =? n) l = [t]).
    { rewrite E2, !filter_app. cbn. rewrite P, S, Z.eqb_refl. cbn.
      assert (FA : forall l', (forall x, In x l' -> f_seq (t_pkt x) <> n) ->
        filter (fun t => negb (f_seq (t_pkt t) =? n)) l' = l' /\ filter (fun t => f_seq (t_pkt t) =? n) l' = []).
      { induction l' as [|y l' IH]; intros Y; [auto|]. cbn.
        rewrite (proj2 (Z.eqb_neq _ _) (Y y (or_introl eq_refl))). cbn.
        destruct IH as [I1 I2]; [intros; apply Y; right; auto|]. rewrite I1, I2. auto. }
      destruct (FA a) as [A1 A2]; [intros; apply U; apply in_or_app; auto|].
      destruct (FA b) as [B1 B2]; [intros; apply U; apply in_or_app; auto|].
      rewrite A1, A2, B1, B2. auto. }
    rewrite done_tx, done_out, SQ. change (s_tx (set_tx l s1)) with l.
    destruct FM as [-> ->]. cbn. rewrite P. auto.
  - right. split; auto. rewrite backoff_tx. subst l. rewrite TE. cbn [t_pkt]. auto.
Qed.

Lemma backoff_no_timeout c p k d s n : ~ In (OTimeout n) (snd (backoff c p k d s)).
Proof. unfold backoff. destruct (_ <? _); cbn; intros [|[]]; discriminate. Qed.

Lemma timer_arg c s tr t n arg : W c s tr -> In t (s_timers s) ->
  ((exists p, tm_kind t = KCts p /\ n = f_seq p /\ arg = Some p) \/ (tm_kind t = KAck n /\ arg = None)) ->
  (match arg with Some q => acc q tr /\ f_seq q = n | None => True end) /\
  exists p, acc p tr /\ f_seq p = n.
Proof.
  intros H I D. pose proof (w_tm _ _ _ _ _ _ _ _ _ _ H t I) as T.
  destruct D as [[p [K [-> ->]]]|[K ->]]; rewrite K in T; cbn in T.
  - destruct T. eauto.
  - destruct T as [p [? [? ?]]]. eauto.
Qed.

Lemma R_step c s tr e : config_ok c -> c_retry c < 2 ^ 16 -> W c s tr -> 1 <= c_retry c ->
  s_ids (fst (step c s e)) <= 65536 -> R c s tr -> R c (fst (step c s e)) (tr ++ snd (step c s e)).
Proof.
  intros C L H L1 B HR. change (2 ^ 16) with 65536 in L. destruct (classify c s e).
  - subst e. cbn [step] in *.
    destruct (enqueue_cases c size dst s) as [[_ E]|[[_ [_ E]]|[_ [Q E]]]].
    1,2: rewrite E; apply R_same with (s := s); auto; cbn; intros n [|[]]; discriminate.
    cbv zeta in E. set (p := new_pkt c s size dst) in *. set (s2 := accept_state c s size dst) in *.
    assert (s_ids s + 1 <= 65536) as B'.
    { rewrite E in B. destruct (behind _ _ _) in B; cbn [fst] in B; [exact B|].
      rewrite tx_first_ids in B. exact B. }
    assert (A : R c s2 (tr ++ [OAccept p])).
    { destruct HR as [R1 R2]. split.
      - cbn. intros t T. rewrite timeouts_app, (timeouts_none (t_pkt t) [OAccept p]), Z.add_0_r
          by (cbn; intros n [|[]]; discriminate).
        apply in_app_or in T. destruct T as [T|[<-|[]]]; auto. cbn [t_retry t_pkt].
        split; [|lia]. symmetry. destruct (Z.eq_dec (timeouts p tr) 0); auto. exfalso.
        apply timeouts_in in n. apply R2 in n. destruct n as [q [Q1 Q2]].
        pose proof (W_accept c s tr size dst C H Q) as W2. cbv zeta in W2.
        change (W c s2 (tr ++ [OAccept p])) in W2.
        assert (p = q) as <-.
        { apply (seq_inj_w c s2 (tr ++ [OAccept p])); auto using acc_app.
          apply in_or_app. right. left. reflexivity. }
        apply (w_hist _ _ _ _ _ _ _ _ _ _ H) in Q1. cbn in Q1. lia.
      - intros n N. apply in_app_or in N. destruct N as [N|[N|[]]]; [|discriminate].
        destruct (R2 n N) as [q [? ?]]. exists q. auto using acc_app. }
    rewrite E. destruct (behind _ _ _); cbn [fst snd].
    + replace (tr ++ [OAccept p; ORet true]) with ((tr ++ [OAccept p]) ++ [ORet true])
        by (rewrite <- app_assoc; reflexivity).
      apply R_same with (s := s2); auto. cbn; intros n [|[]]; discriminate.
    + replace (tr ++ OAccept p :: snd (tx_first c s2) ++ [ORet true])
        with ((tr ++ [OAccept p]) ++ (snd (tx_first c s2) ++ [ORet true]))
        by (rewrite <- app_assoc; reflexivity).
      apply R_same with (s := s2); auto; [apply tx_first_tx|].
      intros n N. apply in_app_or in N. destruct N as [N|[N|[]]]; [|discriminate].
      eapply calm_no_timeout; eauto. apply tx_first_calm.
  - assert (In t (s_timers s)) as TI by (eapply nth_error_In; eauto).
    destruct (timer_arg c s tr t n arg H TI H2) as [AR AC].
    rewrite H7 in *. cbn [fst snd] in *. clear H7.
    assert (s_ids s <= 65536) as B'.
    { revert B. rewrite <- H5. unfold retry_or_discard. destruct (bump _ _) as [[t' l]|]; [|auto].
      destruct (_ <=? _).
      - unfold send_data_done. cbn [fst]. destruct (find _ _); auto.
      - unfold backoff. destruct (_ <? _); auto. }
    assert (R2' : forall o m, (forall m, ~ In (OTimeout m) o) ->
       In (OTimeout m) (tr ++ OTimeout n :: ORefund tx rx :: o) ->
       exists p, acc p (tr ++ OTimeout n :: ORefund tx rx :: o) /\ f_seq p = m).
    { intros o m O M. apply in_app_or in M. destruct M as [M|[M|[M|M]]].
      - apply HR in M. destruct M as [q [? ?]]. exists q. auto using acc_app.
      - injection M as <-. destruct AC as [q [? ?]]. exists q. auto using acc_app.
      - discriminate.
      - exfalso. eapply O, M. }
    destruct (retry_cases c s tr n arg draw s1 H B' H3 AR) as [[N E]|[t0 [a [b [E1 [E2 [U D]]]]]]].
    + rewrite E. cbn [fst snd]. split; [|intros m0; apply R2'; cbn; auto].
      rewrite H3. intros x X. rewrite timeouts_app.
      replace (timeouts (t_pkt x) [OTimeout n; ORefund tx rx]) with 0; [rewrite Z.add_0_r; apply HR; auto|].
      unfold timeouts. cbn. destruct (Z.eqb_spec n (f_seq (t_pkt x))); [|reflexivity].
      exfalso. apply N. eauto.
    + destruct HR as [R1 R2].
      assert (T0 : In t0 (s_tx s)) by (rewrite E1; apply in_or_app; right; left; auto).
      destruct (R1 t0 T0) as [RT RL]. pose proof (timeouts_nonneg (t_pkt t0) tr).
      assert (WK : wrap16 (t_retry t0 + 1) = t_retry t0 + 1).
      { apply wrap16_id. unfold u16. change (2 ^ 16) with 65536. lia. }
      cbv zeta in D. rewrite WK in D.
      assert (OTH : forall x o, In x (a ++ b) -> (forall m, ~ In (OTimeout m) o) ->
        t_retry x = timeouts (t_pkt x) (tr ++ OTimeout n :: ORefund tx rx :: o) /\ t_retry x < c_retry c).
      { intros x o X O. rewrite timeouts_app.
        replace (timeouts (t_pkt x) (OTimeout n :: ORefund tx rx :: o)) with 0.
        - rewrite Z.add_0_r. apply R1. rewrite E1. apply in_app_or in X. apply in_or_app.
          destruct X; [|right; right]; auto.
        - change (OTimeout n :: ORefund tx rx :: o) with ([OTimeout n; ORefund tx rx] ++ o).
          rewrite timeouts_app, (timeouts_none _ o O). unfold timeouts. cbn.
          destruct (Z.eqb_spec n (f_seq (t_pkt x))); [|reflexivity].
          exfalso. apply (U x X). congruence. }
      destruct D as [[D1 [D2 D3]]|[D1 [D2 D3]]].
      * rewrite D3. split; [|intros m0; apply R2'; cbn; intros m [|[]]; discriminate].
        rewrite D2. intros x X. apply OTH; auto. cbn; intros m [|[]]; discriminate.
      * assert (NO : forall m, ~ In (OTimeout m) (snd (retry_or_discard c n arg draw s1)))
          by (intros m; rewrite D3; apply backoff_no_timeout).
        split; [|intros m0; apply R2'; auto]. rewrite D2. intros x X.
        apply in_app_or in X. destruct X as [X|[<-|X]];
          [apply OTH; auto; apply in_or_app; auto| |apply OTH; auto; apply in_or_app; auto].
        cbn [t_retry t_pkt]. rewrite timeouts_app.
        rewrite (timeouts_app _ [OTimeout n; ORefund tx rx] _ : timeouts _ (_ :: _ :: _) = _).
        rewrite (timeouts_none _ _ NO). unfold timeouts at 2. cbn.
        rewrite E2, Z.eqb_refl. cbn. lia.
  - rewrite H2 in *. destruct (receive_ack_cases c f s) as [[_ [n [u [p [F [T [I O]]]]]]]|E].
    + apply R_sub with (s := s); auto.
      * rewrite T. intros x X. apply filter_In in X. tauto.
      * rewrite O. intros m. apply done_no_timeout.
    + rewrite E. apply R_same with (s := s); auto.
  - apply R_same with (s := s); auto. intros n. eapply calm_no_timeout; eauto.
Qed.

Lemma ids_mono_step c s e : s_ids s <= s_ids (fst (step c s e)).
Proof.
  destruct (classify c s e).
  - subst e. cbn [step].
    destruct (enqueue_cases c size dst s) as [[_ E]|[[_ [_ E]]|[_ [Q E]]]]; rewrite E; cbn [fst]; try lia.
    destruct (behind _ _ _); cbn [fst]; rewrite ?tx_first_ids; cbn; lia.
  - rewrite H6. cbn [fst]. rewrite <- H4. unfold retry_or_discard.
    destruct (bump _ _) as [[t' l]|]; [|cbn; lia].
    destruct (_ <=? _).
    + unfold send_data_done. cbn [fst]. destruct (find _ _), arg; cbn; lia.
    + unfold backoff. destruct (_ <? _); cbn; lia.
  - rewrite H1. destruct (receive_ack_cases c f s) as [[_ [n [u [p [F [T [I O]]]]]]]|E]; [lia|].
    rewrite E. cbn. lia.
  - lia.
Qed.

Lemma ids_mono c l : forall s, s_ids s <= s_ids (fst (run c s l)).
Proof.
  induction l as [|e l IH]; intros s; [cbn; lia|]. rewrite run_cons. cbn [fst].
  pose proof (ids_mono_step c s e). specialize (IH (fst (step c s e))). lia.
Qed.

Lemma R_run c l : forall s tr, config_ok c -> 1 <= c_retry c < 2 ^ 16 -> W c s tr ->
  s_ids (fst (run c s l)) <= 65536 -> R c s tr -> R c (fst (run c s l)) (tr ++ snd (run c s l)).
Proof.
  induction l as [|e l IH]; intros s tr C L H B HR.
  - cbn. rewrite app_nil_r. exact HR.
  - rewrite run_cons in *. cbn [fst snd] in *. rewrite app_assoc. apply IH; auto.
    + apply W_step; auto.
    + apply R_step; auto; try tauto. pose proof (ids_mono c l (fst (step c s e))). lia.
Qed.

Lemma R_init c e0 : R c (init e0) [].
Proof. split; cbn; intros; contradiction. Qed.

(** Discards happen exactly at the timeout that exhausts the retries. *)
Lemma discard_iff c s tr e p : config_ok c -> W c s tr -> R c s tr -> 1 <= c_retry c < 2 ^ 16 ->
  s_ids s <= 65536 ->
  (In (ODone false p) (snd (step c s e)) <->
   In p (s_queue s) /\ In (OTimeout (f_seq p)) (snd (step c s e)) /\ timeouts p tr + 1 = c_retry c).
Proof.
  intros C H HR L B. change (2 ^ 16) with 65536 in L.
  assert (FF : forall P : Prop, ~ In (ODone false p) (snd (step c s e)) ->
    (forall n, ~ In (OTimeout n) (snd (step c s e))) ->
    (In (ODone false p) (snd (step c s e)) <->
     In p (s_queue s) /\ In (OTimeout (f_seq p)) (snd (step c s e)) /\ timeouts p tr + 1 = c_retry c)).
  { intros _ A1 A2. split; [tauto|]. intros [_ [X _]]. exfalso. eapply A2, X. }
  destruct (classify c s e).
  - apply (FF True); subst e; cbn [step];
    destruct (enqueue_cases c size dst s) as [[_ E]|[[_ [_ E]]|[_ [Q E]]]]; rewrite E; cbn [snd].
    1,2: cbn; intros [|[]]; discriminate.
    2,3: cbn; intros n [|[]]; discriminate.
    + destruct (behind _ _ _); cbn [snd]; [cbn; intros [|[|[]]]; discriminate|].
      intros [X|X]; [discriminate|]. apply in_app_or in X. destruct X as [X|[X|[]]]; [|discriminate].
      eapply calm_no_done; eauto. apply tx_first_calm.
    + intros n. destruct (behind _ _ _); cbn [snd]; [cbn; intros [|[|[]]]; discriminate|].
      intros [X|X]; [discriminate|]. apply in_app_or in X. destruct X as [X|[X|[]]]; [|discriminate].
      eapply calm_no_timeout; eauto. apply tx_first_calm.
  - clear FF. assert (In t (s_timers s)) as TI by (eapply nth_error_In; eauto).
    destruct (timer_arg c s tr t n arg H TI H2) as [AR AC].
    rewrite H7. cbn [snd].
    assert (QT : forall q, In q (s_queue s) <-> exists x, In x (s_tx s) /\ t_pkt x = q).
    { intros q. rewrite (w_queue _ _ _ _ _ _ _ _ _ _ H), in_map_iff. split; intros [x [? ?]]; eauto. }
    destruct (retry_cases c s tr n arg draw s1 H B H3 AR) as [[N E]|[t0 [a [b [E1 [E2 [U D]]]]]]].
    + rewrite E. cbn [snd]. split.
      * intros [|[|[]]]; discriminate.
      * intros [P [[T|[T|[]]] _]]; [|discriminate]. injection T as ->. exfalso. apply N.
        apply QT in P. destruct P as [x [X Y]]. exists x. subst p. auto.
    + assert (T0 : In t0 (s_tx s)) by (rewrite E1; apply in_or_app; right; left; auto).
      destruct HR as [R1 R2]. destruct (R1 t0 T0) as [RT RL]. pose proof (timeouts_nonneg (t_pkt t0) tr).
      assert (WK : wrap16 (t_retry t0 + 1) = t_retry t0 + 1).
      { apply wrap16_id. unfold u16. change (2 ^ 16) with 65536. lia. }
      cbv zeta in D. rewrite WK in D.
      assert (PE : In p (s_queue s) -> f_seq p = n -> p = t_pkt t0).
      { intros P S. apply QT in P. destruct P as [x [X Y]].
        apply (seq_inj_w c s tr); auto; try congruence.
        - subst p. apply (w_tx _ _ _ _ _ _ _ _ _ _ H); auto.
        - apply (w_tx _ _ _ _ _ _ _ _ _ _ H); auto. }
      destruct D as [[D1 [D2 D3]]|[D1 [D2 D3]]].
      * rewrite D3. split.
        -- intros [X|[X|[X|[]]]]; try discriminate. injection X as <-. split.
           ++ apply QT. eauto.
           ++ split; [left; congruence|]. lia.
        -- intros [P [[X|[X|[X|[]]]] T]]; try discriminate. injection X as X.
           right. right. left. rewrite (PE P ltac:(congruence)). reflexivity.
      * assert (ND : ~ In (ODone false p) (snd (retry_or_discard c n arg draw s1))).
        { rewrite D3. unfold backoff. destruct (_ <? _); cbn; intros [|[]]; discriminate. }
        assert (NO : forall m, ~ In (OTimeout m) (snd (retry_or_discard c n arg draw s1)))
          by (intros m; rewrite D3; apply backoff_no_timeout).
        split.
        -- intros [X|[X|X]]; try discriminate. tauto.
        -- intros [P [[X|[X|X]] T]]; try discriminate; [|exfalso; eapply NO, X].
           injection X as X. rewrite (PE P ltac:(congruence)) in T. lia.
  - apply (FF True); rewrite H2;
    destruct (receive_ack_cases c f s) as [[_ [n [u [q [F [T [I O]]]]]]]|E]; rewrite ?O, ?E; cbn; auto.
    + intros X. apply in_map_iff in X. destruct X as [x [X _]]. discriminate.
    + intros m. apply done_no_timeout.
  - apply (FF True); [eapply calm_no_done; eauto|intros n; eapply calm_no_timeout; eauto].
Qed.

(** Backoff. *)
Lemma get_integer_range k draw : 0 <= k -> 0 <= draw < rng_m -> 1 <= get_integer 1 (2 ^ k) draw <= 2 ^ k.
Proof.
  intros K D. unfold get_integer. replace (2 ^ k - 1 + 1) with (2 ^ k) by lia.
  assert (0 < 2 ^ k) by (apply Z.pow_pos_nonneg; lia). unfold rng_m in *. split.
  - pose proof (Z.div_pos (draw * 2 ^ k) 4294967088 ltac:(nia) ltac:(lia)). lia.
  - assert (draw * 2 ^ k / 4294967088 < 2 ^ k) by (apply Z.div_lt_upper_bound; nia). lia.
Qed.

Lemma backoff_step c s tr i draw p k d : config_ok c -> W c s tr -> R c s tr -> 1 <= c_retry c < 2 ^ 16 ->
  s_ids s <= 65536 -> 0 <= draw < rng_m -> 0 <= c_slot c ->
  In (OBackoff p k d) (snd (step c s (EvTimer i draw))) ->
  In p (s_queue s) /\ k = timeouts p tr + 1 /\ k < c_retry c /\ c_slot c <= d <= 2 ^ k * c_slot c /\
  (exists t, In t (s_timers (fst (step c s (EvTimer i draw)))) /\ tm_kind t = KCheck p /\
             tm_due t = s_now s + d).
Proof.
  intros C H HR L B DR SL I. change (2 ^ 16) with 65536 in L.
  cbn [step] in *. destruct (nth_error (s_timers s) i) as [t|] eqn:N; [|destruct I].
  pose proof (nth_error_In _ _ N) as TI.
  set (s0 := set_timers (remove_nth i (s_timers s)) s) in *.
  assert (X : forall n arg tx rx (g : state -> state) s1,
    s1 = g (set_energy (give_back (c_energy c) (s_energy s0) tx rx) s0) ->
    s_tx s1 = s_tx s -> s_now s1 = s_now s ->
    (match arg with Some q => acc q tr /\ f_seq q = n | None => True end) ->
    In (OBackoff p k d) (snd (retry_or_discard c n arg draw s1)) ->
    In p (s_queue s) /\ k = timeouts p tr + 1 /\ k < c_retry c /\ c_slot c <= d <= 2 ^ k * c_slot c /\
    (exists t, In t (s_timers (fst (retry_or_discard c n arg draw s1))) /\ tm_kind t = KCheck p /\
             tm_due t = s_now s + d)).
  { intros n arg tx rx g s1 _ T1 N1 AR J.
    destruct (retry_cases c s tr n arg draw s1 H B T1 AR) as [[_ E]|[t0 [a [b [E1 [E2 [U D]]]]]]];
      [rewrite E in J; destruct J|].
    assert (T0 : In t0 (s_tx s)) by (rewrite E1; apply in_or_app; right; left; auto).
    destruct HR as [R1 R2]. destruct (R1 t0 T0) as [RT RL]. pose proof (timeouts_nonneg (t_pkt t0) tr).
    assert (WK : wrap16 (t_retry t0 + 1) = t_retry t0 + 1).
    { apply wrap16_id. unfold u16. change (2 ^ 16) with 65536. lia. }
    cbv zeta in D. rewrite WK in D.
    destruct D as [[D1 [D2 D3]]|[D1 [D2 D3]]]; [rewrite D3 in J; destruct J as [|[]]; discriminate|].
    rewrite D3 in *. unfold backoff in *. destruct (_ <? _); cbn [fst snd] in *; [|destruct J as [|[]]; discriminate].
    destruct J as [J|[]].
    assert (t_pkt t0 = p) as <- by congruence. assert (t_retry t0 + 1 = k) as <- by congruence.
    assert (get_integer 1 (2 ^ (t_retry t0 + 1)) draw * c_slot c = d) as <- by congruence. clear J.
    split; [|split; [lia|split; [lia|split]]].
    - rewrite (w_queue _ _ _ _ _ _ _ _ _ _ H). apply in_map. auto.
    - pose proof (get_integer_range (t_retry t0 + 1) draw ltac:(lia) DR) as GI. revert GI. generalize (get_integer 1 (2 ^ (t_retry t0 + 1)) draw) (2 ^ (t_retry t0 + 1)). intros. nia.
    - exists (Timer (s_uid s1) (s_now s1 + get_integer 1 (2 ^ (t_retry t0 + 1)) draw * c_slot c) (KCheck (t_pkt t0))).
      split; [cbn; apply in_or_app; right; left; reflexivity|]. cbn. rewrite N1. auto. }
  destruct (tm_kind t) eqn:KD; cbn [fire] in *.
  - exfalso. eapply calm_no_backoff; [|exact I]. apply (tame_check c p0 s0).
  - unfold cts_timeout in *. rewrite (timeout_eq c (f_seq p0) (Some p0) draw (OTimeout (f_seq p0))
          (fun s => set_cts (erase_first (fun x => fst x =? f_seq p0) (s_cts s)) s)) in *.
    cbv zeta in *. cbn [fst snd] in *. destruct I as [I|[I|I]]; try discriminate.
    eapply X; eauto; try reflexivity.
    pose proof (w_tm _ _ _ _ _ _ _ _ _ _ H t TI) as WT. rewrite KD in WT. destruct WT. auto.
  - unfold ack_timeout in *. rewrite (timeout_eq c sq None draw (OTimeout sq)
          (fun s => set_ack (erase_first (fun x => fst (fst x) =? sq) (s_ack s)) s)) in *.
    cbv zeta in *. cbn [fst snd] in *. destruct I as [I|[I|I]]; try discriminate.
    eapply X; eauto; try reflexivity.
  - exfalso. eapply calm_no_backoff; [|exact I]. apply (tame_data_timeout c sq s0).
Qed.

(** A timeout of a pending packet below the limit always backs off (no overflow up to 32). *)
Lemma backoff_happens c s tr i draw p : config_ok c -> W c s tr -> R c s tr -> 1 <= c_retry c <= 32 ->
  s_ids s <= 65536 -> In p (s_queue s) -> In (OTimeout (f_seq p)) (snd (step c s (EvTimer i draw))) ->
  timeouts p tr + 1 < c_retry c ->
  exists d, In (OBackoff p (timeouts p tr + 1) d) (snd (step c s (EvTimer i draw))).
Proof.
  intros C H HR L B P I LT.
  destruct (classify c s (EvTimer i draw)).
  - discriminate.
  - injection H0 as <- <-. assert (In t (s_timers s)) as TI by (eapply nth_error_In; eauto).
    destruct (timer_arg c s tr t n arg H TI H2) as [AR AC].
    rewrite H7 in *. cbn [snd] in *.
    rewrite (w_queue _ _ _ _ _ _ _ _ _ _ H), in_map_iff in P. destruct P as [x [XP X]].
    destruct (retry_cases c s tr n arg draw s1 H B H3 AR) as [[N E]|[t0 [a [b [E1 [E2 [U D]]]]]]].
    + rewrite E in I. destruct I as [I|[I|[]]]; [|discriminate]. injection I as ->.
      exfalso. apply N. exists x. subst p. auto.
    + assert (T0 : In t0 (s_tx s)) by (rewrite E1; apply in_or_app; right; left; auto).
      destruct HR as [R1 R2]. destruct (R1 t0 T0) as [RT RL]. pose proof (timeouts_nonneg (t_pkt t0) tr).
      assert (WK : wrap16 (t_retry t0 + 1) = t_retry t0 + 1).
      { apply wrap16_id. unfold u16. change (2 ^ 16) with 65536. lia. }
      cbv zeta in D. rewrite WK in D.
      assert (NO : forall m, ~ In (OTimeout m) (snd (retry_or_discard c n arg draw s1))).
      { intros m. destruct D as [[D1 [D2 D3]]|[D1 [D2 D3]]]; rewrite D3; [cbn; intros [|[]]; discriminate|].
        apply backoff_no_timeout. }
      destruct I as [I|[I|I]]; [|discriminate|exfalso; eapply NO, I]. injection I as I.
      assert (p = t_pkt t0) as ->.
      { apply (seq_inj_w c s tr); auto; try congruence.
        - subst p. apply (w_tx _ _ _ _ _ _ _ _ _ _ H); auto.
        - apply (w_tx _ _ _ _ _ _ _ _ _ _ H); auto. }
      destruct D as [[D1 _]|[D1 [D2 D3]]]; [lia|]. rewrite D3. unfold backoff.
      replace (t_retry t0 + 1 <? 32) with true by (symmetry; apply Z.ltb_lt; lia).
      eexists. right. right. left. rewrite RT. reflexivity.
  - rewrite H2 in I. discriminate.
  - exfalso. eapply calm_no_timeout; eauto.
Qed.
