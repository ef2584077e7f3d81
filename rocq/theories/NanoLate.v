(** Transmissions of a packet after it was reported (C23). *)
From Coq Require Import ZArith List Lia Bool Sorting.Sorted Sorting.Permutation.
From Verif Require Import Base HeaderModel SeqModel EnergyModel NanoModel NanoProofs NanoSpec NanoOut
  NanoRetry NanoOrder NanoTrace.
Import ListNotations.
Open Scope Z_scope.

Lemma frame_eqb_spec f g : frame_eqb f g = true <-> f = g.
Proof.
  unfold frame_eqb. rewrite !andb_true_iff, !Z.eqb_eq. destruct f, g; cbn.
  split; [intuition congruence|]. intros E; injection E; intuition.
Qed.

Lemma concernsb_spec p f : concernsb p f = true <-> concerns p f.
Proof.
  unfold concernsb, concerns. rewrite orb_true_iff, frame_eqb_spec, !andb_true_iff, !Z.eqb_eq. tauto.
Qed.

Lemma sent_app a b : sent (a ++ b) = sent a ++ sent b.
Proof. apply flat_map_app. Qed.

Lemma sent_in f tr : In f (sent tr) <-> In (OSend f) tr.
Proof.
  unfold sent. rewrite in_flat_map. split.
  - intros [o [O P]]. destruct o; cbn in P; try tauto. destruct P as [->|[]]. auto.
  - intros H. exists (OSend f). split; auto. left; auto.
Qed.

Lemma transmissions_app p a b : (transmissions p (a ++ b) = transmissions p a + transmissions p b)%nat.
Proof. unfold transmissions. rewrite sent_app, filter_app, app_length. reflexivity. Qed.

Lemma transmissions_none p o : (forall f, In (OSend f) o -> ~ concerns p f) -> transmissions p o = 0%nat.
Proof.
  intros H. unfold transmissions. replace (filter _ _) with (@nil frame); auto.
  symmetry. assert (forall f, In f (sent o) -> concernsb p f = false) as X.
  { intros f F. apply not_true_is_false. rewrite concernsb_spec. apply H. apply sent_in. auto. }
  induction (sent o) as [|f l IH]; auto. cbn. rewrite X by (left; auto). apply IH.
  intros; apply X; right; auto.
Qed.

Definition chk (p : frame) (t : timer) : bool := match tm_kind t with KCheck q => frame_eqb q p | _ => false end.
Lemma pending_eq p s : pending_checks p s = length (filter (chk p) (s_timers s)).
Proof. reflexivity. Qed.

Lemma pending_cancel p u s : (pending_checks p (cancel u s) <= pending_checks p s)%nat.
Proof.
  rewrite !pending_eq. cbn. induction (s_timers s) as [|t l IH]; auto. cbn.
  destruct (negb _); cbn; destruct (chk p t); cbn; lia.
Qed.

Lemma pending_schedule p d k s : (forall q, k = KCheck q -> q <> p) ->
  pending_checks p (schedule d k s) = pending_checks p s.
Proof.
  intros H. rewrite !pending_eq. cbn. rewrite filter_app, app_length. cbn.
  unfold chk at 2. cbn. destruct k; cbn; try lia.
  destruct (frame_eqb p0 p) eqn:E; [|cbn; lia]. apply frame_eqb_spec in E. exfalso. eapply H; eauto.
Qed.

Lemma pending_remove p i s t : nth_error (s_timers s) i = Some t ->
  (pending_checks p (set_timers (remove_nth i (s_timers s)) s) + (if chk p t then 1 else 0) = pending_checks p s)%nat.
Proof.
  rewrite !pending_eq. cbn. revert i. induction (s_timers s) as [|x l IH]; intros [|i] H; cbn in *; try discriminate.
  - injection H as ->. destruct (chk p t); cbn; lia.
  - specialize (IH i H). destruct (chk p x); cbn; lia.
Qed.

Lemma pending_send_data p c q s : pending_checks p (fst (send_data c q s)) = pending_checks p s.
Proof.
  unfold send_data. destruct (_ =? _); auto. cbn [fst].
  change (pending_checks p (schedule (c_dur c (f_size q) + c_dur c (hdr_size T_ACK) + margin) (KAck (f_seq q)) s) = pending_checks p s).
  apply pending_schedule. discriminate.
Qed.

Lemma pending_check p c q s : pending_checks p (fst (check_resources c q s)) = pending_checks p s.
Proof.
  unfold check_resources. destruct (_ && _); rewrite booking_eq; cbv zeta; cbn [fst];
    destruct (fst (book _ _ _ _)); cbn [fst skip]; auto.
  - set (s1 := set_energy _ s). change (pending_checks p s) with (pending_checks p s1).
    change (pending_checks p (schedule (c_dur c (hdr_size T_RTS) + c_dur c (hdr_size T_CTS) + margin) (KCts q) s1) = pending_checks p s1).
    apply pending_schedule. discriminate.
  - rewrite pending_send_data. auto.
Qed.

Lemma pending_tx_first p c s : pending_checks p (fst (tx_first c s)) = pending_checks p s.
Proof. unfold tx_first. destruct (s_queue s); auto. apply pending_check. Qed.

Lemma pending_done p ok q s : (forall t, In t (s_tx s) -> t_pkt t <> p) ->
  pending_checks p (fst (send_data_done ok q s)) = pending_checks p s.
Proof.
  intros H. unfold send_data_done. cbn [fst].
  assert (X : pending_checks p (match find (fun t => (f_seq (t_pkt t) >? f_seq q) && (f_dst (t_pkt t) =? f_dst q)) (s_tx s) with
            | Some t => schedule 0 (KCheck (t_pkt t)) s | None => s end) = pending_checks p s).
  { destruct (find _ _) as [t|] eqn:F; auto. apply pending_schedule. intros x E. injection E as <-.
    apply find_some in F. apply H. tauto. }
  destruct ok; exact X.
Qed.

Lemma concerns_first c s tr p q : W c s tr -> s_ids s <= 65536 -> acc p tr -> acc q tr ->
  concerns p (first_frame c q) -> q = p.
Proof.
  intros H B P Q X. unfold first_frame in X. destruct (is_rts c q).
  - destruct X as [X|[_ [_ [_ X]]]].
    + exfalso. destruct (acc_data c s tr p H P) as [D _]. rewrite <- X in D. discriminate.
    + cbn in X. apply (seq_inj_w c s tr); auto.
  - destruct X as [X|[X _]]; auto. destruct (acc_data c s tr q H Q) as [D _]. rewrite D in X. discriminate.
Qed.

Lemma done_not_pending c s tr ok p : W c s tr -> In (ODone ok p) tr -> forall t, In t (s_tx s) -> t_pkt t <> p.
Proof.
  intros H D t T E. destruct (w_done _ _ _ _ _ _ _ _ _ _ H ok p D) as [_ X]. apply (X t T). congruence.
Qed.

Ltac quiet_out := unfold skip; cbn [fst snd]; repeat match goal with |- context [transmissions ?p ?o] =>
    change (transmissions p o) with 0%nat end;
  repeat match goal with |- context [pending_checks ?p (set_energy ?r ?s)] =>
    change (pending_checks p (set_energy r s)) with (pending_checks p s) end;
  repeat match goal with |- context [pending_checks ?p (set_now ?r ?s)] =>
    change (pending_checks p (set_now r s)) with (pending_checks p s) end; lia.

Lemma late_step c s tr e ok p : config_ok c -> W c s tr -> s_ids (fst (step c s e)) <= 65536 ->
  In (ODone ok p) tr ->
  (transmissions p (snd (step c s e)) + pending_checks p (fst (step c s e)) <= pending_checks p s)%nat.
Proof.
  intros C H B D.
  pose proof (ids_mono_step c s e) as M.
  assert (PA : acc p tr) by (apply (w_done _ _ _ _ _ _ _ _ _ _ H) in D; tauto).
  pose proof (done_not_pending c s tr ok p H D) as NP.
  assert (TF : forall s0 tr0, W c s0 tr0 -> s_ids s0 <= 65536 -> In (ODone ok p) tr0 ->
     transmissions p (snd (tx_first c s0)) = 0%nat).
  { intros s0 tr0 H0 B0 D0. apply transmissions_none. intros f F X.
    unfold tx_first in F. destruct (s_queue s0) as [|q l] eqn:E; [destruct F|].
    apply check_send in F. subst f.
    rewrite (w_queue _ _ _ _ _ _ _ _ _ _ H0) in E. destruct (s_tx s0) as [|t m] eqn:T; [discriminate|].
    injection E as <- _. assert (In t (s_tx s0)) as TI by (rewrite T; left; auto).
    apply (done_not_pending c s0 tr0 ok p H0 D0 t TI).
    apply (concerns_first c s0 tr0); auto.
    - apply (w_done _ _ _ _ _ _ _ _ _ _ H0) in D0. tauto.
    - apply (w_tx _ _ _ _ _ _ _ _ _ _ H0); auto. }
  assert (NS : forall o, (forall f, ~ In (OSend f) o) -> transmissions p o = 0%nat).
  { intros o N. apply transmissions_none. intros f F. exfalso. eapply N, F. }
  destruct e; cbn [step] in *.
  - destruct (enqueue_cases c size dst s) as [[_ E]|[[_ [_ E]]|[_ [Q E]]]]; rewrite E in *; cbn [fst snd] in *.
    1,2: rewrite NS; [lia|cbn; intros f [|[]]; discriminate].
    cbv zeta in *. pose proof (W_accept c s tr size dst C H Q) as W2. cbv zeta in W2.
    change (W c (accept_state c s size dst) (tr ++ [OAccept (new_pkt c s size dst)])) in W2.
    destruct (behind _ _ _); cbn [fst snd] in *.
    + change (pending_checks p (accept_state c s size dst)) with (pending_checks p s).
      rewrite NS; [lia|cbn; intros f [|[|[]]]; discriminate].
    + rewrite pending_tx_first. change (pending_checks p (accept_state c s size dst)) with (pending_checks p s).
      change (transmissions p (OAccept (new_pkt c s size dst) :: snd (tx_first c (accept_state c s size dst)) ++ [ORet true]))
        with (transmissions p (snd (tx_first c (accept_state c s size dst)) ++ [ORet true])).
      rewrite transmissions_app, (TF _ _ W2); [change (transmissions p [ORet true]) with 0%nat; lia| |apply in_or_app; auto].
      rewrite tx_first_ids in B. exact B.
  - unfold receive in *. destruct ok0; cbn [negb] in *; [|quiet_out].
    destruct (f_type f =? T_RTS).
    { unfold receive_rts. rewrite booking_eq. cbv zeta. cbn [fst snd].
      destruct (_ =? _); [|quiet_out]. rewrite booking_eq. cbv zeta. cbn [fst snd].
      destruct (fst (book _ _ (2 * _) _)); [|quiet_out]. rewrite seqa_eq. cbn [fst snd app].
      set (s1 := set_energy _ _).
      replace (pending_checks p _) with (pending_checks p s1).
      - change (pending_checks p s1) with (pending_checks p s).
        rewrite transmissions_none; [lia|]. intros g [G|[G|[G|[]]]]; try discriminate. injection G as <-.
        intros [X|[X _]]; [|discriminate]. destruct (acc_data c s tr p H PA) as [Y _].
        rewrite <- X in Y. discriminate.
      - symmetry. apply (pending_schedule p (c_dur c (hdr_size T_CTS) + margin) (KData (f_seq f)) s1). discriminate. }
    destruct (f_type f =? T_CTS).
    { unfold receive_cts in *. destruct (_ =? _); [|quiet_out].
      rewrite seqa_eq in *. cbn [fst snd] in *.
      set (r := match find _ (s_cts s) with Some _ => _ | None => _ end) in *.
      assert (s_tx (fst r) = s_tx s) as R3 by (unfold r; destruct (find _ (s_cts s)) as [[? ?]|]; reflexivity).
      assert (snd r = []) as R2 by (unfold r; destruct (find _ (s_cts s)) as [[? ?]|]; reflexivity).
      assert (pending_checks p (fst r) <= pending_checks p s)%nat as R4.
      { unfold r. destruct (find _ (s_cts s)) as [[? ?]|]; [|auto]. cbn [fst].
        etransitivity; [apply pending_cancel|]. auto. }
      rewrite R2, R3. cbn [app]. destruct (find _ (s_tx s)) as [t|] eqn:F; [|quiet_out].
      rewrite send_data_out, pending_send_data. apply find_some in F. destruct F as [F _].
      rewrite transmissions_none; [lia|]. intros g [G|[]] X. injection G as <-.
      destruct (acc_data c s tr (t_pkt t) H (w_tx _ _ _ _ _ _ _ _ _ _ H t F)) as [Y _].
      destruct X as [X|[X _]]; [|rewrite Y in X; discriminate]. apply (NP t F X). }
    destruct (f_type f =? T_DATA).
    { assert (transmissions p (snd (receive_data c f s)) = 0)%nat as ->.
      { apply transmissions_none. intros g G X. apply receive_data_send in G. destruct G as [_ [_ ->]].
        destruct X as [X|[X _]]; [|discriminate]. destruct (acc_data c s tr p H PA) as [Y _].
        rewrite <- X in Y. discriminate. }
      cbn [plus]. unfold receive_data. destruct (_ =? _).
      { unfold forward_new. destruct (is_new _ _ _). cbn. auto. }
      destruct (negb _); [auto|]. set (rest := _ ;; _).
      assert (X : forall s, (pending_checks p (fst (rest s)) <= pending_checks p s)%nat).
      { intros s0. unfold rest. rewrite !seqa_eq. cbn [fst].
        unfold forward_new. destruct (is_new _ _ _). cbn [fst send_ack emit].
        destruct (find _ (s_data s0)) as [[? ?]|]; cbn [fst]; [|auto].
        etransitivity; [apply (pending_cancel p z0)|]. auto. }
      destruct (c_rts c); [auto|]. rewrite booking_eq. cbv zeta. cbn [fst].
      destruct (fst (book _ _ _ _)); [|auto]. etransitivity; [apply X|auto]. }
    destruct (f_type f =? T_ACK); [|quiet_out].
    destruct (receive_ack_cases c f s) as [[_ [n [u [q [F [T [J O]]]]]]]|E].
    + rewrite O. rewrite NS by (intros g G; apply in_map_iff in G; destruct G as [x [E _]]; discriminate).
      cbn [plus]. unfold receive_ack. destruct (_ =? _); [|auto]. rewrite F.
      rewrite seqa_eq. cbn [fst].
      change (pending_checks p (fst (send_data_done true q (cancel u s))) <= pending_checks p s)%nat.
      rewrite pending_done; auto. apply pending_cancel.
    + rewrite E. quiet_out.
  - destruct (nth_error (s_timers s) i) as [t|] eqn:N; [|quiet_out].
    pose proof (nth_error_In _ _ N) as TI. pose proof (w_tm _ _ _ _ _ _ _ _ _ _ H t TI) as TK.
    pose proof (pending_remove p i s t N) as PR. set (s0 := set_timers _ s) in *.
    assert (RD : forall n arg draw s1, s_tx s1 = s_tx s -> pending_checks p s1 = pending_checks p s0 ->
       pending_checks p (fst (retry_or_discard c n arg draw s1)) = pending_checks p s0).
    { intros n arg dr s1 T1 P1. unfold retry_or_discard. destruct (bump n (s_tx s1)) as [[t' l]|] eqn:BU; [|auto].
      pose proof (bump_map _ _ _ _ BU) as BM. pose proof (bump_spec _ _ _ _ BU) as [t0 [a [b [E1 [E2 [EP _]]]]]].
      assert (NP' : forall x, In x l -> t_pkt x <> p).
      { intros x X E. apply (in_map t_pkt) in X. rewrite BM, T1 in X. apply in_map_iff in X.
        destruct X as [y [Y1 Y2]]. apply (NP y Y2). congruence. }
      destruct (_ <=? _); [rewrite pending_done; auto|].
      unfold backoff. destruct (_ <? _); cbn [fst]; [|auto].
      rewrite pending_schedule; auto. intros x X. injection X as <-. apply NP'. rewrite E2.
      apply in_or_app. right. left. auto. }
    destruct (tm_kind t) eqn:KD; cbn [fire tm_ok] in *.
    + rewrite pending_check. unfold chk in PR. rewrite KD in PR.
      destruct (frame_eqb p0 p) eqn:FE.
      * apply frame_eqb_spec in FE. subst p0.
        assert (transmissions p (snd (check_resources c p s0)) <= 1)%nat; [|lia].
        unfold transmissions. rewrite check_out. cbv zeta. destruct (fst (book _ _ _ _)); cbn; [|lia].
        destruct (concernsb _ _); cbn; lia.
      * rewrite transmissions_none; [lia|]. intros g G X. apply check_send in G. subst g.
        rewrite (proj2 (frame_eqb_spec p0 p)) in FE; [discriminate|].
        apply (concerns_first c s tr); auto. lia.
    + unfold cts_timeout in *. rewrite (timeout_eq c (f_seq p0) (Some p0) draw (OTimeout (f_seq p0))
          (fun s => set_cts (erase_first (fun x => fst x =? f_seq p0) (s_cts s)) s)) in *.
      cbv zeta. cbn [fst snd]. rewrite RD; try reflexivity.
      rewrite NS; [lia|]. intros g [G|[G|G]]; try discriminate. eapply retry_no_send, G.
    + unfold ack_timeout in *. rewrite (timeout_eq c sq None draw (OTimeout sq)
          (fun s => set_ack (erase_first (fun x => fst (fst x) =? sq) (s_ack s)) s)) in *.
      cbv zeta. cbn [fst snd]. rewrite RD; try reflexivity.
      rewrite NS; [lia|]. intros g [G|[G|G]]; try discriminate. eapply retry_no_send, G.
    + unfold data_timeout. rewrite seqa_eq. cbn [fst snd]. 
      change (transmissions p _) with 0%nat.
      match goal with |- (_ + pending_checks p ?x <= _)%nat => change (pending_checks p x) with (pending_checks p s0) end. lia.
  - quiet_out.
  - rewrite pending_tx_first, (TF s tr); auto; lia.
  - quiet_out.
Qed.

Lemma late_run c l : forall s tr ok p, config_ok c -> W c s tr -> s_ids (fst (run c s l)) <= 65536 ->
  In (ODone ok p) tr -> (transmissions p (snd (run c s l)) <= pending_checks p s)%nat.
Proof.
  induction l as [|e l IH]; intros s tr ok p C H B D; [quiet_out|].
  rewrite run_cons in *. cbn [fst snd] in *. rewrite transmissions_app.
  pose proof (ids_mono c l (fst (step c s e))).
  pose proof (late_step c s tr e ok p C H ltac:(lia) D).
  specialize (IH (fst (step c s e)) (tr ++ snd (step c s e)) ok p C (W_step c s tr e C H) B
    ltac:(apply in_or_app; auto)). lia.
Qed.
