(** Invariants of the macro MAC. *)
From Coq Require Import ZArith List Lia Bool Permutation.
From Verif Require Import Base HeaderModel SeqModel SeqProofs EnergyModel MacModel MacSpec.
Import ListNotations.
Open Scope Z_scope.

(** ** Effects *)
Lemma acc_app a b : acc_of (a ++ b) = acc_of a ++ acc_of b.
Proof. apply flat_map_app. Qed.
Lemma rep_app k a b : rep_of k (a ++ b) = rep_of k a ++ rep_of k b.
Proof. apply flat_map_app. Qed.
Lemma up_app a b : up_of (a ++ b) = up_of a ++ up_of b.
Proof. apply flat_map_app. Qed.
Lemma snd_app a b : snd_of (a ++ b) = snd_of a ++ snd_of b.
Proof. apply flat_map_app. Qed.
Lemma rcv_app a b : rcv_of (a ++ b) = rcv_of a ++ rcv_of b.
Proof. apply flat_map_app. Qed.
Lemma tmo_app q a b : tmo_of q (a ++ b) = (tmo_of q a + tmo_of q b)%nat.
Proof. unfold tmo_of. rewrite filter_app, app_length. reflexivity. Qed.
Lemma in_acc p o : In p (acc_of o) <-> In (OAcc p) o.
Proof.
  unfold acc_of. rewrite in_flat_map. split.
  - intros [x [X Y]]. destruct x; cbn in Y; try contradiction. destruct Y as [->|[]]. auto.
  - intros H. exists (OAcc p). split; auto. left. auto.
Qed.
Lemma in_snd p o : In p (snd_of o) <-> In (OSnd p) o.
Proof.
  unfold snd_of. rewrite in_flat_map. split.
  - intros [x [X Y]]. destruct x; cbn in Y; try contradiction. destruct Y as [->|[]]. auto.
  - intros H. exists (OSnd p). split; auto. left. auto.
Qed.
Lemma in_up p o : In p (up_of o) <-> In (OUp p) o.
Proof.
  unfold up_of. rewrite in_flat_map. split.
  - intros [x [X Y]]. destruct x; cbn in Y; try contradiction. destruct Y as [->|[]]. auto.
  - intros H. exists (OUp p). split; auto. left. auto.
Qed.
Lemma in_rep b p o : In p (rep_of b o) <-> In (ORep b p) o.
Proof.
  unfold rep_of. rewrite in_flat_map. split.
  - intros [x [X Y]]. destruct x; cbn in Y; try contradiction. destruct (Bool.eqb b ok) eqn:E; [|destruct Y].
    apply eqb_prop in E. destruct Y as [->|[]]. subst. auto.
  - intros H. exists (ORep b p). split; auto. rewrite eqb_reflx. left. auto.
Qed.

Lemma mseq_eq a b s : (a ;; b) s = (fst (b (fst (a s))), snd (a s) ++ snd (b (fst (a s)))).
Proof. unfold mseq. destruct (a s) as [s1 o1]. cbn. destruct (b s1). reflexivity. Qed.

(** ** Calm actions: the packets the node is responsible for, the filter and the antenna are
    untouched, and nothing is accepted, reported or handed up. *)
Definition same (s s' : mst) : Prop :=
  m_rec s' = m_rec s /\ m_queue s' = m_queue s /\ m_sent s' = m_sent s /\ m_disc s' = m_disc s /\
  m_seq s' = m_seq s /\ m_filter s' = m_filter s /\ m_mode s' = m_mode s /\ m_rot s' = m_rot s /\ m_now s' = m_now s /\
  m_ids s <= m_ids s' /\ m_uid s <= m_uid s'.
Definition calm_out (o : list mout) : Prop :=
  acc_of o = [] /\ up_of o = [] /\ (forall b, rep_of b o = []) /\ (forall q, tmo_of q o = 0%nat).
Definition calm (a : mact) : Prop := forall s, same s (fst (a s)) /\ calm_out (snd (a s)).

Lemma same_refl s : same s s.
Proof. unfold same. intuition lia. Qed.
Lemma same_trans a b d : same a b -> same b d -> same a d.
Proof. unfold same. intros. intuition (try congruence; try lia). Qed.
Lemma calm_nil : calm_out [].
Proof. repeat split; auto. Qed.
Lemma calm_app a b : calm_out a -> calm_out b -> calm_out (a ++ b).
Proof.
  unfold calm_out. intros [A1 [A2 [A3 A4]]] [B1 [B2 [B3 B4]]].
  rewrite acc_app, up_app, A1, A2, B1, B2. repeat split; auto; intros.
  - rewrite rep_app, A3, B3. auto.
  - rewrite tmo_app, A4, B4. auto.
Qed.
Lemma calm_seq a b : calm a -> calm b -> calm (a ;; b).
Proof.
  intros A B s. rewrite mseq_eq. cbn [fst snd]. destruct (A s), (B (fst (a s))). split; [eapply same_trans; eauto|].
  apply calm_app; auto.
Qed.
Lemma calm_ret f : (forall s, same s (f s)) -> calm (mlift f).
Proof. intros H s. split; [apply H|apply calm_nil]. Qed.

Ltac ss := unfold same; cbn [m_now m_seq m_queue m_rec m_state m_nav m_lnav m_bostart m_borem m_retry m_cca m_bo m_cts m_ack m_filter m_tx m_air m_data m_sent m_disc m_res m_mode m_rot m_timers m_uid m_ids set_now set_seq set_queue set_rec set_state set_nav set_lnav set_bostart set_borem set_retry set_cca set_bo set_cts set_ack set_filter set_tx set_air MacModel.set_data set_sent set_disc set_res set_mode set_rot set_timers set_uid set_ids msched mcancel mlift fst snd].
Ltac same1 := ss; repeat split; try reflexivity; lia.
Ltac co := repeat split; reflexivity.

Lemma calm_skip : calm mskip.
Proof. intros s. split; [apply same_refl|apply calm_nil]. Qed.
Lemma calm_nav c d : calm (update_nav c d).
Proof. intros s. unfold update_nav. destruct (round_off _ _); [destruct (_ >? _)|]; split; try co; same1. Qed.
Lemma calm_lnav c d : calm (update_lnav c d).
Proof. intros s. unfold update_lnav. destruct (round_off _ _); split; try co; same1. Qed.
Lemma calm_cca c e : calm (cca c e).
Proof.
  intros s. unfold cca. destruct (m_queue s) eqn:Q; [split; [apply same_refl|co]|].
  destruct (mrunning _ _); [split; [apply same_refl|co]|]. cbv zeta.
  destruct (_ >? _); [split; [same1|co]|]. destruct (_ || _); split; try co; same1.
Qed.
Lemma calm_bostart e : calm (backoff_start e).
Proof. intros s. unfold backoff_start. cbv zeta. destruct (_ =? _), (_ || _); split; try co; same1. Qed.
Lemma calm_busy c e : calm (becomes_busy c e).
Proof.
  apply calm_seq; [|apply calm_cca]. intros s. destruct (m_bo s) as [u|]; [|split; [apply same_refl|co]].
  destruct (mrunning _ _); [|split; [apply same_refl|co]]. cbv zeta. destruct (_ <? _); [destruct (round_off _ _)|]; split; try co; same1.
Qed.
Lemma calm_over c e : calm (start_over c e).
Proof. apply calm_seq; [|apply calm_cca]. apply calm_ret. intros s. same1. Qed.
Lemma calm_packet f k : (forall b, calm (k b)) -> calm (send_packet f k).
Proof.
  intros K s. unfold send_packet. destruct (_ || _); [|apply K]. destruct (m_air s).
  - destruct (K false (set_state MIdle s)) as [A B]. split; [|exact B]. eapply same_trans; [|exact A]. same1.
  - match goal with |- context [mseq ?a ?b ?x] => assert (H : calm (mseq a b)) by (apply calm_seq; [intros z; split; [apply same_refl|co]|apply K]); destruct (H x) as [A B] end.
    split; [|exact B]. eapply same_trans; [|exact A]. same1.
Qed.
Lemma calm_pre f (a : mact) : (forall s, same s (f s)) -> calm a -> calm (fun s => a (f s)).
Proof. intros F A s. destruct (A (f s)) as [X Y]. split; [|exact Y]. eapply same_trans; [apply F|auto]. Qed.
Lemma calm_rts c e p : calm (send_rts c e p).
Proof.
  intros s. unfold send_rts. cbv zeta. match goal with |- context [send_packet ?f ?k _] => assert (H : calm (send_packet f k)) end.
  { apply calm_packet. intros []; [|apply calm_over]. apply calm_seq; [apply calm_lnav|]. apply calm_ret. intros. same1. }
  destruct (H (set_ids (m_ids s + 1) s)) as [A B]. split; [|exact B]. eapply same_trans; [|exact A]. same1.
Qed.
Lemma calm_data c e p : calm (send_data c e p).
Proof.
  intros s. unfold send_data. destruct (m_queue s) eqn:Q; [split; [|co]; same1|].
  match goal with |- context [send_packet ?f ?k _] => assert (H : calm (send_packet f k)) end.
  { apply calm_packet. intros []; [|apply calm_over]. destruct (_ =? _); [apply calm_lnav|].
    apply calm_seq; [apply calm_lnav|]. apply calm_ret. intros. same1. }
  destruct (H (MacModel.set_data (Some p) s)) as [A B]. split; [|exact B]. eapply same_trans; [|exact A]. same1.
Qed.
Lemma calm_scts c d u q : calm (send_cts c d u q).
Proof.
  intros s. unfold send_cts. cbv zeta. match goal with |- context [send_packet ?f ?k _] => assert (H : calm (send_packet f k)) end.
  { apply calm_packet. intros []; [apply calm_lnav|apply calm_skip]. }
  destruct (H (set_ids (m_ids s + 1) s)) as [A B]. split; [|exact B]. eapply same_trans; [|exact A]. same1.
Qed.
Lemma calm_sack c d q : calm (send_ack c d q).
Proof.
  intros s. unfold send_ack. cbv zeta. match goal with |- context [mseq ?f ?k _] => assert (H : calm (mseq f k)) end.
  { apply calm_seq; [apply calm_lnav|]. apply calm_packet. intros. apply calm_skip. }
  destruct (H (set_ids (m_ids s + 1) s)) as [A B]. split; [|exact B]. eapply same_trans; [|exact A]. same1.
Qed.
Lemma calm_granted c e : calm (granted c e).
Proof.
  intros s. unfold granted. destruct (m_queue s) as [|p q] eqn:Q; [split; [apply same_refl|co]|]. cbv zeta.
  destruct (_ && _).
  - destruct (calm_rts c e p (set_state MWaitTx (MacModel.set_data (Some p) (set_borem 0 (set_bostart 0 s))))) as [A B].
    split; [|exact B]. eapply same_trans; [|exact A]. same1.
  - destruct (calm_data c e p (set_state MWaitTx (MacModel.set_data (Some p) (set_borem 0 (set_bostart 0 s))))) as [A B].
    split; [|exact B]. eapply same_trans; [|exact A]. same1.
Qed.
Lemma calm_rrts c e f : calm (receive_rts c e f).
Proof.
  unfold receive_rts. destruct (negb _).
  - repeat apply calm_seq; auto using calm_nav, calm_cca. apply calm_ret. intros. same1.
  - intros s. destruct (_ >? _); [apply calm_cca|].
    match goal with |- context [mseq ?f ?k _] => assert (H : calm (mseq f k)) end; [|apply H].
    apply calm_seq; [apply calm_lnav|]. apply calm_ret. intros. same1.
Qed.
Lemma calm_rcts c e f : calm (receive_cts c e f).
Proof.
  unfold receive_cts. destruct (negb _).
  - repeat apply calm_seq; auto using calm_nav, calm_cca. apply calm_ret. intros. same1.
  - apply calm_seq; [apply calm_ret; intros; same1|]. apply calm_seq; [apply calm_lnav|].
    intros s. destruct (find _ _) as [[q u]|]; [|split; [apply same_refl|co]]. cbv zeta.
    destruct (m_data s); split; try co; same1.
Qed.
Lemma calm_rack c e f : calm (receive_ack c e f).
Proof.
  intros s. unfold receive_ack. cbv zeta. destruct (if mf_dst f =? mc_addr c then _ else _) as [[q u]|].
  - split; [same1|co].
  - destruct (calm_cca c e (set_state MIdle s)) as [A B]. split; [|exact B]. eapply same_trans; [|exact A]. same1.
Qed.
Lemma calm_rxstart c e : calm (rx_start c e).
Proof. apply calm_seq; [apply calm_busy|]. apply calm_ret. intros s. destruct (is_state _ _); [apply same_refl|same1]. Qed.
Lemma calm_results : calm results.
Proof. intros s. unfold results. split; [apply same_refl|]. destruct (m_res s); co. Qed.
Lemma calm_silent a : calm a -> calm (when_silent a).
Proof. intros A s. unfold when_silent. destruct (m_air s); [split; [apply same_refl|co]|apply A]. Qed.

(** Nothing but the following changes what [same] protects. *)
Inductive kind_of_step (c : mcfg) (e : menv) (s : mst) (ev : mevent) : Prop :=
| KSenq size dst junk : ev = EEnq size dst junk -> kind_of_step c e s ev
| KSup f : ev = ERxEnd f true -> m_air s = None -> mf_type f = T_DATA -> (mf_dst f = mc_addr c \/ mf_dst f = bcast) ->
    m_rec (fst (mstep c e s ev)) = m_rec s -> m_queue (fst (mstep c e s ev)) = m_queue s ->
    m_sent (fst (mstep c e s ev)) = m_sent s -> m_disc (fst (mstep c e s ev)) = m_disc s ->
    m_seq (fst (mstep c e s ev)) = m_seq s -> m_mode (fst (mstep c e s ev)) = m_mode s -> m_rot (fst (mstep c e s ev)) = m_rot s ->
    m_now (fst (mstep c e s ev)) = m_now s -> m_ids s <= m_ids (fst (mstep c e s ev)) -> m_uid s <= m_uid (fst (mstep c e s ev)) ->
    m_filter (fst (mstep c e s ev)) = snd (is_new (m_filter s) (mf_src f) (mf_seq f)) ->
    acc_of (snd (mstep c e s ev)) = [] -> (forall b, rep_of b (snd (mstep c e s ev)) = []) ->
    (forall q, tmo_of q (snd (mstep c e s ev)) = 0%nat) ->
    up_of (snd (mstep c e s ev)) = (if fst (is_new (m_filter s) (mf_src f) (mf_seq f)) then [f] else []) -> kind_of_step c e s ev
| KSdone s0 ok sq g : same s s0 -> mstep c e s ev = (send_data_done ok sq ;; g) s0 -> calm g ->
    ((exists i t, ev = ETimer i /\ nth_error (m_timers s) i = Some t /\ mt_kind t = MKDone ok sq /\
        s0 = set_timers (remove_nth i (m_timers s)) s /\ g = mskip) \/
     (exists f, ev = ETxDone /\ m_air s = Some f /\ m_tx s = Some (mf_id f) /\ mf_type f = T_DATA /\ mf_dst f = bcast /\ mf_seq f = sq /\ ok = true /\
        m_state s = MTx /\ s0 = set_state MIdle (set_air None s) /\ g = cca c e)) -> kind_of_step c e s ev
| KStmo i t s0 sq : ev = ETimer i -> nth_error (m_timers s) i = Some t -> mt_kind t = MKCts sq \/ mt_kind t = MKAck sq ->
    same s s0 -> m_timers s0 = remove_nth i (m_timers s) -> mstep c e s ev = timeout e sq s0 -> kind_of_step c e s ev
| KSrot i t : ev = ETimer i -> nth_error (m_timers s) i = Some t -> mt_kind t = MKRot ->
    mstep c e s ev = rotate c (set_timers (remove_nth i (m_timers s)) s) -> kind_of_step c e s ev
| KStick t : ev = ETick t -> kind_of_step c e s ev
| KScalm : same s (fst (mstep c e s ev)) -> calm_out (snd (mstep c e s ev)) -> kind_of_step c e s ev.

Lemma seq_skip a s : (a ;; mskip) s = a s.
Proof. rewrite mseq_eq. cbn. rewrite app_nil_r. destruct (a s). reflexivity. Qed.

Lemma calm_at a s0 s : calm a -> same s s0 -> same s (fst (a s0)) /\ calm_out (snd (a s0)).
Proof. intros A B. destruct (A s0) as [X Y]. split; [|exact Y]. eapply same_trans; eauto. Qed.

(** ReceiveData for this node or broadcast: what happens around the filter is calm. *)
Lemma up_at (a b : mact) f s0 s : calm a -> calm b -> same s s0 ->
  let r := (a ;; forward_new f ;; b) s0 in
  m_rec (fst r) = m_rec s /\ m_queue (fst r) = m_queue s /\
  m_sent (fst r) = m_sent s /\ m_disc (fst r) = m_disc s /\
  m_seq (fst r) = m_seq s /\ m_mode (fst r) = m_mode s /\ m_rot (fst r) = m_rot s /\
  m_now (fst r) = m_now s /\ m_ids s <= m_ids (fst r) /\ m_uid s <= m_uid (fst r) /\
  m_filter (fst r) = snd (is_new (m_filter s) (mf_src f) (mf_seq f)) /\
  acc_of (snd r) = [] /\ (forall b, rep_of b (snd r) = []) /\
  (forall q, tmo_of q (snd r) = 0%nat) /\
  up_of (snd r) = (if fst (is_new (m_filter s) (mf_src f) (mf_seq f)) then [f] else []).
Proof.
  intros A B S. cbv zeta. rewrite mseq_eq. cbn [fst snd]. destruct (calm_at a s0 s A S) as [S1 O1].
  set (s1 := fst (a s0)) in *. rewrite mseq_eq. cbn [fst snd].
  assert (F : m_filter s1 = m_filter s) by apply S1.
  unfold forward_new at 1 2 3 4 5 6 7 8 9 10 11 12 13 14 15. rewrite F.
  destruct (is_new (m_filter s) (mf_src f) (mf_seq f)) as [n l] eqn:E. cbn [fst snd].
  destruct (B (set_filter l s1)) as [S2 O2]. unfold forward_new. rewrite F, E. cbn [fst snd].
  unfold same in S1, S2. revert S2. ss. intros S2.
  destruct O1 as [P1 [P2 [P3 P4]]], O2 as [Q1 [Q2 [Q3 Q4]]].
  rewrite !acc_app, !up_app, P1, P2, Q1, Q2. repeat match goal with |- _ /\ _ => split end; intros; try rewrite !rep_app; try rewrite !tmo_app; 
    rewrite ?P3, ?Q3, ?P4, ?Q4; try (intuition congruence); try (intuition lia); destruct n; auto.
Qed.

Lemma classify c e s ev : kind_of_step c e s ev.
Proof.
  destruct ev as [size dst junk| | |f ok|i|t].
  - eapply KSenq; eauto.
  - cbn [mstep]. unfold tx_done. destruct (m_air s) as [f|] eqn:A.
    2: { apply KScalm; cbn [mstep]; unfold tx_done; rewrite A; [apply same_refl|apply calm_nil]. }
    destruct (is_state MTx s && match m_tx s with Some i => i =? mf_id f | None => false end) eqn:T.
    2: { apply KScalm; cbn [mstep]; unfold tx_done; rewrite A, T; [cbn; same1|apply calm_nil]. }
    destruct ((mf_type f =? T_RTS) || (mf_type f =? T_CTS)) eqn:RC.
    { apply KScalm; cbn [mstep]; unfold tx_done; rewrite A, T, RC; [cbn; same1|apply calm_nil]. }
    destruct (mf_type f =? T_DATA) eqn:D.
    2: { assert (X := calm_at (cca c e) (set_state MIdle (set_air None s)) s (calm_cca c e) ltac:(same1)).
         apply KScalm; cbn [mstep]; unfold tx_done; rewrite A, T, RC, D; apply X. }
    destruct (mf_dst f =? bcast) eqn:B.
    2: { apply KScalm; cbn [mstep]; unfold tx_done; rewrite A, T, RC, D, B; [cbn; same1|apply calm_nil]. }
    eapply (KSdone _ _ _ _ (set_state MIdle (set_air None s)) true (mf_seq f) (cca c e)); [same1| |apply calm_cca|].
    + cbn [mstep]. unfold tx_done. rewrite A, T, RC, D, B. reflexivity.
    + right. exists f. apply Z.eqb_eq in D, B. apply andb_true_iff in T. destruct T as [T1 T2].
      destruct (m_tx s) as [x|]; [|discriminate]. apply Z.eqb_eq in T2. subst x.
      unfold is_state in T1. destruct (m_state s); try discriminate. repeat split; auto.
  - apply KScalm; cbn [mstep]; apply calm_silent, calm_rxstart.
  - destruct (m_air s) as [g|] eqn:A.
    { apply KScalm; cbn [mstep]; unfold when_silent; rewrite A; [apply same_refl|apply calm_nil]. }
    assert (E : mstep c e s (ERxEnd f ok) = rx_end c e f ok s) by (cbn [mstep]; unfold when_silent; rewrite A; reflexivity).
    assert (L : calm (mlift (set_state MIdle))) by (apply calm_ret; intros; same1).
    unfold rx_end in E. destruct ok; cbn [negb] in E.
    2: { apply KScalm; rewrite E; apply (calm_seq _ _ L calm_skip). }
    destruct (mf_type f =? T_RTS). { apply KScalm; rewrite E; apply (calm_seq _ _ L (calm_rrts c e f)). }
    destruct (mf_type f =? T_CTS). { apply KScalm; rewrite E; apply (calm_seq _ _ L (calm_rcts c e f)). }
    destruct (Z.eqb_spec (mf_type f) T_DATA) as [TD|].
    2: { destruct (mf_type f =? T_ACK); apply KScalm; rewrite E; [apply (calm_seq _ _ L (calm_rack c e f))..|apply (calm_seq _ _ L (calm_cca c e))|apply (calm_seq _ _ L (calm_cca c e))]. }
    unfold receive_data in E. destruct (Z.eqb_spec (mf_dst f) bcast) as [B|B].
    + pose proof (up_at _ (cca c e) f s s (calm_seq _ _ L L) (calm_cca c e) (same_refl s)) as U. cbv zeta in U.
      assert (H : ((mlift (set_state MIdle) ;; mlift (set_state MIdle)) ;; forward_new f ;; cca c e) s = mstep c e s (ERxEnd f true)).
      { rewrite E. rewrite !mseq_eq. cbn [fst snd]. rewrite <- !app_assoc. reflexivity. }
      rewrite H in U. clear H.
      destruct U as [? [? [? [? [? [? [? [? [? [? [? [? [? [? ?]]]]]]]]]]]]]].
      eapply (KSup _ _ _ _ f); auto.
    + destruct (Z.eqb_spec (mf_dst f) (mc_addr c)) as [D|D]; cbn [negb] in E.
      * set (k := mlift (fun s => msched (mc_sifs c) (MKSendAck (mf_src f) (mf_seq f)) (set_state MWaitTx s))) in E.
        assert (CA : calm (mlift (set_state MIdle) ;; update_lnav c (mf_dur f * nsec) ;; k)).
        { apply calm_seq; auto. apply calm_seq; [apply calm_lnav|]. apply calm_ret. intros. same1. }
        pose proof (up_at _ mskip f s s CA calm_skip (same_refl s)) as U. cbv zeta in U.
        assert (H : ((mlift (set_state MIdle) ;; update_lnav c (mf_dur f * nsec) ;; k) ;; forward_new f ;; mskip) s = mstep c e s (ERxEnd f true)).
        { rewrite E. rewrite !mseq_eq. unfold mskip. cbn [fst snd]. rewrite !app_nil_r, <- !app_assoc. reflexivity. }
        rewrite H in U. clear H.
        destruct U as [? [? [? [? [? [? [? [? [? [? [? [? [? [? ?]]]]]]]]]]]]]].
        eapply (KSup _ _ _ _ f); auto.
      * apply KScalm; rewrite E; [|]; apply calm_seq; auto; apply calm_seq; auto using calm_nav; apply calm_seq; auto using calm_cca.
  - cbn [mstep]. destruct (nth_error (m_timers s) i) as [t|] eqn:T.
    2: { apply KScalm; cbn [mstep]; rewrite T; [apply same_refl|apply calm_nil]. }
    set (s0 := set_timers (remove_nth i (m_timers s)) s).
    assert (S0 : same s s0) by (unfold s0; same1).
    assert (E : mstep c e s (ETimer i) = mfire c e (mt_kind t) s0) by (cbn [mstep]; rewrite T; reflexivity).
    assert (C : calm (mfire c e (mt_kind t)) -> kind_of_step c e s (ETimer i)).
    { intros C. apply KScalm; rewrite E; apply (calm_at _ _ _ C S0). }
    destruct (mt_kind t) eqn:K; cbn [mfire] in C, E; auto using calm_cca, calm_bostart, calm_granted, calm_scts, calm_sack, calm_data, calm_results.
    + eapply (KStmo _ _ _ _ i t (set_cts (erase1 (fun x => fst x =? sq) (m_cts s0)) s0) sq); auto.
      rewrite E. unfold cts_timeout. rewrite mseq_eq. cbn [mlift fst snd app]. destruct (timeout _ _ _). reflexivity.
    + eapply (KStmo _ _ _ _ i t (set_ack (erase1 (fun x => fst x =? sq) (m_ack s0)) s0) sq); auto.
      rewrite E. unfold ack_timeout. rewrite mseq_eq. cbn [mlift fst snd app]. destruct (timeout _ _ _). reflexivity.
    + eapply (KSdone _ _ _ _ s0 ok sq mskip); auto using calm_skip.
      * rewrite E. rewrite seq_skip. reflexivity.
      * left. exists i, t. auto.
    + eapply (KSrot _ _ _ _ i t); auto.
  - eapply KStick; eauto.
Qed.

