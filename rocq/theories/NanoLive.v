(** Progress of one nano MAC with a single destination (C21). *)
From Coq Require Import ZArith List Lia Bool Sorting.Sorted.
From Verif Require Import Base HeaderModel SeqModel EnergyModel NanoModel NanoProofs NanoSpec NanoOut
  NanoRetry NanoOrder NanoTrace NanoLate NanoSend NanoBudget.
Import ListNotations.
Open Scope Z_scope.

(** ** Event ids recorded in the timeout lists *)

Record U0 (tm : list timer) (uid : Z) (ct : list (Z * Z)) (ak : list (Z * Z * frame)) (da : list (Z * Z)) : Prop := {
  u_lt : forall t, In t tm -> tm_id t < uid;
  u_cts : forall n u, In (n, u) ct -> u < uid /\
            forall t, In t tm -> tm_id t = u -> exists q, tm_kind t = KCts q /\ f_seq q = n;
  u_ack : forall n u p, In (n, u, p) ak -> u < uid /\
            forall t, In t tm -> tm_id t = u -> tm_kind t = KAck n;
  u_data : forall n u, In (n, u) da -> u < uid /\
            forall t, In t tm -> tm_id t = u -> tm_kind t = KData n
}.
Definition U (s : state) : Prop := U0 (s_timers s) (s_uid s) (s_cts s) (s_ack s) (s_data s).
Definition ukeeps (a : act) : Prop := forall s, U s -> U (fst (a s)).

Lemma U0_sub tm uid ct ak da tm' ct' ak' da' : U0 tm uid ct ak da ->
  (forall t, In t tm' -> In t tm) -> (forall x, In x ct' -> In x ct) ->
  (forall x, In x ak' -> In x ak) -> (forall x, In x da' -> In x da) -> U0 tm' uid ct' ak' da'.
Proof.
  intros [] A B C D. constructor; auto.
  - intros n u I. destruct (u_cts0 n u (B _ I)). auto.
  - intros n u p I. destruct (u_ack0 n u p (C _ I)). auto.
  - intros n u I. destruct (u_data0 n u (D _ I)). auto.
Qed.

Lemma U0_schedule tm uid ct ak da due k : U0 tm uid ct ak da ->
  U0 (tm ++ [Timer uid due k]) (uid + 1) ct ak da.
Proof.
  intros [].
  assert (X : forall t, In t (tm ++ [Timer uid due k]) -> In t tm \/ t = Timer uid due k).
  { intros t T. apply in_app_or in T. destruct T as [|[<-|[]]]; auto. }
  constructor.
  - intros t T. destruct (X t T) as [I| ->]; cbn; [specialize (u_lt0 t I)|]; lia.
  - intros n u I. destruct (u_cts0 n u I). split; [lia|]. intros t T E. destruct (X t T) as [J| ->]; auto. cbn in E. lia.
  - intros n u p I. destruct (u_ack0 n u p I). split; [lia|]. intros t T E. destruct (X t T) as [J| ->]; auto. cbn in E. lia.
  - intros n u I. destruct (u_data0 n u I). split; [lia|]. intros t T E. destruct (X t T) as [J| ->]; auto. cbn in E. lia.
Qed.

Lemma U_schedule d k s : U s -> U (schedule d k s).
Proof. intros H. apply (U0_schedule _ _ _ _ _ (s_now s + d) k H). Qed.

Lemma new_only tm uid ct ak da due k t : U0 tm uid ct ak da -> In t (tm ++ [Timer uid due k]) ->
  tm_id t = uid -> tm_kind t = k.
Proof.
  intros [] I E. apply in_app_or in I. destruct I as [I|[<-|[]]]; auto. specialize (u_lt0 t I). lia.
Qed.

Lemma ukeeps_seq a b : ukeeps a -> ukeeps b -> ukeeps (a ;; b).
Proof. intros A B s H. rewrite seqa_eq. cbn [fst]. auto. Qed.
Lemma ukeeps_skip : ukeeps skip.
Proof. intros s H. exact H. Qed.
Lemma ukeeps_emit o : ukeeps (emit o).
Proof. intros s H. exact H. Qed.
Lemma ukeeps_booking c tx rx k : (forall b, ukeeps (k b)) -> ukeeps (booking c tx rx k).
Proof. intros H s I. rewrite booking_eq. cbv zeta. cbn [fst]. apply H. exact I. Qed.
Lemma ukeeps_refund c tx rx : ukeeps (refund c tx rx).
Proof. intros s H. exact H. Qed.

Lemma ukeeps_send_rts c p : ukeeps (send_rts c p).
Proof.
  intros s H. unfold send_rts. cbn [fst].
  set (d := c_dur c (hdr_size T_RTS) + c_dur c (hdr_size T_CTS) + margin).
  pose proof (U_schedule d (KCts p) s H) as H1. destruct H1.
  constructor; auto. intros n u I. cbn in I. apply in_app_or in I. destruct I as [I|[I|[]]]; auto.
  injection I as <- <-. split; [cbn; lia|]. intros t T E.
  pose proof (new_only _ _ _ _ _ _ _ _ H T E) as ->. eauto.
Qed.
Lemma ukeeps_send_data c p : ukeeps (send_data c p).
Proof.
  intros s H. unfold send_data. destruct (_ =? _); [exact H|]. cbn [fst].
  set (d := c_dur c (f_size p) + c_dur c (hdr_size T_ACK) + margin).
  pose proof (U_schedule d (KAck (f_seq p)) s H) as H1. destruct H1.
  constructor; auto. intros n u q I. cbn in I. apply in_app_or in I. destruct I as [I|[I|[]]]; [apply (u_ack0 _ _ _ I)|].
  injection I as <- <- <-. split; [cbn; lia|]. intros t T E.
  exact (new_only _ _ _ _ _ _ _ _ H T E).
Qed.
Lemma ukeeps_check c p : ukeeps (check_resources c p).
Proof.
  unfold check_resources. destruct (_ && _); apply ukeeps_booking; intros [];
    auto using ukeeps_skip, ukeeps_send_rts, ukeeps_send_data.
Qed.
Lemma ukeeps_tx_first c : ukeeps (tx_first c).
Proof. intros s H. unfold tx_first. destruct (s_queue s); [exact H|apply ukeeps_check, H]. Qed.
Lemma ukeeps_done ok p : ukeeps (send_data_done ok p).
Proof.
  intros s H. unfold send_data_done. cbn [fst].
  assert (X : U (match find (fun t => (f_seq (t_pkt t) >? f_seq p) && (f_dst (t_pkt t) =? f_dst p)) (s_tx s) with
            | Some t => schedule 0 (KCheck (t_pkt t)) s | None => s end)).
  { destruct (find _ _); auto. apply U_schedule, H. }
  destruct ok; exact X.
Qed.
Lemma ukeeps_retry c n arg draw : ukeeps (retry_or_discard c n arg draw).
Proof.
  intros s H. unfold retry_or_discard. destruct (bump _ _) as [[t l]|]; [|exact H].
  destruct (_ <=? _); [apply ukeeps_done, H|]. unfold backoff. destruct (_ <? _); [|exact H].
  cbn [fst]. apply U_schedule, H.
Qed.
Lemma ukeeps_cancel u s : U s -> U (cancel u s).
Proof. intros H. eapply U0_sub; [exact H| | | |]; auto. intros t T. apply in_cancel in T. exact T. Qed.

Lemma U_step c s e : U s -> U (fst (step c s e)).
Proof.
  intros H. destruct e; cbn [step].
  - destruct (enqueue_cases c size dst s) as [[_ E]|[[_ [_ E]]|[_ [_ E]]]]; rewrite E; try exact H.
    destruct (behind _ _ _); [exact H|]. cbn [fst]. apply ukeeps_tx_first. exact H.
  - unfold receive. destruct (negb ok); [exact H|].
    destruct (_ =? _).
    { unfold receive_rts. apply ukeeps_booking; [|exact H]. intros _. destruct (_ =? _); [|apply ukeeps_skip].
      apply ukeeps_booking. intros []; [|apply ukeeps_skip]. apply ukeeps_seq; [|apply ukeeps_emit].
      intros s0 H0. cbn [fst]. pose proof (U_schedule (c_dur c (hdr_size T_CTS) + margin) (KData (f_seq f)) s0 H0) as [].
      constructor; auto. intros n u I. cbn in I. apply in_app_or in I. destruct I as [I|[I|[]]]; auto.
      injection I as <- <-. split; [cbn; lia|]. intros t T E. exact (new_only _ _ _ _ _ _ _ _ H0 T E). }
    destruct (_ =? _).
    { unfold receive_cts. destruct (_ =? _); [|exact H].
      refine (ukeeps_seq _ _ _ _ s H).
      - intros s0 H0. destruct (find _ _) as [[? ?]|]; [|exact H0]. cbn [fst]. apply ukeeps_cancel.
        eapply U0_sub; [exact H0| | | |]; auto. cbn. intros x X. eapply in_erase_first, X.
      - intros s0 H0. destruct (find _ _); [|exact H0]. apply ukeeps_send_data, H0. }
    destruct (_ =? _).
    { assert (FW : ukeeps (forward_new f)) by (intros s0 H0; unfold forward_new; destruct (is_new _ _ _); exact H0).
      unfold receive_data. destruct (_ =? _); [apply FW, H|]. destruct (negb _); [exact H|].
      set (rest := _ ;; _). assert (ukeeps rest) as R.
      { apply ukeeps_seq; [|apply ukeeps_seq; [apply ukeeps_emit|exact FW]].
        intros s0 H0. destruct (find _ _) as [[? ?]|]; [|exact H0]. cbn [fst]. apply ukeeps_cancel.
        eapply U0_sub; [exact H0| | | |]; auto. cbn. intros x X. eapply in_erase_first, X. }
      destruct (c_rts c); [apply R, H|]. apply ukeeps_booking; [|exact H]. intros []; auto using ukeeps_skip. }
    destruct (_ =? _); [|exact H].
    unfold receive_ack. destruct (_ =? _); [|exact H]. destruct (find _ _) as [[[? ?] ?]|]; [|exact H].
    apply ukeeps_seq; [apply ukeeps_done| |apply ukeeps_cancel, H].
    intros s0 H0. cbn. eapply U0_sub; [exact H0| | | |]; auto. cbn. intros x X. eapply in_erase_first, X.
  - destruct (nth_error _ _) as [t|]; [|exact H].
    assert (U (set_timers (remove_nth i (s_timers s)) s)) as H1.
    { eapply U0_sub; [exact H| | | |]; auto. cbn. intros x X. eapply in_remove_nth, X. }
    destruct (tm_kind t); cbn [fire].
    + apply ukeeps_check, H1.
    + unfold cts_timeout. apply ukeeps_seq; [apply ukeeps_emit| |exact H1].
      apply ukeeps_seq; [apply ukeeps_refund|]. apply ukeeps_seq; [|apply ukeeps_retry].
      intros s0 H0. cbn. eapply U0_sub; [exact H0| | | |]; auto. cbn. intros x X. eapply in_erase_first, X.
    + unfold ack_timeout. apply ukeeps_seq; [apply ukeeps_emit| |exact H1].
      apply ukeeps_seq; [apply ukeeps_refund|]. apply ukeeps_seq; [|apply ukeeps_retry].
      intros s0 H0. cbn. eapply U0_sub; [exact H0| | | |]; auto. cbn. intros x X. eapply in_erase_first, X.
    + unfold data_timeout. apply ukeeps_seq; [apply ukeeps_refund| |exact H1].
      intros s0 H0. cbn. eapply U0_sub; [exact H0| | | |]; auto. cbn. intros x X. eapply in_erase_first, X.
  - exact H.
  - apply ukeeps_tx_first, H.
  - exact H.
Qed.

Lemma U_init e0 : U (init e0).
Proof. constructor; cbn; intros; contradiction. Qed.

(** ** A pending event serves the first packet of the queue *)

Definition serves (p : frame) (k : tkind) : Prop := k = KCheck p \/ k = KCts p \/ k = KAck (f_seq p).
Definition L (s : state) : Prop :=
  match s_queue s with [] => True | p :: _ => exists t, In t (s_timers s) /\ serves p (tm_kind t) end.

Definition grows (s s' : state) : Prop :=
  s_queue s' = s_queue s /\ forall t, In t (s_timers s) -> In t (s_timers s').

Lemma L_grows s s' : grows s s' -> L s -> L s'.
Proof.
  intros [Q T] H. unfold L in *. rewrite Q. destruct (s_queue s); auto.
  destruct H as [t [I S]]. eauto.
Qed.

Lemma grows_refl s : grows s s. Proof. split; auto. Qed.
Lemma grows_trans a b d : grows a b -> grows b d -> grows a d.
Proof. intros [A B] [C D]. split; [congruence|auto]. Qed.
Lemma grows_schedule d k s : grows s (schedule d k s).
Proof. split; auto. intros t T. cbn. apply in_or_app; auto. Qed.
Lemma grows_energy r s : grows s (set_energy r s).
Proof. split; auto. Qed.

Lemma grows_send_data c p s : grows s (fst (send_data c p s)).
Proof.
  unfold send_data. destruct (_ =? _); [apply grows_refl|].
  apply (grows_schedule (c_dur c (f_size p) + c_dur c (hdr_size T_ACK) + margin) (KAck (f_seq p)) s).
Qed.

Lemma grows_check c p s : grows s (fst (check_resources c p s)).
Proof.
  unfold check_resources. destruct (_ && _); rewrite booking_eq; cbv zeta; cbn [fst];
    set (s1 := set_energy _ s); apply (grows_trans s s1); try apply grows_energy;
    destruct (fst (book _ _ _ _)); try apply grows_refl; [|apply grows_send_data].
  apply (grows_schedule (c_dur c (hdr_size T_RTS) + c_dur c (hdr_size T_CTS) + margin) (KCts p) s1).
Qed.

Lemma grows_tx_first c s : grows s (fst (tx_first c s)).
Proof. unfold tx_first. destruct (s_queue s) eqn:E; [apply grows_refl|apply grows_check]. Qed.

Lemma send_data_serves c p s : f_dst p <> bcast ->
  exists t, In t (s_timers (fst (send_data c p s))) /\ serves p (tm_kind t).
Proof.
  intros D. unfold send_data. rewrite (proj2 (Z.eqb_neq _ _) D). cbn [fst].
  eexists. split; [cbn; apply in_or_app; right; left; reflexivity|]. right. right. reflexivity.
Qed.

Lemma check_serves c p s : f_dst p <> bcast -> rich (snd (check_resources c p s)) ->
  exists t, In t (s_timers (fst (check_resources c p s))) /\ serves p (tm_kind t).
Proof.
  intros D R. unfold check_resources in *. destruct (_ && _); rewrite booking_eq in *; cbv zeta in *; cbn [fst snd] in *;
    destruct (fst (book _ _ _ _)); try (exfalso; eapply R; left; reflexivity).
  - unfold send_rts. cbn [fst]. eexists. split; [cbn; apply in_or_app; right; left; reflexivity|]. right. left. reflexivity.
  - apply send_data_serves; auto.
Qed.

(** All accepted packets have destination [d]. *)
Definition only (d : addr) (tr : list out) : Prop := forall p, acc p tr -> f_dst p = d.

Lemma find_mono {A} (q q' : A -> bool) l : (forall x, In x l -> q x = q' x) -> find q l = find q' l.
Proof.
  induction l as [|x l IH]; intros H; cbn; auto. rewrite (H x) by (left; auto).
  destruct (q' x); auto. apply IH. intros; apply H; right; auto.
Qed.

Lemma done_head c s tr ok p d : K c s tr -> only d tr -> acc p tr -> ord p (s_tx s) ->
  let s' := fst (send_data_done ok p s) in
  (forall t, In t (s_timers s) -> In t (s_timers s')) /\
  (s_queue s' = s_queue s \/
   exists r, s_queue s = p :: r /\ s_queue s' = r /\ L s').
Proof.
  intros H O A OR s'. pose proof (proj1 H) as HW.
  set (s1 := match find (fun t => (f_seq (t_pkt t) >? f_seq p) && (f_dst (t_pkt t) =? f_dst p)) (s_tx s) with
            | Some t => schedule 0 (KCheck (t_pkt t)) s | None => s end).
  assert (TM : s_timers s' = s_timers s1) by (unfold s', send_data_done; destruct ok; reflexivity).
  assert (SQ : s_queue s' = map t_pkt (filter (fun t => negb (f_seq (t_pkt t) =? f_seq p)) (s_tx s))).
  { rewrite <- (queue_miss (s_tx s) (f_seq p)) by apply (w_sorted _ _ _ _ _ _ _ _ _ _ HW).
    rewrite <- (w_queue _ _ _ _ _ _ _ _ _ _ HW). unfold s', send_data_done; destruct ok; reflexivity. }
  split.
  { rewrite TM. unfold s1. destruct (find _ _); auto. intros x X. cbn. apply in_or_app; auto. }
  destruct (s_tx s) as [|t0 r] eqn:TX.
  { left. rewrite SQ, (w_queue _ _ _ _ _ _ _ _ _ _ HW), TX. reflexivity. }
  assert (AT : forall t, In t (t0 :: r) -> acc (t_pkt t) tr).
  { intros t T. apply (w_tx _ _ _ _ _ _ _ _ _ _ HW). rewrite TX. auto. }
  assert (EQ : forall t, In t (t0 :: r) -> f_seq (t_pkt t) = f_seq p -> t_pkt t = p).
  { intros t T E. apply (seq_inj c s tr); auto. }
  pose proof (w_sorted _ _ _ _ _ _ _ _ _ _ HW) as SO. rewrite TX in SO. cbn in SO. inversion SO as [|? ? SO1 SO2]; subst.
  rewrite Forall_forall in SO2.
  assert (SO3 : forall t, In t r -> f_body (t_pkt t0) < f_body (t_pkt t)).
  { intros t T. apply SO2. apply (in_map (fun t => f_body (t_pkt t))). auto. }
  assert (MISS : forall t, In t r -> (f_seq (t_pkt t) =? f_seq p) = false).
  { intros t T. apply Z.eqb_neq. intros E. assert (t_pkt t = p) as <- by (apply EQ; [right|]; auto).
    specialize (OR t0 (or_introl eq_refl)). specialize (SO3 t T).
    rewrite (O (t_pkt t0)), (O (t_pkt t)) in OR; [lia| |]; apply AT; [right; auto|left; auto]. }
  assert (FR : filter (fun t => negb (f_seq (t_pkt t) =? f_seq p)) r = r).
  { apply filter_all. intros t T. rewrite (MISS t T). reflexivity. }
  cbn [filter] in SQ. rewrite FR in SQ.
  destruct (Z.eqb_spec (f_seq (t_pkt t0)) (f_seq p)) as [E|E]; cbn [negb] in SQ.
  - right. assert (t_pkt t0 = p) as P0 by (apply EQ; [left|]; auto).
    exists (map t_pkt r). rewrite (w_queue _ _ _ _ _ _ _ _ _ _ HW), TX. cbn [map].
    split; [rewrite P0; auto|]. split; auto. unfold L. rewrite SQ, TM.
    destruct r as [|t1 r]; cbn [map]; auto.
    unfold s1. rewrite <- TX. rewrite TX.
    assert (find (fun t => (f_seq (t_pkt t) >? f_seq p) && (f_dst (t_pkt t) =? f_dst p)) (t0 :: t1 :: r) = Some t1) as F.
    { cbn [find]. rewrite E. replace (f_seq p >? f_seq p) with false by (symmetry; rewrite Z.gtb_ltb; apply Z.ltb_irrefl).
      cbn [andb]. rewrite (O (t_pkt t1)), (O p), Z.eqb_refl by (auto; apply AT; right; left; auto).
      rewrite (bounded_seq c s tr (t_pkt t1) H), (bounded_seq c s tr p H), <- P0 by (auto; apply AT; right; left; auto).
      specialize (SO3 t1 (or_introl eq_refl)). rewrite andb_true_r.
      replace (f_body (t_pkt t1) + 1 >? f_body (t_pkt t0) + 1) with true by (symmetry; apply Z.gtb_lt; lia). reflexivity. }
    rewrite F. eexists. split; [cbn; apply in_or_app; right; left; reflexivity|]. left. reflexivity.
  - left. rewrite SQ, (w_queue _ _ _ _ _ _ _ _ _ _ HW), TX. reflexivity.
Qed.

Lemma retry_serves c s tr n arg draw d p0 : K c s tr -> only d tr -> c_retry c <= 32 ->
  acc p0 tr -> f_seq p0 = n -> ord p0 (s_tx s) -> match arg with Some q => q = p0 | None => True end ->
  let s' := fst (retry_or_discard c n arg draw s) in
  (forall t, In t (s_timers s) -> In t (s_timers s')) /\
  (s_queue s' = s_queue s /\ (forall p r, s_queue s = p :: r -> f_seq p = n ->
      exists t, In t (s_timers s') /\ serves p (tm_kind t)) \/
   (s_queue s' <> s_queue s /\ L s')).
Proof.
  intros H O RL A E OR AE s'. pose proof (proj1 H) as HW.
  assert (HD : forall p r, s_queue s = p :: r -> f_seq p = n -> exists t l, s_tx s = t :: l /\ t_pkt t = p /\ p = p0).
  { intros p r Q F. rewrite (w_queue _ _ _ _ _ _ _ _ _ _ HW) in Q. destruct (s_tx s) as [|t l] eqn:TX; [discriminate|].
    injection Q as Q1 Q2. exists t, l. split; auto. split; auto. apply (seq_inj c s tr); auto; [|congruence].
    rewrite <- Q1. apply (w_tx _ _ _ _ _ _ _ _ _ _ HW). rewrite TX. left; auto. }
  unfold s', retry_or_discard. destruct (bump n (s_tx s)) as [[t l]|] eqn:B.
  2: { cbn [fst]. split; auto. left. split; auto. intros p r Q F.
       destruct (HD p r Q F) as [t [l [TX [TP _]]]]. exfalso.
       apply (bump_none _ _ B t); [rewrite TX; left; auto|congruence]. }
  destruct (W_bump _ _ _ _ _ _ HW B) as [H1 [A1 E1]].
  assert (t_pkt t = p0) as TP by (apply (seq_inj c s tr); auto; congruence).
  pose proof (bump_map _ _ _ _ B) as M.
  assert (H2 : K c (set_tx l s) tr).
  { destruct H as [_ [HB HK]]. split; [exact H1|split; [exact HB|]].
    eapply K0_shrink; [exact HK|]. intros x X. rewrite <- M. apply in_map. auto. }
  destruct (Z.leb_spec (c_retry c) (t_retry t)) as [LE|LT].
  - assert ((match arg with Some q => q | None => t_pkt t end) = p0) as -> by (destruct arg; auto).
    assert (O' : ord p0 (s_tx (set_tx l s))).
    { intros x X. cbn in X. apply (in_map t_pkt) in X. rewrite M in X. apply in_map_iff in X.
      destruct X as [y [<- Y]]. auto. }
    destruct (done_head c (set_tx l s) tr false p0 d H2 O A O') as [T1 T2]. split; [exact T1|].
    destruct T2 as [Q|[r [Q1 [Q2 Q3]]]].
    + exfalso. pose proof (bump_spec _ _ _ _ B) as [t' [a [b [X1 [X2 [X3 [_ [X4 X5]]]]]]]].
      assert (In p0 (s_queue (fst (send_data_done false p0 (set_tx l s))))) as I.
      { rewrite Q. cbn. rewrite (w_queue _ _ _ _ _ _ _ _ _ _ HW), X1, map_app. apply in_or_app. right. left. congruence. }
      pose proof (W_done c false p0 (set_tx l s) tr H1) as H3.
      rewrite (w_queue _ _ _ _ _ _ _ _ _ _ H3), done_tx in I. apply in_map_iff in I. destruct I as [y [Y1 Y2]].
      apply filter_In in Y2. destruct Y2 as [_ Y2]. rewrite Y1, Z.eqb_refl in Y2. discriminate.
    + right. split; auto. rewrite Q2. cbn in Q1. rewrite Q1. intros X. symmetry in X.
      assert (length (p0 :: r) = length r) as Y by congruence. cbn in Y. lia.
  - unfold backoff. replace (t_retry t <? 32) with true by (symmetry; apply Z.ltb_lt; lia). cbn [fst].
    split; [intros x X; cbn; apply in_or_app; auto|]. left. split; auto. intros p r Q F.
    destruct (HD p r Q F) as [t1 [l1 [_ [_ ->]]]].
    eexists. split; [cbn; apply in_or_app; right; left; reflexivity|]. left. cbn. congruence.
Qed.

Lemma L_queue_eq s s' : s_queue s' = s_queue s -> (forall p r, s_queue s = p :: r ->
  exists t, In t (s_timers s') /\ serves p (tm_kind t)) -> L s'.
Proof. intros Q T. unfold L. rewrite Q. destruct (s_queue s); auto. eapply T; eauto. Qed.

Lemma L_step c s tr e d : config_ok c -> c_retry c <= 32 -> d <> bcast -> K c s tr -> honest c tr e -> U s ->
  only d (tr ++ snd (step c s e)) -> s_ids (fst (step c s e)) <= 65535 -> rich (snd (step c s e)) ->
  L s -> L (fst (step c s e)).
Proof.
  intros C RL DB H HO HU ON B RI HL. pose proof (proj1 H) as HW.
  assert (ON1 : only d tr) by (intros p P; apply ON; auto using acc_app).
  assert (HQ : forall p r, s_queue s = p :: r -> acc p tr /\ f_dst p = d /\ ord p (s_tx s) /\
     exists t l, s_tx s = t :: l /\ t_pkt t = p).
  { intros p r Q. pose proof (ready_front c s tr p r HW Q) as [A [O _]].
    split; auto. split; [apply ON1; auto|]. split; auto.
    rewrite (w_queue _ _ _ _ _ _ _ _ _ _ HW) in Q. destruct (s_tx s) as [|t l] eqn:TX; [discriminate|].
    injection Q as Q1 Q2. eauto. }
  destruct e; cbn [step] in *.
  - destruct (enqueue_cases c size dst s) as [[_ E]|[[_ [_ E]]|[_ [Q E]]]]; rewrite E in *; cbn [fst snd] in *; auto.
    cbv zeta in *. pose proof (W_accept c s tr size dst C HW Q) as W2. cbv zeta in W2.
    change (W c (accept_state c s size dst) (tr ++ [OAccept (new_pkt c s size dst)])) in W2.
    assert (ND : dst = d).
    { change dst with (f_dst (new_pkt c s size dst)). apply ON. apply in_or_app. right.
      destruct (behind _ _ _); left; auto. }
    destruct (behind s _ dst) eqn:BH; cbn [fst snd] in *.
    + destruct (s_queue s) as [|p r] eqn:SQ.
      { exfalso. unfold behind in BH. rewrite (w_queue _ _ _ _ _ _ _ _ _ _ HW) in SQ.
        apply map_eq_nil in SQ. rewrite SQ in BH. discriminate. }
      unfold L in *. cbn. rewrite SQ in *. cbn. exact HL.
    + assert (SQ : s_queue s = []).
      { destruct (s_queue s) as [|p r] eqn:SQ; auto. exfalso.
        destruct (HQ p r eq_refl) as [A [D [_ [t [l [TX TP]]]]]].
        unfold behind in BH. rewrite TX in BH. cbn [existsb] in BH. apply orb_false_iff in BH. destruct BH as [BH _].
        rewrite TP, D, ND, Z.eqb_refl, andb_true_r in BH. apply Z.ltb_ge in BH.
        rewrite (bounded_seq c s tr p H A) in BH.
        rewrite tx_first_ids in B. cbn in B.
        pose proof (w_seq _ _ _ _ _ _ _ _ _ _ HW) as WS. pose proof (w_pos _ _ _ _ _ _ _ _ _ _ HW).
        apply (w_hist _ _ _ _ _ _ _ _ _ _ HW) in A. cbn in BH. rewrite WS, wrap16_succ in BH.
        unfold wrap16 in BH. rewrite Z.mod_small in BH by (change (2 ^ 16) with 65536; lia). lia. }
      assert (SQ2 : s_queue (accept_state c s size dst) = [new_pkt c s size dst]) by (cbn; rewrite SQ; reflexivity).
      unfold L. rewrite tx_first_queue, SQ2. unfold tx_first in *. rewrite SQ2 in *.
      apply check_serves; [cbn; rewrite ND; auto|]. intros tx rx I. apply (RI tx rx). right. apply in_or_app. auto.
  - unfold receive in *. destruct ok; cbn [negb] in *; [|exact HL].
    destruct (f_type f =? T_RTS).
    { eapply L_grows; [|exact HL]. unfold receive_rts. rewrite booking_eq. cbv zeta. cbn [fst].
      destruct (_ =? _); [|apply grows_energy]. rewrite booking_eq. cbv zeta. cbn [fst].
      set (s1 := set_energy _ s). set (s2 := set_energy _ s1).
      apply (grows_trans s s2); [split; auto|].
      destruct (fst (book _ _ (2 * _) _)); [|apply grows_refl]. rewrite seqa_eq. cbn [fst emit send_cts].
      apply (grows_schedule (c_dur c (hdr_size T_CTS) + margin) (KData (f_seq f)) s2). }
    destruct (Z.eqb_spec (f_type f) T_CTS) as [TY|_].
    { unfold receive_cts in *. destruct (Z.eqb_spec (f_dst f) (c_addr c)) as [D|D]; [|exact HL].
      specialize (HO TY D). rewrite seqa_eq in *. cbn [fst snd] in *.
      set (r := match find _ (s_cts s) with Some _ => _ | None => _ end) in *.
      assert (RTX : s_tx (fst r) = s_tx s) by (unfold r; destruct (find _ (s_cts s)) as [[? ?]|]; reflexivity).
      assert (RQ : s_queue (fst r) = s_queue s) by (unfold r; destruct (find _ (s_cts s)) as [[? ?]|]; reflexivity).
      assert (RT : forall t, In t (s_timers s) -> In t (s_timers (fst r)) \/
                     exists q, tm_kind t = KCts q /\ f_seq q = f_seq f).
      { intros t T. unfold r. destruct (find _ (s_cts s)) as [[n u]|] eqn:F; auto. cbn [fst].
        apply find_some in F. destruct F as [F FE]. cbn in FE. apply Z.eqb_eq in FE. subst n.
        destruct (Z.eq_dec (tm_id t) u) as [X|X].
        - right. apply (u_cts _ _ _ _ _ HU _ _ F); auto.
        - left. cbn. apply filter_In. split; auto. apply negb_true_iff, Z.eqb_neq. auto. }
      clearbody r.
      assert (GQ : forall s1, s_queue (fst (match find (fun t => (f_seq (t_pkt t) =? f_seq f) && (f_dst (t_pkt t) =? f_src f)) (s_tx s1) with
           | Some t => send_data c (t_pkt t) s1 | None => (s1, []) end)) = s_queue s1).
      { intros s1. destruct (find _ (s_tx s1)); [|reflexivity]. apply (grows_send_data c (t_pkt t) s1). }
      assert (GT : forall s1 t, In t (s_timers s1) -> In t (s_timers (fst (match find (fun t => (f_seq (t_pkt t) =? f_seq f) && (f_dst (t_pkt t) =? f_src f)) (s_tx s1) with
           | Some t => send_data c (t_pkt t) s1 | None => (s1, []) end)))).
      { intros s1 t T. destruct (find _ (s_tx s1)); [|exact T]. apply (grows_send_data c (t_pkt t0) s1). auto. }
      eapply L_queue_eq; [rewrite GQ; exact RQ|]. intros p q Q.
      destruct (HQ p q Q) as [A [PD [_ [t0 [l0 [TX TP]]]]]].
      unfold L in HL. rewrite Q in HL. destruct HL as [t [TI TS]].
      destruct (RT t TI) as [T1|[q0 [TK TQ]]]; [exists t; split; auto|].
      assert (f_seq p = f_seq f) as SE.
      { rewrite TK in TS. destruct TS as [X|[X|X]]; try discriminate. congruence. }
      rewrite RTX, TX. cbn [find]. rewrite TP, SE, Z.eqb_refl.
      destruct (k_sent _ _ _ _ _ (proj2 (proj2 H)) _ HO) as [_ X].
      destruct (X eq_refl) as [p' [PE [PA [PB _]]]]. injection PE as E1 E2.
      assert (f_dst p = f_src f) as ->.
      { assert (p = p') by (apply (seq_inj c s tr); auto; congruence). congruence. }
      rewrite Z.eqb_refl. cbn [andb]. rewrite TP. apply send_data_serves. congruence. }
    destruct (f_type f =? T_DATA).
    { assert (KQ : forall s1 s2 : state, s_queue s2 = s_queue s1 -> L s1 ->
        (forall t, In t (s_timers s1) -> In t (s_timers s2) \/ exists n, tm_kind t = KData n) -> L s2).
      { intros s1 s2 Q L1 T. eapply L_queue_eq; [exact Q|]. intros p r Q1. unfold L in L1. rewrite Q1 in L1.
        destruct L1 as [t [TI TS]]. destruct (T t TI) as [X|[n X]]; [eauto|].
        exfalso. rewrite X in TS. destruct TS as [Y|[Y|Y]]; discriminate. }
      unfold receive_data in *. destruct (_ =? _).
      { unfold forward_new. destruct (is_new _ _ _). exact HL. }
      destruct (negb _); [exact HL|]. set (rest := _ ;; _) in *.
      assert (X : forall s1, L s1 -> U s1 -> L (fst (rest s1))).
      { intros s1 L1 U1. unfold rest. rewrite !seqa_eq. cbn [fst]. unfold forward_new.
        destruct (is_new _ _ _). cbn [fst send_ack emit].
        destruct (find _ (s_data s1)) as [[n u]|] eqn:F; cbn [fst]; [|exact L1].
        eapply KQ; [|exact L1|]; [reflexivity|].
        intros t T. cbn. apply find_some in F. destruct F as [F _].
        destruct (Z.eq_dec (tm_id t) u) as [Y|Y].
        - right. exists n. apply (u_data _ _ _ _ _ U1 _ _ F); auto.
        - left. apply filter_In. split; auto. apply negb_true_iff, Z.eqb_neq. auto. }
      destruct (c_rts c); [apply X; auto|]. rewrite booking_eq. cbv zeta. cbn [fst].
      destruct (fst (book _ _ _ _)); [apply X; auto|exact HL]. }
    destruct (f_type f =? T_ACK); [|exact HL].
    unfold receive_ack in *. destruct (_ =? _); [|exact HL].
    destruct (find _ _) as [[[n u] p0]|] eqn:F; [|exact HL].
    apply find_some in F. destruct F as [F FE].
    destruct (w_ack _ _ _ _ _ _ _ _ _ _ HW _ _ _ F) as [NE [A _]].
    pose proof (k_ack _ _ _ _ _ (proj2 (proj2 H)) _ _ _ F) as OR.
    rewrite seqa_eq. cbn [fst]. set (s2 := fst (send_data_done true p0 (cancel u s))).
    change (L s2). destruct (done_head c (cancel u s) tr true p0 d (K_cancel _ _ _ _ H) ON1 A OR) as [T1 T2].
    fold s2 in T1, T2. destruct T2 as [Q|[r [_ [_ L2]]]]; [|exact L2].
    eapply L_queue_eq; [exact Q|]. intros p r SQ. cbn in SQ.
    destruct (HQ p r SQ) as [PA [PD [_ [t0 [l0 [TX TP]]]]]].
    unfold L in HL. rewrite SQ in HL. destruct HL as [t [TI TS]].
    destruct (Z.eq_dec (tm_id t) u) as [X|X].
    + exfalso. destruct (u_ack _ _ _ _ _ HU _ _ _ F) as [_ UA]. specialize (UA t TI X). rewrite UA in TS.
      destruct TS as [Y|[Y|Y]]; try discriminate. injection Y as Y.
      assert (p = p0) as PE by (apply (seq_inj c s tr); auto; congruence).
      assert (In p (s_queue s2)) as I by (rewrite Q; cbn; rewrite SQ; left; auto).
      unfold s2 in I. pose proof (W_done c true p0 (cancel u s) tr (proj1 (K_cancel _ u _ _ H))) as H3.
      rewrite (w_queue _ _ _ _ _ _ _ _ _ _ H3), done_tx in I. apply in_map_iff in I. destruct I as [y [Y1 Y2]].
      apply filter_In in Y2. destruct Y2 as [_ Y2]. rewrite Y1, PE, Z.eqb_refl in Y2. discriminate.
    + exists t. split; auto. apply T1. cbn. apply filter_In. split; auto. apply negb_true_iff, Z.eqb_neq. auto.
  - destruct (nth_error (s_timers s) i) as [t|] eqn:N; [|exact HL].
    pose proof (nth_error_In _ _ N) as TI.
    pose proof (w_tm _ _ _ _ _ _ _ _ _ _ HW t TI) as WT.
    pose proof (k_tm _ _ _ _ _ (proj2 (proj2 H)) t TI) as KT.
    set (s0 := set_timers _ s) in *.
    assert (T0 : forall x, In x (s_timers s) -> In x (s_timers s0) \/ x = t).
    { intros x X. cbn. clear -N X. revert i N. induction (s_timers s) as [|y l IH]; intros i N; [destruct X|].
      destruct i as [|i]; cbn in *.
      - injection N as ->. destruct X; auto.
      - destruct X as [->|X]; auto. destruct (IH X i N); auto. }
    assert (SV : forall s' p r, s_queue s = p :: r -> (forall x, In x (s_timers s0) -> In x (s_timers s')) ->
       (serves p (tm_kind t) -> exists x, In x (s_timers s') /\ serves p (tm_kind x)) ->
       exists x, In x (s_timers s') /\ serves p (tm_kind x)).
    { intros s' p r Q G S. unfold L in HL. rewrite Q in HL. destruct HL as [x [X XS]].
      destruct (T0 x X) as [Y| ->]; eauto. }
    assert (H1 : K c s0 tr).
    { destruct H as [_ [HB HK]]. rewrite <- (app_nil_r tr). split; [|split; [exact HB|]].
      - eapply W0_change; [exact HW|reflexivity| |auto]. intros x X. left. eapply in_remove_nth, X.
      - eapply K0_change; [exact HK| |auto|intros ? []]. intros x X. left. eapply in_remove_nth, X. }
    assert (RT : forall n arg (s1 : state) p0, s_timers s1 = s_timers s0 -> s_queue s1 = s_queue s ->
       K c s1 tr -> acc p0 tr -> f_seq p0 = n -> ord p0 (s_tx s1) ->
       match arg with Some q => q = p0 | None => True end ->
       (forall p, serves p (tm_kind t) -> f_seq p = n) ->
       L (fst (retry_or_discard c n arg draw s1))).
    { intros n arg s1 p0 T1 Q1 K1 A1 E1 O1 AE SS.
      destruct (retry_serves c s1 tr n arg draw d p0 K1 ON1 RL A1 E1 O1 AE) as [G [[Q2 S2]|[_ L2]]]; auto.
      eapply L_queue_eq; [rewrite Q2; exact Q1|]. intros p r Q. apply (SV _ p r Q); [rewrite <- T1; exact G|].
      intros S. apply (S2 p r); [congruence|]. auto. }
    destruct (tm_kind t) eqn:KD; cbn [fire tm_ok ktm] in *.
    + eapply L_queue_eq; [rewrite check_queue; reflexivity|]. intros q r Q.
      apply (SV _ q r Q); [apply grows_check|]. intros S.
      destruct S as [Y|[Y|Y]]; try discriminate. injection Y as ->.
      apply check_serves; auto. destruct (HQ q r Q) as [_ [-> _]]. auto.
    + unfold cts_timeout in *. rewrite (timeout_eq c (f_seq p) (Some p) draw (OTimeout (f_seq p))
          (fun s => set_cts (erase_first (fun x => fst x =? f_seq p) (s_cts s)) s)) in *.
      cbv zeta in *. cbn [fst snd] in *. destruct WT as [WT _].
      apply (RT (f_seq p) (Some p) _ p); auto.
      intros q S. destruct S as [Y|[Y|Y]]; try discriminate. congruence.
    + unfold ack_timeout in *. rewrite (timeout_eq c sq None draw (OTimeout sq)
          (fun s => set_ack (erase_first (fun x => fst (fst x) =? sq) (s_ack s)) s)) in *.
      cbv zeta in *. cbn [fst snd] in *. destruct KT as [q0 [KA [KE [_ KO]]]].
      apply (RT sq None _ q0); auto.
      * exact (K_erase_ack c (fun x => fst (fst x) =? sq) _ tr H1).
      * intros q S. destruct S as [Y|[Y|Y]]; try discriminate. congruence.
    + eapply L_queue_eq; [reflexivity|]. intros q r Q. apply (SV _ q r Q); [auto|].
      intros [Y|[Y|Y]]; discriminate.
  - exact HL.
  - eapply L_grows; [apply grows_tx_first|exact HL].
  - exact HL.
Qed.
