(** A nano MAC left alone works off its queue in a bounded number of events (C21). *)
From Coq Require Import ZArith List Lia Bool Sorting.Sorted.
From Verif Require Import Base HeaderModel SeqModel EnergyModel NanoModel NanoProofs NanoSpec NanoOut
  NanoRetry NanoOrder NanoTrace NanoLate NanoSend NanoLive.
Import ListNotations.
Open Scope Z_scope.

(** ** A packet is reported only after a transmission for it *)

Definition txd (p : frame) (tr : list out) : Prop := exists f, In (OSend f) tr /\ concerns p f.

Definition vtm (tr : list out) (k : tkind) : Prop :=
  match k with
  | KCts p => txd p tr
  | KAck n => exists p, acc p tr /\ f_seq p = n /\ txd p tr
  | _ => True
  end.
Record V0 (tm : list timer) (ak : list (Z * Z * frame)) (tr : list out) : Prop := {
  v_tm : forall t, In t tm -> vtm tr (tm_kind t);
  v_ack : forall n u p, In (n, u, p) ak -> In (OSend p) tr;
  v_done : forall ok p, In (ODone ok p) tr -> txd p tr
}.
Definition V (s : state) (tr : list out) : Prop := V0 (s_timers s) (s_ack s) tr.

Lemma txd_app p tr o : txd p tr -> txd p (tr ++ o).
Proof. intros [f [I C]]. exists f. split; auto. apply in_or_app; auto. Qed.
Lemma sent_txd p tr : In (OSend p) tr -> txd p tr.
Proof. intros I. exists p. split; auto. left. reflexivity. Qed.
Lemma vtm_app tr o k : vtm tr k -> vtm (tr ++ o) k.
Proof.
  destruct k; cbn; auto using txd_app. intros [p [A [B D]]]. exists p. auto using acc_app, txd_app.
Qed.

Lemma V0_change tm ak tr tm' ak' o : V0 tm ak tr ->
  (forall t, In t tm' -> In t tm \/ vtm (tr ++ o) (tm_kind t)) ->
  (forall n u p, In (n, u, p) ak' -> In (n, u, p) ak \/ In (OSend p) (tr ++ o)) ->
  (forall ok p, In (ODone ok p) o -> txd p (tr ++ o)) -> V0 tm' ak' (tr ++ o).
Proof.
  intros [] T A D. constructor.
  - intros t I. destruct (T t I); auto using vtm_app.
  - intros n u p I. destruct (A n u p I); auto. apply in_or_app; eauto.
  - intros ok p I. apply in_app_or in I. destruct I; eauto using txd_app.
Qed.

Definition vk (a : act) : Prop := keeps V a.

Lemma V_emit o : (forall ok p, o <> ODone ok p) -> keeps V (emit o).
Proof.
  intros N s tr H. eapply V0_change; [exact H|auto|auto|]. intros ok p [E|[]]. exfalso. eapply N, E.
Qed.
Lemma V_booking c tx rx k : (forall b, keeps V (k b)) -> keeps V (booking c tx rx k).
Proof.
  intros H s tr I. rewrite booking_eq. cbv zeta. cbn [fst snd].
  set (s1 := set_energy _ s). change (OBooked ?b tx rx :: ?r) with ([OBooked b tx rx] ++ r).
  rewrite app_assoc. apply H. unfold V. eapply V0_change; [exact I|auto|auto|].
  intros ok p [E|[]]; discriminate.
Qed.
Lemma V_refund c tx rx : keeps V (refund c tx rx).
Proof.
  intros s tr I. eapply V0_change; [exact I|auto|auto|]. intros ok p [E|[]]; discriminate.
Qed.
Lemma V_sub s s' tr : V s tr -> (forall t, In t (s_timers s') -> In t (s_timers s)) ->
  (forall x, In x (s_ack s') -> In x (s_ack s)) -> V s' tr.
Proof.
  intros H T A. rewrite <- (app_nil_r tr). eapply V0_change; [exact H|auto|auto|intros ? ? []].
Qed.

Lemma V_send_rts c p s tr : V s tr -> f_src p = c_addr c ->
  V (fst (send_rts c p s)) (tr ++ snd (send_rts c p s)).
Proof.
  intros H S. unfold send_rts. cbn [fst snd].
  assert (X : txd p (tr ++ [OSend (ctrl T_RTS (c_addr c) (f_dst p) (f_seq p))])).
  { eexists. split; [apply in_or_app; right; left; reflexivity|]. right. cbn. auto. }
  eapply V0_change; [exact H| |auto|].
  - intros t T. cbn in T. apply in_app_or in T. destruct T as [T|[<-|[]]]; auto.
  - intros ok q [E|[]]; discriminate.
Qed.
Lemma V_send_data c p s tr : V s tr -> acc p tr ->
  V (fst (send_data c p s)) (tr ++ snd (send_data c p s)).
Proof.
  intros H A. assert (X : txd p (tr ++ [OSend p])).
  { exists p. split; [apply in_or_app; right; left; reflexivity|]. left. auto. }
  unfold send_data. destruct (_ =? _); cbn [fst snd].
  - eapply V0_change; [exact H|auto|auto|]. intros ok q [E|[]]; discriminate.
  - eapply V0_change; [exact H| | |].
    + intros t T. cbn in T. apply in_app_or in T. destruct T as [T|[<-|[]]]; auto.
      right. cbn. exists p. auto using acc_app.
    + intros n u q I. cbn in I. apply in_app_or in I. destruct I as [I|[I|[]]]; auto.
      right. injection I as <- <- <-. apply in_or_app. right. left. reflexivity.
    + intros ok q [E|[]]; discriminate.
Qed.
Lemma V_check c p s tr : V s tr -> acc p tr -> f_src p = c_addr c ->
  V (fst (check_resources c p s)) (tr ++ snd (check_resources c p s)).
Proof.
  intros H A S. unfold check_resources. destruct (_ && _); rewrite booking_eq; cbv zeta; cbn [fst snd];
    set (s1 := set_energy _ s);
    set (b := fst (book _ _ _ _)); change (OBooked b ?x ?y :: ?r) with ([OBooked b x y] ++ r);
    rewrite app_assoc.
  - assert (H1 : V s1 (tr ++ [OBooked b (f_size p + hdr_size T_RTS) (2 * hdr_size T_RTS)])).
    { unfold V. eapply V0_change; [exact H|auto|auto|]. intros ok q [E|[]]; discriminate. }
    destruct b; [apply V_send_rts; auto|cbn; rewrite app_nil_r; auto].
  - assert (H1 : V s1 (tr ++ [OBooked b (f_size p) (hdr_size T_ACK)])).
    { unfold V. eapply V0_change; [exact H|auto|auto|]. intros ok q [E|[]]; discriminate. }
    destruct b; [apply V_send_data; auto using acc_app|cbn; rewrite app_nil_r; auto].
Qed.
Lemma V_tx_first c s tr : W c s tr -> V s tr -> V (fst (tx_first c s)) (tr ++ snd (tx_first c s)).
Proof.
  intros HW H. unfold tx_first. destruct (s_queue s) as [|p r] eqn:Q; [cbn; rewrite app_nil_r; auto|].
  destruct (ready_front c s tr p r HW Q) as [A _].
  apply V_check; auto. apply (w_hist _ _ _ _ _ _ _ _ _ _ HW p A).
Qed.
Lemma V_done c ok p s tr : W c s tr -> s_ids s <= 65536 -> V s tr -> acc p tr -> txd p tr ->
  V (fst (send_data_done ok p s)) (tr ++ snd (send_data_done ok p s)).
Proof.
  intros HW B H A X. rewrite done_out. unfold V.
  assert (AK : s_ack (fst (send_data_done ok p s)) = s_ack s).
  { unfold send_data_done. cbn [fst]. destruct (find _ _), ok; reflexivity. }
  eapply V0_change; [exact H| | |].
  - intros t T. unfold send_data_done in T. cbn [fst] in T.
    assert (In t (s_timers s) \/ exists q, tm_kind t = KCheck q) as [?|[q E]]; auto.
    2: right; rewrite E; exact I.
    destruct (find _ _), ok; cbn in T; auto; apply in_app_or in T; destruct T as [T|[<-|[]]]; auto; right; eexists; reflexivity.
  - rewrite AK. auto.
  - intros b q I. apply in_done_map in I. destruct I as [_ [t [T <-]]]. apply filter_In in T. destruct T as [T E].
    apply Z.eqb_eq in E. apply txd_app. assert (t_pkt t = p) as ->; auto.
    apply (seq_inj_w c s tr); auto. apply (w_tx _ _ _ _ _ _ _ _ _ _ HW). auto.
Qed.
Lemma V_retry c n arg draw s tr p : W c s tr -> s_ids s <= 65536 -> V s tr ->
  acc p tr -> f_seq p = n -> txd p tr -> match arg with Some q => q = p | None => True end ->
  V (fst (retry_or_discard c n arg draw s)) (tr ++ snd (retry_or_discard c n arg draw s)).
Proof.
  intros HW B H A E X AE. unfold retry_or_discard. destruct (bump _ _) as [[t l]|] eqn:BU.
  2: cbn; rewrite app_nil_r; auto.
  destruct (W_bump _ _ _ _ _ _ HW BU) as [H1 [A1 E1]].
  assert (t_pkt t = p) as TP by (apply (seq_inj_w c s tr); auto; congruence).
  destruct (_ <=? _).
  - assert ((match arg with Some q => q | None => t_pkt t end) = p) as -> by (destruct arg; auto).
    apply V_done with c; auto.
  - unfold backoff. destruct (_ <? _); cbn [fst snd]; eapply V0_change; try exact H; auto.
    + intros x T. cbn in T. apply in_app_or in T. destruct T as [T|[<-|[]]]; auto. right. exact I.
    + intros ok q [Y|[]]; discriminate.
    + intros ok q [Y|[]]; discriminate.
Qed.

Lemma V_step c s tr e : config_ok c -> W c s tr -> s_ids (fst (step c s e)) <= 65536 -> V s tr ->
  V (fst (step c s e)) (tr ++ snd (step c s e)).
Proof.
  intros C HW B0 H. pose proof (ids_mono_step c s e) as IM.
  assert (B : s_ids s <= 65536) by lia. clear IM B0.
  assert (CA : forall u s tr, V s tr -> V (cancel u s) tr).
  { intros u s0 tr0 H0. eapply V_sub; [exact H0| |auto]. intros t T. apply in_cancel in T. exact T. }
  destruct e; cbn [step].
  - destruct (enqueue_cases c size dst s) as [[_ E]|[[_ [_ E]]|[_ [Q E]]]]; rewrite E;
      try (eapply V0_change; [exact H|auto|auto|]; intros ok p [Y|[]]; discriminate).
    cbv zeta. pose proof (W_accept c s tr size dst C HW Q) as W2. cbv zeta in W2.
    change (W c (accept_state c s size dst) (tr ++ [OAccept (new_pkt c s size dst)])) in W2.
    assert (H1 : V (accept_state c s size dst) (tr ++ [OAccept (new_pkt c s size dst)])).
    { unfold V. eapply V0_change; [exact H|auto|auto|]. intros ok p [Y|[]]; discriminate. }
    destruct (behind _ _ _); cbn [fst snd].
    + unfold V. eapply V0_change; [exact H|auto|auto|]. intros ok p [Y|[Y|[]]]; discriminate.
    + pose proof (V_tx_first c _ _ W2 H1) as H2.
      change (OAccept ?p :: ?r ++ ?q) with (([OAccept p] ++ r) ++ q). rewrite !app_assoc.
      unfold V. eapply V0_change; [exact H2|auto|auto|]. intros ok p [Y|[]]; discriminate.
  - unfold receive. destruct ok; cbn [negb]; [|cbn; rewrite app_nil_r; exact H].
    assert (FW : keeps V (forward_new f)).
    { intros s0 tr0 H0. unfold forward_new. destruct (is_new _ _ _) as [b l]. cbn [fst snd].
      eapply V0_change; [exact H0|auto|auto|]. intros ok p I. destruct b; [destruct I as [I|[]]; discriminate|destruct I]. }
    destruct (f_type f =? T_RTS).
    { apply V_booking; [|exact H]. intros _. destruct (_ =? _); [|apply keeps_skip].
      apply V_booking. intros []; [|apply keeps_skip]. apply keeps_seq; [|apply V_emit; discriminate].
      intros s0 tr0 H0. cbn [fst snd]. rewrite app_nil_r.
      rewrite <- (app_nil_r tr0). eapply V0_change; [exact H0| |auto|intros ? ? []].
      intros t T. cbn in T. apply in_app_or in T. destruct T as [T|[<-|[]]]; auto. right. exact I. }
    destruct (Z.eqb_spec (f_type f) T_CTS).
    { unfold receive_cts. destruct (_ =? _); [|cbn; rewrite app_nil_r; exact H].
      rewrite seqa_eq. cbn [fst snd].
      assert (S1 : exists s1, (match find (fun x => fst x =? f_seq f) (s_cts s) with
         | Some (_, uid) => (cancel uid (set_cts (erase_first (fun x => fst x =? f_seq f) (s_cts s)) s), [])
         | None => (s, [])
         end : state * list out) = (s1, []) /\ V s1 tr /\ s_tx s1 = s_tx s).
      { destruct (find _ _) as [[n u]|]; eexists; (split; [reflexivity|split; [|reflexivity]]); auto. }
      destruct S1 as [s1 [-> [H1 TX]]]. cbn [fst snd app]. destruct (find _ (s_tx s1)) as [t|] eqn:F;
        [|cbn; rewrite app_nil_r; auto].
      apply V_send_data; auto. apply find_some in F. destruct F as [F _]. rewrite TX in F.
      apply (w_tx _ _ _ _ _ _ _ _ _ _ HW). auto. }
    destruct (f_type f =? T_DATA).
    { unfold receive_data. destruct (_ =? _); [apply FW, H|].
      destruct (negb _); [cbn; rewrite app_nil_r; exact H|].
      set (rest := _ ;; _). assert (keeps V rest) as RS.
      { apply keeps_seq; [|apply keeps_seq; [apply V_emit; discriminate|exact FW]].
        intros s0 tr0 H0. destruct (find _ _) as [[n0 u]|]; cbn [fst snd]; rewrite app_nil_r; auto. }
      destruct (c_rts c); [apply RS, H|]. apply V_booking; [|exact H]. intros []; auto using keeps_skip. }
    destruct (f_type f =? T_ACK); [|cbn; rewrite app_nil_r; exact H].
    unfold receive_ack. destruct (_ =? _); [|cbn; rewrite app_nil_r; exact H].
    destruct (find _ _) as [[[n0 u] p]|] eqn:F; [|cbn; rewrite app_nil_r; exact H].
    apply find_some in F. destruct F as [F _].
    destruct (w_ack _ _ _ _ _ _ _ _ _ _ HW _ _ _ F) as [NE [A _]].
    rewrite seqa_eq. cbn [fst snd]. rewrite app_nil_r.
    assert (WC : W c (cancel u s) tr).
    { rewrite <- (app_nil_r tr). eapply W0_change; [exact HW|auto| |auto].
      intros t T. left. eapply in_cancel, T. }
    pose proof (V_done c true p (cancel u s) tr WC B (CA u s tr H) A (sent_txd _ _ (v_ack _ _ _ H _ _ _ F))) as H1.
    eapply V_sub; [exact H1|auto|]. cbn. intros x X. eapply in_erase_first, X.
  - destruct (nth_error (s_timers s) i) as [t|] eqn:N; [|cbn; rewrite app_nil_r; exact H].
    pose proof (nth_error_In _ _ N) as TI.
    pose proof (w_tm _ _ _ _ _ _ _ _ _ _ HW t TI) as WT.
    pose proof (v_tm _ _ _ H t TI) as VT.
    set (s0 := set_timers _ s) in *.
    assert (H1 : V s0 tr).
    { eapply V_sub; [exact H| |auto]. intros x X. eapply in_remove_nth, X. }
    assert (W1 : W c s0 tr).
    { rewrite <- (app_nil_r tr). eapply W0_change; [exact HW|reflexivity| |auto].
      intros x X. left. eapply in_remove_nth, X. }
    assert (RT : forall n arg (s1 : state) tx rx p, W c s1 tr -> V s1 tr -> s_ids s1 <= 65536 ->
       acc p tr -> f_seq p = n -> txd p tr -> match arg with Some q => q = p | None => True end ->
       V (fst (retry_or_discard c n arg draw s1))
         (tr ++ OTimeout n :: ORefund tx rx :: snd (retry_or_discard c n arg draw s1))).
    { intros n arg s1 tx rx p X1 X2 X3 X4 X5 X6 X7.
      change (OTimeout n :: ORefund tx rx :: ?r) with ([OTimeout n; ORefund tx rx] ++ r). rewrite app_assoc.
      apply (V_retry c n arg draw s1 _ p); auto using acc_app, txd_app.
      - apply W0_quiet; auto.
      - unfold V. eapply V0_change; [exact X2|auto|auto|]. intros ok q [Y|[Y|[]]]; discriminate. }
    destruct (tm_kind t) eqn:KD; cbn [fire tm_ok vtm] in *.
    + apply V_check; auto. apply (w_hist _ _ _ _ _ _ _ _ _ _ HW p WT).
    + unfold cts_timeout. rewrite (timeout_eq c (f_seq p) (Some p) draw (OTimeout (f_seq p))
          (fun s => set_cts (erase_first (fun x => fst x =? f_seq p) (s_cts s)) s)).
      cbv zeta. cbn [fst snd]. destruct WT as [WT _]. apply RT with p; auto.
    + unfold ack_timeout. rewrite (timeout_eq c sq None draw (OTimeout sq)
          (fun s => set_ack (erase_first (fun x => fst (fst x) =? sq) (s_ack s)) s)).
      cbv zeta. cbn [fst snd]. destruct VT as [p [A [E X]]]. apply RT with p; auto.
      * rewrite <- (app_nil_r tr). eapply W0_change; [exact W1|reflexivity|auto|].
        intros a b d I. cbn in I. left. eapply in_erase_first, I.
      * eapply V_sub; [exact H1|auto|]. cbn. intros x Y. eapply in_erase_first, Y.
    + unfold data_timeout. rewrite seqa_eq. cbn [fst snd refund emit].
      unfold V. eapply V0_change; [exact H1|auto|auto|]. intros ok q [Y|[]]; discriminate.
  - cbn. rewrite app_nil_r. exact H.
  - apply V_tx_first; auto.
  - cbn. rewrite app_nil_r. exact H.
Qed.

(** ** A bound on the number of events of a MAC left alone *)

Definition weight (k : tkind) : Z := match k with KCheck _ => 2 | _ => 1 end.
Fixpoint weights (l : list timer) : Z :=
  match l with [] => 0 | t :: r => weight (tm_kind t) + weights r end.
Fixpoint slack (c : config) (l : list txent) : Z :=
  match l with [] => 0 | t :: r => (c_retry c - t_retry t) + slack c r end.
Definition load (c : config) (s : state) : Z := 3 * slack c (s_tx s) + weights (s_timers s).

Lemma weights_app a b : weights (a ++ b) = weights a + weights b.
Proof. induction a; cbn [weights app]; lia. Qed.
Lemma slack_app c a b : slack c (a ++ b) = slack c a + slack c b.
Proof. induction a; cbn [slack app]; lia. Qed.
Lemma weights_nonneg l : 0 <= weights l.
Proof. induction l as [|t l IH]; cbn [weights]; [lia|]. destruct (tm_kind t); cbn [weight]; lia. Qed.
Lemma weights_remove i l t : nth_error l i = Some t ->
  weights (remove_nth i l) = weights l - weight (tm_kind t).
Proof.
  revert i. induction l as [|x l IH]; intros i N; destruct i; cbn in N; try discriminate.
  - injection N as ->. cbn [remove_nth weights]. lia.
  - cbn [remove_nth weights]. rewrite (IH _ N). lia.
Qed.

Lemma check_weights c p s : weights (s_timers (fst (check_resources c p s))) <= weights (s_timers s) + 1.
Proof.
  unfold check_resources. destruct (_ && _); rewrite booking_eq; cbv zeta; cbn [fst];
    destruct (fst (book _ _ _ _)); try (cbn; lia).
  - unfold send_rts. cbn. rewrite weights_app. cbn [weights weight tm_kind]. lia.
  - unfold send_data. destruct (_ =? _); [cbn; lia|]. cbn. rewrite weights_app. cbn [weights weight tm_kind]. lia.
Qed.

Lemma slack_nonneg c l : (forall t, In t l -> t_retry t < c_retry c) -> Z.of_nat (length l) <= slack c l.
Proof.
  induction l as [|x l IH]; intros H; cbn [slack length]; [lia|].
  specialize (H x (or_introl eq_refl)) as H1. specialize (IH (fun t T => H t (or_intror T))). lia.
Qed.
Lemma slack_filter c q l : (forall t, In t l -> t_retry t < c_retry c) ->
  slack c (filter q l) + Z.of_nat (length (filter (fun t => negb (q t)) l)) <= slack c l.
Proof.
  induction l as [|x l IH]; intros H; cbn [filter slack length]; [lia|].
  specialize (H x (or_introl eq_refl)) as H1. specialize (IH (fun t T => H t (or_intror T))).
  destruct (q x); cbn [negb length slack]; lia.
Qed.

Lemma done_weights ok p s : weights (s_timers (fst (send_data_done ok p s))) <= weights (s_timers s) + 2.
Proof.
  unfold send_data_done. cbn [fst]. destruct (find _ _), ok; cbn; rewrite ?weights_app; cbn [weights weight tm_kind]; lia.
Qed.

Lemma load_timer c s tr i draw t : config_ok c -> 1 <= c_retry c < 2 ^ 16 -> W c s tr -> R c s tr ->
  s_ids s <= 65536 -> nth_error (s_timers s) i = Some t ->
  load c (fst (step c s (EvTimer i draw))) < load c s.
Proof.
  intros C RL HW HR B N. cbn [step]. rewrite N. pose proof (nth_error_In _ _ N) as TI.
  pose proof (weights_remove _ _ _ N) as WR. set (s0 := set_timers _ s).
  assert (T0 : weights (s_timers s0) = weights (s_timers s) - weight (tm_kind t)) by exact WR.
  assert (RT : forall n arg (s1 : state), s_tx s1 = s_tx s -> s_timers s1 = s_timers s0 -> weight (tm_kind t) = 1 ->
     match arg with Some q => acc q tr /\ f_seq q = n | None => True end ->
     load c (fst (retry_or_discard c n arg draw s1)) < load c s).
  { intros n arg s1 X1 X2 X3 X4. unfold load.
    destruct (retry_cases c s tr n arg draw s1 HW B X1 X4) as [[_ E]|[t0 [a [b [TX [SE [_ D]]]]]]].
    - rewrite E. cbn [fst]. rewrite X1, X2. lia.
    - cbv zeta in D.
      destruct (proj1 HR t0) as [RE RLT]; [rewrite TX; apply in_or_app; right; left; auto|].
      pose proof (timeouts_nonneg (t_pkt t0) tr).
      assert (KE : wrap16 (t_retry t0 + 1) = t_retry t0 + 1) by (apply Z.mod_small; lia).
      rewrite TX, slack_app. cbn [slack].
      destruct D as [[LE [X5 X6]]|[LT [X5 X6]]]; rewrite X5, slack_app; cbn [slack t_retry].
      + assert (weights (s_timers (fst (retry_or_discard c n arg draw s1))) <= weights (s_timers s1) + 2).
        { unfold retry_or_discard. destruct (bump _ _) as [[t' l]|]; [|cbn [fst]; lia].
          destruct (_ <=? _); [apply (done_weights false _ (set_tx l s1))|].
          unfold backoff. destruct (_ <? _); cbn; rewrite ?weights_app; cbn [weights weight tm_kind]; lia. }
        rewrite X2 in *. lia.
      + rewrite X6, KE. unfold backoff. destruct (_ <? _); cbn [fst set_timers set_uid schedule s_timers]; rewrite ?weights_app; cbn [weights weight tm_kind set_tx s_timers]; rewrite X2; lia. }
  pose proof (w_tm _ _ _ _ _ _ _ _ _ _ HW t TI) as WT.
  destruct (tm_kind t) eqn:KD; cbn [fire tm_ok weight] in *.
  - unfold load. rewrite check_tx. pose proof (check_weights c p s0). cbn [s_tx] in *.
    change (s_tx s0) with (s_tx s). lia.
  - unfold cts_timeout. rewrite (timeout_eq c (f_seq p) (Some p) draw (OTimeout (f_seq p))
        (fun s => set_cts (erase_first (fun x => fst x =? f_seq p) (s_cts s)) s)).
    cbv zeta. cbn [fst snd]. apply RT; auto. tauto.
  - unfold ack_timeout. rewrite (timeout_eq c sq None draw (OTimeout sq)
        (fun s => set_ack (erase_first (fun x => fst (fst x) =? sq) (s_ack s)) s)).
    cbv zeta. cbn [fst snd]. apply RT; auto.
  - unfold data_timeout. rewrite seqa_eq. cbn [fst snd refund emit]. unfold load. cbn in *. lia.
Qed.

Lemma load_nonneg c s tr : R c s tr -> 0 <= load c s.
Proof.
  intros [H _]. unfold load. pose proof (slack_nonneg c (s_tx s) (fun t T => proj2 (H t T))).
  pose proof (weights_nonneg (s_timers s)). lia.
Qed.

Lemma slack_le c s tr : R c s tr -> slack c (s_tx s) <= c_retry c * Z.of_nat (length (s_tx s)).
Proof.
  intros [H _]. induction (s_tx s) as [|x l IH]; cbn [slack length]; [lia|].
  destruct (H x (or_introl eq_refl)) as [E _]. pose proof (timeouts_nonneg (t_pkt x) tr).
  specialize (IH (fun t T => H t (or_intror T))). lia.
Qed.
Lemma weights_le l : weights l <= 2 * Z.of_nat (length l).
Proof. induction l as [|x l IH]; cbn [weights length]; [lia|]. destruct (tm_kind x); cbn [weight]; lia. Qed.

Lemma alone_bound c l : forall s tr, config_ok c -> 1 <= c_retry c < 2 ^ 16 -> W c s tr -> R c s tr ->
  s_ids (fst (run c s l)) <= 65536 -> alone c s l -> Z.of_nat (length l) <= load c s.
Proof.
  induction l as [|e l IH]; intros s tr C RL HW HR B A; cbn [length].
  - apply (load_nonneg c s tr HR).
  - rewrite run_cons in B. cbn [fst] in B. pose proof (ids_mono c l (fst (step c s e))) as IM.
    pose proof (ids_mono_step c s e) as IM1.
    destruct A as [AE A]. destruct e; try contradiction.
    destruct (nth_error _ _) as [t|] eqn:N; [|congruence].
    pose proof (load_timer c s tr i draw t C RL HW HR ltac:(lia) N).
    assert (HR1 : R c (fst (step c s (EvTimer i draw))) (tr ++ snd (step c s (EvTimer i draw)))).
    { apply R_step; auto; lia. }
    specialize (IH _ _ C RL (W_step _ _ _ (EvTimer i draw) C HW) HR1 B A). lia.
Qed.

Lemma new_dst c s tr e p : config_ok c -> W c s tr -> In (OAccept p) (snd (step c s e)) ->
  exists size, e = EvEnqueue size (f_dst p).
Proof.
  intros C HW I. destruct (classify c s e) as [size dst ->|i draw t n arg s1 tx rx E1 E2 E3 X1 X2 X3 X4 E|f E1 E2 E|X1 X2 X3 X4 CA].
  - exists size. cbn [step] in I.
    destruct (enqueue_cases c size dst s) as [[_ E]|[[_ [_ E]]|[_ [Q E]]]]; rewrite E in I; cbn [snd] in I;
      try (destruct I as [X|[]]; discriminate).
    cbv zeta in I. destruct (behind _ _ _); cbn [snd] in I.
    + destruct I as [X|[X|[]]]; try discriminate. injection X as <-. reflexivity.
    + destruct I as [X|X]; [injection X as <-; reflexivity|]. exfalso. apply in_app_or in X.
      destruct X as [X|[X|[]]]; [|discriminate]. apply (calm_no_accept _ _ (tx_first_calm c _) X).
  - exfalso. rewrite E in I. cbn [snd] in I. destruct I as [X|[X|X]]; try discriminate.
    unfold retry_or_discard in X. destruct (bump _ _) as [[t' l]|]; [|destruct X].
    destruct (_ <=? _).
    + rewrite done_out in X. eapply not_acc_map, X.
    + unfold backoff in X. destruct (_ <? _); destruct X as [X|[]]; discriminate.
  - exfalso. rewrite E in I. destruct (receive_ack_cases c f s) as [[_ [n [u [q [_ [_ [_ Y]]]]]]]|Y].
    + rewrite Y in I. eapply not_acc_map, I.
    + rewrite Y in I. destruct I.
  - exfalso. eapply calm_no_accept; eauto.
Qed.

Lemma L_run c d l : forall s tr, config_ok c -> 1 <= c_retry c <= 32 -> d <> bcast -> K c s tr -> U s -> V s tr -> R c s tr ->
  L s -> only d tr -> genuine c s tr l -> Forall (enq_to d) l -> rich (snd (run c s l)) ->
  s_ids (fst (run c s l)) <= 65535 ->
  K c (fst (run c s l)) (tr ++ snd (run c s l)) /\ U (fst (run c s l)) /\
  V (fst (run c s l)) (tr ++ snd (run c s l)) /\ R c (fst (run c s l)) (tr ++ snd (run c s l)) /\
  L (fst (run c s l)) /\ only d (tr ++ snd (run c s l)).
Proof.
  induction l as [|e l IH]; intros s tr C RL D HK HU HV HR HL ON G F RI B.
  - cbn. rewrite app_nil_r. auto 10.
  - rewrite run_cons in *. cbn [fst snd] in *. rewrite app_assoc.
    pose proof (ids_mono c l (fst (step c s e))) as IM. pose proof (ids_mono_step c s e) as IM1.
    destruct G as [G1 G2]. inversion F as [|? ? F1 F2]; subst.
    pose proof (answered_honest _ _ _ _ HK G1) as HO.
    assert (ON' : only d (tr ++ snd (step c s e))).
    { intros p A. apply in_app_or in A. destruct A as [A|A]; [apply ON; auto|].
      destruct (new_dst c s tr e p C (proj1 HK) A) as [size ->]. exact F1. }
    assert (R1 : rich (snd (step c s e))) by (intros tx rx X; apply (RI tx rx), in_or_app; auto).
    assert (R2 : rich (snd (run c (fst (step c s e)) l))) by (intros tx rx X; apply (RI tx rx), in_or_app; auto).
    apply IH; auto.
    + apply K_step; auto. lia.
    + apply U_step; auto.
    + apply V_step; auto; [apply (proj1 HK)|lia].
    + apply R_step; auto; try lia. apply (proj1 HK).
    + eapply L_step; eauto; lia.
Qed.

Lemma V_init e0 : V (init e0) [].
Proof. constructor; cbn; intros; contradiction. Qed.
Lemma L_init e0 : L (init e0).
Proof. exact I. Qed.

(** The conclusion: never stalled; left alone, the MAC comes to rest after a bounded number of
    events, with an empty queue and every accepted packet transmitted and reported. *)
Lemma progress c e0 d l : config_ok c -> 1 <= c_retry c <= 32 -> d <> bcast ->
  genuine c (init e0) [] l -> Forall (enq_to d) l -> rich (snd (run c (init e0) l)) ->
  s_ids (fst (run c (init e0) l)) <= 65535 ->
  let s := fst (run c (init e0) l) in
  (s_queue s <> [] -> s_timers s <> []) /\
  (s_timers s = [] -> s_queue s = [] /\
     forall p, In p (accepted_pkts (snd (run c (init e0) l))) ->
       (exists f, In (OSend f) (snd (run c (init e0) l)) /\ concerns p f) /\
       exists ok, In (ODone ok p) (snd (run c (init e0) l))).
Proof.
  intros C RL D G F RI B s.
  destruct (L_run c d l (init e0) [] C RL D (K_init c e0 C) (U_init e0) (V_init e0) (R_init c e0) (L_init e0)
    ltac:(intros ? []) G F RI B) as [HK [HU [HV [HR [HL HO]]]]]. cbn [app] in *. fold s in HK, HU, HV, HR, HL.
  assert (Q : s_timers s = [] -> s_queue s = []).
  { intros E. unfold L in HL. destruct (s_queue s); auto. rewrite E in HL. destruct HL as [t [[] _]]. }
  split; [intros X Y; apply X, Q, Y|]. intros E. split; [auto|]. intros p A.
  apply accepted_in in A.
  destruct (w_all _ _ _ _ _ _ _ _ _ _ (proj1 HK) p A) as [X|[ok X]].
  - exfalso. rewrite <- (w_queue _ _ _ _ _ _ _ _ _ _ (proj1 HK)), (Q E) in X. destruct X.
  - split; [apply (v_done _ _ _ HV ok p X)|eauto].
Qed.

Lemma drains c e0 l l2 : config_ok c -> 1 <= c_retry c < 2 ^ 16 ->
  s_ids (fst (run c (init e0) l)) <= 65536 ->
  let s := fst (run c (init e0) l) in
  alone c s l2 ->
  Z.of_nat (length l2) <= 3 * c_retry c * Z.of_nat (length (s_queue s)) + 2 * Z.of_nat (length (s_timers s)).
Proof.
  intros C RL B s A. pose proof (W_reach c e0 l C) as HW. fold s in HW.
  pose proof (R_run c l (init e0) [] C RL (W_init c e0 C) B (R_init c e0)) as HR. cbn [app] in HR. fold s in HR.
  assert (I2 : forall l s, alone c s l -> s_ids (fst (run c s l)) = s_ids s).
  { clear. induction l as [|e l IH]; intros s A; [reflexivity|]. rewrite run_cons. cbn [fst].
    destruct A as [AE A]. rewrite IH by exact A. destruct e; try contradiction.
    destruct (classify c s (EvTimer i draw)) as [size dst X|i' dr t n arg s1 tx rx E1 E2 E3 X1 X2 X3 X4 E|f E1 E2 E|X1 X2 X3 X4 CA]; try discriminate; auto.
    rewrite E. cbn [fst]. rewrite <- X3. unfold retry_or_discard. destruct (bump _ _) as [[t' l']|]; auto.
    destruct (_ <=? _).
    - unfold send_data_done. cbn [fst]. destruct (find _ _); reflexivity.
    - unfold backoff. destruct (_ <? _); reflexivity. }
  pose proof (alone_bound c l2 s _ C RL HW HR) as AB. rewrite (I2 _ _ A) in AB. specialize (AB B A).
  pose proof (slack_le c s _ HR). pose proof (weights_le (s_timers s)). unfold load in AB.
  rewrite (w_queue _ _ _ _ _ _ _ _ _ _ HW), map_length. lia.
Qed.
