(** Property C134: a nano node that has answered an RTS waits for the data. *)
From Coq Require Import ZArith List Lia Bool.
From Verif Require Import Base HeaderModel SeqModel EnergyModel NanoModel NanoProofs NanoSpec NanoOut NanoRetry NanoOrder NanoTrace NanoLate NanoBudget NanoLive NanoStatProofs NanoProps.
Import ListNotations.
Open Scope Z_scope.

(** Pending data timeouts stay. *)
Definition dkeeps (a : act) : Prop := forall s t n, U s -> In t (s_timers s) -> tm_kind t = KData n -> In t (s_timers (fst (a s))).

Lemma dk_seq a b : ukeeps a -> dkeeps a -> dkeeps b -> dkeeps (a ;; b).
Proof. intros UA A B s t n H I K. rewrite seqa_eq. cbn [fst]. eapply B; eauto. Qed.
Lemma dk_skip : dkeeps skip.
Proof. intros s t n H I K. exact I. Qed.
Lemma dk_emit o : dkeeps (emit o).
Proof. intros s t n H I K. exact I. Qed.
Lemma dk_booking c tx rx k : (forall b, dkeeps (k b)) -> dkeeps (booking c tx rx k).
Proof. intros H s t n I J K. rewrite booking_eq. cbv zeta. cbn [fst]. eapply H; eauto. Qed.
Lemma dk_refund c tx rx : dkeeps (refund c tx rx).
Proof. intros s t n H I K. exact I. Qed.
Lemma dk_send_rts c p : dkeeps (send_rts c p).
Proof. intros s t n H I K. unfold send_rts. cbn. apply in_or_app. auto. Qed.
Lemma dk_send_data c p : dkeeps (send_data c p).
Proof. intros s t n H I K. unfold send_data. destruct (_ =? _); [exact I|]. cbn. apply in_or_app. auto. Qed.
Lemma dk_check c p : dkeeps (check_resources c p).
Proof. unfold check_resources. destruct (_ && _); apply dk_booking; intros []; auto using dk_skip, dk_send_rts, dk_send_data. Qed.
Lemma dk_tx_first c : dkeeps (tx_first c).
Proof. intros s t n H I K. unfold tx_first. destruct (s_queue s); [exact I|eapply dk_check; eauto]. Qed.
Lemma dk_done ok p : dkeeps (send_data_done ok p).
Proof.
  intros s t n H I K. unfold send_data_done. cbn [fst].
  destruct (find (fun t => (f_seq (t_pkt t) >? f_seq p) && (f_dst (t_pkt t) =? f_dst p)) (s_tx s)); destruct ok; cbn; auto; apply in_or_app; auto.
Qed.
Lemma dk_retry c n arg draw : dkeeps (retry_or_discard c n arg draw).
Proof.
  intros s t q H I K. unfold retry_or_discard. destruct (bump _ _) as [[x l]|]; [|exact I].
  destruct (_ <=? _); [eapply dk_done; [|exact I|exact K]; exact H|]. unfold backoff. destruct (_ <? _); [|exact I]. cbn. apply in_or_app. auto.
Qed.
Lemma dk_cancel u s t : In t (s_timers s) -> tm_id t <> u -> In t (s_timers (cancel u s)).
Proof. intros I N. unfold cancel. cbn. apply filter_In. split; auto. apply negb_true_iff, Z.eqb_neq. exact N. Qed.

(** What ends a data timeout: it runs, or the data come. *)
Definition data_for (c : config) (n : Z) (e : event) : Prop :=
  match e with EvRecv f true => f_type f = T_DATA /\ f_dst f = c_addr c /\ f_seq f = n | _ => False end.
Lemma dk_step c s e t n : U s -> In t (s_timers s) -> tm_kind t = KData n -> ~ data_for c n e ->
  In t (s_timers (fst (step c s e))) \/ exists i draw, e = EvTimer i draw /\ nth_error (s_timers s) i = Some t.
Proof.
  intros H I K ND. destruct e; cbn [step].
  - left. destruct (enqueue_cases c size dst s) as [[_ E]|[[_ [_ E]]|[_ [_ E]]]]; rewrite E; try exact I.
    destruct (behind _ _ _); [exact I|]. cbn [fst]. eapply dk_tx_first; eauto.
  - left. unfold receive. destruct ok; cbn [negb]; [|exact I]. cbn [data_for] in ND.
    destruct (_ =? _).
    { unfold receive_rts. eapply dk_booking; [|exact H|exact I|exact K]. intros _. destruct (_ =? _); [|apply dk_skip].
      apply dk_booking. intros []; [|apply dk_skip]. intros s0 t0 n0 H0 I0 K0. rewrite seqa_eq. cbn. apply in_or_app. auto. }
    destruct (_ =? _).
    { unfold receive_cts. destruct (_ =? _); [|exact I]. rewrite seqa_eq. cbn [fst].
      destruct (find (fun x => fst x =? f_seq f) (s_cts s)) as [[q u]|] eqn:F; cbn [fst].
      - apply find_some in F. destruct F as [F _]. destruct (u_cts _ _ _ _ _ H q u F) as [_ X].
        assert (I1 : In t (s_timers (cancel u (set_cts (erase_first (fun x => fst x =? f_seq f) (s_cts s)) s)))).
        { apply dk_cancel; [exact I|]. intros E. destruct (X t I E) as (p & Y & _). congruence. }
        match goal with |- context [find ?q ?l] => destruct (find q l) end; [|exact I1]. eapply dk_send_data; [|exact I1|exact K]. apply ukeeps_cancel. eapply U0_sub; [exact H| | | |]; auto. cbn. intros x Z. eapply in_erase_first, Z.
      - match goal with |- context [find ?q ?l] => destruct (find q l) end; [|exact I]. eapply dk_send_data; eauto. }
    destruct (f_type f =? T_DATA) eqn:TD.
    { apply Z.eqb_eq in TD. assert (FW : dkeeps (forward_new f)) by (intros s0 t0 n0 H0 I0 K0; unfold forward_new; destruct (is_new _ _ _); exact I0).
      unfold receive_data. destruct (f_dst f =? bcast); [eapply FW; eauto|]. destruct (f_dst f =? c_addr c) eqn:FD; cbn [negb]; [|exact I]. apply Z.eqb_eq in FD.
      assert (NE : f_seq f <> n) by auto. set (rest := _ ;; _).
      assert (R : forall s0, U s0 -> In t (s_timers s0) -> In t (s_timers (fst (rest s0)))).
      { intros s0 H0 I0. subst rest. rewrite seqa_eq. cbn [fst].
        destruct (find (fun x => fst x =? f_seq f) (s_data s0)) as [[q u]|] eqn:F; cbn [fst].
        - apply find_some in F. destruct F as [F G]. cbn [fst] in G. apply Z.eqb_eq in G. destruct (u_data _ _ _ _ _ H0 q u F) as [_ X].
          rewrite seqa_eq. cbn [fst emit send_ack]. unfold forward_new. cbv zeta.
          assert (I1 : In t (s_timers (cancel u (set_data (erase_first (fun x => fst x =? f_seq f) (s_data s0)) s0)))).
          { apply dk_cancel; [exact I0|]. intros E. specialize (X t I0 E). congruence. }
          destruct (is_new _ _ _); exact I1.
        - rewrite seqa_eq. cbn [fst emit send_ack]. unfold forward_new. destruct (is_new _ _ _); exact I0. }
      destruct (c_rts c); [apply R; auto|]. rewrite booking_eq. cbv zeta. cbn [fst]. match goal with |- context [fst (book ?a ?b ?x ?y)] => destruct (fst (book a b x y)) end; [apply R; auto|exact I]. }
    destruct (f_type f =? T_ACK); [|exact I].
    unfold receive_ack. destruct (f_dst f =? c_addr c); [|exact I]. destruct (find _ _) as [[[q u] p]|] eqn:F; [|exact I].
    apply find_some in F. destruct F as [F _]. destruct (u_ack _ _ _ _ _ H q u p F) as [_ X]. rewrite seqa_eq. cbn [fst].
    change (In t (s_timers (fst (send_data_done true p (cancel u s))))). eapply dk_done; [apply ukeeps_cancel; exact H| |exact K].
    apply dk_cancel; [exact I|]. intros E. specialize (X t I E). congruence.
  - destruct (nth_error (s_timers s) i) as [x|] eqn:N; [|left; exact I].
    assert (IR : In t (remove_nth i (s_timers s)) \/ x = t).
    { clear - I N. revert i N. induction (s_timers s) as [|y l IH]; [destruct I|]. intros [|i] N; cbn in N.
      - injection N as ->. destruct I as [->|I]; auto.
      - destruct I as [->|I]; [left; left; reflexivity|]. destruct (IH I i N) as [J|J]; auto. left. right. exact J. }
    destruct IR as [IR| ->]; [left|right; eauto].
    assert (H1 : U (set_timers (remove_nth i (s_timers s)) s)).
    { eapply U0_sub; [exact H| | | |]; auto. cbn. intros z Z. eapply in_remove_nth, Z. }
    destruct (tm_kind x); cbn [fire].
    + eapply dk_check; [exact H1|exact IR|exact K].
    + unfold cts_timeout. rewrite !seqa_eq. cbn [fst]. eapply dk_retry; [|exact IR|exact K]. eapply U0_sub; [exact H1| | | |]; auto. cbn. intros z Z. eapply in_erase_first, Z.
    + unfold ack_timeout. rewrite !seqa_eq. cbn [fst]. eapply dk_retry; [|exact IR|exact K]. eapply U0_sub; [exact H1| | | |]; auto. cbn. intros z Z. eapply in_erase_first, Z.
    + exact IR.
  - left. exact I.
  - left. eapply dk_tx_first; eauto.
  - left. exact I.
Qed.

Lemma U_run c l : forall s, U s -> U (fst (run c s l)).
Proof.
  induction l as [|e l IH]; intros s H; [exact H|]. cbn [run]. specialize (IH _ (U_step c s e H)). destruct (step c s e) as [s1 o1]. cbn [fst] in IH.
  destruct (run c s1 l) as [s2 o2]. exact IH.
Qed.

(** In real time, unless the data come, the timeout is pending and not yet due, or it has run. *)
Lemma wait_run c n t : tm_kind t = KData n -> forall l s, U s -> In t (s_timers s) -> s_now s <= tm_due t -> timely_run c s l = true ->
  Forall (fun e => ~ data_for c n e) l -> s_now (fst (run c s l)) <= tm_due t \/ In (ORefund (hdr_size T_RTS) (c_framelen c)) (snd (run c s l)).
Proof.
  intros K. induction l as [|e l IH]; intros s H I B T F; [left; exact B|]. cbn [timely_run] in T. apply andb_true_iff in T. destruct T as [T1 T2].
  inversion F as [|? ? F1 F2]; subst. cbn [run]. pose proof (now_step c s e) as NS.
  destruct (dk_step c s e t n H I K F1) as [J|(i & draw & -> & N)].
  - specialize (IH _ (U_step c s e H) J). destruct (step c s e) as [s1 o1]. cbn [fst] in *.
    assert (B1 : s_now s1 <= tm_due t).
    { rewrite NS. destruct e; try exact B. cbn [timely] in T1. apply andb_true_iff in T1. destruct T1 as [_ T1]. rewrite forallb_forall in T1. apply Z.leb_le, T1, I. }
    specialize (IH B1 T2 F2). destruct (run c s1 l) as [s2 o2]. cbn [fst snd] in *. destruct IH as [IH|IH]; auto. right. apply in_or_app. auto.
  - right. cbn [step]. rewrite N, K. cbn [fire]. unfold data_timeout. rewrite seqa_eq. unfold refund, emit. cbn [fst snd app].
    match goal with |- context [run c ?x l] => destruct (run c x l) as [s2 o2] end. left. reflexivity.
Qed.

(** The node grants the data of an RTS. *)
Definition granted (c : config) (s : state) (f : frame) : Prop :=
  f_type f = T_RTS /\ In (OSend (ctrl T_CTS (c_addr c) (f_src f) (f_seq f))) (snd (step c s (EvRecv f true))).
Lemma granted_timer c s f : granted c s f ->
  In (Timer (s_uid s) (s_now s + (c_dur c (hdr_size T_CTS) + margin)) (KData (f_seq f))) (s_timers (fst (step c s (EvRecv f true)))).
Proof.
  intros [T I]. revert I. cbn [step]. unfold receive. cbn [negb]. rewrite T. change (T_RTS =? T_RTS) with true. cbv iota. unfold receive_rts. rewrite booking_eq. cbv zeta. cbn [fst snd].
  destruct (f_dst f =? c_addr c); [|cbn; intuition discriminate]. rewrite booking_eq. cbv zeta. cbn [fst snd].
  match goal with |- context [fst (book ?a ?b (2 * ?x) ?y)] => destruct (fst (book a b (2 * x) y)) end; [|cbn; intuition discriminate].
  intros _. cbn. apply in_or_app. right. left. reflexivity.
Qed.

Definition ps : Z := 1000.
(** The CTS reaches the source after [d1]; the source sends the data at once (ReceiveCts, thz-mac-nano.cc:631-677), which arrive after [d2].
    Up to 10 cm the timeout of the data, which returns the energy booked for them, is due later. *)
Definition C134_at (ok : config -> Z -> Z -> Prop) : Prop := forall c e0 l f d1 d2 size, let s := reach c e0 l in
  granted c s f -> 0 <= d1 -> 0 <= d2 -> d1 + d2 <= 666 * ps -> hdr_size T_DATA <= size -> ok c size (d1 + d2) ->
  exists u, In u (s_timers (fst (step c s (EvRecv f true)))) /\ tm_kind u = KData (f_seq f) /\
    s_now s + c_dur c (hdr_size T_CTS) + d1 + c_dur c size + d2 < tm_due u.

(** It holds if the data take less than what the delays leave of 676 ps. *)
Theorem C134_wait_partial : C134_at (fun c size d => c_dur c size < 676 * ps - d).
Proof.
  intros c e0 l f d1 d2 size s G D1 D2 D SZ OK. eexists. split; [apply granted_timer, G|]. split; [reflexivity|]. cbn [tm_due]. unfold margin, ps in *. lia.
Qed.
Print Assumptions C134_wait_partial.

(** Otherwise it is false. With the default symbol time of 10 ps the header of the data alone takes 1360 ps. *)
Definition ts10 (rts : bool) : config := Cfg 1 rts 1000 5 5 8000000000 (fun n => n * 8 * (10 * ps)) default_eparams.
Definition rts2 : frame := ctrl T_RTS 2 1 7.
Definition rich0 : Z := 10 ^ 9.
Definition C134_full : Prop := C134_at (fun _ _ _ => True).
Theorem C134_wait_refuted : ~ C134_full.
Proof.
  intros H. destruct (H (ts10 true) rich0 [] rts2 0 0 (hdr_size T_DATA)) as (u & I & _ & L); try (vm_compute; discriminate); auto.
  - split; [reflexivity|vm_compute; auto 8].
  - assert (E : s_timers (fst (step (ts10 true) (reach (ts10 true) rich0 []) (EvRecv rts2 true))) = [Timer 0 (19 * 8 * 10000 + 676000) (KData 7)]) by (vm_compute; reflexivity).
    rewrite E in I. destruct I as [<-|[]]. vm_compute in L. discriminate.
Qed.
Print Assumptions C134_wait_refuted.

(** Then the energy is always returned before the data are there: in every run in real time, if data that were granted arrive at the
    earliest possible time or later and take more than 676 ps, the timeout has run. *)
Theorem C134_returned : forall c e0 l f l2 size, let s := reach c e0 l in let s1 := fst (step c s (EvRecv f true)) in
  granted c s f -> 0 <= c_dur c (hdr_size T_CTS) -> 676 * ps < c_dur c size -> timely_run c s1 l2 = true -> Forall (fun e => ~ data_for c (f_seq f) e) l2 ->
  s_now s + c_dur c (hdr_size T_CTS) + c_dur c size <= s_now (fst (run c s1 l2)) ->
  In (ORefund (hdr_size T_RTS) (c_framelen c)) (snd (run c s1 l2)).
Proof.
  intros c e0 l f l2 size s s1 G C D T F N. pose proof (granted_timer c s f G) as I. fold s1 in I.
  assert (H : U s1) by (apply U_step, U_run, U_init).
  destruct (wait_run c (f_seq f) (Timer (s_uid s) (s_now s + (c_dur c (hdr_size T_CTS) + margin)) (KData (f_seq f))) eq_refl l2 s1 H I) as [X|X]; auto.
  - unfold s1. rewrite now_step. cbn [tm_due]. unfold margin. lia.
  - exfalso. cbn [tm_due] in X. unfold margin, ps in *. lia.
Qed.
Print Assumptions C134_returned.
(** The hypotheses of both: symbols of 100 fs and 20 bytes; symbols of 10 ps and 125 bytes, where the node returns the energy and then
    takes the data, acknowledges them and hands them up. *)
Example C134_example :
  granted (cfg true 1000 5 5) (reach (cfg true 1000 5 5) rich0 []) rts2 /\ c_dur (cfg true 1000 5 5) 20 < 676 * ps - 600 * ps /\
  let c := ts10 true in let s := reach c rich0 [] in let s1 := fst (step c s (EvRecv rts2 true)) in let d := 19 * 8 * 10 * ps in
  let l2 := [EvTick (d + 676 * ps); EvTimer 0 0; EvTick (d + 125 * 8 * 10 * ps)] in
  granted c s rts2 /\ d = c_dur c (hdr_size T_CTS) /\ timely_run c s1 l2 = true /\ s_now s + d + c_dur c 125 = s_now (fst (run c s1 l2)) /\
  snd (run c s1 l2) = [ORefund (hdr_size T_RTS) 5] /\
  let p := Frame T_DATA 2 1 7 125 0 in snd (step c (fst (run c s1 l2)) (EvRecv p true)) = [OSend (ctrl T_ACK 1 2 7); OUp p].
Proof. split; [split; [reflexivity|vm_compute; auto 8]|]. split; [vm_compute; reflexivity|]. cbv zeta. split; [split; [reflexivity|vm_compute; auto 8]|]. repeat split; vm_compute; reflexivity. Qed.
