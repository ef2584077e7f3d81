(** Property C138: a nano node that has sent an RTS waits for the CTS. *)
From Coq Require Import ZArith List Lia Bool.
From Verif Require Import Base HeaderModel SeqModel EnergyModel NanoModel NanoProofs NanoSpec NanoOut NanoRetry NanoOrder NanoTrace NanoLate NanoBudget NanoLive NanoStatProofs NanoProps NanoWait.
Import ListNotations.
Open Scope Z_scope.

(** Pending CTS timeouts stay. *)
Definition ckeeps (a : act) : Prop := forall s t p, U s -> In t (s_timers s) -> tm_kind t = KCts p -> In t (s_timers (fst (a s))).
Lemma ck_skip : ckeeps skip.
Proof. intros s t p H I K. exact I. Qed.
Lemma ck_booking c tx rx k : (forall b, ckeeps (k b)) -> ckeeps (booking c tx rx k).
Proof. intros H s t p I J K. rewrite booking_eq. cbv zeta. cbn [fst]. eapply H; eauto. Qed.
Lemma ck_send_rts c p : ckeeps (send_rts c p).
Proof. intros s t q H I K. unfold send_rts. cbn. apply in_or_app. auto. Qed.
Lemma ck_send_data c p : ckeeps (send_data c p).
Proof. intros s t q H I K. unfold send_data. destruct (_ =? _); [exact I|]. cbn. apply in_or_app. auto. Qed.
Lemma ck_check c p : ckeeps (check_resources c p).
Proof. unfold check_resources. destruct (_ && _); apply ck_booking; intros []; auto using ck_skip, ck_send_rts, ck_send_data. Qed.
Lemma ck_tx_first c : ckeeps (tx_first c).
Proof. intros s t p H I K. unfold tx_first. destruct (s_queue s); [exact I|eapply ck_check; eauto]. Qed.
Lemma ck_done ok p : ckeeps (send_data_done ok p).
Proof.
  intros s t n H I K. unfold send_data_done. cbn [fst].
  destruct (find (fun t => (f_seq (t_pkt t) >? f_seq p) && (f_dst (t_pkt t) =? f_dst p)) (s_tx s)); destruct ok; cbn; auto; apply in_or_app; auto.
Qed.
Lemma ck_retry c n arg draw : ckeeps (retry_or_discard c n arg draw).
Proof.
  intros s t q H I K. unfold retry_or_discard. destruct (bump _ _) as [[x l]|]; [|exact I].
  destruct (_ <=? _); [eapply ck_done; [|exact I|exact K]; exact H|]. unfold backoff. destruct (_ <? _); [|exact I]. cbn. apply in_or_app. auto.
Qed.

(** What ends a CTS timeout: it runs, or a CTS with the number comes. *)
Definition cts_for (c : config) (n : Z) (e : event) : Prop :=
  match e with EvRecv f true => f_type f = T_CTS /\ f_dst f = c_addr c /\ f_seq f = n | _ => False end.
Lemma ck_step c s e t p : U s -> In t (s_timers s) -> tm_kind t = KCts p -> ~ cts_for c (f_seq p) e ->
  In t (s_timers (fst (step c s e))) \/ exists i draw, e = EvTimer i draw /\ nth_error (s_timers s) i = Some t.
Proof.
  intros H I K ND. destruct e; cbn [step].
  - left. destruct (enqueue_cases c size dst s) as [[_ E]|[[_ [_ E]]|[_ [_ E]]]]; rewrite E; try exact I.
    destruct (behind _ _ _); [exact I|]. cbn [fst]. eapply ck_tx_first; eauto.
  - left. unfold receive. destruct ok; cbn [negb]; [|exact I]. cbn [cts_for] in ND.
    destruct (_ =? _).
    { unfold receive_rts. eapply ck_booking; [|exact H|exact I|exact K]. intros _. destruct (_ =? _); [|apply ck_skip].
      apply ck_booking. intros []; [|apply ck_skip]. intros s0 t0 n0 H0 I0 K0. rewrite seqa_eq. cbn. apply in_or_app. auto. }
    destruct (f_type f =? T_CTS) eqn:TC.
    { apply Z.eqb_eq in TC. unfold receive_cts. destruct (f_dst f =? c_addr c) eqn:FD; [|exact I]. apply Z.eqb_eq in FD.
      assert (NE : f_seq f <> f_seq p) by auto. rewrite seqa_eq. cbn [fst].
      destruct (find (fun x => fst x =? f_seq f) (s_cts s)) as [[q u]|] eqn:F; cbn [fst].
      - apply find_some in F. destruct F as [F G]. cbn [fst] in G. apply Z.eqb_eq in G. destruct (u_cts _ _ _ _ _ H q u F) as [_ X].
        assert (I1 : In t (s_timers (cancel u (set_cts (erase_first (fun x => fst x =? f_seq f) (s_cts s)) s)))).
        { apply dk_cancel; [exact I|]. intros E. destruct (X t I E) as (p' & Y & Z). rewrite K in Y. injection Y as <-. congruence. }
        match goal with |- context [find ?q ?l] => destruct (find q l) end; [|exact I1]. eapply ck_send_data; [|exact I1|exact K]. apply ukeeps_cancel. eapply U0_sub; [exact H| | | |]; auto. cbn. intros x Z. eapply in_erase_first, Z.
      - match goal with |- context [find ?q ?l] => destruct (find q l) end; [|exact I]. eapply ck_send_data; eauto. }
    destruct (f_type f =? T_DATA).
    { unfold receive_data. assert (FW : forall s0, In t (s_timers s0) -> In t (s_timers (fst (forward_new f s0)))) by (intros s0 I0; unfold forward_new; destruct (is_new _ _ _); exact I0).
      destruct (f_dst f =? bcast); [apply FW; auto|]. destruct (f_dst f =? c_addr c); cbn [negb]; [|exact I]. set (rest := _ ;; _).
      assert (R : forall s0, U s0 -> In t (s_timers s0) -> In t (s_timers (fst (rest s0)))).
      { intros s0 H0 I0. subst rest. rewrite seqa_eq. cbn [fst].
        destruct (find (fun x => fst x =? f_seq f) (s_data s0)) as [[q u]|] eqn:F; cbn [fst].
        - apply find_some in F. destruct F as [F G]. destruct (u_data _ _ _ _ _ H0 q u F) as [_ X].
          rewrite seqa_eq. cbn [fst emit send_ack]. apply FW. apply dk_cancel; [exact I0|]. intros E. specialize (X t I0 E). congruence.
        - rewrite seqa_eq. cbn [fst emit send_ack]. apply FW. exact I0. }
      destruct (c_rts c); [apply R; auto|]. rewrite booking_eq. cbv zeta. cbn [fst]. match goal with |- context [fst (book ?a ?b ?x ?y)] => destruct (fst (book a b x y)) end; [apply R; auto|exact I]. }
    destruct (f_type f =? T_ACK); [|exact I].
    unfold receive_ack. destruct (f_dst f =? c_addr c); [|exact I]. destruct (find _ _) as [[[q u] p0]|] eqn:F; [|exact I].
    apply find_some in F. destruct F as [F _]. destruct (u_ack _ _ _ _ _ H q u p0 F) as [_ X]. rewrite seqa_eq. cbn [fst].
    change (In t (s_timers (fst (send_data_done true p0 (cancel u s))))). eapply ck_done; [apply ukeeps_cancel; exact H| |exact K].
    apply dk_cancel; [exact I|]. intros E. specialize (X t I E). congruence.
  - destruct (nth_error (s_timers s) i) as [x|] eqn:N; [|left; exact I].
    assert (IR : In t (remove_nth i (s_timers s)) \/ x = t).
    { clear - I N. revert i N. induction (s_timers s) as [|y l IH]; [destruct I|]. intros [|i] N; cbn in N.
      - injection N as ->. destruct I as [->|I]; auto.
      - destruct I as [->|I]; [left; left; reflexivity|]. destruct (IH I i N) as [J|J]; auto. left. right. exact J. }
    destruct IR as [IR| ->]; [left|right; eauto].
    assert (H1 : U (set_timers (remove_nth i (s_timers s)) s)).
    { eapply U0_sub; [exact H| | | |]; auto. cbn. intros z Z. eapply in_remove_nth, Z. }
    destruct (tm_kind x); cbn [fire].
    + eapply ck_check; [exact H1|exact IR|exact K].
    + unfold cts_timeout. rewrite !seqa_eq. cbn [fst]. eapply ck_retry; [|exact IR|exact K]. eapply U0_sub; [exact H1| | | |]; auto. cbn. intros z Z. eapply in_erase_first, Z.
    + unfold ack_timeout. rewrite !seqa_eq. cbn [fst]. eapply ck_retry; [|exact IR|exact K]. eapply U0_sub; [exact H1| | | |]; auto. cbn. intros z Z. eapply in_erase_first, Z.
    + exact IR.
  - left. exact I.
  - left. eapply ck_tx_first; eauto.
  - left. exact I.
Qed.

Lemma now_up c l : forall s, timely_run c s l = true -> s_now s <= s_now (fst (run c s l)).
Proof.
  induction l as [|e l IH]; intros s T; [cbn; lia|]. cbn [timely_run] in T. apply andb_true_iff in T. destruct T as [T1 T2]. specialize (IH _ T2). cbn [run].
  pose proof (now_step c s e) as NS. destruct (step c s e) as [s1 o1]. cbn [fst] in *. destruct (run c s1 l) as [s2 o2]. cbn [fst] in *.
  destruct e; try lia. cbn [timely] in T1. apply andb_true_iff in T1. destruct T1 as [T1 _]. apply Z.leb_le in T1. lia.
Qed.
Lemma pending_run c t p : tm_kind t = KCts p -> forall l s, U s -> In t (s_timers s) -> timely_run c s l = true ->
  Forall (fun e => ~ cts_for c (f_seq p) e) l -> s_now (fst (run c s l)) < tm_due t -> In t (s_timers (fst (run c s l))).
Proof.
  intros K. induction l as [|e l IH]; intros s H I T F N; [exact I|]. pose proof (now_up c (e :: l) s T) as UP. cbn [timely_run] in T. apply andb_true_iff in T. destruct T as [T1 T2].
  inversion F as [|? ? F1 F2]; subst. cbn [run] in *. destruct (ck_step c s e t p H I K F1) as [J|(i & draw & -> & X)].
  - specialize (IH _ (U_step c s e H) J T2 F2). destruct (step c s e) as [s1 o1]. cbn [fst] in *. destruct (run c s1 l) as [s2 o2]. cbn [fst] in *. auto.
  - exfalso. cbn [timely] in T1. rewrite X in T1. apply andb_true_iff in T1. destruct T1 as [T1 _]. apply Z.eqb_eq in T1. lia.
Qed.

(** An RTS is sent together with its timeout. *)
Definition awaits (c : config) (s : state) (f : frame) (s' : state) : Prop :=
  exists p, In (Timer (s_uid s) (s_now s + (c_dur c (hdr_size T_RTS) + c_dur c (hdr_size T_CTS) + margin)) (KCts p)) (s_timers s') /\ f_seq p = f_seq f /\ f_dst p = f_dst f.
Lemma check_rts c p s f : f_type p = T_DATA -> In (OSend f) (snd (check_resources c p s)) -> f_type f = T_RTS -> awaits c s f (fst (check_resources c p s)).
Proof.
  intros TD I TF. unfold check_resources in *. destruct (_ && _); rewrite booking_eq in *; cbv zeta in *; cbn [fst snd] in *; destruct I as [I|I]; try discriminate.
  - match goal with |- context [fst (book ?a ?b ?x ?y)] => destruct (fst (book a b x y)) end; [|destruct I]. unfold send_rts in *. cbn [snd] in I. destruct I as [I|[]]. injection I as <-.
    exists p. split; [cbn; apply in_or_app; right; left; reflexivity|]. split; reflexivity.
  - exfalso. destruct (fst _); [|destruct I]. unfold send_data in I. destruct (_ =? _); destruct I as [I|[]]; injection I as <-; rewrite TD in TF; discriminate.
Qed.
Lemma first_rts c s tr f : W c s tr -> In (OSend f) (snd (tx_first c s)) -> f_type f = T_RTS -> awaits c s f (fst (tx_first c s)).
Proof.
  intros H I TF. destruct (tx_first_send c s tr f H I) as (p0 & _ & _ & _). unfold tx_first in *. destruct (s_queue s) as [|p q] eqn:E; [destruct I|].
  apply check_rts; auto. rewrite (w_queue _ _ _ _ _ _ _ _ _ _ H) in E. destruct (s_tx s) as [|t l] eqn:T; [discriminate|]. injection E as <- _.
  apply (acc_data c s tr); auto. apply (w_tx _ _ _ _ _ _ _ _ _ _ H). rewrite T. left; auto.
Qed.
Lemma rts_step c s tr e f : config_ok c -> W c s tr -> In (OSend f) (snd (step c s e)) -> f_type f = T_RTS -> awaits c s f (fst (step c s e)).
Proof.
  intros C H I TF. destruct e; cbn [step] in *.
  - destruct (enqueue_cases c size dst s) as [[_ E]|[[_ [_ E]]|[_ [Q E]]]]; rewrite E in *; cbn [fst snd] in *.
    1,2: exfalso; destruct I as [|[]]; discriminate.
    cbv zeta in *. destruct (behind _ _ _); cbn [fst snd] in *; [exfalso; destruct I as [|[|[]]]; discriminate|].
    destruct I as [X|X]; [discriminate|]. apply in_app_or in X. destruct X as [X|[X|[]]]; [|discriminate].
    pose proof (W_accept c s tr size dst C H Q) as W2. cbv zeta in W2. exact (first_rts c _ _ f W2 X TF).
  - exfalso. unfold receive in *. destruct ok; cbn [negb] in *; [|destruct I].
    destruct (f_type f0 =? T_RTS).
    { unfold receive_rts in I. rewrite booking_eq in I. cbv zeta in I. cbn [snd] in I. destruct I as [I|I]; [discriminate|].
      destruct (f_dst f0 =? c_addr c); [|destruct I]. rewrite booking_eq in I. cbv zeta in I. cbn [snd] in I.
      destruct I as [I|I]; [discriminate|]. destruct (fst (book _ _ (2 * _) _)); [|destruct I].
      rewrite seqa_eq in I. cbn [snd app] in I. destruct I as [I|[]]. injection I as <-. discriminate. }
    destruct (f_type f0 =? T_CTS).
    { unfold receive_cts in I. destruct (f_dst f0 =? c_addr c); [|destruct I]. rewrite seqa_eq in I. cbn [snd] in I. apply in_app_or in I. destruct I as [I|I].
      - destruct (find _ _) as [[? ?]|] in I; destruct I.
      - revert I. set (r := fst _). assert (s_tx r = s_tx s) as R3 by (unfold r; destruct (find _ (s_cts s)) as [[? ?]|]; reflexivity).
        rewrite R3. destruct (find _ (s_tx s)) as [t|] eqn:F; [|intros []]. rewrite send_data_out. intros [I|[]]. injection I as <-. apply find_some in F. destruct F as [F _].
        destruct (acc_data c s tr (t_pkt t) H (w_tx _ _ _ _ _ _ _ _ _ _ H t F)) as [TD _]. rewrite TD in TF. discriminate. }
    destruct (f_type f0 =? T_DATA); [apply receive_data_send in I; destruct I as (_ & _ & ->); discriminate|].
    destruct (f_type f0 =? T_ACK); [|destruct I]. destruct (receive_ack_cases c f0 s) as [[_ [m [u [q [F [X [J O]]]]]]]|E].
    + rewrite O in I. apply in_map_iff in I. destruct I as [x [E _]]. discriminate.
    + rewrite E in I. destruct I.
  - destruct (nth_error (s_timers s) i) as [t|] eqn:N; [|destruct I].
    apply nth_error_In in N. pose proof (w_tm _ _ _ _ _ _ _ _ _ _ H t N) as TK.
    destruct (tm_kind t); cbn [fire tm_ok] in *.
    + exact (check_rts c p (set_timers (remove_nth i (s_timers s)) s) f (proj1 (acc_data c s tr p H TK)) I TF).
    + exfalso. unfold cts_timeout in I. rewrite (timeout_eq c (f_seq p) (Some p) draw (OTimeout (f_seq p)) (fun s => set_cts (erase_first (fun x => fst x =? f_seq p) (s_cts s)) s)) in I.
      cbv zeta in I. cbn [snd] in I. destruct I as [I|[I|I]]; try discriminate. eapply retry_no_send, I.
    + exfalso. unfold ack_timeout in I. rewrite (timeout_eq c sq None draw (OTimeout sq) (fun s => set_ack (erase_first (fun x => fst (fst x) =? sq) (s_ack s)) s)) in I.
      cbv zeta in I. cbn [snd] in I. destruct I as [I|[I|I]]; try discriminate. eapply retry_no_send, I.
    + destruct I as [I|[]]. discriminate.
  - destruct I.
  - exact (first_rts c s tr f H I TF).
  - destruct I.
Qed.

(** * C138 *)

(** A node sends an RTS [f]; the RTS takes [d1] to its destination, the CTS sent there at once [d2] back. Then, in every run in real time in which no CTS with the number came before,
    the timeout of the RTS has not run when the CTS is there, if the two ways take less than 676 ps; and the node sends the packet at once, unless it was reported before. *)
Theorem C138_wait : forall c e0 l e f d1 d2 l2, 0 <= c_limit c -> let s := reach c e0 l in let s1 := fst (step c s e) in let s2 := fst (run c s1 l2) in
  In (OSend f) (snd (step c s e)) -> f_type f = T_RTS -> timely_run c s1 l2 = true -> Forall (fun x => ~ cts_for c (f_seq f) x) l2 ->
  d1 + d2 < 676 * ps -> s_now s2 = s_now s + c_dur c (hdr_size T_RTS) + d1 + c_dur c (hdr_size T_CTS) + d2 ->
  exists t p, In t (s_timers s2) /\ tm_kind t = KCts p /\ f_seq p = f_seq f /\ f_dst p = f_dst f /\ s_now s2 < tm_due t /\
  forall g, f_type g = T_CTS -> f_src g = f_dst f -> f_dst g = c_addr c -> f_seq g = f_seq f ->
    (exists ok, In (ODone ok p) (effects c e0 l ++ snd (step c s e) ++ snd (run c s1 l2))) \/
    exists q, In (OSend q) (snd (step c s2 (EvRecv g true))) /\ f_type q = T_DATA /\ f_seq q = f_seq f /\ f_dst q = f_dst f.
Proof.
  intros c e0 l e f d1 d2 l2 C s s1 s2 I TF T F D N. pose proof (W_reach c e0 l C) as HW. change (fst (run c (init e0) l)) with s in HW. change (snd (run c (init e0) l)) with (effects c e0 l) in HW. set (tr := effects c e0 l) in *.
  assert (W1 : W c s1 (tr ++ snd (step c s e))) by apply (W_step c s tr e C HW).
  assert (W2 : W c s2 (tr ++ snd (step c s e) ++ snd (run c s1 l2))) by (rewrite app_assoc; apply W_run; auto).
  destruct (rts_step c s tr e f C HW I TF) as (p & P & PS & PD). fold s1 in P.
  set (t := Timer (s_uid s) (s_now s + (c_dur c (hdr_size T_RTS) + c_dur c (hdr_size T_CTS) + margin)) (KCts p)) in P.
  assert (DUE : s_now s2 < tm_due t) by (rewrite N; cbn [t tm_due]; unfold margin, ps in *; lia).
  assert (P2 : In t (s_timers s2)).
  { unfold s2. eapply pending_run; [reflexivity|apply U_step, U_run, U_init|exact P|exact T|rewrite PS; exact F|exact DUE]. }
  exists t, p. split; [exact P2|]. split; [reflexivity|]. split; [exact PS|]. split; [exact PD|]. split; [exact DUE|].
  intros g TG SG DG QG. pose proof (w_tm _ _ _ _ _ _ _ _ _ _ W2 t P2) as A. cbn [t tm_kind tm_ok] in A.
  destruct (w_all _ _ _ _ _ _ _ _ _ _ W2 p (proj1 A)) as [X|X]; [right|left; exact X]. apply in_map_iff in X. destruct X as (x & XP & X).
  cbn [step]. unfold receive. cbn [negb]. rewrite TG. change (T_CTS =? T_RTS) with false. change (T_CTS =? T_CTS) with true. cbv iota.
  unfold receive_cts. rewrite DG, Z.eqb_refl. rewrite seqa_eq. cbn [snd]. set (r := fst _).
  assert (s_tx r = s_tx s2) as R3 by (unfold r; destruct (find _ (s_cts s2)) as [[? ?]|]; reflexivity). rewrite R3, SG, QG.
  destruct (find _ (s_tx s2)) as [y|] eqn:G.
  - apply find_some in G. destruct G as [G E]. apply andb_true_iff in E. destruct E as [E1 E2]. apply Z.eqb_eq in E1, E2. exists (t_pkt y). rewrite send_data_out.
    split; [apply in_or_app; right; left; reflexivity|]. split; [|auto].
    apply (acc_data c s2 _ _ W2 (w_tx _ _ _ _ _ _ _ _ _ _ W2 y G)).
  - exfalso. pose proof (find_none _ _ G x X) as Z. cbn in Z. rewrite XP, PS, PD, !Z.eqb_refl in Z. discriminate.
Qed.
Print Assumptions C138_wait.

(** A CTS after 660 ps on the way: the timeout is pending, the packet is sent; a CTS for another number does not end the wait. *)
Example C138_example : let c := ts10 true in let s := reach c rich0 [] in let e := EvEnqueue 100 2 in let s1 := fst (step c s e) in let f := ctrl T_RTS 1 2 1 in
  let l2 := [EvTick (1000 * ps); EvRecv (ctrl T_CTS 2 1 9) true; EvTick (37 * 80 * ps + 660 * ps)] in let s2 := fst (run c s1 l2) in
  In (OSend f) (snd (step c s e)) /\ timely_run c s1 l2 = true /\ Forall (fun x => ~ cts_for c (f_seq f) x) l2 /\
  s_now s2 = s_now s + c_dur c (hdr_size T_RTS) + 300 * ps + c_dur c (hdr_size T_CTS) + 360 * ps /\
  snd (step c s2 (EvRecv (ctrl T_CTS 2 1 1) true)) = [OSend (data 2 1 117 0)] /\
  (* from 676 ps on the timeout comes first *)
  timely_run c s1 [EvTick (37 * 80 * ps + 676 * ps); EvTimer 0 0] = true /\ In (OTimeout 1) (snd (run c s1 [EvTick (37 * 80 * ps + 676 * ps); EvTimer 0 0])).
Proof.
  cbv zeta. split; [vm_compute; auto|]. split; [vm_compute; reflexivity|]. split.
  { constructor; [cbn [cts_for]; auto|]. constructor; [vm_compute; intros (_ & _ & X); discriminate|]. constructor; [cbn [cts_for]; auto|constructor]. }
  split; [vm_compute; reflexivity|]. split; [vm_compute; reflexivity|]. split; [vm_compute; reflexivity|vm_compute; auto].
Qed.
