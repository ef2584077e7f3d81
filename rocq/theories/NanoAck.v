(** Property C139: a nano node that has sent data waits for the acknowledgement. *)
From Coq Require Import ZArith List Lia Bool.
From Verif Require Import Base HeaderModel SeqModel EnergyModel NanoModel NanoProofs NanoSpec NanoOut NanoRetry NanoOrder NanoTrace NanoLate NanoBudget NanoLive NanoStatProofs NanoProps NanoWait NanoCts.
Import ListNotations.
Open Scope Z_scope.

(** Pending acknowledgement timeouts stay. *)
Definition akeeps (a : act) : Prop := forall s t p, U s -> In t (s_timers s) -> tm_kind t = KAck p -> In t (s_timers (fst (a s))).
Lemma ak_skip : akeeps skip.
Proof. intros s t p H I K. exact I. Qed.
Lemma ak_booking c tx rx k : (forall b, akeeps (k b)) -> akeeps (booking c tx rx k).
Proof. intros H s t p I J K. rewrite booking_eq. cbv zeta. cbn [fst]. eapply H; eauto. Qed.
Lemma ak_send_rts c p : akeeps (send_rts c p).
Proof. intros s t q H I K. unfold send_rts. cbn. apply in_or_app. auto. Qed.
Lemma ak_send_data c p : akeeps (send_data c p).
Proof. intros s t q H I K. unfold send_data. destruct (_ =? _); [exact I|]. cbn. apply in_or_app. auto. Qed.
Lemma ak_check c p : akeeps (check_resources c p).
Proof. unfold check_resources. destruct (_ && _); apply ak_booking; intros []; auto using ak_skip, ak_send_rts, ak_send_data. Qed.
Lemma ak_tx_first c : akeeps (tx_first c).
Proof. intros s t p H I K. unfold tx_first. destruct (s_queue s); [exact I|eapply ak_check; eauto]. Qed.
Lemma ak_done ok p : akeeps (send_data_done ok p).
Proof.
  intros s t n H I K. unfold send_data_done. cbn [fst].
  destruct (find (fun t => (f_seq (t_pkt t) >? f_seq p) && (f_dst (t_pkt t) =? f_dst p)) (s_tx s)); destruct ok; cbn; auto; apply in_or_app; auto.
Qed.
Lemma ak_retry c n arg draw : akeeps (retry_or_discard c n arg draw).
Proof.
  intros s t q H I K. unfold retry_or_discard. destruct (bump _ _) as [[x l]|]; [|exact I].
  destruct (_ <=? _); [eapply ak_done; [|exact I|exact K]; exact H|]. unfold backoff. destruct (_ <? _); [|exact I]. cbn. apply in_or_app. auto.
Qed.

(** What ends an acknowledgement timeout: it runs, or an ACK with the number comes. *)
Definition ack_for (c : config) (n : Z) (e : event) : Prop :=
  match e with EvRecv f true => f_type f = T_ACK /\ f_dst f = c_addr c /\ f_seq f = n | _ => False end.
Lemma ak_step c s e t p : U s -> In t (s_timers s) -> tm_kind t = KAck p -> ~ ack_for c p e ->
  In t (s_timers (fst (step c s e))) \/ exists i draw, e = EvTimer i draw /\ nth_error (s_timers s) i = Some t.
Proof.
  intros H I K ND. destruct e; cbn [step].
  - left. destruct (enqueue_cases c size dst s) as [[_ E]|[[_ [_ E]]|[_ [_ E]]]]; rewrite E; try exact I.
    destruct (behind _ _ _); [exact I|]. cbn [fst]. eapply ak_tx_first; eauto.
  - left. unfold receive. destruct ok; cbn [negb]; [|exact I]. cbn [ack_for] in ND.
    destruct (_ =? _).
    { unfold receive_rts. eapply ak_booking; [|exact H|exact I|exact K]. intros _. destruct (_ =? _); [|apply ak_skip].
      apply ak_booking. intros []; [|apply ak_skip]. intros s0 t0 n0 H0 I0 K0. rewrite seqa_eq. cbn. apply in_or_app. auto. }
    destruct (f_type f =? T_CTS).
    { unfold receive_cts. destruct (f_dst f =? c_addr c); [|exact I]. rewrite seqa_eq. cbn [fst].
      destruct (find (fun x => fst x =? f_seq f) (s_cts s)) as [[q u]|] eqn:F; cbn [fst].
      - apply find_some in F. destruct F as [F G]. destruct (u_cts _ _ _ _ _ H q u F) as [_ X].
        assert (I1 : In t (s_timers (cancel u (set_cts (erase_first (fun x => fst x =? f_seq f) (s_cts s)) s)))).
        { apply dk_cancel; [exact I|]. intros E. destruct (X t I E) as (p' & Y & _). congruence. }
        match goal with |- context [find ?q ?l] => destruct (find q l) end; [|exact I1]. eapply ak_send_data; [|exact I1|exact K]. apply ukeeps_cancel. eapply U0_sub; [exact H| | | |]; auto. cbn. intros x Z. eapply in_erase_first, Z.
      - match goal with |- context [find ?q ?l] => destruct (find q l) end; [|exact I]. eapply ak_send_data; eauto. }
    destruct (f_type f =? T_DATA).
    { unfold receive_data. assert (FW : forall s0, In t (s_timers s0) -> In t (s_timers (fst (forward_new f s0)))) by (intros s0 I0; unfold forward_new; destruct (is_new _ _ _); exact I0).
      destruct (f_dst f =? bcast); [apply FW; auto|]. destruct (f_dst f =? c_addr c); cbn [negb]; [|exact I]. set (rest := _ ;; _).
      assert (R : forall s0, U s0 -> In t (s_timers s0) -> In t (s_timers (fst (rest s0)))).
      { intros s0 H0 I0. subst rest. rewrite seqa_eq. cbn [fst].
        destruct (find (fun x => fst x =? f_seq f) (s_data s0)) as [[q u]|] eqn:F; cbn [fst].
        - apply find_some in F. destruct F as [F G]. destruct (u_data _ _ _ _ _ H0 q u F) as [_ X].
          rewrite seqa_eq. cbn [fst emit send_ack]. apply FW. apply dk_cancel; [exact I0|]. intros E. specialize (X t I0 E). congruence.
        - rewrite seqa_eq. cbn [fst emit send_ack]. apply FW. exact I0. }
      destruct (c_rts c); [apply R; auto|]. rewrite booking_eq. cbv zeta. cbn [fst]. match goal with |- context [fst (book ?a ?b ?x ?y)] => destruct (fst (book a b x y)) end; [apply R; auto|exact I]. }
    destruct (f_type f =? T_ACK) eqn:TA; [|exact I]. apply Z.eqb_eq in TA.
    unfold receive_ack. destruct (f_dst f =? c_addr c) eqn:FD; [|exact I]. apply Z.eqb_eq in FD. destruct (find _ _) as [[[q u] p0]|] eqn:F; [|exact I].
    apply find_some in F. destruct F as [F G]. cbn [fst] in G. apply Z.eqb_eq in G. destruct (u_ack _ _ _ _ _ H q u p0 F) as [_ X]. rewrite seqa_eq. cbn [fst].
    change (In t (s_timers (fst (send_data_done true p0 (cancel u s))))). eapply ak_done; [apply ukeeps_cancel; exact H| |exact K].
    apply dk_cancel; [exact I|]. intros E. specialize (X t I E). rewrite K in X. injection X as X. apply ND. repeat split; auto. congruence.
  - destruct (nth_error (s_timers s) i) as [x|] eqn:N; [|left; exact I].
    assert (IR : In t (remove_nth i (s_timers s)) \/ x = t).
    { clear - I N. revert i N. induction (s_timers s) as [|y l IH]; [destruct I|]. intros [|i] N; cbn in N.
      - injection N as ->. destruct I as [->|I]; auto.
      - destruct I as [->|I]; [left; left; reflexivity|]. destruct (IH I i N) as [J|J]; auto. left. right. exact J. }
    destruct IR as [IR| ->]; [left|right; eauto].
    assert (H1 : U (set_timers (remove_nth i (s_timers s)) s)).
    { eapply U0_sub; [exact H| | | |]; auto. cbn. intros z Z. eapply in_remove_nth, Z. }
    destruct (tm_kind x); cbn [fire].
    + eapply ak_check; [exact H1|exact IR|exact K].
    + unfold cts_timeout. rewrite !seqa_eq. cbn [fst]. eapply ak_retry; [|exact IR|exact K]. eapply U0_sub; [exact H1| | | |]; auto. cbn. intros z Z. eapply in_erase_first, Z.
    + unfold ack_timeout. rewrite !seqa_eq. cbn [fst]. eapply ak_retry; [|exact IR|exact K]. eapply U0_sub; [exact H1| | | |]; auto. cbn. intros z Z. eapply in_erase_first, Z.
    + exact IR.
  - left. exact I.
  - left. eapply ak_tx_first; eauto.
  - left. exact I.
Qed.

Lemma apending_run c t n : tm_kind t = KAck n -> forall l s, U s -> In t (s_timers s) -> timely_run c s l = true ->
  Forall (fun e => ~ ack_for c n e) l -> s_now (fst (run c s l)) < tm_due t -> In t (s_timers (fst (run c s l))).
Proof.
  intros K. induction l as [|e l IH]; intros s H I T F N; [exact I|]. pose proof (now_up c (e :: l) s T) as UP. cbn [timely_run] in T. apply andb_true_iff in T. destruct T as [T1 T2].
  inversion F as [|? ? F1 F2]; subst. cbn [run] in *. destruct (ak_step c s e t n H I K F1) as [J|(i & draw & -> & X)].
  - specialize (IH _ (U_step c s e H) J T2 F2). destruct (step c s e) as [s1 o1]. cbn [fst] in *. destruct (run c s1 l) as [s2 o2]. cbn [fst] in *. auto.
  - exfalso. cbn [timely] in T1. rewrite X in T1. apply andb_true_iff in T1. destruct T1 as [T1 _]. apply Z.eqb_eq in T1. lia.
Qed.

(** The record of the timeout stays as well, as long as no timeout with the number runs. *)
Definition listed (n : Z) (s : state) : Prop := exists x, In x (s_ack s) /\ fst (fst x) = n.
Definition lkeeps (a : act) : Prop := forall n s, listed n s -> listed n (fst (a s)).
Lemma lk_skip : lkeeps skip.
Proof. intros n s H. exact H. Qed.
Lemma lk_booking c tx rx k : (forall b, lkeeps (k b)) -> lkeeps (booking c tx rx k).
Proof. intros H n s I. rewrite booking_eq. cbv zeta. cbn [fst]. apply H. exact I. Qed.
Lemma lk_send_rts c p : lkeeps (send_rts c p).
Proof. intros n s H. exact H. Qed.
Lemma lk_send_data c p : lkeeps (send_data c p).
Proof. intros n s (x & X & E). unfold send_data. destruct (_ =? _); [exists x; auto|]. exists x. split; [cbn; apply in_or_app; auto|exact E]. Qed.
Lemma lk_check c p : lkeeps (check_resources c p).
Proof. unfold check_resources. destruct (_ && _); apply lk_booking; intros []; auto using lk_skip, lk_send_rts, lk_send_data. Qed.
Lemma lk_tx_first c : lkeeps (tx_first c).
Proof. intros n s H. unfold tx_first. destruct (s_queue s); [exact H|apply lk_check; exact H]. Qed.
Lemma lk_done ok p : lkeeps (send_data_done ok p).
Proof. intros n s H. unfold send_data_done. cbn [fst]. destruct (find _ (s_tx s)); destruct ok; exact H. Qed.
Lemma lk_retry c m arg draw : lkeeps (retry_or_discard c m arg draw).
Proof.
  intros n s H. unfold retry_or_discard. destruct (bump _ _) as [[x l]|]; [|exact H].
  destruct (_ <=? _); [apply lk_done; exact H|]. unfold backoff. destruct (_ <? _); exact H.
Qed.
Lemma erase_listed n m (l : list (Z * Z * frame)) x : In x l -> fst (fst x) = n -> m <> n -> In x (erase_first (fun x => fst (fst x) =? m) l).
Proof.
  intros I E D. induction l as [|y l IH]; [destruct I|]. cbn [erase_first]. destruct (fst (fst y) =? m) eqn:Y.
  - destruct I as [->|I]; [apply Z.eqb_eq in Y; congruence|exact I].
  - destruct I as [->|I]; [left; reflexivity|right; auto].
Qed.
Lemma lk_step c s e n : listed n s -> ~ ack_for c n e -> ~ In (OTimeout n) (snd (step c s e)) -> listed n (fst (step c s e)).
Proof.
  intros H NA NT. destruct e; cbn [step] in *.
  - destruct (enqueue_cases c size dst s) as [[_ E]|[[_ [_ E]]|[_ [_ E]]]]; rewrite E; try exact H.
    destruct (behind _ _ _); [exact H|]. cbn [fst]. apply lk_tx_first. exact H.
  - unfold receive. destruct ok; cbn [negb]; [|exact H]. cbn [ack_for] in NA.
    destruct (_ =? _).
    { unfold receive_rts. apply lk_booking; [|exact H]. intros _. destruct (_ =? _); [|apply lk_skip].
      apply lk_booking. intros []; [|apply lk_skip]. intros n0 s0 H0. rewrite seqa_eq. exact H0. }
    destruct (f_type f =? T_CTS).
    { unfold receive_cts. destruct (f_dst f =? c_addr c); [|exact H]. rewrite seqa_eq. cbn [fst].
      assert (R : forall r, s_ack r = s_ack s -> listed n r) by (intros r E; unfold listed; rewrite E; exact H).
      destruct (find (fun x => fst x =? f_seq f) (s_cts s)) as [[q u]|]; cbn [fst]; match goal with |- context [find ?q ?l] => destruct (find q l) end; try apply lk_send_data; apply R; reflexivity. }
    destruct (f_type f =? T_DATA).
    { unfold receive_data. assert (FW : forall s0, listed n s0 -> listed n (fst (forward_new f s0))) by (intros s0 I0; unfold forward_new; destruct (is_new _ _ _); exact I0).
      destruct (f_dst f =? bcast); [apply FW; auto|]. destruct (f_dst f =? c_addr c); cbn [negb]; [|exact H]. set (rest := _ ;; _).
      assert (R : forall s0, listed n s0 -> listed n (fst (rest s0))).
      { intros s0 I0. subst rest. rewrite seqa_eq. cbn [fst]. destruct (find (fun x => fst x =? f_seq f) (s_data s0)) as [[q u]|]; cbn [fst]; rewrite seqa_eq; cbn [fst emit send_ack]; apply FW; exact I0. }
      destruct (c_rts c); [apply R; auto|]. rewrite booking_eq. cbv zeta. cbn [fst]. match goal with |- context [fst (book ?a ?b ?x ?y)] => destruct (fst (book a b x y)) end; [apply R; auto|exact H]. }
    destruct (f_type f =? T_ACK) eqn:TA; [|exact H]. apply Z.eqb_eq in TA.
    unfold receive_ack. destruct (f_dst f =? c_addr c) eqn:FD; [|exact H]. apply Z.eqb_eq in FD. destruct (find _ _) as [[[q u] p0]|] eqn:F; [|exact H].
    rewrite seqa_eq. cbn [fst]. assert (D : listed n (fst (send_data_done true p0 (cancel u s)))) by (apply lk_done; exact H).
    destruct D as (x & X & E). exists x. split; [|exact E]. cbn [s_ack set_ack]. eapply erase_listed; [exact X|exact E|]. intros Q. apply NA. auto.
  - destruct (nth_error (s_timers s) i) as [x|] eqn:N; [|exact H]. destruct (tm_kind x); cbn [fire] in *.
    + apply lk_check. exact H.
    + unfold cts_timeout. rewrite !seqa_eq. cbn [fst]. apply lk_retry. exact H.
    + unfold ack_timeout in *. rewrite (timeout_eq c sq None draw (OTimeout sq) (fun s => set_ack (erase_first (fun x => fst (fst x) =? sq) (s_ack s)) s)) in *. cbv zeta in *. cbn [fst snd] in *.
      apply lk_retry. destruct H as (y & Y & E). exists y. split; [|exact E]. cbn. eapply erase_listed; [exact Y|exact E|]. intros ->. apply NT. left. reflexivity.
    + exact H.
  - exact H.
  - apply lk_tx_first. exact H.
  - exact H.
Qed.
Lemma listed_run c n l : forall s, listed n s -> Forall (fun e => ~ ack_for c n e) l -> ~ In (OTimeout n) (snd (run c s l)) -> listed n (fst (run c s l)).
Proof.
  induction l as [|e l IH]; intros s H F N; [exact H|]. inversion F as [|? ? F1 F2]; subst. cbn [run] in *. pose proof (lk_step c s e n H F1) as LS.
  destruct (step c s e) as [s1 o1]. cbn [fst snd] in *. specialize (IH s1). destruct (run c s1 l) as [s2 o2]. cbn [fst snd] in *.
  apply IH; auto; [apply LS|]; intros X; apply N, in_or_app; auto.
Qed.

(** Data are sent together with their timeout. *)
Definition armed (c : config) (s : state) (f : frame) (s' : state) : Prop :=
  In (Timer (s_uid s) (s_now s + (c_dur c (f_size f) + c_dur c (hdr_size T_ACK) + margin)) (KAck (f_seq f))) (s_timers s') /\ In (f_seq f, s_uid s, f) (s_ack s').
Lemma data_arms c p s : f_dst p <> bcast -> armed c s p (fst (send_data c p s)).
Proof. intros B. unfold send_data. apply Z.eqb_neq in B. rewrite B. split; cbn; apply in_or_app; right; left; reflexivity. Qed.
Lemma check_arms c p s f : In (OSend f) (snd (check_resources c p s)) -> f_type f = T_DATA -> f_dst f <> bcast -> armed c s f (fst (check_resources c p s)).
Proof.
  intros I TF B. unfold check_resources in *. destruct (_ && _); rewrite booking_eq in *; cbv zeta in *; cbn [fst snd] in *; destruct I as [I|I]; try discriminate.
  - exfalso. match type of I with context [fst (book ?a ?b ?x ?y)] => destruct (fst (book a b x y)) end; [|destruct I]. unfold send_rts in I. cbn [snd] in I. destruct I as [I|[]]. injection I as <-. discriminate.
  - match goal with |- context [fst (book ?a ?b ?x ?y)] => destruct (fst (book a b x y)) end; [|destruct I]. rewrite send_data_out in I. destruct I as [I|[]]. injection I as <-. exact (data_arms c p _ B).
Qed.
Lemma first_arms c s f : In (OSend f) (snd (tx_first c s)) -> f_type f = T_DATA -> f_dst f <> bcast -> armed c s f (fst (tx_first c s)).
Proof. intros I TF B. unfold tx_first in *. destruct (s_queue s); [destruct I|]. apply check_arms; auto. Qed.
Lemma data_step c s e f : In (OSend f) (snd (step c s e)) -> f_type f = T_DATA -> f_dst f <> bcast -> armed c s f (fst (step c s e)).
Proof.
  intros I TF B. destruct e; cbn [step] in *.
  - destruct (enqueue_cases c size dst s) as [[_ E]|[[_ [_ E]]|[_ [Q E]]]]; rewrite E in *; cbn [fst snd] in *.
    1,2: exfalso; destruct I as [|[]]; discriminate.
    cbv zeta in *. destruct (behind _ _ _); cbn [fst snd] in *; [exfalso; destruct I as [|[|[]]]; discriminate|].
    destruct I as [X|X]; [discriminate|]. apply in_app_or in X. destruct X as [X|[X|[]]]; [|discriminate]. exact (first_arms c _ f X TF B).
  - unfold receive in *. destruct ok; cbn [negb] in *; [|destruct I].
    destruct (f_type f0 =? T_RTS).
    { exfalso. unfold receive_rts in I. rewrite booking_eq in I. cbv zeta in I. cbn [snd] in I. destruct I as [I|I]; [discriminate|].
      destruct (f_dst f0 =? c_addr c); [|destruct I]. rewrite booking_eq in I. cbv zeta in I. cbn [snd] in I.
      destruct I as [I|I]; [discriminate|]. destruct (fst (book _ _ (2 * _) _)); [|destruct I].
      rewrite seqa_eq in I. cbn [snd app] in I. destruct I as [I|[]]. injection I as <-. discriminate. }
    destruct (f_type f0 =? T_CTS).
    { unfold receive_cts in *. destruct (f_dst f0 =? c_addr c); [|destruct I]. rewrite seqa_eq in *. cbn [fst snd] in *. apply in_app_or in I. destruct I as [I|I].
      - exfalso. destruct (find _ (s_cts s)) as [[? ?]|] in I; destruct I.
      - revert I. match goal with |- In _ (snd (match find _ (s_tx ?x) with _ => _ end)) -> _ => set (r := x) end.
        assert (s_now r = s_now s /\ s_uid r = s_uid s) as [R1 R2] by (unfold r; destruct (find _ (s_cts s)) as [[? ?]|]; split; reflexivity).
        destruct (find _ (s_tx r)) as [t|]; [|intros []]. rewrite send_data_out. intros [I|[]]. injection I as E. rewrite E. pose proof (data_arms c f r B) as A. unfold armed in *. rewrite R1, R2 in A. exact A. }
    exfalso. destruct (f_type f0 =? T_DATA); [apply receive_data_send in I; destruct I as (_ & _ & ->); discriminate|].
    destruct (f_type f0 =? T_ACK); [|destruct I]. destruct (receive_ack_cases c f0 s) as [[_ [m [u [q [F [X [J O]]]]]]]|E].
    + rewrite O in I. apply in_map_iff in I. destruct I as [x [E _]]. discriminate.
    + rewrite E in I. destruct I.
  - destruct (nth_error (s_timers s) i) as [t|] eqn:N; [|destruct I]. destruct (tm_kind t); cbn [fire] in *.
    + exact (check_arms c p (set_timers (remove_nth i (s_timers s)) s) f I TF B).
    + exfalso. unfold cts_timeout in I. rewrite (timeout_eq c (f_seq p) (Some p) draw (OTimeout (f_seq p)) (fun s => set_cts (erase_first (fun x => fst x =? f_seq p) (s_cts s)) s)) in I.
      cbv zeta in I. cbn [snd] in I. destruct I as [I|[I|I]]; try discriminate. eapply retry_no_send, I.
    + exfalso. unfold ack_timeout in I. rewrite (timeout_eq c sq None draw (OTimeout sq) (fun s => set_ack (erase_first (fun x => fst (fst x) =? sq) (s_ack s)) s)) in I.
      cbv zeta in I. cbn [snd] in I. destruct I as [I|[I|I]]; try discriminate. eapply retry_no_send, I.
    + exfalso. destruct I as [I|[]]. discriminate.
  - destruct I.
  - exact (first_arms c s f I TF B).
  - destruct I.
Qed.

(** * C139 *)

(** A node sends data [f] to one node; they take [d1] to the destination, the ACK sent there at once takes [d2] back. Then, in every run in real time in which no ACK with the number came
    before, the timeout has not run when the ACK is there, if the two ways take less than 676 ps. If no timeout of an earlier transmission with the number ran either, the packet
    is reported as sent at that moment, unless it was reported before. *)
Theorem C139_wait : forall c e0 l e f d1 d2 l2, 0 <= c_limit c -> let s := reach c e0 l in let s1 := fst (step c s e) in let s2 := fst (run c s1 l2) in
  In (OSend f) (snd (step c s e)) -> f_type f = T_DATA -> f_dst f <> bcast -> timely_run c s1 l2 = true -> Forall (fun x => ~ ack_for c (f_seq f) x) l2 ->
  d1 + d2 < 676 * ps -> s_now s2 = s_now s + c_dur c (f_size f) + d1 + c_dur c (hdr_size T_ACK) + d2 ->
  (exists t, In t (s_timers s2) /\ tm_id t = s_uid s /\ tm_kind t = KAck (f_seq f) /\ s_now s2 < tm_due t) /\
  (~ In (OTimeout (f_seq f)) (snd (run c s1 l2)) -> forall g, f_type g = T_ACK -> f_dst g = c_addr c -> f_seq g = f_seq f ->
    (exists ok, In (ODone ok f) (effects c e0 l ++ snd (step c s e) ++ snd (run c s1 l2))) \/ In (ODone true f) (snd (step c s2 (EvRecv g true)))).
Proof.
  intros c e0 l e f d1 d2 l2 C s s1 s2 I TF B T F D N. pose proof (W_reach c e0 l C) as HW. change (fst (run c (init e0) l)) with s in HW. change (snd (run c (init e0) l)) with (effects c e0 l) in HW. set (tr := effects c e0 l) in *.
  assert (W1 : W c s1 (tr ++ snd (step c s e))) by apply (W_step c s tr e C HW).
  assert (W2 : W c s2 (tr ++ snd (step c s e) ++ snd (run c s1 l2))) by (rewrite app_assoc; apply W_run; auto).
  destruct (data_step c s e f I TF B) as [P K]. fold s1 in P, K.
  set (t := Timer (s_uid s) (s_now s + (c_dur c (f_size f) + c_dur c (hdr_size T_ACK) + margin)) (KAck (f_seq f))) in P.
  assert (DUE : s_now s2 < tm_due t) by (rewrite N; cbn [t tm_due]; unfold margin, ps in *; lia). split.
  - exists t. split; [|split; [reflexivity|split; [reflexivity|exact DUE]]].
    unfold s2. eapply apending_run; [reflexivity|apply U_step, U_run, U_init|exact P|exact T|exact F|exact DUE].
  - intros NT g TG DG QG. assert (LS : listed (f_seq f) s2) by (apply listed_run; auto; exists (f_seq f, s_uid s, f); auto).
    destruct (w_ack _ _ _ _ _ _ _ _ _ _ W1 _ _ _ K) as (_ & A & _).
    assert (A2 : acc f (tr ++ snd (step c s e) ++ snd (run c s1 l2))) by (rewrite app_assoc; apply acc_app; exact A).
    destruct (w_all _ _ _ _ _ _ _ _ _ _ W2 f A2) as [X|X]; [right|left; exact X]. apply in_map_iff in X. destruct X as (x & XP & X).
    cbn [step]. unfold receive. cbn [negb]. rewrite TG. change (T_ACK =? T_RTS) with false. change (T_ACK =? T_CTS) with false. change (T_ACK =? T_DATA) with false. change (T_ACK =? T_ACK) with true. cbv iota.
    unfold receive_ack. rewrite DG, Z.eqb_refl, QG. destruct (find _ (s_ack s2)) as [[[m u] p]|] eqn:G.
    + apply find_some in G. destruct G as [G E]. cbn [fst] in E. apply Z.eqb_eq in E. destruct (w_ack _ _ _ _ _ _ _ _ _ _ W2 _ _ _ G) as (Q & _ & _).
      rewrite seqa_eq. cbn [snd]. apply in_or_app. left. rewrite done_out. apply in_map_iff. exists x. split; [congruence|]. apply filter_In. split; [exact X|]. apply Z.eqb_eq. congruence.
    + exfalso. destruct LS as (y & Y & E). pose proof (find_none _ _ G y Y) as Z. cbn in Z. rewrite E, Z.eqb_refl in Z. discriminate.
Qed.
Print Assumptions C139_wait.

(** An ACK after 660 ps on the way: the timeout is pending, the packet is reported as sent; with 676 ps on the way the timeout may run first. *)
Example C139_example : let c := ts10 false in let s := reach c rich0 [] in let e := EvEnqueue 100 2 in let s1 := fst (step c s e) in let f := data 2 1 117 0 in
  let d := c_dur c 117 + c_dur c (hdr_size T_ACK) in
  let l2 := [EvTick (1000 * ps); EvRecv (ctrl T_ACK 2 1 9) true; EvTick (d + 660 * ps)] in let s2 := fst (run c s1 l2) in
  In (OSend f) (snd (step c s e)) /\ f_dst f <> bcast /\ timely_run c s1 l2 = true /\ Forall (fun x => ~ ack_for c (f_seq f) x) l2 /\
  s_now s2 = s_now s + c_dur c (f_size f) + 300 * ps + c_dur c (hdr_size T_ACK) + 360 * ps /\ snd (run c s1 l2) = [] /\
  snd (step c s2 (EvRecv (ctrl T_ACK 2 1 1) true)) = [ODone true f] /\
  timely_run c s1 [EvTick (d + 676 * ps); EvTimer 0 0] = true /\ In (OTimeout 1) (snd (run c s1 [EvTick (d + 676 * ps); EvTimer 0 0])).
Proof.
  cbv zeta. split; [vm_compute; auto|]. split; [vm_compute; discriminate|]. split; [vm_compute; reflexivity|]. split.
  { constructor; [cbn [ack_for]; auto|]. constructor; [vm_compute; intros (_ & _ & X); discriminate|]. constructor; [cbn [ack_for]; auto|constructor]. }
  split; [vm_compute; reflexivity|]. split; [vm_compute; reflexivity|]. split; [vm_compute; reflexivity|]. split; [vm_compute; reflexivity|vm_compute; auto].
Qed.
