(** What the steps of the nano MAC can output, and how they change the list of pending
    packets. *)
From Coq Require Import ZArith List Lia Bool.
From Verif Require Import Base HeaderModel SeqModel EnergyModel NanoModel NanoProofs NanoSpec.
Import ListNotations.
Open Scope Z_scope.

Definition is_rts (c : config) (p : frame) : bool := negb (f_dst p =? bcast) && c_rts c.
Definition first_frame (c : config) (p : frame) : frame :=
  if is_rts c p then ctrl T_RTS (c_addr c) (f_dst p) (f_seq p) else p.
Definition price_tx (c : config) (p : frame) : Z :=
  if is_rts c p then f_size p + hdr_size T_RTS else f_size p.
Definition price_rx (c : config) (p : frame) : Z :=
  if is_rts c p then 2 * hdr_size T_RTS else hdr_size T_ACK.

Lemma check_out c p s :
  snd (check_resources c p s) =
  let b := fst (book (c_energy c) (s_energy s) (price_tx c p) (price_rx c p)) in
  OBooked b (price_tx c p) (price_rx c p) :: (if b then [OSend (first_frame c p)] else []).
Proof.
  unfold check_resources, first_frame, price_tx, price_rx, is_rts.
  destruct (negb (f_dst p =? bcast) && c_rts c); rewrite booking_eq; cbv zeta; cbn [snd];
    destruct (fst (book _ _ _ _)); try reflexivity.
  unfold send_data. destruct (_ =? _); reflexivity.
Qed.

Lemma send_data_out c p s : snd (send_data c p s) = [OSend p].
Proof. unfold send_data. destruct (_ =? _); reflexivity. Qed.

Lemma send_data_tx c p s : s_tx (fst (send_data c p s)) = s_tx s.
Proof. unfold send_data. destruct (_ =? _); reflexivity. Qed.

Lemma check_tx c p s : s_tx (fst (check_resources c p s)) = s_tx s.
Proof.
  unfold check_resources. destruct (_ && _); rewrite booking_eq; cbv zeta; cbn [fst];
    destruct (fst (book _ _ _ _)); cbn [fst skip]; try reflexivity.
  rewrite send_data_tx. reflexivity.
Qed.

Lemma check_queue c p s : s_queue (fst (check_resources c p s)) = s_queue s.
Proof.
  unfold check_resources. destruct (_ && _); rewrite booking_eq; cbv zeta; cbn [fst];
    destruct (fst (book _ _ _ _)); cbn [fst skip]; try reflexivity.
  unfold send_data. destruct (_ =? _); reflexivity.
Qed.

Lemma check_ids c p s : s_ids (fst (check_resources c p s)) = s_ids s.
Proof.
  unfold check_resources. destruct (_ && _); rewrite booking_eq; cbv zeta; cbn [fst];
    destruct (fst (book _ _ _ _)); cbn [fst skip]; try reflexivity.
  unfold send_data. destruct (_ =? _); reflexivity.
Qed.

Lemma tx_first_tx c s : s_tx (fst (tx_first c s)) = s_tx s.
Proof. unfold tx_first. destruct (s_queue s); [reflexivity|apply check_tx]. Qed.
Lemma tx_first_queue c s : s_queue (fst (tx_first c s)) = s_queue s.
Proof. unfold tx_first. destruct (s_queue s) eqn:E; [exact E|rewrite check_queue; exact E]. Qed.
Lemma tx_first_ids c s : s_ids (fst (tx_first c s)) = s_ids s.
Proof. unfold tx_first. destruct (s_queue s); [reflexivity|apply check_ids]. Qed.

(** The packet created by an accepting Enqueue, and the state just before transmission. *)
Definition new_pkt (c : config) (s : state) (size : Z) (dst : addr) : frame :=
  Frame T_DATA (c_addr c) dst (wrap16 (s_seq s + 1)) (size + hdr_size T_DATA) (s_ids s).
Definition accept_state (c : config) (s : state) (size : Z) (dst : addr) : state :=
  let p := new_pkt c s size dst in
  set_tx (s_tx s ++ [Tx p 0]) (set_ids (s_ids s + 1) (set_queue (s_queue s ++ [p]) (set_seq (f_seq p) s))).

Definition behind (s : state) (sq : Z) (dst : addr) : bool :=
  existsb (fun t => (f_seq (t_pkt t) <? sq) && (f_dst (t_pkt t) =? dst)) (s_tx s).

Lemma enqueue_cases c size dst s :
  (size = 64 /\ enqueue c size dst s = (s, [ORet true])) \/
  (size <> 64 /\ c_limit c <= Z.of_nat (length (s_queue s)) /\ enqueue c size dst s = (s, [ORet false])) \/
  (size <> 64 /\ Z.of_nat (length (s_queue s)) < c_limit c /\
   let p := new_pkt c s size dst in
   let s2 := accept_state c s size dst in
   enqueue c size dst s =
   if behind s (f_seq p) dst then (s2, [OAccept p; ORet true])
   else (fst (tx_first c s2), OAccept p :: snd (tx_first c s2) ++ [ORet true])).
Proof.
  unfold enqueue. destruct (Z.eqb_spec size 64); [auto|].
  destruct (Z.leb_spec (c_limit c) (Z.of_nat (length (s_queue s)))); [auto|].
  right. right. split; auto. split; auto. cbv zeta. unfold behind.
  change (f_seq (new_pkt c s size dst)) with (wrap16 (s_seq s + 1)).
  destruct (existsb _ _).
  - rewrite seqa_eq. reflexivity.
  - rewrite seqa_eq. cbn [fst snd emit]. rewrite seqa_eq. reflexivity.
Qed.

Lemma done_out ok p s :
  snd (send_data_done ok p s) =
  map (fun t => ODone ok (t_pkt t)) (filter (fun t => f_seq (t_pkt t) =? f_seq p) (s_tx s)).
Proof. reflexivity. Qed.

Lemma done_tx ok p s :
  s_tx (fst (send_data_done ok p s)) = filter (fun t => negb (f_seq (t_pkt t) =? f_seq p)) (s_tx s).
Proof. unfold send_data_done. destruct ok; reflexivity. Qed.

Lemma backoff_tx c p r d s : s_tx (fst (backoff c p r d s)) = s_tx s.
Proof. unfold backoff. destruct (_ <? _); reflexivity. Qed.

(** Timeouts: outputs and pending packets. *)
Lemma timeout_eq c sq arg draw o1 (g : state -> state) tx rx s :
  (emit o1 ;; refund c tx rx ;; (fun s => (g s, [])) ;; retry_or_discard c sq arg draw) s =
  let s1 := g (set_energy (give_back (c_energy c) (s_energy s) tx rx) s) in
  (fst (retry_or_discard c sq arg draw s1),
   o1 :: ORefund tx rx :: snd (retry_or_discard c sq arg draw s1)).
Proof. rewrite !seqa_eq. reflexivity. Qed.

(** Outputs of steps other than Enqueue and timeouts of own frames never contain OTimeout,
    OAccept, OBackoff; and leave the pending list alone unless an ACK arrives. *)
Definition calm (o : out) : bool :=
  match o with OTimeout _ | OAccept _ | OBackoff _ _ _ | ODone _ _ | OUB => false | _ => true end.

Definition tame (a : act) : Prop :=
  forall s, s_tx (fst (a s)) = s_tx s /\ s_queue (fst (a s)) = s_queue s /\
            s_ids (fst (a s)) = s_ids s /\ s_seq (fst (a s)) = s_seq s /\
            forallb calm (snd (a s)) = true.

Lemma tame_seq a b : tame a -> tame b -> tame (a ;; b).
Proof.
  intros A B s. rewrite seqa_eq. cbn [fst snd]. rewrite forallb_app.
  destruct (A s) as [A1 [A2 [A3 [A4 A5]]]]. destruct (B (fst (a s))) as [B1 [B2 [B3 [B4 B5]]]].
  rewrite A5, B5. repeat split; congruence.
Qed.

Lemma tame_skip : tame skip.
Proof. intros s. repeat split. Qed.
Lemma tame_emit o : calm o = true -> tame (emit o).
Proof. intros H s. cbn. rewrite H. repeat split. Qed.
Lemma tame_booking c tx rx k : (forall b, tame (k b)) -> tame (booking c tx rx k).
Proof.
  intros H s. rewrite booking_eq. cbv zeta. cbn [fst snd forallb calm].
  set (b := book _ _ _ _). destruct (H (fst b) (set_energy (snd b) s)) as [A1 [A2 [A3 [A4 A5]]]].
  rewrite A1, A2, A3, A4, A5. repeat split.
Qed.
Lemma tame_refund c tx rx : tame (refund c tx rx).
Proof. intros s. repeat split. Qed.
Lemma tame_send_rts c p : tame (send_rts c p).
Proof. intros s. repeat split. Qed.
Lemma tame_send_data c p : tame (send_data c p).
Proof. intros s. unfold send_data. destruct (_ =? _); repeat split. Qed.
Lemma tame_check c p : tame (check_resources c p).
Proof.
  unfold check_resources. destruct (_ && _); apply tame_booking; intros [];
    auto using tame_skip, tame_send_rts, tame_send_data.
Qed.
Lemma tame_tx_first c : tame (tx_first c).
Proof. intros s. unfold tx_first. destruct (s_queue s) eqn:E; [repeat split; auto|rewrite <- E; apply tame_check]. Qed.
Lemma tame_receive_rts c f : tame (receive_rts c f).
Proof.
  unfold receive_rts. apply tame_booking. intros _. destruct (_ =? _); [|apply tame_skip].
  apply tame_booking. intros []; [|apply tame_skip]. apply tame_seq; [|apply tame_emit; auto].
  intros s. repeat split.
Qed.
Lemma tame_receive_cts c f : tame (receive_cts c f).
Proof.
  unfold receive_cts. destruct (_ =? _); [|apply tame_skip]. apply tame_seq.
  - intros s. destruct (find _ _) as [[n u]|]; repeat split.
  - intros s. destruct (find _ _); [apply tame_send_data|repeat split].
Qed.
Lemma tame_forward f : tame (forward_new f).
Proof. intros s. unfold forward_new. destruct (is_new _ _ _) as [[] l]; repeat split. Qed.
Lemma tame_receive_data c f : tame (receive_data c f).
Proof.
  unfold receive_data. destruct (_ =? _); [apply tame_forward|]. destruct (negb _); [apply tame_skip|].
  set (rest := _ ;; _). assert (tame rest) as R.
  { unfold rest. apply tame_seq; [|apply tame_seq; [apply tame_emit; auto|apply tame_forward]].
    intros s. destruct (find _ _) as [[n u]|]; repeat split. }
  destruct (c_rts c); auto. apply tame_booking. intros []; auto using tame_skip.
Qed.
Lemma tame_data_timeout c sq : tame (data_timeout c sq).
Proof. unfold data_timeout. apply tame_seq; [apply tame_refund|]. intros s. repeat split. Qed.

Lemma receive_ack_cases c f s :
  (f_dst f = c_addr c /\ exists n u p, find (fun x => fst (fst x) =? f_seq f) (s_ack s) = Some (n, u, p) /\
    s_tx (fst (receive_ack c f s)) = filter (fun t => negb (f_seq (t_pkt t) =? f_seq p)) (s_tx s) /\
    s_ids (fst (receive_ack c f s)) = s_ids s /\
    snd (receive_ack c f s) = map (fun t => ODone true (t_pkt t)) (filter (fun t => f_seq (t_pkt t) =? f_seq p) (s_tx s)))
  \/ receive_ack c f s = (s, []).
Proof.
  unfold receive_ack. destruct (Z.eqb_spec (f_dst f) (c_addr c)) as [E|E]; auto.
  destruct (find _ _) as [[[n u] p]|] eqn:F; auto. left. split; auto.
  exists n, u, p. split; auto. rewrite seqa_eq. cbn [fst snd]. rewrite done_out, app_nil_r.
  split; [|split; auto].
  - change (s_tx (fst (send_data_done true p (cancel u s))) = filter (fun t => negb (f_seq (t_pkt t) =? f_seq p)) (s_tx s)).
    rewrite done_tx. reflexivity.
  - cbn. destruct (find _ (s_tx s)); reflexivity.
Qed.

(** Classification of all steps. *)
Inductive step_class (c : config) (s : state) (e : event) : Prop :=
| SCEnqueue size dst : e = EvEnqueue size dst -> step_class c s e
| SCTimeout i draw t n arg (s1 : state) tx rx : e = EvTimer i draw -> nth_error (s_timers s) i = Some t ->
    ((exists p, tm_kind t = KCts p /\ n = f_seq p /\ arg = Some p) \/ (tm_kind t = KAck n /\ arg = None)) ->
    s_tx s1 = s_tx s -> s_queue s1 = s_queue s -> s_ids s1 = s_ids s -> s_seq s1 = s_seq s ->
    step c s e = (fst (retry_or_discard c n arg draw s1),
                  OTimeout n :: ORefund tx rx :: snd (retry_or_discard c n arg draw s1)) ->
    step_class c s e
| SCAck f : e = EvRecv f true -> f_type f = T_ACK -> step c s e = receive_ack c f s -> step_class c s e
| SCTame : s_tx (fst (step c s e)) = s_tx s -> s_queue (fst (step c s e)) = s_queue s ->
    s_ids (fst (step c s e)) = s_ids s -> s_seq (fst (step c s e)) = s_seq s ->
    forallb calm (snd (step c s e)) = true -> step_class c s e.

Lemma classify c s e : step_class c s e.
Proof.
  assert (T : forall a, tame a -> step c s e = a s -> step_class c s e).
  { intros a A E. destruct (A s) as [A1 [A2 [A3 [A4 A5]]]].
    apply SCTame; rewrite E; auto. }
  destruct e.
  - eapply SCEnqueue; eauto.
  - cbn [step] in T. unfold receive in T. destruct ok; cbn [negb] in T; [|apply (T skip); auto using tame_skip].
    destruct (Z.eqb_spec (f_type f) T_RTS); [apply (T _ (tame_receive_rts c f) eq_refl)|].
    destruct (Z.eqb_spec (f_type f) T_CTS); [apply (T _ (tame_receive_cts c f) eq_refl)|].
    destruct (Z.eqb_spec (f_type f) T_DATA); [apply (T _ (tame_receive_data c f) eq_refl)|].
    destruct (Z.eqb_spec (f_type f) T_ACK); [|apply (T skip); auto using tame_skip].
    eapply SCAck; eauto. cbn [step]. unfold receive. cbn [negb].
    rewrite (proj2 (Z.eqb_neq _ _) n), (proj2 (Z.eqb_neq _ _) n0), (proj2 (Z.eqb_neq _ _) n1), (proj2 (Z.eqb_eq _ _) e).
    reflexivity.
  - cbn [step]. destruct (nth_error (s_timers s) i) as [t|] eqn:N;
      [|apply SCTame; cbn [step]; rewrite N; reflexivity].
    destruct (tm_kind t) eqn:KD.
    + destruct (tame_check c p (set_timers (remove_nth i (s_timers s)) s)) as [A1 [A2 [A3 [A4 A5]]]].
      apply SCTame; cbn [step]; rewrite N, KD; auto.
    + eapply (SCTimeout c s _ i draw t (f_seq p) (Some p)); [reflexivity|exact N|left; exists p; auto|..].
      5: { cbn [step]. rewrite N, KD. cbn [fire]. unfold cts_timeout.
        apply (timeout_eq c (f_seq p) (Some p) draw (OTimeout (f_seq p))
          (fun s => set_cts (erase_first (fun x => fst x =? f_seq p) (s_cts s)) s)). }
      all: reflexivity.
    + eapply (SCTimeout c s _ i draw t sq None); [reflexivity|exact N|right; auto|..].
      5: { cbn [step]. rewrite N, KD. cbn [fire]. unfold ack_timeout.
        apply (timeout_eq c sq None draw (OTimeout sq)
          (fun s => set_ack (erase_first (fun x => fst (fst x) =? sq) (s_ack s)) s)). }
      all: reflexivity.
    + destruct (tame_data_timeout c sq (set_timers (remove_nth i (s_timers s)) s)) as [A1 [A2 [A3 [A4 A5]]]].
      apply SCTame; cbn [step]; rewrite N, KD; auto.
  - apply SCTame; reflexivity.
  - apply (T _ (tame_tx_first c) eq_refl).
  - apply SCTame; reflexivity.
Qed.
