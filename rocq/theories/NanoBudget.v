(** Energy budget of one nano MAC (C27). *)
From Coq Require Import ZArith List Lia Bool Sorting.Sorted.
From Verif Require Import Base HeaderModel SeqModel EnergyModel NanoModel NanoProofs NanoSpec NanoOut
  NanoRetry NanoOrder NanoTrace NanoSend.
Import ListNotations.
Open Scope Z_scope.

Lemma hs_rts : hdr_size T_RTS = 18. Proof. reflexivity. Qed.
Lemma hs_data : hdr_size T_DATA = 17. Proof. reflexivity. Qed.
Lemma hs_ack : hdr_size T_ACK = 17. Proof. reflexivity. Qed.
Ltac sizes := unfold cost in *; rewrite ?hs_rts, ?hs_data, ?hs_ack in *; nia.

Definition sane (c : config) : Prop :=
  0 <= ep_rx (c_energy c) <= ep_tx (c_energy c) /\ 0 <= c_framelen c.

(** What the expiry of a pending event would return. *)
Definition pot (c : config) (k : tkind) : Z :=
  match k with
  | KCheck _ => 0
  | KCts _ => cost (c_energy c) (c_framelen c) (2 * hdr_size T_RTS)
  | KAck _ => cost (c_energy c) 0 (hdr_size T_RTS)
  | KData _ => cost (c_energy c) (hdr_size T_RTS) (c_framelen c)
  end.
Arguments pot _ !_ /.
Fixpoint pots (c : config) (l : list timer) : Z :=
  match l with [] => 0 | t :: r => pot c (tm_kind t) + pots c r end.
Definition total (c : config) (s : state) : Z := s_energy s + pots c (s_timers s).

Lemma pot_nonneg c k : sane c -> 0 <= pot c k.
Proof. intros [A B]. destruct k; cbn [pot]; sizes. Qed.

Lemma pots_nonneg c l : sane c -> 0 <= pots c l.
Proof. intros S. induction l as [|t l IH]; cbn; [lia|]. pose proof (pot_nonneg c (tm_kind t) S). lia. Qed.

Lemma pots_app c a b : pots c (a ++ b) = pots c a + pots c b.
Proof. induction a as [|t a IH]; cbn; [lia|]. rewrite IH. lia. Qed.

Lemma pots_filter c q l : sane c -> pots c (filter q l) <= pots c l.
Proof.
  intros S. induction l as [|t l IH]; cbn; [lia|]. pose proof (pot_nonneg c (tm_kind t) S).
  destruct (q t); cbn; lia.
Qed.

Lemma total_schedule c d k s : total c (schedule d k s) = total c s + pot c k.
Proof. unfold total. cbn. rewrite pots_app. cbn. lia. Qed.

Lemma total_cancel c u s : sane c -> total c (cancel u s) <= total c s.
Proof.
  intros S. unfold total. cbn.
  pose proof (pots_filter c (fun t => negb (tm_id t =? u)) (s_timers s) S). lia.
Qed.

Lemma total_remove c i s t : nth_error (s_timers s) i = Some t ->
  total c (set_timers (remove_nth i (s_timers s)) s) = total c s - pot c (tm_kind t).
Proof.
  unfold total. cbn. intros N. enough (pots c (remove_nth i (s_timers s)) = pots c (s_timers s) - pot c (tm_kind t)) by lia.
  revert i N. induction (s_timers s) as [|x l IH]; intros [|i] N; cbn in *; try discriminate.
  - injection N as ->. lia.
  - rewrite (IH i N). lia.
Qed.

Lemma total_energy c e s : total c (set_energy e s) = total c s - s_energy s + e.
Proof. unfold total. cbn. lia. Qed.

Lemma book_snd p r tx rx : snd (book p r tx rx) = r - (if fst (book p r tx rx) then cost p tx rx else 0).
Proof. unfold book. destruct (_ >=? _); cbn; lia. Qed.

Lemma total_send_data c p s : sane c -> total c (fst (send_data c p s)) <= total c s + pot c (KAck 0).
Proof.
  intros S. unfold send_data. pose proof (pot_nonneg c (KAck 0) S). destruct (_ =? _); cbn [fst]; [lia|].
  match goal with |- total c (set_ack ?a ?x) <= _ => change (total c (set_ack a x)) with (total c x) end.
  rewrite total_schedule. cbn [pot]. cbn [pot] in H. lia.
Qed.

(** Extra energy set aside for each RTS on the air. *)
Definition credit (c : config) : Z := cost (c_energy c) 0 (hdr_size T_RTS).

Lemma total_check c p s : sane c -> c_framelen c <= f_size p -> hdr_size T_DATA <= f_size p ->
  f_type p = T_DATA ->
  total c (fst (check_resources c p s)) + credit c * rts_sent (snd (check_resources c p s)) <= total c s.
Proof.
  intros S L L2 TD. rewrite check_out. cbv zeta. unfold check_resources, first_frame, price_tx, price_rx, is_rts.
  pose proof S as [[S1 S2] S3]. unfold credit, cost.
  destruct (negb (f_dst p =? bcast) && c_rts c) eqn:R; rewrite booking_eq; cbv zeta; cbn [fst].
  - pose proof (book_snd (c_energy c) (s_energy s) (f_size p + hdr_size T_RTS) (2 * hdr_size T_RTS)) as BS.
    destruct (fst (book _ _ _ _)).
    + unfold send_rts. cbn [fst].
      match goal with |- total c (set_cts ?a ?x) + _ <= _ => change (total c (set_cts a x)) with (total c x) end.
      rewrite total_schedule, total_energy. cbn [pot]. rewrite BS. unfold cost.
      change (rts_sent _) with 1. sizes.
    + cbn [skip fst]. rewrite total_energy. change (rts_sent _) with 0. lia.
  - pose proof (book_snd (c_energy c) (s_energy s) (f_size p) (hdr_size T_ACK)) as BS.
    destruct (fst (book _ _ _ _)).
    + replace (rts_sent _) with 0.
      2: { unfold rts_sent. cbn. rewrite TD. reflexivity. }
      match goal with |- context [send_data c p ?s0] => pose proof (total_send_data c p s0 S) as TS end.
      rewrite total_energy in TS. cbn [pot] in TS. rewrite BS in *.
      set (X := total c (fst (send_data _ _ _))) in *. clearbody X. sizes.
    + cbn [skip fst]. rewrite total_energy. change (rts_sent _) with 0. lia.
Qed.

Lemma rts_sent_app a b : rts_sent (a ++ b) = rts_sent a + rts_sent b.
Proof.
  unfold rts_sent. unfold sent. rewrite flat_map_app, filter_app, app_length. lia.
Qed.

Lemma rts_sent_none o : forallb unsent o = true -> rts_sent o = 0.
Proof.
  unfold rts_sent. induction o as [|x o IH]; [reflexivity|]. cbn [forallb]. rewrite andb_true_iff.
  intros [A B]. destruct x; cbn in *; try discriminate; auto.
Qed.

Lemma total_done c ok p s : total c (fst (send_data_done ok p s)) = total c s.
Proof.
  unfold send_data_done. cbn [fst]. 
  transitivity (total c (match find (fun t => (f_seq (t_pkt t) >? f_seq p) && (f_dst (t_pkt t) =? f_dst p)) (s_tx s) with
            | Some t => schedule 0 (KCheck (t_pkt t)) s | None => s end)).
  - destruct ok; reflexivity.
  - destruct (find _ _); [|reflexivity]. rewrite total_schedule. cbn. lia.
Qed.

Lemma total_retry c n arg draw s : total c (fst (retry_or_discard c n arg draw s)) = total c s.
Proof.
  unfold retry_or_discard. destruct (bump _ _) as [[t l]|]; [|reflexivity].
  destruct (_ <=? _); [rewrite total_done; reflexivity|].
  unfold backoff. destruct (_ <? _); cbn [fst]; [|reflexivity]. rewrite total_schedule. cbn [pot].
  unfold total. cbn. lia.
Qed.

(** Accepted packets have at least the size of FrameLength and of a header. *)
Definition big (c : config) (tr : list out) : Prop :=
  forall p, acc p tr -> c_framelen c <= f_size p /\ hdr_size T_DATA <= f_size p.

Lemma accept_out c s e p : In (OAccept p) (snd (step c s e)) ->
  exists size dst, e = EvEnqueue size dst /\ p = new_pkt c s size dst.
Proof.
  intros I. destruct (classify c s e).
  - subst e. cbn [step] in I. exists size, dst. split; auto.
    destruct (enqueue_cases c size dst s) as [[_ E]|[[_ [_ E]]|[_ [Q E]]]]; rewrite E in I; cbn [snd] in I.
    1,2: destruct I as [|[]]; discriminate.
    destruct (behind _ _ _); cbn [snd] in I.
    + destruct I as [X|[|[]]]; [|discriminate]. injection X; auto.
    + destruct I as [X|X]; [injection X; auto|]. apply in_app_or in X. destruct X as [X|[|[]]]; [|discriminate].
      exfalso. eapply calm_no_accept; [apply tx_first_calm|exact X].
  - exfalso. rewrite H6 in I. cbn [snd] in I. destruct I as [|[|I]]; try discriminate.
    revert I. unfold retry_or_discard. destruct (bump _ _) as [[t' l]|]; [|intros []].
    destruct (_ <=? _); [rewrite done_out; apply not_acc_map|].
    unfold backoff. destruct (_ <? _); intros [|[]]; discriminate.
  - exfalso. rewrite H1 in I. destruct (receive_ack_cases c f s) as [[_ [m [u [q [F [X [J O]]]]]]]|E].
    + rewrite O in I. eapply not_acc_map, I.
    + rewrite E in I. destruct I.
  - exfalso. eapply calm_no_accept; eauto.
Qed.

Lemma big_step c s tr e : sized c e -> big c tr -> big c (tr ++ snd (step c s e)).
Proof.
  intros S B p P. apply in_app_or in P. destruct P as [P|P]; auto.
  apply accept_out in P. destruct P as [size [dst [-> ->]]]. cbn in *. lia.
Qed.

Definition gain (s : state) (e : event) : Z := match e with EvEnergy x => x - s_energy s | _ => 0 end.

Lemma budget_step c s tr e : config_ok c -> sane c -> W c s tr -> big c tr -> sized c e ->
  total c (fst (step c s e)) + credit c * rts_sent (snd (step c s e)) <=
  total c s + gain s e + (if own_cts c e then credit c else 0).
Proof.
  intros C S H BG SZ. pose proof S as [[S1 S2] S3].
  assert (CR : 0 <= credit c) by (unfold credit; sizes).
  assert (CK : forall p s, acc p tr ->
     total c (fst (check_resources c p s)) + credit c * rts_sent (snd (check_resources c p s)) <= total c s).
  { intros p s0 A. apply total_check; auto; try apply BG; auto. apply (acc_data c s tr); auto. }
  destruct e; cbn [step gain own_cts].
  - destruct (enqueue_cases c size dst s) as [[_ E]|[[_ [_ E]]|[_ [Q E]]]]; rewrite E; cbn [fst snd].
    1,2: rewrite rts_sent_none by reflexivity; lia.
    cbv zeta. pose proof (W_accept c s tr size dst C H Q) as W2. cbv zeta in W2.
    change (W c (accept_state c s size dst) (tr ++ [OAccept (new_pkt c s size dst)])) in W2.
    destruct (behind _ _ _); cbn [fst snd].
    + rewrite rts_sent_none by reflexivity. change (total c (accept_state c s size dst)) with (total c s). lia.
    + match goal with |- context [rts_sent (?a :: ?b ++ ?d)] =>
        change (rts_sent (a :: b ++ d)) with (rts_sent ([a] ++ b ++ d)) end. rewrite !rts_sent_app. change (rts_sent [OAccept _]) with 0. change (rts_sent [ORet _]) with 0.
      unfold tx_first. destruct (s_queue (accept_state c s size dst)) as [|p q] eqn:SQ; cbn [fst snd].
      { change (total c (accept_state c s size dst)) with (total c s). rewrite rts_sent_none by reflexivity. lia. }
      rewrite (w_queue _ _ _ _ _ _ _ _ _ _ W2) in SQ.
      assert (In p (map t_pkt (s_tx (accept_state c s size dst)))) as PI by (rewrite SQ; left; auto).
      apply in_map_iff in PI. destruct PI as [t [<- T]].
      pose proof (w_tx _ _ _ _ _ _ _ _ _ _ W2 t T) as A.
      assert (BT : c_framelen c <= f_size (t_pkt t) /\ hdr_size T_DATA <= f_size (t_pkt t)).
      { apply in_app_or in A. destruct A as [A|[A|[]]]; [apply BG; auto|].
        injection A as <-. cbn in *. lia. }
      pose proof (total_check c (t_pkt t) (accept_state c s size dst) S (proj1 BT) (proj2 BT)) as TC.
      change (total c (accept_state c s size dst)) with (total c s) in TC.
      specialize (TC (proj1 (acc_data _ _ _ _ W2 A))). lia.
  - destruct ok; cbn [andb]; [|cbn; lia]. unfold receive. cbn [negb]. cbn [sized] in SZ.
    destruct (Z.eqb_spec (f_type f) T_RTS) as [TY|TR].
    { rewrite TY in *. change (T_RTS =? T_CTS) with false. cbn [andb].
      unfold receive_rts. rewrite booking_eq. cbv zeta. cbn [fst snd].
      assert (0 <= f_size f) by (rewrite hs_rts in SZ; lia).
      pose proof (book_snd (c_energy c) (s_energy s) 0 (f_size f)) as B1.
      assert (snd (book (c_energy c) (s_energy s) 0 (f_size f)) <= s_energy s) as B1'.
      { rewrite B1. destruct (fst _); unfold cost; nia. }
      destruct (_ =? _); [|cbn [fst snd skip]; rewrite rts_sent_none by reflexivity; rewrite total_energy; lia].
      rewrite booking_eq. cbv zeta. cbn [fst snd]. set (s1 := set_energy _ s).
      pose proof (book_snd (c_energy c) (s_energy s1) (2 * f_size f) (c_framelen c)) as B2.
      destruct (fst (book _ _ (2 * _) _)).
      + rewrite seqa_eq. cbn [fst snd app send_cts emit].
        replace (rts_sent _) with 0 by reflexivity.
        match goal with |- total c (set_data ?a ?x) + _ <= _ => change (total c (set_data a x)) with (total c x) end.
        rewrite total_schedule, total_energy, B2. unfold s1. rewrite total_energy. cbn [pot set_energy s_energy].
        sizes.
      + cbn [fst snd skip]. rewrite rts_sent_none by reflexivity. rewrite total_energy, B2. unfold s1.
        rewrite total_energy. cbn. lia. }
    destruct (Z.eqb_spec (f_type f) T_CTS) as [TY|TC].
    { unfold receive_cts. destruct (f_dst f =? c_addr c); cbn [andb]; [|cbn [fst snd skip]; rewrite rts_sent_none by reflexivity; lia].
      rewrite seqa_eq. cbn [fst snd]. rewrite rts_sent_app.
      set (r := match find _ (s_cts s) with Some _ => _ | None => _ end) in *.
      assert (s_tx (fst r) = s_tx s) as R3 by (unfold r; destruct (find _ (s_cts s)) as [[? ?]|]; reflexivity).
      assert (snd r = []) as R2 by (unfold r; destruct (find _ (s_cts s)) as [[? ?]|]; reflexivity).
      assert (total c (fst r) <= total c s) as R4.
      { unfold r. destruct (find _ (s_cts s)) as [[? ?]|]; cbn [fst]; [|lia].
        etransitivity; [apply total_cancel; auto|]. reflexivity. }
      rewrite R2, R3. destruct (find _ (s_tx s)) as [t|] eqn:F.
      + rewrite send_data_out. apply find_some in F. destruct F as [F _].
        destruct (acc_data c s tr (t_pkt t) H (w_tx _ _ _ _ _ _ _ _ _ _ H t F)) as [Y _].
        replace (rts_sent [OSend (t_pkt t)]) with 0 by (unfold rts_sent; cbn; rewrite Y; reflexivity).
        change (rts_sent []) with 0. pose proof (total_send_data c (t_pkt t) (fst r) S) as TS.
        change (pot c (KAck 0)) with (credit c) in TS. lia.
      + cbn [fst snd]. change (rts_sent []) with 0. lia. }
    cbn [andb]. destruct (Z.eqb_spec (f_type f) T_DATA) as [TY|TD].
    { assert (R0 : rts_sent (snd (receive_data c f s)) = 0).
      { assert (forall g, In g (sent (snd (receive_data c f s))) -> (f_type g =? T_RTS) = false) as X.
        { intros g G. unfold sent in G. apply in_flat_map in G. destruct G as [o [O P]]. destruct o; cbn in P; try tauto.
          destruct P as [<-|[]]. apply receive_data_send in O. destruct O as [_ [_ ->]]. reflexivity. }
        unfold rts_sent. induction (sent _) as [|g l IH]; [reflexivity|]. cbn. rewrite (X g) by (left; auto).
        apply IH. intros; apply X; right; auto. }
      rewrite R0. unfold receive_data. destruct (_ =? _).
      { unfold forward_new. destruct (is_new _ _ _). cbn [fst].
        match goal with |- total c (set_filter ?a ?x) + _ <= _ => change (total c (set_filter a x)) with (total c x) end. lia. }
      destruct (negb _); [cbn [fst skip]; lia|]. set (rest := _ ;; _).
      assert (X : forall s, total c (fst (rest s)) <= total c s).
      { intros s0. unfold rest. rewrite !seqa_eq. cbn [fst].
        unfold forward_new. destruct (is_new _ _ _). cbn [fst send_ack emit].
        match goal with |- total c (set_filter ?a ?x) <= _ => change (total c (set_filter a x)) with (total c x) end.
        destruct (find _ (s_data s0)) as [[? ?]|]; cbn [fst]; [|lia].
        etransitivity; [apply (total_cancel c z0); auto|]. reflexivity. }
      destruct (c_rts c); [specialize (X s); lia|]. rewrite booking_eq. cbv zeta. cbn [fst].
      pose proof (book_snd (c_energy c) (s_energy s) (hdr_size T_RTS) (f_size f - hdr_size T_DATA)) as B1.
      rewrite TY in SZ.
      assert (snd (book (c_energy c) (s_energy s) (hdr_size T_RTS) (f_size f - hdr_size T_DATA)) <= s_energy s) as B1'.
      { rewrite B1. destruct (fst _); sizes. }
      destruct (fst (book _ _ _ _)); cbn [skip fst].
      - match goal with |- context [rest ?x] => specialize (X x) end. rewrite total_energy in X. lia.
      - rewrite total_energy. lia. }
    destruct (f_type f =? T_ACK); [|cbn [fst snd skip]; rewrite rts_sent_none by reflexivity; lia].
    destruct (receive_ack_cases c f s) as [[_ [n [u [q [F [T [J O]]]]]]]|E].
    + rewrite O, rts_sent_none by (apply forallb_forall; intros o X; apply in_map_iff in X; destruct X as [x [<- _]]; auto).
      unfold receive_ack. destruct (_ =? _); [|cbn [fst]; lia]. rewrite F. rewrite seqa_eq. cbn [fst].
      match goal with |- total c (set_ack ?a ?x) + _ <= _ => change (total c (set_ack a x)) with (total c x) end.
      rewrite total_done. pose proof (total_cancel c u s S). lia.
    + rewrite E. cbn [fst snd]. rewrite rts_sent_none by reflexivity. lia.
  - destruct (nth_error (s_timers s) i) as [t|] eqn:N; [|cbn [fst snd]; rewrite rts_sent_none by reflexivity; lia].
    pose proof (nth_error_In _ _ N) as TI. pose proof (w_tm _ _ _ _ _ _ _ _ _ _ H t TI) as TK.
    pose proof (total_remove c i s t N) as TR. set (s0 := set_timers _ s) in *.
    destruct (tm_kind t) eqn:KD; cbn [fire tm_ok pot] in *.
    + specialize (CK p s0 TK). lia.
    + unfold cts_timeout. rewrite (timeout_eq c (f_seq p) (Some p) draw (OTimeout (f_seq p))
          (fun s => set_cts (erase_first (fun x => fst x =? f_seq p) (s_cts s)) s)).
      cbv zeta. cbn [fst snd]. rewrite total_retry.
      rewrite rts_sent_none by (cbn [forallb unsent]; apply unsent_retry).
      match goal with |- total c (set_cts ?a ?x) + _ <= _ => change (total c (set_cts a x)) with (total c x) end.
      rewrite total_energy. unfold give_back. lia.
    + unfold ack_timeout. rewrite (timeout_eq c sq None draw (OTimeout sq)
          (fun s => set_ack (erase_first (fun x => fst (fst x) =? sq) (s_ack s)) s)).
      cbv zeta. cbn [fst snd]. rewrite total_retry.
      rewrite rts_sent_none by (cbn [forallb unsent]; apply unsent_retry).
      match goal with |- total c (set_ack ?a ?x) + _ <= _ => change (total c (set_ack a x)) with (total c x) end.
      rewrite total_energy. unfold give_back. lia.
    + unfold data_timeout. rewrite seqa_eq. unfold refund. cbn [fst snd emit].
      rewrite rts_sent_none by reflexivity.
      match goal with |- total c (set_data ?a ?x) + _ <= _ => change (total c (set_data a x)) with (total c x) end.
      rewrite total_energy. unfold give_back. lia.
  - cbn [fst snd]. rewrite total_energy. rewrite rts_sent_none by reflexivity. lia.
  - unfold tx_first. destruct (s_queue s) as [|p q] eqn:SQ; [cbn [fst snd]; rewrite rts_sent_none by reflexivity; lia|].
    rewrite (w_queue _ _ _ _ _ _ _ _ _ _ H) in SQ.
    assert (In p (map t_pkt (s_tx s))) as PI by (rewrite SQ; left; auto).
    apply in_map_iff in PI. destruct PI as [t [<- T]].
    specialize (CK (t_pkt t) s (w_tx _ _ _ _ _ _ _ _ _ _ H t T)). lia.
  - cbn [fst snd]. rewrite rts_sent_none by reflexivity. change (total c (set_now t s)) with (total c s). lia.
Qed.

Lemma rts_sent_nonneg o : 0 <= rts_sent o.
Proof. unfold rts_sent. lia. Qed.

Lemma budget_run c l : forall s tr k, config_ok c -> sane c -> W c s tr -> big c tr ->
  Forall (sized c) l -> no_dup_cts c s k l ->
  0 <= k ->
  exists k', 0 <= k' /\ total c (fst (run c s l)) + credit c * k' <= total c s + credit c * k + injected c s l.
Proof.
  induction l as [|e l IH]; intros s tr k C S H BG SZ ND KP; [exists k; cbn; lia|].
  rewrite run_cons. cbn [fst injected no_dup_cts] in *. inversion SZ as [|? ? SZ1 SZ2]; subst.
  cbv zeta in ND. destruct ND as [ND1 ND2].
  pose proof (budget_step c s tr e C S H BG SZ1) as BS. fold (gain s e).
  pose proof (rts_sent_nonneg (snd (step c s e))).
  destruct (IH _ (tr ++ snd (step c s e)) _ C S (W_step _ _ _ _ C H) (big_step _ _ _ _ SZ1 BG) SZ2 ND2
     ltac:(lia)) as [k' [P1 P2]]. exists k'. split; auto.
  destruct (own_cts c e); lia.
Qed.

Lemma budget c e0 l : config_ok c -> sane c -> Forall (sized c) l -> no_dup_cts c (init e0) 0 l ->
  s_energy (fst (run c (init e0) l)) <= e0 + injected c (init e0) l.
Proof.
  intros C S SZ ND.
  destruct (budget_run c l (init e0) [] 0 C S (W_init c e0 C) ltac:(intros p []) SZ ND ltac:(lia)) as [k [P1 P2]].
  assert (0 <= credit c) by (destruct S as [[? ?] ?]; unfold credit; sizes).
  unfold total in P2. pose proof (pots_nonneg c (s_timers (fst (run c (init e0) l))) S). change (s_energy (init e0)) with e0 in P2. change (pots c (s_timers (init e0))) with 0 in P2. nia.
Qed.
