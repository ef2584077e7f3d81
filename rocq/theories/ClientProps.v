(** Properties of a client of the macro scenario, THzMacMacroClient (C85-C99). *)
From Coq Require Import ZArith List Lia Bool Permutation.
From Verif Require Import Base HeaderModel SeqModel EnergyModel MacModel MacSpec ApModel ClientModel ClientSpec ClientCase ClientAcct ClientInv ClientFifo ClientOrder ClientCount ClientRetry ClientMore ClientNeg ClientBlock ClientScript.
Import ListNotations.
Open Scope Z_scope.

(** Three packets; the first one is sent and acknowledged. *)
Definition three : list xcmd := [enq 0; enq 0; enq 0].
Definition good : list xcmd := three ++ ask ++ tell 1 30 ++ end_ok 1.
(** The RTS is not answered until the next announcement; the backoff is over at once. *)
Definition miss : list xcmd := ask ++ rx (20 * nsec) (cta 0).
Definition misses (n : nat) : list xcmd := concat (repeat miss n).
(** Kind and number of what was sent. *)
Definition sent_l (o : list lout) : list (Z * Z) := map (fun f => (kf_type f, kf_seq f)) (lsnd_of o).

(** * C85: Enqueue *)

(** Enqueue returns true exactly when it takes the packet. *)
Definition C85_full := forall c q0 h s o e size dst, 0 <= q0 < 65536 -> lreach ontime c q0 h s o ->
  (In (LRet true) (snd (lstep c e s (LEEnq size dst))) <-> lacc_of (snd (lstep c e s (LEEnq size dst))) <> []).
Theorem C85_enqueue_refuted : ~ C85_full.
Proof.
  intros H. destruct (H cl3 0 [] _ _ ee 15000 0 ltac:(lia) (LR0 ontime cl3 0)) as [_ X].
  destruct X as [X|[X|[]]]; [vm_compute; discriminate|discriminate X|discriminate X].
Qed.
Print Assumptions C85_enqueue_refuted.
(** QueueLimit bounds the queue. *)
Definition C85_limit_full := forall c q0 h s o, 0 <= q0 < 65536 -> lreach ontime c q0 h s o -> Z.of_nat (length (l_queue s)) <= lc_limit c.
Definition lim2 : lcfg := Lcfg 1 3 5 (2 * nsec) 0 (3333 * psec) 813620701 (fun _ => 1189108) 15000 0 2 7 5.
Theorem C85_limit_refuted : ~ C85_limit_full.
Proof.
  intros H. assert (T : x_ok lim2 0 three = true) by (vm_compute; reflexivity).
  pose proof (H _ 0 _ _ _ ltac:(lia) (x_reach _ _ _ T)) as X. vm_compute in X. apply X. reflexivity.
Qed.
Print Assumptions C85_limit_refuted.
(** What holds: a packet is taken exactly if it has at least PacketSize bytes. The [i]-th packet taken has the [i]-th
    number, the client's source address and type DATA. Two packets less than 65536 apart never share a number. *)
Theorem C85_enqueue_partial : forall c q0 h s o, 0 <= q0 < 65536 -> lreach freely c q0 h s o ->
  (forall e size dst, (lacc_of (snd (lstep c e s (LEEnq size dst))) <> [] <-> lc_min c <= size) /\
     (forall p, In p (lacc_of (snd (lstep c e s (LEEnq size dst)))) -> kf_dst p = dst)) /\
  (forall i p, nth_error (lacc_of o) i = Some p -> kf_type p = T_DATA /\ kf_src p = lc_addr c /\ kf_seq p = (q0 + 1 + Z.of_nat i) mod 65536) /\
  (forall i j p p', nth_error (lacc_of o) i = Some p -> nth_error (lacc_of o) j = Some p' -> (i < j)%nat -> Z.of_nat j - Z.of_nat i < 65536 -> kf_seq p <> kf_seq p').
Proof.
  intros c q0 h s o U R. pose proof (lacct_reach _ _ _ _ _ _ U R) as A. split; [|split].
  - intros e size dst. cbn [lstep]. unfold lenqueue. destruct (Z.ltb_spec size (lc_min c)); cbn [snd lacc_of flat_map app].
    + split; [split; [intros X; contradiction|lia]|contradiction].
    + split; [split; [lia|intros _; discriminate]|]. intros p [<-|[]]. reflexivity.
  - intros i p N. destruct (la_form _ _ _ _ A p (nth_error_In _ _ N)) as [F1 F2]. repeat split; auto. apply (la_num _ _ _ _ A _ _ N).
  - intros i j p p' N1 N2 L D E. rewrite (la_num _ _ _ _ A _ _ N1), (la_num _ _ _ _ A _ _ N2) in E.
    pose proof (Z.div_mod (q0 + 1 + Z.of_nat i) 65536 ltac:(lia)). pose proof (Z.div_mod (q0 + 1 + Z.of_nat j) 65536 ltac:(lia)). lia.
Qed.
Print Assumptions C85_enqueue_partial.
Example C85_example : x_ok cl3 65534 (three ++ [XIn 0 ee (LEEnq 14999 0)]) = true /\
  map kf_seq (lacc_of (x_out cl3 65534 (three ++ [XIn 0 ee (LEEnq 14999 0)]))) = [65535; 0; 1].
Proof. vm_compute. auto. Qed.

(** * C86: accounting *)

(** However the events run: every packet taken is reported once as sent, reported once as discarded, or still has
    its record; nothing else is reported. The counters count the reports modulo 2^16. *)
Theorem C86_accounting : forall c q0 h s o, 0 <= q0 < 65536 -> lreach freely c q0 h s o ->
  Permutation (lacc_of o) (lrep_of true o ++ lrep_of false o ++ map lr_pkt (l_rec s)) /\
  NoDup (map kf_id (lacc_of o)) /\
  l_sent s = Z.of_nat (length (lrep_of true o)) mod 65536 /\ l_disc s = Z.of_nat (length (lrep_of false o)) mod 65536.
Proof. intros c q0 h s o U R. destruct (lacct_reach _ _ _ _ _ _ U R); auto. Qed.
Print Assumptions C86_accounting.
Example C86_example : x_ok cl3 0 good = true /\ map kf_seq (lrep_of true (x_out cl3 0 good)) = [1] /\
  map (fun r => kf_seq (lr_pkt r)) (l_rec (x_st cl3 0 good)) = [2; 3] /\ l_sent (x_st cl3 0 good) = 1.
Proof. vm_compute. auto. Qed.

(** * C87: success *)

(** A packet reported as sent was acknowledged: an ACK for the client with its number was received, after a packet with that
    number had been transmitted. *)
Theorem C87_success : forall c q0 h s o p, 0 <= q0 < 65536 -> lreach freely c q0 h s o -> In p (lrep_of true o) ->
  exists h1 e f h2, h = h1 ++ (e, LERxEnd f true) :: h2 /\ kf_type f = T_ACK /\ kf_dst f = lc_addr c /\ kf_seq f = kf_seq p /\
    exists d, In d (lsnd_of (snd (lrun c (linit q0) h1))) /\ kf_type d = T_DATA /\ kf_seq d = kf_seq p.
Proof. intros c q0 h s o p U R I. destruct (acks_reach _ _ _ _ _ _ U R) as (_ & _ & _ & X). exact (X p I). Qed.
Print Assumptions C87_success.
Example C87_example : sent_l (x_out cl3 0 good) = [(T_RTS, 1); (T_DATA, 1)] /\
  map kf_type (lrcv_of (x_run cl3 0 good)) = [T_CTA; T_CTS; T_ACK].
Proof. vm_compute. auto. Qed.

(** * C88: retry limits *)

(** A packet is discarded only after RtsRetryLimit missing CTS or DataRetryLimit missing ACK. *)
Definition C88_full := forall c q0 h s o p, 0 <= q0 < 65536 -> lreach ontime c q0 h s o -> Z.of_nat (length (lacc_of o)) <= 65536 -> In p (lrep_of false o) ->
  lc_rts_retry c <= Z.of_nat (ltmo_of false (kf_seq p) o) \/ lc_data_retry c <= Z.of_nat (ltmo_of true (kf_seq p) o).
(** Four CTS are missing, then one ACK: the fifth failure ends it. *)
Definition mixed : list xcmd := three ++ misses 4 ++ ask ++ tell 1 30 ++ [fire; fire; fire].
Theorem C88_limits_refuted : ~ C88_full.
Proof.
  intros H. assert (T : x_ok cl3 0 mixed = true) by (vm_compute; reflexivity).
  assert (L : (Z.of_nat (length (lacc_of (x_out cl3 0 mixed))) <=? 65536) = true) by (vm_compute; reflexivity). apply Z.leb_le in L.
  destruct (lrep_of false (x_out cl3 0 mixed)) as [|p l] eqn:E; [vm_compute in E; discriminate|].
  assert (Q : kf_seq p = 1) by (vm_compute in E; injection E as <- _; reflexivity).
  destruct (H _ 0 _ _ _ p ltac:(lia) (x_reach _ _ _ T) L ltac:(rewrite E; left; auto)) as [X|X]; rewrite Q in X; vm_compute in X; apply X; reflexivity.
Qed.
Print Assumptions C88_limits_refuted.
(** The exact rule: one counter for both kinds. A discarded packet had failures of both kinds together at least the limit
    of a kind that occurred, and the record of a packet counts both kinds. *)
Theorem C88_limits_partial : forall c q0 h s o, 0 <= q0 < 65536 -> lreach freely c q0 h s o -> Z.of_nat (length (lacc_of o)) <= 65536 ->
  (forall p, In p (lrep_of false o) ->
     let n := Z.of_nat (ltmo_of true (kf_seq p) o + ltmo_of false (kf_seq p) o) in
     (1 <= ltmo_of false (kf_seq p) o)%nat /\ lc_rts_retry c <= n \/ (1 <= ltmo_of true (kf_seq p) o)%nat /\ lc_data_retry c <= n) /\
  (forall r, In r (l_rec s) -> lr_retry r = Z.of_nat (ltmo_of true (kf_seq (lr_pkt r)) o + ltmo_of false (kf_seq (lr_pkt r)) o) mod 65536).
Proof.
  intros c q0 h s o U R L. destruct (retry_reach _ _ _ _ _ _ U R L) as (_ & A & _ & B). split; [intros p I; exact (B p I)|exact A].
Qed.
Print Assumptions C88_limits_partial.
Example C88_example : ltmo_of false 1 (x_out cl3 0 mixed) = 4%nat /\ ltmo_of true 1 (x_out cl3 0 mixed) = 1%nat /\
  map kf_seq (lrep_of false (x_out cl3 0 mixed)) = [1] /\ ~ In LUb (x_out cl3 0 mixed) /\
  map lr_retry (l_rec (x_st cl3 0 (three ++ misses 4))) = [4; 0; 0].
Proof. vm_compute. repeat split; auto. intuition discriminate. Qed.

(** * C89: every CTS timeout belongs to an RTS *)
Definition C89_full := forall c q0 h s o q, 0 <= q0 < 65536 -> lreach ontime c q0 h s o ->
  (ltmo_of false q o <= lcount (fun f => ((kf_type f =? T_RTS) && (kf_flags f =? 0) && (kf_seq f =? q))%Z) (lsnd_of o))%nat.
(** The reception of another node's RTS begins while the client waits for its slot: the RTS is not sent. *)
Definition squeezed : list xcmd :=
  three ++ rx (20 * nsec) (cta 0) ++ [XIn (3 * nsec) ee LERxStart; fire; XIn (300 * psec) ee (LERxEnd (Kframe T_RTS 2 0 9 0 0 0 18 0) true)] ++ rx (50 * nsec) (cta 0).
Theorem C89_timeouts_refuted : ~ C89_full.
Proof.
  intros H. assert (T : x_ok cl3 0 squeezed = true) by (vm_compute; reflexivity).
  pose proof (H _ 0 _ _ _ 1 ltac:(lia) (x_reach _ _ _ T)) as X. vm_compute in X. lia.
Qed.
Print Assumptions C89_timeouts_refuted.
(** If every event of an RTS finds the client waiting and the PHY idle then it holds: the RTS sent and those still
    to be sent cover the timeouts. *)
Theorem C89_timeouts_partial : forall c q0 h s o q, lreach rts_able c q0 h s o ->
  (ltmo_of false q o <= lcount (fun f => ((kf_type f =? T_RTS) && (kf_flags f =? 0) && (kf_seq f =? q))%Z) (lsnd_of o) +
     length (filter (fun t => match lt_kind t with LKRts p => (kf_seq p =? q)%Z | _ => false end) (l_timers s)))%nat.
Proof.
  intros c q0 h s o q R. pose proof (open_reach rts_able c q0 h s o q ltac:(auto) R) as X. unfold rts_of in X.
  assert (E : pend_l (rts_for q) (l_timers s) = length (filter (fun t => match lt_kind t with LKRts p => (kf_seq p =? q)%Z | _ => false end) (l_timers s))) by reflexivity.
  lia.
Qed.
Print Assumptions C89_timeouts_partial.
Definition able_run := fix go c s (l : list (lenv * levent)) : bool :=
  match l with
  | [] => true
  | (e, ev) :: r =>
    match ev with
    | LETimer i => match nth_error (l_timers s) i with Some t => match lt_kind t with LKRts _ => lcan s | _ => true end | None => true end
    | _ => true
    end && go c (fst (lstep c e s ev)) r
  end.
Example C89_example : able_run cl3 (linit 0) (x_run cl3 0 (three ++ misses 2)) = true /\ ltmo_of false 1 (x_out cl3 0 (three ++ misses 2)) = 2%nat /\
  sent_l (x_out cl3 0 (three ++ misses 2)) = [(T_RTS, 1); (T_RTS, 1)] /\
  ltmo_of false 1 (x_out cl3 0 squeezed) = 1%nat /\ sent_l (x_out cl3 0 squeezed) = [].
Proof. vm_compute. auto 10. Qed.

(** * C90: RTS answer announcements *)

(** However the events run: at most as many RTS as announcements were heard, at most as many dummy RTS as dummy CTA. Every
    RTS carries the address of the client and number and destination of a packet it has taken. *)
Theorem C90_rts : forall c q0 h s o, 0 <= q0 < 65536 -> lreach freely c q0 h s o ->
  (lcount (fun f => ((kf_type f =? T_RTS) && (kf_flags f =? 0))%Z) (lsnd_of o) <= lcount (fun f => ((kf_type f =? T_CTA) && negb (kf_flags f =? 1))%Z) (lrcv_of h))%nat /\
  (lcount (fun f => ((kf_type f =? T_RTS) && (kf_flags f =? 1))%Z) (lsnd_of o) <= lcount (fun f => ((kf_type f =? T_CTA) && (kf_flags f =? 1))%Z) (lrcv_of h))%nat /\
  (forall f, In f (lsnd_of o) -> kf_type f = T_DATA /\ In f (lacc_of o) \/
     kf_type f = T_RTS /\ (kf_flags f = 1 \/ kf_flags f = 0 /\ kf_src f = lc_addr c /\ exists p, In p (lacc_of o) /\ kf_seq f = kf_seq p /\ kf_dst f = kf_dst p)).
Proof.
  intros c q0 h s o U R. destruct (rts_reach _ _ _ _ _ _ U R) as [A B].
  assert (E1 : forall l, lcount (is_cta false) l = lcount (fun f => ((kf_type f =? T_CTA) && negb (kf_flags f =? 1))%Z) l).
  { intros l. reflexivity. }
  assert (E2 : forall l, lcount (is_cta true) l = lcount (fun f => ((kf_type f =? T_CTA) && (kf_flags f =? 1))%Z) l).
  { intros l. unfold lcount. f_equal. apply filter_ext. intros f. unfold is_cta. destruct (kf_flags f =? 1); reflexivity. }
  rewrite E1 in A. rewrite E2 in B. unfold is_rts in *. split; [lia|]. split; [lia|].
  intros f I. destruct (frames_reach _ _ _ _ _ _ U R f I) as [(F1 & F2 & _)|[(F1 & F2 & F3 & p & F4)|(F1 & F2)]].
  - left. auto.
  - right. split; auto. right. split; auto. split; auto. exists p. tauto.
  - right. auto.
Qed.
Print Assumptions C90_rts.
Definition dummy_cta : kframe := Kframe T_CTA 0 bcast 0 0 1 0 18 0.
Example C90_example : x_ok cl3 0 (three ++ rx (20 * nsec) dummy_cta ++ [fire; txd (1300 * psec)] ++ ask) = true /\
  map (fun f => (kf_type f, kf_flags f)) (lsnd_of (x_out cl3 0 (three ++ rx (20 * nsec) dummy_cta ++ [fire; txd (1300 * psec)] ++ ask))) = [(T_RTS, 1); (T_RTS, 0)].
Proof. vm_compute. auto. Qed.

(** * C91: no RTS for a packet that is done *)
Definition C91_full := forall c q0 h s o1 f m o2 b p, 0 <= q0 < 65536 -> lreach ontime c q0 h s (o1 ++ LSnd f m :: o2) ->
  Z.of_nat (length (lacc_of (o1 ++ LSnd f m :: o2))) <= 65536 -> kf_type f = T_RTS -> kf_flags f = 0 -> In (LRep b p) o1 -> kf_seq p <> kf_seq f.
(** The announcement that is the seventh timeout discards the packet and also begins an RTS for it. *)
Definition ghost : list xcmd := three ++ misses 6 ++ ask ++ rx (20 * nsec) (cta 0) ++ [fire; fire; fire].
Definition ghost_p : kframe := Kframe T_DATA 1 0 1 0 0 0 15017 0.
Definition ghost_rts : kframe := Kframe T_RTS 1 0 1 0 0 0 18 10.
Theorem C91_ghost_refuted : ~ C91_full.
Proof.
  intros H. assert (T : x_ok cl3 0 ghost = true) by (vm_compute; reflexivity).
  assert (E : x_out cl3 0 ghost = removelast (x_out cl3 0 ghost) ++ [LSnd ghost_rts 0]) by (vm_compute; reflexivity).
  pose proof (x_reach _ _ _ T) as R. rewrite E in R.
  assert (L : (Z.of_nat (length (lacc_of (removelast (x_out cl3 0 ghost) ++ [LSnd ghost_rts 0]))) <=? 65536) = true) by (vm_compute; reflexivity). apply Z.leb_le in L.
  assert (I : In (LRep false ghost_p) (removelast (x_out cl3 0 ghost))) by (vm_compute; tauto).
  apply (H _ 0 _ _ _ ghost_rts 0 [] false ghost_p ltac:(lia) R L eq_refl eq_refl I). reflexivity.
Qed.
Print Assumptions C91_ghost_refuted.
(** When the announcement is heard the packet has its record: it is the oldest one. *)
Theorem C91_ghost_partial : forall c q0 h s o e ev t p, lreach freely c q0 h s o -> lvalid s ev = true ->
  In t (l_timers (fst (lstep c e s ev))) -> lt_kind t = LKRts p -> In t (l_timers s) \/ exists r l, l_rec s = r :: l /\ lr_pkt r = p.
Proof.
  intros c q0 h s o e ev t p R V I K. pose proof (step_lcase c e s ev V) as C.
  set (s' := fst (lstep c e s ev)) in *. set (o' := snd (lstep c e s ev)) in *. clearbody s' o'.
  destruct (step_track _ _ _ _ _ _ C) as (KK & N & E & KP & NW). rewrite E in I. apply in_app_or in I. destruct I as [I|I]; [left; eapply kept_in; eauto|]. right.
  destruct (cta3_new _ _ _ _ _ _ _ _ NW I K) as (f & r & l & _ & _ & _ & _ & R1 & R2 & _). eauto.
Qed.
Print Assumptions C91_ghost_partial.
Example C91_example : map kf_seq (lrep_of false (x_out cl3 0 ghost)) = [1] /\ length (sent_l (x_out cl3 0 ghost)) = 8%nat /\ ~ In LUb (x_out cl3 0 ghost) /\
  (exists r l, l_rec (x_st cl3 0 three) = r :: l /\ kf_seq (lr_pkt r) = 1).
Proof. vm_compute. repeat split; auto; [intuition discriminate|eauto]. Qed.

(** * C92: RTS only on the announcement of the own sector *)

(** The event of an RTS is scheduled only on an announcement (a CTA that is neither dummy nor feedback). *)
Definition C92_full := forall c q0 h s o e f t p, lreach ontime c q0 h s o -> lvalid s (LERxEnd f true) = true ->
  In t (l_timers (fst (lstep c e s (LERxEnd f true)))) -> ~ In t (l_timers s) -> lt_kind t = LKRts p -> kf_type f = T_CTA /\ kf_flags f = 0.
Definition feedback (a sec : Z) : kframe := Kframe T_CTA 0 a 0 0 2 sec 18 0.
Definition pre_feed : list xcmd := three ++ [XIn (20 * nsec) ee LERxStart].
Theorem C92_feedback_refuted : ~ C92_full.
Proof.
  intros H. assert (T : x_ok cl3 0 pre_feed = true) by (vm_compute; reflexivity).
  destruct (l_timers (fst (lstep cl3 ee (x_st cl3 0 pre_feed) (LERxEnd (feedback 2 3) true)))) as [|t l] eqn:E; [vm_compute in E; discriminate|].
  assert (K : exists p, lt_kind t = LKRts p) by (vm_compute in E; injection E as <- _; cbn; eauto). destruct K as [p K].
  destruct (H _ _ _ _ _ ee (feedback 2 3) t p (x_reach _ _ _ T) ltac:(vm_compute; reflexivity) ltac:(rewrite E; left; auto) ltac:(vm_compute; tauto) K) as [_ X].
  discriminate X.
Qed.
Print Assumptions C92_feedback_refuted.
(** What holds: never on a dummy CTA, never on feedback to the client itself, never during a backoff; once the client was
    assigned a sector only on a CTA with that sector, and never on any other frame; between one and BoSlots slots later. *)
Theorem C92_feedback_partial : forall c q0 h s o e ev t p, lreach freely c q0 h s o -> lvalid s ev = true -> 1 <= lc_slots c -> 0 <= lc_slot c ->
  In t (l_timers (fst (lstep c e s ev))) -> ~ In t (l_timers s) -> lt_kind t = LKRts p ->
  exists f, ev = LERxEnd f true /\ kf_type f = T_CTA /\ kf_flags f <> 1 /\ (kf_flags f = 2 -> kf_dst f <> lc_addr c) /\ l_boact s = false /\
    (0 <= l_sector s -> kf_sector f = l_sector s) /\ l_now s + lc_slot c <= lt_due t <= l_now s + lc_slot c * lc_slots c.
Proof.
  intros c q0 h s o e ev t p R V S1 S2 I NI K. pose proof (step_lcase c e s ev V) as C.
  set (s' := fst (lstep c e s ev)) in *. set (o' := snd (lstep c e s ev)) in *. clearbody s' o'.
  destruct (step_track _ _ _ _ _ _ C) as (KK & N & E & KP & NW). rewrite E in I. apply in_app_or in I. destruct I as [I|I]; [exfalso; apply NI; eapply kept_in; eauto|].
  destruct (cta3_new _ _ _ _ _ _ _ _ NW I K) as (f & r & l & F1 & F2 & F3 & F4 & F5 & F6 & F7 & F8 & F9). exists f. repeat split; auto.
  - intros X. destruct F8; [lia|auto].
  - rewrite F9. unfold boslots, draw1. nia.
  - rewrite F9. unfold boslots, draw1. nia.
Qed.
Print Assumptions C92_feedback_partial.
(** A client that was assigned sector 3 is silent on the announcement of sector 0. *)
Example C92_example : l_sector (x_st cl3 0 (three ++ rx (20 * nsec) (feedback 1 3))) = 3 /\
  l_timers (x_st cl3 0 (three ++ rx (20 * nsec) (feedback 1 3) ++ rx (20 * nsec) (cta 0))) = [] /\
  map (fun t => lt_due t - 42400 * psec) (l_timers (x_st cl3 0 (three ++ rx (20 * nsec) (feedback 1 3) ++ rx (20 * nsec) (cta 3)))) = [4 * nsec].
Proof. vm_compute. auto. Qed.

(** * C93: data only when granted, at the granted time *)

(** In the 3-way handshake, in real time: a data packet is transmitted only if a CTS for the client with its number was received; the
    transmission begins exactly when the duration in the CTS has passed, with the modulation the CTS names. *)
Theorem C93_granted : forall c q0 h s o e ev f m, lc_ways c <> 1 -> lreach ontime c q0 h s o -> lvalid s ev = true -> ltimely s ev = true -> 0 <= q0 < 65536 ->
  In (LSnd f m) (snd (lstep c e s ev)) -> kf_type f = T_DATA ->
  exists h1 e' g h2, h = h1 ++ (e', LERxEnd g true) :: h2 /\ kf_type g = T_CTS /\ kf_dst g = lc_addr c /\ kf_seq g = kf_seq f /\
    m = (if (10 <=? kf_flags g) && (kf_flags g <=? 14) then kf_flags g else 0) /\
    l_now s = l_now (fst (lrun c (linit q0) h1)) + kf_dur g * nsec.
Proof.
  intros c q0 h s o e ev f m W R V T U I F. pose proof (pkts_reach _ _ _ _ _ _ U R) as (_ & _ & J3).
  destruct (step_snd _ _ _ _ _ _ f m (step_lcase c e s ev V) I) as (i & t & -> & N & _ & _ & K).
  pose proof (nth_error_In _ _ N) as IN.
  destruct K as [[K ->]|[(p & K & -> & ->)|[K _]]].
  - destruct (J3 _ _ IN K) as [X _]. rewrite X in F. discriminate F.
  - discriminate F.
  - pose proof (time_reach _ _ _ _ _ _ W R t f m IN K) as G. cbn [ltimely] in T. rewrite N in T. apply andb_true_iff in T. destruct T as [T _]. apply Z.eqb_eq in T.
    rewrite T in G. exact G.
Qed.
Print Assumptions C93_granted.
(** And at most once for every CTS with that number. *)
Theorem C93_once : forall c q0 h s o q, lc_ways c <> 1 -> 0 <= q0 < 65536 -> lreach freely c q0 h s o -> Z.of_nat (length (lacc_of o)) <= 65536 ->
  (lcount (fun f => ((kf_type f =? T_DATA) && (kf_seq f =? q))%Z) (lsnd_of o) <= lcount (fun f => ((kf_type f =? T_CTS) && (kf_dst f =? lc_addr c) && (kf_seq f =? q))%Z) (lrcv_of h))%nat.
Proof.
  intros c q0 h s o q W U R L. pose proof (data_reach _ _ _ _ _ _ q U R L) as X. unfold cta1_count in X. apply Z.eqb_neq in W. rewrite W in X. unfold is_data, is_cts in X. lia.
Qed.
Print Assumptions C93_once.
Example C93_example : exists o1 f o2, x_out cl3 0 good = o1 ++ LSnd f 14 :: o2 /\ kf_type f = T_DATA /\ kf_seq f = 1 /\
  l_now (x_st cl3 0 (three ++ ask ++ rx (20 * nsec) (cts 1 1 30) ++ [fire])) = l_now (x_st cl3 0 (three ++ ask ++ rx (20 * nsec) (cts 1 1 30))) + 30 * nsec.
Proof.
  exists (firstn 7 (x_out cl3 0 good)), (Kframe T_DATA 1 0 1 0 0 0 15017 0), (skipn 8 (x_out cl3 0 good)). vm_compute. auto.
Qed.

(** * C94: broadcast *)

(** A packet for the broadcast address is taken but never transmitted. In 1-way mode it blocks everything behind it: if the first
    packet is one, the client never transmits anything and never reports anything, whatever announcements it hears (as long as nobody sends it
    a CTS, which does not happen in 1-way mode). *)
Theorem C94_broadcast : forall c q0 h s o, 0 <= q0 < 65536 -> lreach freely c q0 h s o ->
  (forall f, In f (lsnd_of o) -> kf_type f = T_DATA -> kf_dst f <> bcast) /\
  (lc_ways c = 1 -> (forall f, In f (lrcv_of h) -> kf_type f = T_CTS -> kf_dst f <> lc_addr c) -> (forall p l, lacc_of o = p :: l -> kf_dst p = bcast) ->
     lsnd_of o = [] /\ lrep_of true o = [] /\ lrep_of false o = [] /\ map lr_pkt (l_rec s) = lacc_of o).
Proof.
  intros c q0 h s o U R. split.
  - intros f I F. destruct (frames_reach _ _ _ _ _ _ U R f I) as [(_ & _ & X)|[(X & _)|(X & _)]]; [auto|rewrite X in F; discriminate F|rewrite X in F; discriminate F].
  - intros W NC FB. destruct (blocked_reach _ _ _ _ _ _ U W R NC FB) as (_ & A & B & C & D). auto.
Qed.
Print Assumptions C94_broadcast.
Definition near1 : lcfg := Lcfg 1 1 5 (2 * nsec) 0 (3333 * psec) 813620701 (fun _ => 1189108) 15000 0 10000 7 100.
Example C94_example : x_ok near1 0 ([enq bcast; enq 0] ++ rx (20 * nsec) (cta 0) ++ [fire] ++ rx (20 * nsec) (cta 0) ++ [fire]) = true /\
  l_state (x_st near1 0 ([enq bcast; enq 0] ++ rx (20 * nsec) (cta 0) ++ [fire] ++ rx (20 * nsec) (cta 0) ++ [fire])) = LWaitTx /\
  sent_l (x_out near1 0 ([enq 0; enq bcast] ++ rx (20 * nsec) (cta 0) ++ [fire])) = [(T_DATA, 1)].
Proof. vm_compute. auto. Qed.

(** * C95: a backoff ends *)

(** From a state in which the client waits because of a backoff, enough announcements end it. *)
Definition C95_full := forall c q0 h s o, 0 <= q0 < 65536 -> lreach ontime c q0 h s o -> Z.of_nat (length (lacc_of o)) <= 65536 -> ~ In LUb o ->
  l_state s = LIdle -> l_queue s <> [] -> l_timers s = [] -> l_answered s = true -> l_boact s = true ->
  exists n, forall l, length l = n -> (forall x, In x l -> announces c (snd x)) -> l_boact (fst (lrun c s (hear l))) = false.
(** The CTS comes after the next announcement: the packet goes through although its backoff has begun. *)
Definition e2 : lenv := Lenv 2 2 0.
Definition late_cts : list xcmd :=
  three ++ ask ++ [XIn (20 * nsec) ee LERxStart; XIn (1200 * psec) e2 (LERxEnd (cta 0) true)] ++ tell 1 30 ++ end_ok 1.
Lemma stuck_hear c l : forall s, stuck s -> quiet s -> l_queue s <> [] -> (forall x, In x l -> announces c (snd x)) -> l_boact (fst (lrun c s (hear l))) = true.
Proof.
  induction l as [|[e f] l IH]; intros s ST Q QU A; [apply (sk_bo _ ST)|].
  destruct (rx_quiet s Q) as (s1 & E1 & E2 & E3 & E4 & E5 & E6 & E7 & E8 & E9 & E10).
  assert (B : l_boact s1 = true) by (rewrite E5; apply ST).
  pose proof (hear_bo c e f s1 (A _ (or_introl eq_refl)) E2 ltac:(congruence) B ltac:(rewrite E7; apply ST)) as H.
  change (hear ((e, f) :: l)) with ([(e, LERxStart); (e, LERxEnd f true)] ++ hear l). rewrite lrun_app. cbn [lrun lstep]. rewrite E1, H.
  assert (D : decrease (lset_state LIdle s1) = lset_state LIdle s1).
  { unfold decrease. rewrite find1_absent; auto. intros r R. change (kf_seq (lr_pkt r) <> l_boseq s1). rewrite E6. apply (sk_rec _ ST). change (In r (l_rec s1)) in R. rewrite <- E3. exact R. }
  rewrite D. cbn [app]. destruct (lrun c (lset_state LIdle s1) (hear l)) as [s3 o3] eqn:L. cbn [fst].
  assert (X : l_boact (fst (lrun c (lset_state LIdle s1) (hear l))) = true).
  { apply IH.
    - split; [exact B|intros r R; change (kf_seq (lr_pkt r) <> l_boseq s1); rewrite E6; apply (sk_rec _ ST); rewrite <- E3; exact R|change (l_answered s1 = true); rewrite E7; apply ST|].
      intros t T. apply (sk_timers _ ST). apply E10. exact T.
    - split; discriminate.
    - change (l_queue s1 <> []). congruence.
    - intros x X. apply A. right. auto. }
  rewrite L in X. exact X.
Qed.
Lemma late_stuck : stuck (x_st cl3 0 late_cts).
Proof.
  assert (R : forallb (fun r => negb (kf_seq (lr_pkt r) =? l_boseq (x_st cl3 0 late_cts))) (l_rec (x_st cl3 0 late_cts)) = true) by (vm_compute; reflexivity).
  assert (T : l_timers (x_st cl3 0 late_cts) = []) by (vm_compute; reflexivity).
  split; [vm_compute; reflexivity| |vm_compute; reflexivity|rewrite T; contradiction].
  intros r I. rewrite forallb_forall in R. specialize (R r I). apply negb_true_iff, Z.eqb_neq in R. exact R.
Qed.
Theorem C95_backoff_refuted : ~ C95_full.
Proof.
  intros H. assert (T : x_ok cl3 0 late_cts = true) by (vm_compute; reflexivity).
  assert (L : (Z.of_nat (length (lacc_of (x_out cl3 0 late_cts))) <=? 65536) = true) by (vm_compute; reflexivity). apply Z.leb_le in L.
  assert (QU : l_queue (x_st cl3 0 late_cts) <> []) by (vm_compute; discriminate).
  assert (ST : l_state (x_st cl3 0 late_cts) = LIdle) by (vm_compute; reflexivity).
  destruct (H cl3 0 _ _ _ ltac:(lia) (x_reach _ _ _ T) L ltac:(vm_compute; intuition discriminate) ST QU ltac:(vm_compute; reflexivity) ltac:(vm_compute; reflexivity) ltac:(vm_compute; reflexivity)) as [n X].
  assert (A : forall x, In x (repeat (ee, cta 0) n) -> announces cl3 (snd x)).
  { intros x I. apply repeat_spec in I. subst x. split; [reflexivity|]. right. repeat split; discriminate. }
  specialize (X (repeat (ee, cta 0) n) (repeat_length _ _) A).
  rewrite stuck_hear in X; [discriminate X|apply late_stuck| |exact QU|exact A]. split; rewrite ST; discriminate.
Qed.
Print Assumptions C95_backoff_refuted.
(** After that execution the client is lost: whatever happens, unless a CTS comes for it or the numbers begin to recur, it
    sends nothing but dummy RTS, and it never notices a timeout. *)
Theorem C95_stuck : forall h2 s2 o2, lreach freely cl3 0 (x_run cl3 0 late_cts ++ h2) s2 o2 ->
  (forall f, In f (lrcv_of h2) -> kf_type f = T_CTS -> kf_dst f <> 1) -> Z.of_nat (length (lacc_of o2)) <= 65536 ->
  exists o', o2 = x_out cl3 0 late_cts ++ o' /\ (forall f m, In (LSnd f m) o' -> kf_type f = T_RTS /\ kf_flags f = 1) /\ (forall a q, ~ In (LTmo a q) o').
Proof.
  intros h2 s2 o2 R NC L. assert (T : x_ok cl3 0 late_cts = true) by (vm_compute; reflexivity).
  pose proof (lreach_weaken ontime freely _ _ _ _ _ (fun _ _ _ => Coq.Init.Logic.I) (x_reach _ _ _ T)) as R0.
  assert (NB : numbered (x_out cl3 0 late_cts) (l_boseq (x_st cl3 0 late_cts))).
  { exists (Kframe T_DATA 1 0 1 0 0 0 15017 0). split; [vm_compute; tauto|vm_compute; reflexivity]. }
  destruct (stuck_forever _ _ _ _ _ _ h2 R0 late_stuck NB ltac:(lia) _ _ R NC L) as (o' & E & _ & _ & A & B). eauto.
Qed.
Print Assumptions C95_stuck.
(** What holds: as long as the packet has its record with life [k], [k] announcements end the backoff, and not fewer; the next one (of the own sector) begins the
    RTS, in 1-way mode the transmission, of the oldest packet. *)
Theorem C95_backoff_partial : forall c s r l, quiet s -> l_queue s <> [] -> l_answered s = true -> l_boact s = true -> find1 (l_boseq s) (l_rec s) = Some r -> 1 <= lr_life r < 65536 ->
  (forall x, In x l -> announces c (snd x)) -> Z.of_nat (length l) <= lr_life r ->
  snd (lrun c s (hear l)) = [] /\ (l_boact (fst (lrun c s (hear l))) = false <-> Z.of_nat (length l) = lr_life r) /\
  (forall e f, Z.of_nat (length l) = lr_life r -> announces c f -> (lc_ways c <> 1 -> l_sector s <= -1 \/ kf_sector f = l_sector s) ->
     exists t, In t (l_timers (fst (lrun c s (hear (l ++ [(e, f)]))))) /\
       (lc_ways c = 1 -> exists p, hd_error (map lr_pkt (l_rec s)) = Some p /\ lt_kind t = LKData p 0) /\
       (lc_ways c <> 1 -> exists p, hd_error (map lr_pkt (l_rec s)) = Some p /\ lt_kind t = LKRts p)).
Proof.
  intros c s r l Q QU A B F K AN L.
  assert (W : waiting (lr_life r) (map lr_pkt (l_rec s)) (l_queue s) (l_sector s) s).
  { split; auto; [rewrite B; symmetry; apply Z.ltb_lt; lia|eauto]. }
  destruct (waiting_many c _ _ _ l _ s W AN QU ltac:(lia)) as (s' & R & W'). rewrite R. cbn [fst snd]. split; [auto|]. split.
  - rewrite (wt_bo _ _ _ _ _ W'). rewrite Z.ltb_ge. lia.
  - intros e f E AF SEC. rewrite hear_app, lrun_app, R. rewrite E, Z.sub_diag in W'. destruct W' as [V1 V2 V3 V4 V5 V6 V7].
    destruct (rx_quiet s' V1) as (s1 & E1 & E2 & E3 & E4 & E5 & E6 & E7 & E8 & E9 & E10).
    destruct (l_rec s1) as [|r0 t0] eqn:R0.
    { exfalso. rewrite <- E3 in V4. cbn in V4. destruct (find1_in _ _ _ F) as [X _]. destruct (l_rec s); [contradiction|discriminate V4]. }
    assert (B1 : l_boact s1 = false) by (rewrite E5, V6; reflexivity).
    destruct (hear_send c e f s1 r0 t0 AF E2) as (t & T1 & T2 & T3); auto; try congruence.
    { rewrite E9, V5. exact SEC. }
    cbn [hear flat_map app fst snd lrun lstep]. rewrite E1. destruct (l_rx_end c e f true s1) as [s3 o3]. cbn [fst snd] in *.
    exists t. split; [rewrite T1; apply in_or_app; right; left; auto|].
    assert (HD : hd_error (map lr_pkt (l_rec s)) = Some (lr_pkt r0)) by (rewrite <- V4, <- E3; reflexivity).
    split; intros X; exists (lr_pkt r0); split; auto; [apply (T2 X)|apply (T3 X)].
Qed.
Print Assumptions C95_backoff_partial.
Definition one_bo : list xcmd := three ++ ask ++ [XIn (20 * nsec) ee LERxStart; XIn (1200 * psec) e2 (LERxEnd (cta 0) true)].
Example C95_example : x_ok cl3 0 one_bo = true /\ l_state (x_st cl3 0 one_bo) = LIdle /\ l_boact (x_st cl3 0 one_bo) = true /\
  l_answered (x_st cl3 0 one_bo) = true /\ map lr_life (l_rec (x_st cl3 0 one_bo)) = [1; 0; 0] /\
  l_boact (x_st cl3 0 (one_bo ++ rx (20 * nsec) (cta 0))) = false /\
  sent_l (x_out cl3 0 (one_bo ++ rx (20 * nsec) (cta 0) ++ ask)) = [(T_RTS, 1); (T_RTS, 1)].
Proof. vm_compute. auto 10. Qed.

(** * C96: the length of a backoff *)

(** The life of a backoff is drawn from 1 to 2 ^ retries. *)
Definition C96_full := forall c q0 h s o r, 0 <= q0 < 65536 -> lreach ontime c q0 h s o -> Z.of_nat (length (lacc_of o)) <= 65536 -> ~ In LUb o ->
  l_boact s = true -> In r (l_rec s) -> kf_seq (lr_pkt r) = l_boseq s -> 1 <= lr_life r <= 2 ^ lr_retry r.
(** 1-way mode, DataRetryLimit 100: fifteen short backoffs; the sixteenth is the longest possible, 65536, which is 0 in 16 bits. *)
Definition noack (life : Z) : list xcmd := rx (20 * nsec) (cta 0) ++ [fire; txd (800 * nsec); XFire (Lenv 2 life 0)].
Definition sixteen : list xcmd := three ++ concat (repeat (noack 1 ++ rx (20 * nsec) (cta 0)) 15) ++ noack 65536.
Theorem C96_life_refuted : ~ C96_full.
Proof.
  intros H. assert (T : x_ok near1 0 sixteen = true) by (vm_compute; reflexivity).
  assert (L : (Z.of_nat (length (lacc_of (x_out near1 0 sixteen))) <=? 65536) = true) by (vm_compute; reflexivity). apply Z.leb_le in L.
  assert (I : In (Lrec (Kframe T_DATA 1 0 1 0 0 0 15017 0) 16 0) (l_rec (x_st near1 0 sixteen))) by (vm_compute; auto).
  pose proof (H near1 0 _ _ _ _ ltac:(lia) (x_reach _ _ _ T) L ltac:(vm_compute; intuition discriminate) ltac:(vm_compute; reflexivity) I ltac:(vm_compute; reflexivity)) as X.
  cbn in X. lia.
Qed.
Print Assumptions C96_life_refuted.
(** It holds if both limits are from 1 to 16. *)
Theorem C96_life_partial : forall c q0 h s o r, 0 <= q0 < 65536 -> 1 <= lc_rts_retry c <= 16 -> 1 <= lc_data_retry c <= 16 ->
  lreach freely c q0 h s o -> Z.of_nat (length (lacc_of o)) <= 65536 ->
  l_boact s = true -> In r (l_rec s) -> kf_seq (lr_pkt r) = l_boseq s -> 1 <= lr_life r <= 2 ^ lr_retry r.
Proof.
  intros c q0 h s o r U L1 L2 R L B I E. destruct (life_reach _ _ _ _ _ _ U L1 L2 R L) as [_ O1 O2]. specialize (O1 B r I E). destruct (O2 r I). lia.
Qed.
Print Assumptions C96_life_partial.
Example C96_example : l_boact (x_st cl3 0 one_bo) = true /\ l_boseq (x_st cl3 0 one_bo) = 1 /\
  map (fun r => (lr_life r, lr_retry r)) (l_rec (x_st cl3 0 one_bo)) = [(1, 1); (0, 0); (0, 0)].
Proof. vm_compute. auto. Qed.

(** * C97: no event is scheduled in the past *)
Definition C97_full := forall c q0 h s o, 0 <= q0 < 65536 -> lreach ontime c q0 h s o -> ~ In LNeg o.
(** 1-way mode, default attributes, 5 m from the access point (PropDelay is that of 1 m). *)
Theorem C97_negative_refuted : ~ C97_full.
Proof.
  intros H. assert (T : x_ok cl1 0 (three ++ rx (20 * nsec) (cta 0)) = true) by (vm_compute; reflexivity).
  apply (H cl1 0 _ _ _ ltac:(lia) (x_reach _ _ _ T)). vm_compute. tauto.
Qed.
Print Assumptions C97_negative_refuted.
(** 3-way: the grants before the client's own were not heard, so that the timeout is computed for the first one in the row. *)
Theorem C97_missed_refuted : ~ (forall c q0 h s o, lc_ways c = 3 -> 0 <= q0 < 65536 -> lreach ontime c q0 h s o -> ~ In LNeg o).
Proof.
  intros H. assert (T : x_ok cl3 0 (three ++ ask ++ rx (20 * nsec) (cts 1 1 1700) ++ [fire]) = true) by (vm_compute; reflexivity).
  apply (H cl3 0 _ _ _ eq_refl ltac:(lia) (x_reach _ _ _ T)). vm_compute. tauto.
Qed.
Print Assumptions C97_missed_refuted.
(** 1-way: it holds if the node is not further away than PropDelay says (up to half a slot), and all times are not negative. *)
Theorem C97_negative_partial : forall c q0 h s o, lc_ways c = 1 -> lc_far c * psec <= 2 * lc_prop c + lc_slot c ->
  0 <= lc_slot c -> 0 <= lc_prop c -> 0 <= lc_sifs c -> 0 <= lc_tdata c -> 0 <= lc_ctrl c T_ACK -> lreach freely c q0 h s o -> ~ In LNeg o.
Proof.
  intros c q0 h s o W D S1 S2 S3 S4 S5 R. induction R as [|h s o e ev R IH V HP]; [auto|].
  intros I. apply in_app_or in I. destruct I as [I|I]; [auto|].
  destruct (step_neg _ _ _ _ _ _ (step_lcase c e s ev V) I) as [[_ X]|X].
  - unfold fair, boslots, draw1 in X. nia.
  - unfold ack_wait in X. rewrite W in X. cbn [Z.eqb Pos.eqb] in X. unfold nsec in X. lia.
Qed.
Print Assumptions C97_negative_partial.
Example C97_example : x_ok near1 0 (three ++ noack 1) = true /\ sent_l (x_out near1 0 (three ++ noack 1)) = [(T_DATA, 1)] /\ lc_far near1 = 0 /\ ~ In LNeg (x_out near1 0 (three ++ noack 1)).
Proof. vm_compute. repeat split; auto. intuition discriminate. Qed.

(** 3-way: the delay is negative only if a CTS that granted the packet announced a longer wait than the time for the grants heard since
    (m_ctsCount of them) plus 10 ns, SIFS and two propagation delays. So it holds if the client hears all grants before its own. *)
Theorem C97_three_partial : forall c q0 h s o e ev, lc_ways c = 3 -> lreach ontime c q0 h s o -> lvalid s ev = true -> ontime s ev ->
  In LNeg (snd (lstep c e s ev)) ->
  exists i t p m e1 f, ev = LETimer i /\ nth_error (l_timers s) i = Some t /\ lt_kind t = LKData p m /\
    In (e1, LERxEnd f true) h /\ kf_type f = T_CTS /\ kf_dst f = lc_addr c /\ kf_seq f = kf_seq p /\
    (lc_tdata c + lc_slot c * lc_slots c + lc_ctrl c T_CTS + lc_ctrl c T_ACK) * l_ctsn s + 2 * lc_prop c + lc_sifs c + 10 * nsec < kf_dur f * nsec.
Proof.
  intros c q0 h s o e ev W R V HP I.
  destruct (step_neg3 _ _ _ _ _ _ W (step_lcase c e s ev V) I) as (i & t & p & m & -> & N & K & X).
  destruct (waits_reach _ _ _ _ _ W R) as [_ Y]. destruct (Y t p m (nth_error_In _ _ N) K) as (e1 & f & A1 & A2 & A3 & A4 & A5).
  exists i, t, p, m, e1, f. repeat split; auto.
  unfold ontime, ltimely in HP. rewrite N in HP. apply andb_true_iff in HP. destruct HP as [HP _]. apply Z.eqb_eq in HP.
  unfold ack_wait, l_maxbo in X. rewrite W in X. cbn [Z.eqb Pos.eqb] in X. lia.
Qed.
Print Assumptions C97_three_partial.
(** Three grants heard, the last one is that of the client: with the same wait of 1700 ns the delay is not negative. *)
Example C97_three_example :
  let h := three ++ ask ++ rx (20 * nsec) (cts 8 7 30) ++ rx (20 * nsec) (cts 9 7 865) ++ rx (20 * nsec) (cts 1 1 1700) ++ [fire] in
  x_ok cl3 0 h = true /\ ~ In LNeg (x_out cl3 0 h) /\ In (T_DATA, 1) (sent_l (x_out cl3 0 h)) /\ l_ctsn (x_st cl3 0 h) = 3.
Proof. vm_compute. repeat split; auto; intuition discriminate. Qed.

(** * C98: no undefined behaviour *)
Definition C98_full := forall c q0 h s o, 0 <= q0 < 65536 -> lreach ontime c q0 h s o -> ~ In LUb o.
(** A single packet that is sent and acknowledged: its record is the last one. *)
Theorem C98_defined_refuted : ~ C98_full.
Proof.
  intros H. assert (T : x_ok cl3 0 ([enq 0] ++ ask ++ tell 1 30 ++ end_ok 1) = true) by (vm_compute; reflexivity).
  apply (H cl3 0 _ _ _ ltac:(lia) (x_reach _ _ _ T)). vm_compute. tauto.
Qed.
Print Assumptions C98_defined_refuted.
(** What holds: with limits up to 32 and less than 2^16 packets the only undefined behaviour is that: a packet is reported whose
    record is the last one; or a result is to be written when there is none. In particular receptions, transmissions and timeouts are safe. *)
Theorem C98_defined_partial : forall c q0 h s o e ev, 0 <= q0 < 65536 -> lc_rts_retry c <= 32 -> lc_data_retry c <= 32 ->
  lreach freely c q0 h s o -> Z.of_nat (length (lacc_of o)) <= 65536 -> lvalid s ev = true -> In LUb (snd (lstep c e s ev)) ->
  exists i t, ev = LETimer i /\ nth_error (l_timers s) i = Some t /\
    (lt_kind t = LKResult /\ l_res s = false \/
     exists ok q l r, lt_kind t = LKDone ok q /\ l_rec s = l ++ [r] /\ kf_seq (lr_pkt r) = q).
Proof.
  intros c q0 h s o e ev U L1 L2 R L V I.
  destruct (step_ub _ _ _ _ _ _ (step_lcase c e s ev V) I) as [X|[X|[[X Y]|(i & t & E & N & X)]]]; try lia.
  - exfalso. pose proof (qr_in _ (qrec_reach _ _ _ _ _ _ U R L)) as Q. rewrite Y in Q. destruct (l_queue s) as [|p l]; [contradiction|]. apply (Q p). left. auto.
  - exists i, t. split; auto. split; auto. destruct X as [X|(ok & q & r & K & LA & SQ)]; [left; auto|right]. exists ok, q.
    destruct (exists_last (l := l_rec s)) as (l & x & EL). { intros Z. rewrite Z in LA. discriminate LA. }
    exists l, x. split; auto. split; auto. rewrite EL, map_app in LA. cbn in LA. rewrite last_last in LA. congruence.
Qed.
Print Assumptions C98_defined_partial.
Example C98_example : ~ In LUb (x_out cl3 0 (good ++ ask ++ tell 2 30 ++ end_ok 2)) /\ l_sent (x_st cl3 0 (good ++ ask ++ tell 2 30 ++ end_ok 2)) = 2 /\
  In LUb (x_out cl3 0 (good ++ ask ++ tell 2 30 ++ end_ok 2 ++ ask ++ tell 3 30 ++ end_ok 3)).
Proof. vm_compute. repeat split; auto; [intuition discriminate|tauto]. Qed.

(** * C99: first in, first out *)

(** Packets are reported in the order in which they were taken. *)
Definition C99_full := forall c q0 h s o, 0 <= q0 < 65536 -> lreach ontime c q0 h s o -> Z.of_nat (length (lacc_of o)) <= 65536 ->
  lrep_all o ++ map lr_pkt (l_rec s) = lacc_of o.
(** A CTS with the number of a later packet, for which no RTS was sent. *)
Definition jump : list xcmd := three ++ tell 2 30 ++ end_ok 2.
Theorem C99_fifo_refuted : ~ C99_full.
Proof.
  intros H. assert (T : x_ok cl3 0 jump = true) by (vm_compute; reflexivity).
  assert (L : (Z.of_nat (length (lacc_of (x_out cl3 0 jump))) <=? 65536) = true) by (vm_compute; reflexivity). apply Z.leb_le in L.
  pose proof (H cl3 0 _ _ _ ltac:(lia) (x_reach _ _ _ T) L) as X. vm_compute in X. discriminate X.
Qed.
Print Assumptions C99_fifo_refuted.
(** It holds, however the events run, if every CTS for the client with the number of a packet it took answers an RTS it has sent: the reports (of both kinds, in the order
    in which they are made) followed by the packets that still have a record are the packets taken. *)
Theorem C99_fifo_partial : forall c q0 h s o, 0 <= q0 < 65536 -> lreach freely c q0 h s o -> Z.of_nat (length (lacc_of o)) <= 65536 ->
  (forall h1 e f h2, h = h1 ++ (e, LERxEnd f true) :: h2 -> kf_type f = T_CTS -> kf_dst f = lc_addr c ->
     forall p, In p (lacc_of (snd (lrun c (linit q0) h1))) -> kf_seq p = kf_seq f ->
     exists g, In g (lsnd_of (snd (lrun c (linit q0) h1))) /\ kf_type g = T_RTS /\ kf_flags g = 0 /\ kf_seq g = kf_seq f) ->
  lrep_all o ++ map lr_pkt (l_rec s) = lacc_of o.
Proof. intros c q0 h s o U R L O. destruct (order_reach _ _ _ _ _ _ U R L O) as (_ & _ & _ & X). exact X. Qed.
Print Assumptions C99_fifo_partial.
Example C99_example : map kf_seq (lrep_all (x_out cl3 0 (good ++ ask ++ tell 2 30 ++ end_ok 2))) = [1; 2] /\
  sent_l (x_out cl3 0 (good ++ ask ++ tell 2 30 ++ end_ok 2)) = [(T_RTS, 1); (T_DATA, 1); (T_RTS, 2); (T_DATA, 2)] /\
  map kf_seq (lrep_all (x_out cl3 0 jump)) = [2].
Proof. vm_compute. auto. Qed.
