(** Properties of the macro MAC, THzMacMacro (C60-C71). *)
From Coq Require Import ZArith List Lia Bool Permutation Sorting.Sorted.
From Verif Require Import Base HeaderModel SeqModel EnergyModel MacModel MacSpec MacProofs MacAcct MacSteps MacInv MacResp MacLive MacNav MacUb MacNet MacScript MacScriptNet.
Import ListNotations.
Open Scope Z_scope.

(** A node with the default attributes; control frames last 2 ns and data 812 ns. *)
Definition mex (rts : bool) (a : addr) : mcfg :=
  Mcfg a rts (5 * nsec) 0 0 (fun _ => 2 * nsec) (fun _ => 812 * nsec) (1000000000 * nsec) 10000 7 5.

(** * C60: Enqueue *)

(** The returned value tells whether the packet was queued. *)
Definition C60_full := forall c q0 h s o e size dst junk, mreal c q0 h s o ->
  (In (ORet true) (snd (mstep c e s (EEnq size dst junk))) <-> acc_of (snd (mstep c e s (EEnq size dst junk))) <> []).
Theorem C60_return_refuted : ~ C60_full.
Proof.
  intros H. destruct (H (mex true 1) 0 _ _ _ calm_env 15000 2 0 (MT0 (mex true 1) 0)) as [_ H2].
  assert (X : In (ORet true) (snd (mstep (mex true 1) calm_env (minit 0) (EEnq 15000 2 0)))) by (apply H2; vm_compute; discriminate).
  vm_compute in X. destruct X as [X|[X|[]]]; discriminate X.
Qed.
Print Assumptions C60_return_refuted.

(** Every packet of at least the minimum size is queued. *)
Definition C60_size_full := forall c q0 h s o e size dst junk, mreal c q0 h s o -> 15000 <= size ->
  acc_of (snd (mstep c e s (EEnq size dst junk))) <> [].
Theorem C60_size_refuted : ~ C60_size_full.
Proof. intros H. apply (H (mex true 1) 0 _ _ _ calm_env 65536 2 0 (MT0 (mex true 1) 0)); [lia|]. vm_compute. reflexivity. Qed.
Print Assumptions C60_size_refuted.

(** In every state: a packet of 15000 to 65535 bytes becomes the last packet in the queue and the last
    record. It is a DATA frame from this node to the destination, with the next number and the 17
    bytes of the header. A smaller packet changes nothing. The returned value is false in every case. *)
Theorem C60_enqueue_partial : forall c e s size dst junk, 0 <= size < 65536 ->
  let s' := fst (mstep c e s (EEnq size dst junk)) in
  let o := snd (mstep c e s (EEnq size dst junk)) in
  (15000 <= size -> exists p, o = [OAcc p; ORet false] /\ m_queue s' = m_queue s ++ [p] /\
     map mr_pkt (m_rec s') = map mr_pkt (m_rec s) ++ [p] /\
     mf_type p = T_DATA /\ mf_src p = mc_addr c /\ mf_dst p = dst /\ mf_size p = size + 17 /\
     mf_seq p = (m_seq s + 1) mod 65536 /\ m_seq s' = (m_seq s + 1) mod 65536) /\
  (size < 15000 -> s' = s /\ o = [ORet false]).
Proof.
  intros c e s size dst junk B. cbv zeta.
  assert (W : wrap16 size = size) by (unfold wrap16; apply Z.mod_small; lia).
  split; intros L; cbn [mstep].
  - destruct (enq_spec c size dst junk s ltac:(lia)) as [E1 [E2 [E3 [_ [_ [E4 _]]]]]].
    exists (enq_pkt c size dst junk s). rewrite E1, E2, E3, E4, map_app. repeat split; auto.
  - unfold menqueue. rewrite W. destruct (Z.ltb_spec size 15000); [|lia]. auto.
Qed.
Print Assumptions C60_enqueue_partial.
Example C60_example : map mf_size (m_queue (x_st (mex true 1) 0 [XAt 0 (EEnq 15000 2 0); XAt 0 (EEnq 14999 2 0); XAt 0 (EEnq 20000 3 0)])) = [15017; 20017].
Proof. vm_compute. reflexivity. Qed.

(** * C61: length of the queue *)

(** The queue never holds more packets than QueueLimit. *)
Definition C61_full := forall c q0 h s o, mreal c q0 h s o -> Z.of_nat (length (m_queue s)) <= mc_limit c.

Lemma enq_many c q0 n : exists h s o, mreal c q0 h s o /\ length (m_queue s) = n.
Proof.
  induction n as [|n [h [s [o [R L]]]]].
  - exists [], (minit q0), []. split; [constructor|]. reflexivity.
  - eexists _, _, _. split; [apply (MT1 c q0 h s o calm_env (EEnq 15000 2 0) R eq_refl)|].
    destruct (C60_enqueue_partial c calm_env s 15000 2 0 ltac:(lia)) as [X _]. destruct (X ltac:(lia)) as [p [_ [Q _]]].
    rewrite Q, app_length, L. cbn [length]. lia.
Qed.
(** Whatever the limit, the queue can exceed it. *)
Theorem C61_limit_refuted : forall c q0, exists h s o, mreal c q0 h s o /\ mc_limit c < Z.of_nat (length (m_queue s)).
Proof. intros c q0. destruct (enq_many c q0 (Z.to_nat (Z.max 0 (mc_limit c) + 1))) as [h [s [o [R L]]]]. exists h, s, o. split; auto. lia. Qed.
Print Assumptions C61_limit_refuted.
Theorem C61_full_refuted : ~ C61_full.
Proof. intros H. destruct (C61_limit_refuted (mex true 1) 0) as [h [s [o [R L]]]]. specialize (H _ _ _ _ _ R). lia. Qed.
Print Assumptions C61_full_refuted.

(** The queue holds accepted packets in the order of acceptance, none twice. *)
Theorem C61_order_partial : forall c q0 h s o, 0 <= q0 < 65536 -> mreach c q0 h s o ->
  sublist (m_queue s) (acc_of o) /\ NoDup (map mf_id (acc_of o)).
Proof. intros c q0 h s o U R. pose proof (acct_reach _ _ _ _ _ U R) as A. split; [apply (ac_queue _ _ _ _ A)|apply (ac_nodup _ _ _ _ A)]. Qed.
Print Assumptions C61_order_partial.
(** Three packets accepted, the second still in second place. *)
Definition three_in : list xcmd := [XAt 0 (EEnq 15000 2 0); XAt 0 (EEnq 16000 2 0); XAt 0 (EEnq 20000 3 0)].
Example C61_example : mreal (mex true 1) 0 (x_hist (mex true 1) 0 three_in) (x_st (mex true 1) 0 three_in) (x_out (mex true 1) 0 three_in) /\
  acc_of (x_out (mex true 1) 0 three_in) = m_queue (x_st (mex true 1) 0 three_in) /\
  map (fun p => (mf_size p, mf_id p)) (m_queue (x_st (mex true 1) 0 three_in)) = [(15017, 0); (16017, 1); (20017, 2)].
Proof. split; [apply x_real; vm_compute; reflexivity|]. split; [vm_compute; reflexivity|vm_compute; reflexivity]. Qed.

(** * C62: accounting *)

Theorem C62_accounting : forall c q0 h s o, 0 <= q0 < 65536 -> mreach c q0 h s o ->
  Permutation (acc_of o) (rep_of true o ++ rep_of false o ++ map mr_pkt (m_rec s)) /\
  NoDup (map mf_id (acc_of o)) /\
  m_sent s = Z.of_nat (length (rep_of true o)) /\ m_disc s = Z.of_nat (length (rep_of false o)) /\
  (forall i p, nth_error (acc_of o) i = Some p -> mf_seq p = (q0 + 1 + Z.of_nat i) mod 65536).
Proof.
  intros c q0 h s o U R. pose proof (acct_reach _ _ _ _ _ U R) as [A1 A2 A3 A4 A5 A6 A7 A8 A9]. auto.
Qed.
Print Assumptions C62_accounting.

(** Two packets to a node that does not answer: after five timeouts the first one is given up. *)
Definition retry1 : list xcmd := [XIn (2 * nsec) ETxDone; XFire; XFire; XFire; XFire].
Definition giveup : list xcmd :=
  [XFire; XAt 0 (EEnq 15000 2 0); XAt 0 (EEnq 15000 2 0); XFire; XFire; XFire; XFire] ++
  retry1 ++ retry1 ++ retry1 ++ retry1 ++ [XIn (2 * nsec) ETxDone; XFire; XFire; XFire].
Example C62_example : let s := x_st (mex true 1) 7 giveup in let o := x_out (mex true 1) 7 giveup in
  map mf_seq (acc_of o) = [8; 9] /\ rep_of true o = [] /\ map mf_seq (rep_of false o) = [8] /\ map mf_seq (map mr_pkt (m_rec s)) = [9] /\ m_disc s = 1.
Proof. vm_compute. auto 10. Qed.

(** * C63: retry limits *)

(** A packet is given up only after as many timeouts as the smaller of the two retry limits. *)
Definition C63_full := forall c q0 h s o p, mreal c q0 h s o -> In p (rep_of false o) ->
  Z.min (mc_rts_retry c) (mc_data_retry c) <= Z.of_nat (tmo_of (mf_seq p) o).
(** A packet is not tried again after as many timeouts as the larger of the two limits. *)
Definition C63_upper := forall c q0 h s o p, mreal c q0 h s o -> In p (rep_of false o) ->
  Z.of_nat (tmo_of (mf_seq p) o) <= Z.max (mc_rts_retry c) (mc_data_retry c).
Definition mex_retry (n : Z) : mcfg :=
  Mcfg 1 true (5 * nsec) 0 0 (fun _ => 2 * nsec) (fun _ => 812 * nsec) (1000000000 * nsec) 10000 n n.
Theorem C63_limits_refuted : ~ C63_full /\ ~ C63_upper.
Proof.
  assert (R : forall n, mreal (mex_retry n) 0 (x_hist (mex_retry n) 0 giveup) (x_st (mex_retry n) 0 giveup) (x_out (mex_retry n) 0 giveup)).
  { intros n. apply x_real. vm_compute. reflexivity. }
  set (p := Mframe T_DATA 1 2 1 0 15017 0).
  assert (E : forall n, In p (rep_of false (x_out (mex_retry n) 0 giveup)) /\ tmo_of (mf_seq p) (x_out (mex_retry n) 0 giveup) = 5%nat).
  { intros n. vm_compute. auto. }
  split; intros H; [specialize (H _ _ _ _ _ p (R 7) (proj1 (E 7)))|specialize (H _ _ _ _ _ p (R 1) (proj1 (E 1)))]; rewrite (proj2 (E _)) in H; cbn in H; lia.
Qed.
Print Assumptions C63_limits_refuted.

(** Whatever the limits, a packet is given up only after five timeouts of frames with its number. With
    at most 65536 accepted packets the number belongs to this packet alone. *)
Theorem C63_five_partial : forall c q0 h s o p, 0 <= q0 < 65536 -> mreach c q0 h s o -> In p (rep_of false o) ->
  (5 <= tmo_of (mf_seq p) o)%nat /\
  (Z.of_nat (length (acc_of o)) <= 65536 -> forall p', In p' (acc_of o) -> mf_seq p' = mf_seq p -> p' = p).
Proof.
  intros c q0 h s o p U R P. split; [apply (g_bad _ _ _ _ (gen_reach _ _ _ _ _ R) p P)|]. intros L p' P' E.
  pose proof (acct_reach _ _ _ _ _ U R) as A. eapply (unique_num _ _ _ _ p' p A); eauto.
  eapply Permutation_in; [apply Permutation_sym, (ac_perm _ _ _ _ A)|]. apply in_or_app. right. apply in_or_app. auto.
Qed.
Print Assumptions C63_five_partial.
Example C63_example : let o := x_out (mex true 1) 0 giveup in map mf_seq (rep_of false o) = [1] /\ tmo_of 1 o = 5%nat.
Proof. vm_compute. auto. Qed.

(** * C64: progress *)

(** While packets are queued, the MAC has something scheduled. *)
Definition C64_full := forall c q0 h s o, mreal c q0 h s o -> m_queue s <> [] -> m_timers s <> [].
Theorem C64_progress_refuted : ~ C64_full.
Proof.
  intros H. assert (R : mreal (mex true 1) 0 (x_hist (mex true 1) 0 giveup) (x_st (mex true 1) 0 giveup) (x_out (mex true 1) 0 giveup)) by (apply x_real; vm_compute; reflexivity).
  apply (H _ _ _ _ _ R); vm_compute; [discriminate|reflexivity].
Qed.
Print Assumptions C64_progress_refuted.

(** If the upper layer hands over a unicast packet only after the earlier ones were reported, and at
    most 65536 of them, then a queued packet always has a pending event that carries it on: carrier
    sensing, backoff, access grant, the timeout for its CTS or ACK, its transmission or its completion. *)
Theorem C64_progress_partial : forall c q0 h s o p, 0 <= q0 < 65536 -> mreach1 c q0 h s o ->
  Z.of_nat (length (acc_of o)) <= 65536 -> In p (m_queue s) ->
  m_queue s = [p] /\
  exists t, In t (m_timers s) /\
    In (mt_kind t) [MKCca; MKBo; MKGrant; MKCts (mf_seq p); MKAck (mf_seq p); MKSendData p; MKDone true (mf_seq p)].
Proof.
  intros c q0 h s o p U R L P. destruct (one_reach _ _ _ _ _ U R L) as [_ [O1 O2 O3]]. split.
  - destruct O1 as [[_ Q]|[r [_ [_ [Q|Q]]]]]; rewrite Q in *; [destruct P|destruct P|]. destruct P as [->|[]]. auto.
  - destruct (O3 p P) as [t [T C]]. exists t. split; auto. unfold carries, idle_kind in C. cbn. intuition auto.
Qed.
Print Assumptions C64_progress_partial.

Lemma run1 c q0 l : forall h s o, mreach1 c q0 h s o -> (forall x, In x l -> forall size dst junk, snd x <> EEnq size dst junk) ->
  mreach1 c q0 (h ++ map snd l) (fst (mrun c s l)) (o ++ snd (mrun c s l)).
Proof.
  induction l as [|[e ev] l IH]; intros h s o R N.
  - cbn. rewrite !app_nil_r. auto.
  - assert (R' : mreach1 c q0 (h ++ [ev]) (fst (mstep c e s ev)) (o ++ snd (mstep c e s ev))).
    { constructor; auto. intros size dst junk E. exfalso. apply (N (e, ev) (or_introl eq_refl) size dst junk). auto. }
    specialize (IH _ _ _ R' (fun x X => N x (or_intror X))). cbn [mrun map snd].
    destruct (mstep c e s ev) as [s1 o1] eqn:E. cbn [fst snd] in IH. destruct (mrun c s1 l) as [s2 o2]. cbn [fst snd] in *.
    rewrite <- !app_assoc in IH. exact IH.
Qed.
Lemma run1_init c q0 e size dst junk l : dst <> bcast -> (forall x, In x l -> forall size dst junk, snd x <> EEnq size dst junk) ->
  mreach1 c q0 (EEnq size dst junk :: map snd l) (fst (mrun c (fst (mstep c e (minit q0) (EEnq size dst junk))) l))
    (snd (mstep c e (minit q0) (EEnq size dst junk)) ++ snd (mrun c (fst (mstep c e (minit q0) (EEnq size dst junk))) l)).
Proof.
  intros D N. apply (run1 c q0 l [EEnq size dst junk]); auto.
  apply (MO1 c q0 [] (minit q0) [] e (EEnq size dst junk) (MO0 c q0)). intros size' dst' junk' X. injection X as -> -> ->. split; auto. reflexivity.
Qed.
(** One packet whose RTS was sent and is awaited: the CTS timeout is pending. *)
Example C64_example : exists h s o, mreach1 (mex true 1) 0 h s o /\ length (m_queue s) = 1%nat /\ map mt_kind (m_timers s) = [MKRot; MKCts 1] /\ map mf_type (snd_of o) = [T_RTS].
Proof.
  set (l := [(calm_env, ETimer 0); (calm_env, ETick psec); (calm_env, ETimer 0); (calm_env, ETimer 1); (calm_env, ETick (810 * nsec + psec)); (calm_env, ETimer 1); (calm_env, ETick (812 * nsec + psec)); (calm_env, ETxDone)]).
  eexists _, _, _. split; [apply (run1_init (mex true 1) 0 calm_env 15000 2 0 l); [discriminate|]|].
  - intros x X. repeat (destruct X as [<-|X]; [intros; discriminate|]). destruct X.
  - vm_compute. auto.
Qed.

(** * C65: virtual carrier sense *)

(** After a frame that reserves the channel for two other nodes, no RTS is sent until two slots
    before the end of the reservation. *)
Definition C65_full := forall c q0 h s o e f d o', 0 <= q0 < 65536 -> mreal c q0 h s o -> nsec <= mc_slot c -> 0 <= mf_dur f -> m_air s = None ->
  In (mf_type f) [T_RTS; T_CTS; T_DATA] -> mf_dst f <> mc_addr c -> mf_dst f <> bcast ->
  m_now s <= d -> d + 2 * mc_slot c <= m_now s + mf_dur f * nsec ->
  runs_by c d (fst (mstep c e s (ERxEnd f true))) o' -> forall g, In (OSnd g) o' -> mf_type g <> T_RTS.

(** Two packets are handed over within 10 ns. Each gets an access grant, and a later reception cancels
    the second one only. The reservation of 2000 ns does not stop the first. *)
Definition nav_cts : mframe := Mframe T_CTS 3 4 9 2000 18 77.
Definition nav_script : list xcmd :=
  [XFire; XAt 0 (EEnq 15000 2 0); XFire; XFire; XAt (10 * nsec) (EEnq 15000 2 0); XFire; XFire; XAt (20 * nsec) ERxStart; XHold; XAt (30 * nsec) (ETick (30 * nsec))].
Theorem C65_nav_refuted : ~ C65_full.
Proof.
  intros H. assert (R : mreal (mex true 1) 0 (x_hist (mex true 1) 0 nav_script) (x_st (mex true 1) 0 nav_script) (x_out (mex true 1) 0 nav_script)) by (apply x_real; vm_compute; reflexivity).
  remember (x_st (mex true 1) 0 nav_script) as s0 eqn:E0.
  pose proof (fun o' => H (mex true 1) 0 _ s0 _ calm_env nav_cts (900 * nsec) o' ltac:(lia) R) as K. clear H R.
  assert (M : m_now s0 = 30 * nsec /\ m_air s0 = None) by (rewrite E0; vm_compute; auto). destruct M as [M1 M2]. rewrite M1, M2 in K.
  remember (fst (mstep (mex true 1) calm_env s0 (ERxEnd nav_cts true))) as sn eqn:EN.
  remember (fst (mstep (mex true 1) calm_env sn (ETick (810 * nsec + psec)))) as s1 eqn:E1.
  remember (snd (mstep (mex true 1) calm_env sn (ETick (810 * nsec + psec)))) as o1 eqn:F1.
  remember (snd (mstep (mex true 1) calm_env s1 (ETimer 0))) as o2 eqn:F2.
  assert (T1 : m_now s1 <= 900 * nsec) by (rewrite E1, EN, E0; vm_compute; discriminate).
  assert (T2 : m_now (fst (mstep (mex true 1) calm_env s1 (ETimer 0))) <= 900 * nsec) by (rewrite E1, EN, E0; vm_compute; discriminate).
  assert (RB : runs_by (mex true 1) (900 * nsec) sn (o1 ++ o2 ++ [])).
  { rewrite F1. constructor; rewrite <- E1; auto. rewrite F2. constructor; auto. constructor. }
  assert (G : In (OSnd (Mframe T_RTS 1 2 1 0 18 2)) (o1 ++ o2 ++ [])).
  { rewrite F2, F1, E1, EN, E0. vm_compute. auto. }
  clear - K RB G. refine (K (o1 ++ o2 ++ []) _ _ eq_refl _ _ _ _ _ RB _ G eq_refl); vm_compute; auto; discriminate.
Qed.
Print Assumptions C65_nav_refuted.

(** The same if neither backoff nor access grant was pending when the frame came. If moreover no CTS is
    awaited and no data is about to be sent, no data is sent either. *)
Theorem C65_nav_partial : forall c q0 h s o e f d o', 0 <= q0 < 65536 -> mreach c q0 h s o -> nsec <= mc_slot c -> 0 <= m_now s -> 0 <= mf_dur f -> m_air s = None ->
  In (mf_type f) [T_RTS; T_CTS; T_DATA] -> mf_dst f <> mc_addr c -> mf_dst f <> bcast ->
  (forall t, In t (m_timers s) -> mt_kind t <> MKBo /\ mt_kind t <> MKGrant) ->
  m_now s <= d -> d + 2 * mc_slot c <= m_now s + mf_dur f * nsec ->
  runs_by c d (fst (mstep c e s (ERxEnd f true))) o' ->
  (forall g, In (OSnd g) o' -> mf_type g <> T_RTS) /\
  (m_cts s = [] -> (forall t p, In t (m_timers s) -> mt_kind t <> MKSendData p) -> forall g, In (OSnd g) o' -> mf_type g <> T_DATA).
Proof. intros. eapply nav_reach; eauto. Qed.
Print Assumptions C65_nav_partial.
(** A node with a queued packet and no backoff or grant pending hears a reservation. *)
Example C65_example : let s := x_st (mex true 1) 0 [XFire; XAt 0 (EEnq 15000 2 0); XAt 0 (ETick 0)] in
  m_air s = None /\ m_cts s = [] /\ map mt_kind (m_timers s) = [MKCca] /\ m_queue s <> [] /\
  m_nav (fst (mstep (mex true 1) calm_env s (ERxEnd nav_cts true))) = 2000 * nsec.
Proof. vm_compute. repeat split; auto. discriminate. Qed.

(** * C66: responses *)

(** Never more CTS frames to a node with a number than RTS frames from it with this number for us,
    and never more ACK frames than DATA frames. *)
Definition number_of {A} (P : A -> bool) (l : list A) : nat := length (filter P l).
Theorem C66_responses : forall c q0 h s o a q, 0 <= q0 < 65536 -> mreach c q0 h s o ->
  le (number_of (fun f => (mf_type f =? T_CTS) && (mf_dst f =? a) && (mf_seq f =? q)) (snd_of o))
     (number_of (fun f => (mf_type f =? T_RTS) && (mf_dst f =? mc_addr c) && (mf_src f =? a) && (mf_seq f =? q)) (rcv_of h)) /\
  le (number_of (fun f => (mf_type f =? T_ACK) && (mf_dst f =? a) && (mf_seq f =? q)) (snd_of o))
     (number_of (fun f => (mf_type f =? T_DATA) && (mf_dst f =? mc_addr c) && (mf_src f =? a) && (mf_seq f =? q)) (rcv_of h)).
Proof.
  intros c q0 h s o a q U R. pose proof (resp_reach _ _ _ _ _ false a q U R) as F. pose proof (resp_reach _ _ _ _ _ true a q U R) as T.
  unfold count, resp, req in F, T. unfold number_of. split; lia.
Qed.
Print Assumptions C66_responses.

(** Node 2 receives an RTS and a data frame from node 1 and answers both. *)
Definition resp_script : list xcmd :=
  [XFire; XAt 0 ERxStart; XIn (2 * nsec) (ERxEnd (Mframe T_RTS 1 2 5 0 18 8) true); XFire; XIn (2 * nsec) ETxDone;
   XIn (70 * nsec) ERxStart; XIn (812 * nsec) (ERxEnd (Mframe T_DATA 1 2 5 0 15017 9) true); XFire].
Example C66_example : x_ok (mex true 2) 0 resp_script = true /\
  map (fun f => (mf_type f, mf_dst f, mf_seq f)) (snd_of (x_out (mex true 2) 0 resp_script)) = [(T_CTS, 1, 5); (T_ACK, 1, 5)].
Proof. vm_compute. auto. Qed.

(** * C67: delivery *)

(** Every packet handed to the upper layer came in a data frame received without error for this node or
    for all. The numbers of the packets from one source strictly increase, so none is handed up twice. *)
Theorem C67_delivery : forall c q0 h s o, 0 <= q0 < 65536 -> mreach c q0 h s o ->
  (forall f, In f (up_of o) -> In f (rcv_of h) /\ mf_type f = T_DATA /\ (mf_dst f = mc_addr c \/ mf_dst f = bcast)) /\
  (forall a, StronglySorted Z.lt (map mf_seq (filter (fun f => mf_src f =? a) (up_of o)))).
Proof. intros c q0 h s o U R. pose proof (filt_reach _ _ _ _ _ U R) as F. split; [apply (f_up _ _ _ _ F)|apply (f_sorted _ _ _ _ F)]. Qed.
Print Assumptions C67_delivery.
Definition dup_script : list xcmd :=
  resp_script ++ [XIn (2 * nsec) ETxDone; XIn (70 * nsec) ERxStart; XIn (812 * nsec) (ERxEnd (Mframe T_DATA 1 2 5 0 15017 9) true); XFire;
   XIn (2 * nsec) ETxDone; XIn (70 * nsec) ERxStart; XIn (812 * nsec) (ERxEnd (Mframe T_DATA 1 2 6 0 15017 10) true)].
(** A repeated frame is acknowledged again but handed up once. *)
Example C67_example : x_ok (mex true 2) 0 dup_script = true /\ map mf_seq (up_of (x_out (mex true 2) 0 dup_script)) = [5; 6] /\
  length (rcv_of (x_hist (mex true 2) 0 dup_script)) = 4%nat.
Proof. vm_compute. auto. Qed.

(** * C68: success *)

(** A packet is reported as sent only if it was sent and, unless it was a broadcast, an ACK with its
    number was received. (With more than 65536 packets numbers repeat.) *)
Theorem C68_success : forall c q0 h s o p, 0 <= q0 < 65536 -> mreach c q0 h s o ->
  Z.of_nat (length (acc_of o)) <= 65536 -> In p (rep_of true o) ->
  In p (snd_of o) /\
  (mf_dst p <> bcast -> exists f, In f (rcv_of h) /\ mf_type f = T_ACK /\ mf_dst f = mc_addr c /\ mf_seq f = mf_seq p).
Proof.
  intros c q0 h s o p U R L P. pose proof (acct_reach _ _ _ _ _ U R) as A.
  assert (PA : In p (acc_of o)) by (eapply Permutation_in; [apply Permutation_sym, (ac_perm _ _ _ _ A)|]; apply in_or_app; auto).
  destruct (g_ok _ _ _ _ (gen_reach _ _ _ _ _ R) p P) as [p' [P1 [P2 [P3 P4]]]].
  assert (p' = p) as -> by (eapply (unique_num _ _ _ _ p' p A); eauto). split; auto.
Qed.
Print Assumptions C68_success.
Definition ok_script : list xcmd :=
  [XFire; XAt 0 (EEnq 15000 2 0); XFire; XFire; XFire; XIn (812 * nsec) ETxDone; XIn (34 * nsec) ERxStart;
   XIn (2 * nsec) (ERxEnd (Mframe T_ACK 2 1 1 0 17 77) true); XFire].
Example C68_example : x_ok (mex false 1) 0 ok_script = true /\ map mf_seq (rep_of true (x_out (mex false 1) 0 ok_script)) = [1].
Proof. vm_compute. auto. Qed.

(** * C69: success means delivery *)

(** In a network whose nodes receive only what was sent, a unicast packet reported as sent was
    handed up at its destination. *)
Definition C69_full := forall cfg q0 N a p, (forall x, mc_addr (cfg x) = x) -> (forall x, 0 <= q0 x < 65536) -> nreach cfg q0 N ->
  Z.of_nat (length (acc_of (n_out (N a)))) <= 65536 -> In p (rep_of true (n_out (N a))) -> mf_dst p <> bcast ->
  In p (up_of (n_out (N (mf_dst p)))).

(** The counter of node 1 happens to start at 65534, so that its two packets have the numbers 65535 and 0.
    Node 2 acknowledges the second one, but takes it for a repetition. *)
Definition net_q0 (a : addr) : Z := if a =? 1 then 65534 else 0.
Definition net_script : list ycmd :=
  [YFire 1; YFire 2; YEnq 1 0 15000 2; YEnq 1 0 15000 2; YFire 1; YFire 1; YFire 1; YFire 1;
   YStart 2 (844 * nsec + psec); YTx 1 (812 * nsec); YRx 2 1 (812 * nsec); YFire 2; YTx 2 (2 * nsec);
   YStart 1 (68 * nsec); YHold 1; YRx 1 2 (2 * nsec); YFire 1; YFire 1; YFire 1; YFire 1; YFire 1;
   YStart 2 (1686 * nsec); YTx 1 (812 * nsec); YRx 2 1 (812 * nsec); YFire 2; YTx 2 (2 * nsec);
   YStart 1 (68 * nsec); YHold 1; YRx 1 2 (2 * nsec); YFire 1].
Definition net_end (q0 : addr -> Z) : addr -> mnode := yrun (mex false) (y_init q0) net_script.
Lemma net_final q0 : exists N, nreach (mex false) q0 N /\ forall a, N a = net_end q0 a.
Proof.
  unfold net_end. destruct (y_reach (mex false) q0 net_script _ (y_init_reach (mex false) q0)) as [N [R E]].
  exists N. split; [exact R|]. intros a. symmetry. exact (E a).
Qed.
Lemma net_facts : let p := Mframe T_DATA 1 2 0 0 15017 1 in
  length (acc_of (n_out (net_end net_q0 1))) = 2%nat /\ In p (rep_of true (n_out (net_end net_q0 1))) /\ ~ In p (up_of (n_out (net_end net_q0 2))).
Proof. vm_compute. split; auto. split; auto. intros [X|[]]. discriminate X. Qed.
Theorem C69_delivered_refuted : ~ C69_full.
Proof.
  intros H. destruct (net_final net_q0) as [N [R E]]. destruct net_facts as [F1 [F2 F3]]. rewrite <- E in F1, F2, F3. apply F3.
  apply (H (mex false) net_q0 N 1 (Mframe T_DATA 1 2 0 0 15017 1)); auto; try discriminate.
  - intros x. unfold net_q0. destruct (x =? 1); lia.
  - rewrite F1. cbn. lia.
Qed.
Print Assumptions C69_delivered_refuted.
(** The execution is one in real time. *)
Example C69_witness_timely : y_ok (mex false) (y_init net_q0) 0 net_script = true.
Proof. vm_compute. reflexivity. Qed.

(** It was received there; if it was not handed up, a packet of the same source with a larger number was. *)
Theorem C69_delivered_partial : forall cfg q0 N a p, (forall x, mc_addr (cfg x) = x) -> (forall x, 0 <= q0 x < 65536) -> nreach cfg q0 N ->
  Z.of_nat (length (acc_of (n_out (N a)))) <= 65536 -> In p (rep_of true (n_out (N a))) -> mf_dst p <> bcast ->
  In p (rcv_of (n_hist (N (mf_dst p)))) /\
  (In p (up_of (n_out (N (mf_dst p)))) \/
   exists g, In g (up_of (n_out (N (mf_dst p)))) /\ mf_src g = a /\ mf_seq p < mf_seq g).
Proof. intros. eapply net_success; eauto. Qed.
Print Assumptions C69_delivered_partial.
(** With the counter at 0 both packets arrive. *)
Example C69_example : let N := net_end (fun _ => 0) in
  y_ok (mex false) (y_init (fun _ => 0)) 0 net_script = true /\
  map mf_seq (rep_of true (n_out (N 1))) = [1; 2] /\ map mf_seq (up_of (n_out (N 2))) = [1; 2].
Proof. vm_compute. auto. Qed.

(** * C70: no undefined behaviour *)

Definition C70_full := forall c q0 h s o, 0 <= q0 < 65536 -> mreal c q0 h s o -> nsec <= mc_slot c -> ~ In OUb o.
Theorem C70_defined_refuted : ~ C70_full.
Proof.
  intros H. assert (R : mreal (mex false 1) 0 (x_hist (mex false 1) 0 ok_script) (x_st (mex false 1) 0 ok_script) (x_out (mex false 1) 0 ok_script)) by (apply x_real; vm_compute; reflexivity).
  apply (H _ 0 _ _ _ ltac:(lia) R); [vm_compute; discriminate|]. vm_compute. auto 10.
Qed.
Print Assumptions C70_defined_refuted.

(** With slots of at least 1 ns a step is undefined in two cases only: it completes the packet of the last
    record (SendDataDone increments the iterator that erase returned), or ResultsRecord runs before
    any packet was sent. *)
Theorem C70_defined_partial : forall c q0 h s o e ev, nsec <= mc_slot c -> mreach c q0 h s o -> In OUb (snd (mstep c e s ev)) ->
  (exists a r ok, m_rec s = a ++ [r] /\ In (ORep ok (mr_pkt r)) (snd (mstep c e s ev))) \/
  (exists i t, ev = ETimer i /\ nth_error (m_timers s) i = Some t /\ mt_kind t = MKResult /\ m_res s = false).
Proof. intros. eapply ub_reach; eauto. Qed.
Print Assumptions C70_defined_partial.
(** Completing the first of two packets is defined. *)
Example C70_example : ~ In OUb (x_out (mex true 1) 0 giveup) /\ rep_of false (x_out (mex true 1) 0 giveup) <> [].
Proof. split; [|vm_compute; discriminate]. vm_compute. intros H. repeat (destruct H as [H|H]; [discriminate H|]). exact H. Qed.

(** * C71: the antenna turns back *)

(** A node without any packet to send turns its receiving antenna on. *)
Definition C71_full := forall c q0 h s o, 0 <= q0 < 65536 -> mreal c q0 h s o -> m_rec s = [] ->
  exists t, In t (m_timers s).
Definition bc_script : list xcmd := [XFire; XAt 0 (EEnq 15000 bcast 0); XFire; XFire; XFire; XIn (812 * nsec) ETxDone; XFire].
(** After one broadcast nothing is scheduled any more, and the antenna is in transmitter mode. *)
Theorem C71_antenna_refuted : ~ C71_full.
Proof.
  intros H. assert (R : mreal (mex false 1) 0 (x_hist (mex false 1) 0 bc_script) (x_st (mex false 1) 0 bc_script) (x_out (mex false 1) 0 bc_script)) by (apply x_real; vm_compute; reflexivity).
  destruct (H _ 0 _ _ _ ltac:(lia) R) as [t T]; [vm_compute; reflexivity|]. vm_compute in T. exact T.
Qed.
Print Assumptions C71_antenna_refuted.

(** Until the first accepted packet the next turn of the antenna is always scheduled. *)
Theorem C71_antenna_partial : forall c q0 h s o, mreach c q0 h s o -> acc_of o = [] -> exists t, In t (m_timers s) /\ mt_kind t = MKRot.
Proof. intros. eapply rot_reach; eauto. Qed.
Print Assumptions C71_antenna_partial.

(** A node in transmitter mode without a scheduled turn stays so for ever, whatever happens. *)
Theorem C71_deaf_forever : forall c s l, m_mode s = 0 -> (forall t, In t (m_timers s) -> mt_kind t <> MKRot) ->
  m_mode (fst (mrun c s l)) = 0 /\ forall t, In t (m_timers (fst (mrun c s l))) -> mt_kind t <> MKRot.
Proof.
  intros c s l. revert s. induction l as [|[e ev] l IH]; intros s M T; [auto|]. cbn [mrun].
  destruct (deaf_step c e s ev (conj M T)) as [M2 T2]. destruct (mstep c e s ev) as [s1 o1] eqn:E. cbn [fst] in *.
  specialize (IH s1 M2 T2). destruct (mrun c s1 l). auto.
Qed.
Print Assumptions C71_deaf_forever.
Example C71_example : let s := x_st (mex false 1) 0 bc_script in
  m_mode s = 0 /\ m_timers s = [] /\ map mt_kind (m_timers (x_st (mex false 1) 0 [XFire; XFire])) = [MKRot] /\ m_mode (x_st (mex false 1) 0 [XFire]) = 1.
Proof. vm_compute. auto. Qed.
