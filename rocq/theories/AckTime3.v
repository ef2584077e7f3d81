(** Property C133: the acknowledgement timeout of a THzMacMacroClient in 3-way mode covers the exchange of a whole sector. *)
From Coq Require Import ZArith List Lia Bool.
From Verif Require Import Base HeaderModel SeqModel EnergyModel MacModel ApModel ApSpec ApProofs ApInv ApLive ApSlots ApScript ApProps ClientModel ClientSpec ClientCase ClientAcct ClientInv ClientMore ClientNeg ClientScript.
Import ListNotations.
Open Scope Z_scope.

(** The AP grants [n] slots in one step; [t] is the CTS of a client at distance [d] and [t'] that of any client of the sector, at distance
    [d'], whose data take [len]. The first client has received its CTS and counted all [n] of them; its SendData fires and the packet
    goes out. The AP answers, at the latest when the data of the last client have arrived, with up to [n] ACKs, one picosecond apart
    (thz-mac-macro-ap.cc:537-543, 558-569, 627-637). Then AckTimeout is scheduled for a later time than the end of the last ACK at the first client.
    AP and client have the same control durations and back-off attributes, and all nodes are within the PropDelay of the client. *)
Definition C133_at (P : pst -> pevent -> Prop) (Q : lst -> levent -> Prop) (ok : acfg -> lcfg -> ptimer -> Z -> Prop) : Prop :=
  forall c h s o ev t t' d d' len lc q0 hl x ol e i u p m,
  areach P c h s o -> pvalid s ev = true -> P s ev -> lreach Q lc q0 hl x ol -> Q x (LETimer i) ->
  lc_ctrl lc T_CTS = ac_ctrl c T_CTS -> lc_ctrl lc T_ACK = ac_ctrl c T_ACK -> l_maxbo lc = ac_maxbo c -> lc_ways lc = 3 -> 0 <= lc_sifs lc ->
  0 <= ac_maxbo c -> 0 <= ac_ctrl c T_CTS -> (forall m, 0 <= ac_data c (ac_size c) m) ->
  scheduled c s ev t -> is_cts t -> scheduled c s ev t' -> is_cts t' -> 0 <= d <= lc_prop lc -> 0 <= d' <= lc_prop lc ->
  let n := Z.of_nat (length (p_rts s)) in
  l_ctsrx x = pt_due t + ac_ctrl c T_CTS + d -> l_ctsn x = n -> ok c lc t' len ->
  nth_error (l_timers x) i = Some u -> lt_kind u = LKData p m ->
  let r := lstep lc e x (LETimer i) in In (LSnd p m) (snd r) ->
  exists v, In v (l_timers (fst r)) /\ lt_kind v = LKAck (kf_seq p) /\ arrival c t' d' + len + (n * ac_ctrl c T_ACK + (n - 1) * psec) + d < lt_due v.

(** What SendData schedules: the time counts from the arrival of the CTS. *)
Lemma data_sent3 c e s i t p m : lc_ways c = 3 -> nth_error (l_timers s) i = Some t -> lt_kind t = LKData p m -> In (LSnd p m) (snd (lstep c e s (LETimer i))) ->
  exists u, l_timers (fst (lstep c e s (LETimer i))) = remove_nth i (l_timers s) ++ [u] /\ lt_kind u = LKAck (kf_seq p) /\
    lt_due u = l_ctsrx s + (lc_tdata c + l_maxbo c + lc_ctrl c T_CTS + lc_ctrl c T_ACK) * l_ctsn s + 2 * lc_prop c + lc_sifs c + 10 * nsec.
Proof.
  intros W N K. cbn [lstep]. rewrite N, K. cbn [lfire]. unfold l_send_data, lseq, llift. cbv zeta. destruct (kf_dst p =? bcast); [cbn; intros []|].
  unfold lsend. cbn [l_air lset_timers lset_state l_state is_lstate orb]. destruct (l_air s); [cbn; intros []|].
  intros _. unfold lseq, lemit, lsched_neg, llift, ack_wait. cbv zeta. rewrite W. cbn [Z.eqb Pos.eqb].
  eexists. split; [reflexivity|]. split; [reflexivity|]. cbn [lt_due lset_air lset_tx lset_state lset_timers l_now l_ctsrx l_ctsn]. lia.
Qed.

(** It holds, for any number of nodes, if every slot and one CTS fit into the data time of the client (the default rate, or faster). *)
Definition fits (c : acfg) (lc : lcfg) (t' : ptimer) (len : Z) : Prop :=
  (forall m, (ac_adapt c = false -> m = 0) -> ac_data c (ac_size c) m + ac_ctrl c T_CTS + 2 * psec <= lc_tdata lc) /\ len <= lc_tdata lc.
Lemma acktime_core c h s o ev t t' d d' len lc x e i u p m : areach anyhow c h s o -> pvalid s ev = true ->
  lc_ctrl lc T_CTS = ac_ctrl c T_CTS -> lc_ctrl lc T_ACK = ac_ctrl c T_ACK -> l_maxbo lc = ac_maxbo c -> lc_ways lc = 3 -> 0 <= lc_sifs lc ->
  0 <= ac_maxbo c -> 0 <= ac_ctrl c T_CTS -> (forall m, 0 <= ac_data c (ac_size c) m) ->
  scheduled c s ev t -> is_cts t -> scheduled c s ev t' -> is_cts t' -> 0 <= d <= lc_prop lc -> 0 <= d' <= lc_prop lc ->
  let n := Z.of_nat (length (p_rts s)) in
  l_ctsrx x = pt_due t + ac_ctrl c T_CTS + d -> l_ctsn x = n -> fits c lc t' len ->
  nth_error (l_timers x) i = Some u -> lt_kind u = LKData p m ->
  let r := lstep lc e x (LETimer i) in In (LSnd p m) (snd r) ->
  exists v, In v (l_timers (fst r)) /\ lt_kind v = LKAck (kf_seq p) /\ arrival c t' d' + len + (n * ac_ctrl c T_ACK + (n - 1) * psec) + d < lt_due v.
Proof.
  intros R V EC EA EB W SI MB CP DP S1 K1 S2 K2 D D' n RX CN (F & L) N K r SND. subst r.
  pose proof (data_sent3 lc e x i u p m W N K SND) as (v & E & KV & DV). exists v. rewrite E. split; [apply in_or_app; right; left; reflexivity|]. split; [exact KV|].
  rewrite DV, RX, CN, EC, EA, EB. clear E KV DV SND N K.
  pose proof (inv0_reach _ _ _ _ _ R) as I0. pose proof (tids_reach _ _ _ _ _ R) as T0.
  destruct (grants c s ev t I0 T0 V S1 K1) as (G1 & G & _). cbv zeta in *. pose proof (G t' S2 K2) as G2. clear G. fold n in G1, G2.
  destruct (gtimers_in _ _ _ _ _ _ _ G1) as (a1 & x1 & b1 & E1 & ->). destruct (gtimers_in _ _ _ _ _ _ _ G2) as (a2 & x2 & b2 & E2 & ->).
  unfold arrival. cbn [pt_kind pt_due].
  assert (LN : Z.of_nat (length a2) + 1 <= n) by (unfold n; rewrite E2, app_length; cbn [length]; lia).
  set (cc := ac_ctrl c T_CTS) in *. set (bo := ac_maxbo c) in *. set (td := lc_tdata lc) in *.
  assert (WS : wait_sum c a2 <= Z.of_nat (length a2) * (td - cc - 2 * psec + bo)).
  { clear - F MB. induction a2 as [|y a IH]; cbn [wait_sum length]; [lia|]. specialize (F (flag_of c y) ltac:(unfold flag_of; intros ->; reflexivity)). rewrite Nat2Z.inj_succ. fold bo. nia. }
  pose proof (wait_sum_nonneg c a2 MB DP) as N1. assert (N0 : 0 <= n * cc) by nia.
  pose proof (quot_bounds (n * cc + wait_sum c a2) ltac:(lia)) as B1.
  assert (WR : forall y, 0 <= y -> wrap16 y <= y) by (intros y Y; unfold wrap16; apply Z.mod_le; lia).
  specialize (WR (Z.quot (n * cc + wait_sum c a2) nsec)). assert (Q0 : 0 <= Z.quot (n * cc + wait_sum c a2) nsec) by (apply Z.quot_pos; unfold nsec; lia).
  specialize (WR Q0). set (w := wrap16 _) in *. assert (WB : w * nsec <= n * cc + wait_sum c a2) by (unfold nsec in *; lia).
  set (k := Z.of_nat (length a2)) in *. assert (0 <= k) by (unfold k; lia). assert (0 <= Z.of_nat (length a1)) by lia.
  assert (X1 : 0 <= (cc + psec) * (0 + Z.of_nat (length a1))) by (unfold psec; nia).
  assert (TP : 0 <= td) by (specialize (F 0 ltac:(reflexivity)); specialize (DP 0); unfold psec in F; lia).
  assert (X2 : (cc + psec) * (0 + k) + k * (td - cc - 2 * psec + bo) = k * (td + bo - psec)) by ring.
  assert (X3 : 0 <= (n - 1 - k) * (td + bo - psec)) by (apply Z.mul_nonneg_nonneg; [lia|specialize (F 0 ltac:(reflexivity)); specialize (DP 0); unfold psec in *; lia]).
  unfold nsec, psec in *. lia.
Qed.
Theorem C133_acktime_partial : C133_at anyhow freely fits.
Proof. intros c h s o ev t t' d d' len lc q0 hl x ol e i u p m R V _ _ _. intros. subst r n. apply (acktime_core c h s o ev t t' d d' len lc x e i u p m); assumption. Qed.
Print Assumptions C133_acktime_partial.

(** A client with PropDelay 33356 ps, as the AP has; the other attributes have the default values. The node is 3 m away. *)
Definition cl33 : lcfg :=
  Lcfg 1 3 5 (2 * nsec) 0 (33356 * psec) (15053 * 8 * 10 ^ 15 / 148010000000)
    (fun ty => (get_size (Hdr 0 0 ty 0 0 0 0 0) + 5) * 8 * 10 ^ 15 / 148010000000) 15000 66660 10000 7 5.
Definition granted (flag : Z) : list xcmd :=
  [enq 0] ++ ask ++ [XIn (64941476 - 15 * psec) ee LERxStart; XIn (15 * psec) ee (LERxEnd (Kframe T_CTS 0 1 5 1 flag 0 18 0) true); XIn nsec ee (LETick 92441476)].
(** The whole statement is false: the slowest modulation takes 2287 ns for the data, and the client counts 814 ns. *)
Definition C133_full : Prop := C133_at intime ontime (fun c _ t' len => len = airtime c t').

Definition pkt5 : kframe := Kframe T_DATA 1 0 5 0 0 0 15017 0.
Lemma slow_at : C133_full -> forall h s o ev t hl x ol u, areach intime ap3 h s o -> pvalid s ev = true -> intime s ev -> lreach ontime cl33 4 hl x ol -> ontime x (LETimer 0) ->
  scheduled ap3 s ev t -> t = Ptimer 2 80144267 (PKCts 1 5 1297209 10) -> length (p_rts s) = 1%nat -> l_ctsrx x = 91441476 -> l_ctsn x = 1 -> l_timers x = [u] -> lt_kind u = LKData pkt5 10 ->
  In (LSnd pkt5 10) (snd (lstep cl33 ee x (LETimer 0))) -> False.
Proof.
  intros H h s o ev t hl x ol u R V P LR Q S1 TT LN RX CN TS K SND.
  assert (N : nth_error (l_timers x) 0 = Some u) by (rewrite TS; reflexivity). assert (KT : is_cts t) by (rewrite TT; exact I).
  assert (W : lc_ways cl33 = 3) by reflexivity.
  pose proof (data_sent3 cl33 ee x 0%nat u pkt5 10 W N K SND) as (v0 & E & _ & DV).
  destruct (H ap3 h s o ev t t (10 * nsec) (10 * nsec) (airtime ap3 t) cl33 4 hl x ol ee 0%nat u pkt5 10) as (v & IV & _ & L); auto;
    try (vm_compute; reflexivity); try (vm_compute; discriminate); try (split; vm_compute; discriminate).
  - intros m. unfold ap3, aex. cbn [ac_data ac_size]. apply Z.div_pos; [vm_compute; discriminate|]. unfold ap_rate. repeat (destruct (m =? _)); reflexivity.
  - rewrite RX, TT. vm_compute. reflexivity.
  - rewrite CN, LN. reflexivity.
  - rewrite E, TS in IV. destruct IV as [<-|[]]. rewrite DV, RX, CN, LN, TT in L. clear - L. vm_compute in L. discriminate.
Qed.
Theorem C133_acktime_refuted : ~ C133_full.
Proof.
  intros H. assert (T : b_ok ap3 slow_rts = true) by (vm_compute; reflexivity). assert (T' : x_ok cl33 4 (granted 10) = true) by (vm_compute; reflexivity).
  assert (TS : exists u, l_timers (x_st cl33 4 (granted 10)) = [u] /\ lt_kind u = LKData pkt5 10) by (eexists; split; vm_compute; reflexivity). destruct TS as (u & T1 & T2).
  eapply (slow_at H _ _ _ (AETimer 0) _ _ _ _ u (b_reach _ _ T)); [| |exact (x_reach _ _ _ T')| | |reflexivity| | | |exact T1|exact T2|]; try (vm_compute; reflexivity).
  - split; [vm_compute; auto|vm_compute; discriminate].
  - assert (S : snd (lstep cl33 ee (x_st cl33 4 (granted 10)) (LETimer 0)) = [LSnd pkt5 10]) by (vm_compute; reflexivity). rewrite S. left. reflexivity.
Qed.
Print Assumptions C133_acktime_refuted.
(** The same with a fixed rate (no adaptive MCS): the hypotheses of the partial theorem hold. *)
Example C133_example : let c := aex 3 6 false false in let s := b_st c slow_rts in let t := Ptimer 2 80144267 (PKCts 1 5 1297209 0) in let x := x_st cl33 4 (granted 0) in
  b_ok c slow_rts = true /\ x_ok cl33 4 (granted 0) = true /\ pvalid s (AETimer 0) = true /\ scheduled c s (AETimer 0) t /\ length (p_rts s) = 1%nat /\
  lc_ctrl cl33 T_CTS = ac_ctrl c T_CTS /\ lc_ctrl cl33 T_ACK = ac_ctrl c T_ACK /\ l_maxbo cl33 = ac_maxbo c /\
  l_ctsrx x = pt_due t + ac_ctrl c T_CTS + 10 * nsec /\ l_ctsn x = 1 /\ fits c cl33 t (15022 * 8 * 10 ^ 15 / 148010000000) /\
  map lt_kind (l_timers x) = [LKData pkt5 0] /\ snd (lstep cl33 ee x (LETimer 0)) = [LSnd pkt5 0].
Proof.
  cbv zeta. split; [vm_compute; reflexivity|]. split; [vm_compute; reflexivity|]. split; [vm_compute; reflexivity|].
  split; [split; [vm_compute; auto|vm_compute; discriminate]|]. split; [vm_compute; reflexivity|]. split; [reflexivity|]. split; [reflexivity|]. split; [reflexivity|].
  split; [vm_compute; reflexivity|]. split; [vm_compute; reflexivity|].
  split; [split; [intros m M; rewrite (M eq_refl); vm_compute; discriminate|vm_compute; discriminate]|]. split; vm_compute; reflexivity.
Qed.

(** ** The same from the history of the client *)

(** Received correctly while the client listens. *)
Definition heard (s : lst) (ev : levent) : bool := match ev with LERxEnd f true => is_lstate LRx s && (kf_type f =? T_CTS) | _ => false end.
(** No CTA and no further CTS for this client arrive. *)
Definition quiet (c : lcfg) (ev : levent) : bool :=
  match ev with LERxEnd f true => negb (kf_type f =? T_CTA) && negb ((kf_type f =? T_CTS) && (kf_dst f =? lc_addr c)) | _ => true end.
Fixpoint quiet_run (c : lcfg) (s : lst) (l : list (lenv * levent)) : bool :=
  match l with [] => true | (e, ev) :: r => lvalid s ev && quiet c ev && quiet_run c (fst (lstep c e s ev)) r end.
Fixpoint heard_run (c : lcfg) (s : lst) (l : list (lenv * levent)) : Z :=
  match l with [] => 0 | (e, ev) :: r => (if heard s ev then 1 else 0) + heard_run c (fst (lstep c e s ev)) r end.

Lemma tcase_n limit life sq s s' o : tcase limit life true sq s s' o -> l_ctsn s' = l_ctsn s.
Proof. intros T. remember true as b. destruct T; subst; dl s; cbn; auto. Qed.
Lemma ltimes_n n d k : forall s, l_ctsn (ltimes n (lsched d k) s) = l_ctsn s.
Proof. induction n as [|n IH]; intros s; cbn [ltimes]; auto. rewrite IH. destruct s; auto. Qed.
Lemma done_n ok sq s : l_ctsn (fst (l_done ok sq s)) = l_ctsn s.
Proof.
  unfold l_done. destruct (ldone_loop _ _ _ _) as [[[[[l q] d] k] em] ub]. destruct (k =? 0); auto. cbn [fst].
  pose proof (ltimes_n (length d) 0 LKResult (lset_res (negb em) (lset_queue q (lset_rec l s)))) as X.
  remember (ltimes _ _ _) as u. destruct ok; destruct u, s; cbn in *; auto.
Qed.
Lemma ltry_n f s : l_ctsn (ltry f s) = l_ctsn s.
Proof. unfold ltry. destruct (lcan s), (lready s); destruct s; cbn; auto. Qed.
Lemma cancel_n u s : l_ctsn (lcancel u s) = l_ctsn s.
Proof. destruct u; destruct s; auto. Qed.

Lemma quiet_step c e s ev : lvalid s ev = true -> quiet c ev = true -> let s' := fst (lstep c e s ev) in
  l_ctsrx s' = l_ctsrx s /\ l_ctsn s' = if heard s ev then wrap16 (l_ctsn s + 1) else l_ctsn s.
Proof.
  intros V Q. cbv zeta. destruct ev as [size dst| | |f ok|i|t]; try (cbn [heard]).
  - pose proof (step_lcase c e s _ V) as C. revert C. generalize (fst (lstep c e s (LEEnq size dst))) (snd (lstep c e s (LEEnq size dst))). intros s' o' C. inversion C; subst s'; dl s; cbn; auto.
  - pose proof (step_lcase c e s _ V) as C. revert C. generalize (fst (lstep c e s LETxDone)) (snd (lstep c e s LETxDone)). intros s' o' C. inversion C; subst s'; dl s; cbn; auto.
  - cbn [lstep]. unfold l_rx_start. cbn [fst]. pose proof (cancel_rx (l_sde s) s) as [X _]. pose proof (cancel_n (l_sde s) s) as Y. destruct (_ || _); [auto|].
    remember (lcancel (l_sde s) s) as u. destruct u; cbn in *. auto.
  - cbn [lstep]. unfold l_rx_end. destruct ok; cbn [negb]; cbn [heard].
    + cbn [quiet] in Q. apply andb_true_iff in Q. destruct Q as [Q1 Q2]. apply negb_true_iff in Q1, Q2. rewrite Q1.
      destruct (is_lstate LRx s) eqn:ST; cbn [orb andb].
      * destruct (kf_type f =? T_CTS) eqn:TC; cbn [andb] in Q2.
        -- unfold l_receive_cts. rewrite Q2. dl s; cbn; auto.
        -- destruct (kf_type f =? T_ACK); [|cbn; auto]. unfold l_receive_ack. destruct (kf_dst f =? lc_addr c); [|cbn; auto].
           destruct (find _ _) as [[q u]|]; dl s; cbn; auto.
      * destruct (is_lstate LWaitAck s && (kf_type f =? T_ACK)) eqn:W; [|cbn; auto]. apply andb_true_iff in W. destruct W as [_ W]. rewrite W.
        assert (TC : kf_type f =? T_CTS = false) by (apply Z.eqb_eq in W; rewrite W; reflexivity). rewrite TC.
        unfold l_receive_ack. destruct (kf_dst f =? lc_addr c); [|cbn; auto]. destruct (find _ _) as [[q u]|]; dl s; cbn; auto.
    + destruct (_ || _); cbn; auto.
  - pose proof (step_lcase c e s _ V) as C. revert C. generalize (fst (lstep c e s (LETimer i))) (snd (lstep c e s (LETimer i))). intros s' o' C. inversion C; subst s'; clear C; try subst s0; try (dl s; cbn; auto; fail).
    + rewrite ltry_n. destruct (ltry_rx f (lset_timers (remove_nth i (l_timers s)) s)) as [-> _]. destruct s; auto.
    + rewrite ltry_n. destruct (ltry_rx (the_rts c p s) (lset_ids (l_ids s + 1) (lset_timers (remove_nth i (l_timers s)) s))) as [-> _]. destruct s; auto.
    + match goal with T : tcase _ _ _ _ _ _ _ |- _ => rewrite (tcase_n _ _ _ _ _ _ T); destruct (tcase_rx _ _ _ _ _ _ _ T) as [-> _] end. dl s; cbn; auto.
    + rewrite done_n. destruct (done_rx ok sq (lset_timers (remove_nth i (l_timers s)) s)) as [-> _]. destruct s; auto.
  - dl s; cbn; auto.
Qed.
Lemma heard_nonneg c l : forall s, 0 <= heard_run c s l.
Proof. induction l as [|[e ev] l IH]; intros s; cbn [heard_run]; [lia|]. specialize (IH (fst (lstep c e s ev))). destruct (heard s ev); lia. Qed.
Lemma quiet_all c l : forall s, quiet_run c s l = true -> 0 <= l_ctsn s -> l_ctsn s + heard_run c s l < 65536 ->
  l_ctsrx (fst (lrun c s l)) = l_ctsrx s /\ l_ctsn (fst (lrun c s l)) = l_ctsn s + heard_run c s l.
Proof.
  induction l as [|[e ev] l IH]; intros s Q P B; cbn [quiet_run heard_run lrun] in *; [cbn; split; lia|].
  apply andb_true_iff in Q. destruct Q as [Q Q2]. apply andb_true_iff in Q. destruct Q as [V Q].
  destruct (quiet_step c e s ev V Q) as [X Y]. pose proof (heard_nonneg c l (fst (lstep c e s ev))) as HN.
  assert (Y' : l_ctsn (fst (lstep c e s ev)) = l_ctsn s + if heard s ev then 1 else 0).
  { rewrite Y. destruct (heard s ev); [|lia]. unfold wrap16. apply Z.mod_small. lia. }
  destruct (IH (fst (lstep c e s ev)) Q2) as [A1 A2]; [destruct (heard s ev); lia|rewrite Y'; lia|].
  destruct (lstep c e s ev) as [s1 o1]. cbn [fst] in *. destruct (lrun c s1 l) as [s2 o2]. cbn [fst] in *. rewrite A1, A2, X, Y'. split; lia.
Qed.

(** In place of the fields of the client: it receives its CTS in state [y], one propagation delay and one CTS after the AP sent it,
    hears further CTSs for other clients, and those heard since its last CTA are as many as there are grants. *)
Definition C133_history_at (P : pst -> pevent -> Prop) (ok : acfg -> lcfg -> ptimer -> Z -> Prop) : Prop :=
  forall c h s o ev t t' d d' len lc y f r0 e0 l2 e i u p m,
  areach P c h s o -> pvalid s ev = true -> P s ev ->
  lc_ctrl lc T_CTS = ac_ctrl c T_CTS -> lc_ctrl lc T_ACK = ac_ctrl c T_ACK -> l_maxbo lc = ac_maxbo c -> lc_ways lc = 3 -> 0 <= lc_sifs lc ->
  0 <= ac_maxbo c -> 0 <= ac_ctrl c T_CTS -> (forall m, 0 <= ac_data c (ac_size c) m) ->
  scheduled c s ev t -> is_cts t -> scheduled c s ev t' -> is_cts t' -> 0 <= d <= lc_prop lc -> 0 <= d' <= lc_prop lc ->
  let n := Z.of_nat (length (p_rts s)) in
  l_state y = LRx -> l_now y = pt_due t + ac_ctrl c T_CTS + d -> kf_type f = T_CTS -> kf_dst f = lc_addr lc -> In r0 (l_rec y) -> kf_seq (lr_pkt r0) = kf_seq f ->
  let y1 := fst (lstep lc e0 y (LERxEnd f true)) in quiet_run lc y1 l2 = true ->
  let x := fst (lrun lc y1 l2) in 0 <= l_ctsn y -> l_ctsn y + 1 + heard_run lc y1 l2 = n -> n < 65536 -> ok c lc t' len ->
  nth_error (l_timers x) i = Some u -> lt_kind u = LKData p m ->
  let r := lstep lc e x (LETimer i) in In (LSnd p m) (snd r) ->
  exists v, In v (l_timers (fst r)) /\ lt_kind v = LKAck (kf_seq p) /\ arrival c t' d' + len + (n * ac_ctrl c T_ACK + (n - 1) * psec) + d < lt_due v.

Theorem C133_history_partial : C133_history_at anyhow fits.
Proof.
  intros c h s o ev t t' d d' len lc y f r0 e0 l2 e i u p m R V _ EC EA EB W SI MB CP DP S1 K1 S2 K2 D D' n LS NW FT FD RI RQ y1 QR x CP0 CN NB OK N K r SND.
  assert (Y : l_ctsrx y1 = l_now y /\ l_ctsn y1 = l_ctsn y + 1).
  { unfold y1. pose proof (heard_nonneg lc l2 y1) as HN. cbn [lstep]. unfold l_rx_end, is_lstate. rewrite LS, FT. cbn [orb negb]. change (T_CTS =? T_CTA) with false. change (T_CTS =? T_CTS) with true. cbv iota.
    unfold l_receive_cts. rewrite FD, Z.eqb_refl. unfold lseq, llift. cbn [fst].
    set (z := lset_ctsn (wrap16 (l_ctsn y + 1)) (lset_state LIdle y)). assert (ZR : l_rec z = l_rec y) by (destruct y; reflexivity).
    destruct (cts_rx f (l_rec z) z) as [_ [[_ X]|X]]; [exfalso; rewrite ZR in X; exact (X r0 RI RQ)|]. split.
    - rewrite X. destruct y; reflexivity.
    - pose proof (cts_fields f (l_rec z) z) as CF. assert (CC : l_ctsn (cts_loop f (l_rec z) z) = l_ctsn z) by apply CF. rewrite CC.
      assert (ZN : l_ctsn z = wrap16 (l_ctsn y + 1)) by (destruct y; reflexivity). rewrite ZN. unfold wrap16. apply Z.mod_small. lia. }
  destruct Y as [Y1 Y2]. destruct (quiet_all lc l2 y1 QR) as [A1 A2]; [lia|lia|]. fold x in A1, A2.
  apply (acktime_core c h s o ev t t' d d' len lc x e i u p m); try assumption; [rewrite A1, Y1; exact NW|rewrite A2, Y2; exact CN].
Qed.
Print Assumptions C133_history_partial.
(** Two clients at a fixed rate; the first one hears its own CTS and then that of the other one. *)
Example C133_history_example : let c := aex 3 6 false false in let s := b_st c far_script in let t := Ptimer 2 80144267 (PKCts 1 5 2594418 0) in
  let t' := Ptimer 3 81442476 (PKCts 2 7 823620700 0) in
  let y := x_st cl33 4 ([enq 0] ++ ask ++ [XIn (64941476 - 15 * psec) ee LERxStart; XIn (15 * psec) ee (LETick 91441476)]) in
  let f := Kframe T_CTS 0 1 5 2 0 0 18 0 in let y1 := fst (lstep cl33 ee y (LERxEnd f true)) in
  let l2 := [(ee, LETick 91442476); (ee, LERxStart); (ee, LETick 92739685); (ee, LERxEnd (Kframe T_CTS 0 2 7 823 0 0 18 0) true); (ee, LETick 93441476)] in
  let x := fst (lrun cl33 y1 l2) in
  b_ok c far_script = true /\ pvalid s (AETimer 0) = true /\ scheduled c s (AETimer 0) t /\ scheduled c s (AETimer 0) t' /\ length (p_rts s) = 2%nat /\
  l_state y = LRx /\ l_now y = pt_due t + ac_ctrl c T_CTS + 10 * nsec /\ map (fun r => kf_seq (lr_pkt r)) (l_rec y) = [5] /\ quiet_run cl33 y1 l2 = true /\
  l_ctsn y + 1 + heard_run cl33 y1 l2 = 2 /\ map lt_kind (l_timers x) = [LKData pkt5 0] /\ snd (lstep cl33 ee x (LETimer 0)) = [LSnd pkt5 0].
Proof.
  cbv zeta. split; [vm_compute; reflexivity|]. split; [vm_compute; reflexivity|]. split; [split; [vm_compute; auto|vm_compute; discriminate]|].
  split; [split; [vm_compute; auto|vm_compute; discriminate]|]. repeat (split; [vm_compute; reflexivity|]). vm_compute. reflexivity.
Qed.
