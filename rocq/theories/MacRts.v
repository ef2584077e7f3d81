(** Steps of the macro MAC in the exchange of RTS and CTS that precedes a packet in RTS mode: those of the sender and of the destination. *)
From Coq Require Import ZArith List Lia Bool.
From Verif Require Import Base HeaderModel SeqModel EnergyModel MacModel MacSpec MacProofs MacAcct MacSteps MacLive MacExch.
Import ListNotations.
Open Scope Z_scope.

Ltac fin := ss; unfold hl, sl, okrem, wkrem in *; ss; auto; try congruence.

(** Timers of kind CCA and backoff leave the CTS timeouts alone. *)
Lemma cca_cts c e s : m_cts (fst (cca c e s)) = m_cts s.
Proof. destruct (cca_cases c e s) as [[-> _]|[d [k [_ ->]]]]; reflexivity. Qed.
Lemma soft_cts c e i x s : nth_error (m_timers s) i = Some x -> idle_kind (mt_kind x) -> m_cts (fst (mstep c e s (ETimer i))) = m_cts s.
Proof.
  intros N K. cbn [mstep]. rewrite N. destruct K as [-> | ->]; cbn [mfire]; [rewrite cca_cts; reflexivity|]. unfold backoff_start. cbv zeta.
  set (s0 := set_timers _ s). destruct (m_borem s0 =? 0), (_ || _); reflexivity.
Qed.
Lemma noise_cts c e i x s : nth_error (m_timers s) i = Some x -> hard x = false -> soft x = false -> m_cts (fst (mstep c e s (ETimer i))) = m_cts s.
Proof.
  intros N H S. cbn [mstep]. rewrite N. unfold hard, soft in H, S. destruct (mt_kind x); try discriminate H; try discriminate S; cbn [mfire]; reflexivity.
Qed.

Section Sender.
Variables (c : mcfg) (p : mframe) (T0 Tr lim : Z).
(** The CTS timeout, counted from the start of the RTS. *)
Definition cts_to : Z := mc_ctrl c T_RTS + prop + mc_sifs c + mc_ctrl c T_CTS + prop + mc_slot c.
(** The RTS [f] was sent at [T1]; [st], [air]: on the air, waiting for the CTS, or receiving it. *)
Record Ar (t T1 : Z) (st : mstate) (air : option mframe) (f : mframe) (s : mst) : Prop := {
  ar_now : m_now s = t; ar_queue : m_queue s = [p]; ar_rec : m_rec s = [Mrec p 0 Tr]; ar_state : m_state s = st; ar_air : m_air s = air;
  ar_tx : m_tx s = Some (mf_id f); ar_ack : m_ack s = [];
  ar_cts : exists u, m_cts s = [(mf_seq p, u)] /\ hl s = [Mtimer u (T1 + cts_to) (MKCts (mf_seq p))];
  ar_sl : match st with MRx => forall x, In x (sl s) -> idle_kind (mt_kind x) | _ => sl s = [] end;
  ar_retry : 0 <= m_retry s <= 4; ar_rem : okrem s }.
(** The CTS is in; the packet is to be sent at [d]. *)
Record Ad (t d : Z) (s : mst) : Prop := {
  ad_now : m_now s = t; ad_queue : m_queue s = [p]; ad_rec : m_rec s = [Mrec p 0 Tr]; ad_state : m_state s = MWaitTx; ad_air : m_air s = None; ad_ack : m_ack s = [];
  ad_hl : exists u, hl s = [Mtimer u d (MKSendData p)];
  ad_sl : forall x, In x (sl s) -> idle_kind (mt_kind x); ad_retry : 0 <= m_retry s <= 4; ad_rem : okrem s }.
Definition rts_of (s : mst) : mframe := mctrl c T_RTS (mf_dst p) (mf_seq p) 0 s.

Hypothesis RTS : mc_rts c = true.
Hypothesis UNI : mf_dst p <> bcast.

Lemma ar_grant t u d e i s : Aw p T0 Tr t u d MKGrant s -> m_cts s = [] -> nth_error (m_timers s) i = Some (Mtimer u d MKGrant) ->
  Ar t t MTx (Some (rts_of s)) (rts_of s) (fst (mstep c e s (ETimer i))) /\ vis (snd (mstep c e s (ETimer i))) = [OSnd (rts_of s)].
Proof.
  intros [] CT N. cbn [mstep]. rewrite N. cbn [mt_kind mfire]. set (s0 := set_timers _ s).
  destruct (filter_one soft i _ _ _ N eq_refl aw_sl) as [_ S0]. assert (H0 : hl s0 = []) by (unfold hl, s0; ss; rewrite (filter_miss hard i _ _ N eq_refl); exact aw_hl).
  unfold granted. change (m_queue s0) with (m_queue s). rewrite aw_queue, RTS.
  replace (mf_dst p =? bcast) with false by (symmetry; apply Z.eqb_neq; auto). cbn [negb andb]. cbv zeta.
  unfold send_rts. cbv zeta. set (w0 := set_state MWaitTx _). change (mctrl c T_RTS (mf_dst p) (mf_seq p) 0 w0) with (rts_of s).
  unfold send_packet, is_state. unfold w0. ss. change (m_air s0) with (m_air s). rewrite aw_air. cbn [orb]. clear w0.
  set (s1 := set_tx _ _). rewrite !mseq_eq. ss. fold cts_to.
  destruct (lnav_eq c cts_to s1) as (s2 & E1 & E2 & E3). rewrite E1.
  assert (F : m_now s2 = t /\ m_queue s2 = [p] /\ m_rec s2 = [Mrec p 0 Tr] /\ m_state s2 = MTx /\ m_air s2 = Some (rts_of s) /\ m_tx s2 = Some (mf_id (rts_of s)) /\ m_ack s2 = [] /\ m_cts s2 = [] /\
              m_timers s2 = remove_nth i (m_timers s) /\ m_retry s2 = m_retry s /\ m_borem s2 = 0).
  { destruct E3 as [->|[v ->]]; unfold s1, s0; ss; repeat split; auto. }
  destruct F as (F1 & F2 & F3 & F4 & F5 & F6 & F7 & F7' & F8 & F9 & F10).
  split.
  - constructor; try (fin; fail).
    + exists (m_uid s2). split; [fin; rewrite F7'; reflexivity|]. unfold hl. ss. rewrite filter_app, F8. unfold hl, s0 in H0. revert H0. ss. intros ->. cbn. rewrite F1. reflexivity.
    + unfold sl. ss. rewrite filter_app, F8, S0. reflexivity.
  - cbn [vis filter app]. rewrite app_nil_r. fold (vis (snd (update_lnav c cts_to s1))). rewrite E2. reflexivity.
Qed.

Lemma ar_done t T1 e f s : mf_type f = T_RTS -> Ar t T1 MTx (Some f) f s -> Ar t T1 MIdle None f (fst (mstep c e s ETxDone)) /\ snd (mstep c e s ETxDone) = [].
Proof.
  intros TY []. cbn [mstep]. unfold tx_done, is_state. rewrite ar_air0, ar_state0, ar_tx0, Z.eqb_refl, TY. cbn [andb].
  change ((T_RTS =? T_RTS) || (T_RTS =? T_CTS)) with true. cbv iota. split; [|reflexivity]. constructor; fin.
Qed.

Lemma ar_start t T1 e f s : Ids s -> Ar t T1 MIdle None f s -> Ar t T1 MRx None f (fst (mstep c e s ERxStart)) /\ snd (mstep c e s ERxStart) = [].
Proof.
  intros I []. cbn [mstep]. unfold when_silent. rewrite ar_air0. unfold rx_start. rewrite mseq_eq, busy_idle by auto. cbn [mlift fst snd].
  destruct (cca_soft c e s) as (l & L1 & L2 & L3 & L4 & R1 & R2 & R3 & R4 & R5 & R6 & R7 & R8 & R9 & _). pose proof (cca_cts c e s) as CT. rewrite L4. set (s1 := fst (cca c e s)) in *.
  unfold is_state. rewrite R4, ar_state0.
  split; [|reflexivity]. constructor; try (ss; congruence).
  - destruct ar_cts0 as (u & U1 & U2). exists u. split; [ss; congruence|]. unfold hl. ss. rewrite L1, filter_app, L3, app_nil_r. exact U2.
  - unfold sl. ss. rewrite L1, filter_app. intros x X. apply in_app_or in X. destruct X as [X|X]; [|apply filter_In in X; apply L2, X].
    change (In x (sl s)) in X. rewrite ar_sl0 in X. destruct X.
  - unfold okrem in *. ss. rewrite R9. exact ar_rem0.
Qed.

Lemma ar_soft t T1 e i x f s : Ar t T1 MRx None f s -> nth_error (m_timers s) i = Some x -> soft x = true -> (forall z, 0 <= e_draw e z < 4294967088) ->
  Ar t T1 MRx None f (fst (mstep c e s (ETimer i))) /\ snd (mstep c e s (ETimer i)) = [].
Proof.
  intros A N S K. destruct A. cbv iota in ar_sl0.
  assert (KD : idle_kind (mt_kind x)) by (apply ar_sl0, filter_In; split; auto; eapply nth_error_In; eauto). pose proof (soft_cts c e i x s N KD) as CT. revert CT.
  cbn [mstep]. rewrite N. set (s0 := set_timers _ s).
  assert (H0 : hl s0 = hl s) by (unfold hl, s0; ss; rewrite (filter_miss hard i _ _ N (soft_hard _ S)); reflexivity).
  assert (S0 : forall y, In y (sl s0) -> idle_kind (mt_kind y)) by (intros y Y; apply ar_sl0; eapply filter_remove_in; exact Y).
  destruct KD as [KD|KD]; rewrite KD; cbn [mfire]; intros CT.
  - destruct (cca_soft c e s0) as (l & L1 & L2 & L3 & L4 & R1 & R2 & R3 & R4 & R5 & R6 & R7 & R8 & R9 & _). rewrite L4. set (s1 := fst (cca c e s0)) in *.
    split; [|reflexivity]. constructor; try (first [rewrite R1|rewrite R2|rewrite R3|rewrite R4|rewrite R5|rewrite R6|rewrite R7|rewrite R8]; assumption).
    + destruct ar_cts0 as (u & U1 & U2). exists u. split; [congruence|]. unfold hl at 1. rewrite L1, filter_app, L3, app_nil_r. fold (hl s0). congruence.
    + unfold sl. rewrite L1, filter_app. intros y Y. apply in_app_or in Y. destruct Y as [Y|Y]; [apply S0; exact Y|]. apply filter_In in Y. apply L2, Y.
    + unfold okrem in *. rewrite R9. exact ar_rem0.
  - revert CT. unfold backoff_start. cbv zeta. unfold is_state. change (m_state s0) with (m_state s). rewrite ar_state0. cbn [negb orb].
    change (m_borem s0) with (m_borem s). change (m_retry s0) with (m_retry s). change (m_now s0) with (m_now s).
    set (w := if m_borem s =? 0 then mdraw (m_retry s) (e_draw e (-1)) * tdata else m_borem s).
    assert (W : tdata <= w <= 16 * tdata) by (apply drawn; assumption).
    set (s2 := if m_borem s =? 0 then _ else _). assert (L : s2 = set_borem w (set_bostart (m_now s) s0)) by (unfold s2, w; destruct (m_borem s =? 0); reflexivity).
    rewrite L. intros CT. split; [|reflexivity]. constructor; try (fin; fail).
    + destruct ar_cts0 as (u & U1 & U2). exists u. split; [congruence|]. cbn [fst]. rewrite hl_sched. change (hl (set_cca _ _)) with (hl s0). rewrite H0, U2. reflexivity.
    + cbn [fst]. rewrite sl_sched. change (sl (set_cca _ _)) with (sl s0). intros y Y. apply in_app_or in Y. destruct Y as [Y|[<-|[]]]; [apply S0; exact Y|]. left. reflexivity.
Qed.

Lemma ar_end t T1 e f g s : Ar t T1 MRx None f s -> mf_type g = T_CTS -> mf_dst g = mc_addr c -> mf_seq g = mf_seq p ->
  Ad t (t + psec) (fst (mstep c e s (ERxEnd g true))) /\ vis (snd (mstep c e s (ERxEnd g true))) = [].
Proof.
  intros A TY DS SQ. destruct A. cbv iota in ar_sl0. cbn [mstep]. unfold when_silent. rewrite ar_air0. unfold rx_end. rewrite mseq_eq. cbn [negb mlift fst snd]. rewrite TY.
  change (T_CTS =? T_RTS) with false. change (T_CTS =? T_CTS) with true. cbv iota.
  unfold receive_cts. rewrite DS, Z.eqb_refl. cbn [negb]. rewrite !mseq_eq. cbn [mlift fst snd app]. destruct ar_cts0 as (u & U1 & U2).
  change (m_rec (set_state MIdle s)) with (m_rec s). rewrite ar_rec0. cbn [scan mr_pkt]. rewrite SQ, Z.eqb_refl. set (s0 := set_data _ _).
  destruct (lnav_eq c (mf_dur g * nsec) s0) as (s1 & E1 & E2 & E3). rewrite E1.
  assert (F : m_now s1 = t /\ m_queue s1 = [p] /\ m_rec s1 = [Mrec p 0 Tr] /\ m_air s1 = None /\ m_ack s1 = [] /\ m_cts s1 = [(mf_seq p, u)] /\ m_data s1 = Some p /\
              m_timers s1 = m_timers s /\ m_retry s1 = m_retry s /\ m_borem s1 = m_borem s).
  { destruct E3 as [->|[v ->]]; unfold s0; ss; repeat split; auto. }
  destruct F as (F1 & F2 & F3 & F4 & F5 & F6 & F7 & F8 & F9 & F10). rewrite F6, F7. cbn [find fst erase1]. rewrite Z.eqb_refl. ss.
  split; [|rewrite app_nil_r; exact E2].
  assert (H : filter hard (filter (fun t => negb (mt_id t =? u)) (m_timers s1)) = []). { rewrite filter_comm. rewrite F8. unfold hl in U2. rewrite U2. cbn. rewrite Z.eqb_refl. reflexivity. }
  constructor; try (fin; fail).
  - exists (m_uid s1). unfold hl. ss. rewrite filter_app, H, F1. reflexivity.
  - unfold sl. ss. rewrite filter_app, F8. cbn [filter soft mt_kind]. rewrite app_nil_r. intros x X.
    apply ar_sl0. apply filter_In in X; destruct X as [X1 X2]; apply filter_In in X1; apply filter_In; tauto.
Qed.

(** Channel assessments before the packet is sent. *)
Lemma ad_soft t d e i x s : Ad t d s -> nth_error (m_timers s) i = Some x -> soft x = true -> (forall z, 0 <= e_draw e z < 4294967088) ->
  Ad t d (fst (mstep c e s (ETimer i))) /\ snd (mstep c e s (ETimer i)) = [].
Proof.
  intros A N S K. destruct A.
  assert (KD : idle_kind (mt_kind x)) by (apply ad_sl0, filter_In; split; auto; eapply nth_error_In; eauto).
  cbn [mstep]. rewrite N. set (s0 := set_timers _ s).
  assert (H0 : hl s0 = hl s) by (unfold hl, s0; ss; rewrite (filter_miss hard i _ _ N (soft_hard _ S)); reflexivity).
  assert (S0 : forall y, In y (sl s0) -> idle_kind (mt_kind y)) by (intros y Y; apply ad_sl0; eapply filter_remove_in; exact Y).
  destruct KD as [KD|KD]; rewrite KD; cbn [mfire].
  - destruct (cca_soft c e s0) as (l & L1 & L2 & L3 & L4 & R1 & R2 & R3 & R4 & R5 & R6 & R7 & R8 & R9 & _). rewrite L4. set (s1 := fst (cca c e s0)) in *.
    split; [|reflexivity]. constructor; try (first [rewrite R1|rewrite R2|rewrite R3|rewrite R4|rewrite R5|rewrite R6|rewrite R7|rewrite R8]; assumption).
    + destruct ad_hl0 as (u & U). exists u. unfold hl at 1. rewrite L1, filter_app, L3, app_nil_r. fold (hl s0). congruence.
    + unfold sl. rewrite L1, filter_app. intros y Y. apply in_app_or in Y. destruct Y as [Y|Y]; [apply S0; exact Y|]. apply filter_In in Y. apply L2, Y.
    + unfold okrem in *. rewrite R9. exact ad_rem0.
  - unfold backoff_start. cbv zeta. unfold is_state. change (m_state s0) with (m_state s). rewrite ad_state0. cbn [negb orb].
    change (m_borem s0) with (m_borem s). change (m_retry s0) with (m_retry s). change (m_now s0) with (m_now s).
    set (w := if m_borem s =? 0 then mdraw (m_retry s) (e_draw e (-1)) * tdata else m_borem s).
    assert (W : tdata <= w <= 16 * tdata) by (apply drawn; assumption).
    set (s2 := if m_borem s =? 0 then _ else _). assert (L : s2 = set_borem w (set_bostart (m_now s) s0)) by (unfold s2, w; destruct (m_borem s =? 0); reflexivity).
    rewrite L. split; [|reflexivity]. constructor; try (fin; fail).
    + destruct ad_hl0 as (u & U). exists u. cbn [fst]. rewrite hl_sched. change (hl (set_cca _ _)) with (hl s0). rewrite H0, U. reflexivity.
    + cbn [fst]. rewrite sl_sched. change (sl (set_cca _ _)) with (sl s0). intros y Y. apply in_app_or in Y. destruct Y as [Y|[<-|[]]]; [apply S0; exact Y|]. left. reflexivity.
Qed.

Lemma ad_send t d u e i s : Ad t d s -> nth_error (m_timers s) i = Some (Mtimer u d (MKSendData p)) ->
  As c p Tr lim t t MTx (Some p) true (fst (mstep c e s (ETimer i))) /\ vis (snd (mstep c e s (ETimer i))) = [OSnd p].
Proof.
  intros [] N. cbn [mstep]. rewrite N. cbn [mt_kind mfire]. set (s0 := set_timers _ s). destruct ad_hl0 as (v & V). destruct (filter_one hard i _ _ _ N eq_refl V) as [_ H0].
  unfold send_data. change (m_queue s0) with (m_queue s). rewrite ad_queue0. unfold send_packet, is_state. ss. change (m_state s0) with (m_state s). change (m_air s0) with (m_air s). rewrite ad_state0, ad_air0. cbn [orb].
  replace (mf_dst p =? bcast) with false by (symmetry; apply Z.eqb_neq; auto).
  set (s1 := set_tx _ _). rewrite !mseq_eq. ss. fold (ack_to c p).
  destruct (lnav_eq c (ack_to c p) s1) as (s2 & E1 & E2 & E3). rewrite E1.
  assert (F : m_now s2 = t /\ m_queue s2 = [p] /\ m_rec s2 = [Mrec p 0 Tr] /\ m_state s2 = MTx /\ m_air s2 = Some p /\ m_tx s2 = Some (mf_id p) /\ m_ack s2 = [] /\
              m_timers s2 = remove_nth i (m_timers s) /\ m_retry s2 = m_retry s /\ m_borem s2 = m_borem s).
  { destruct E3 as [->|[w ->]]; unfold s1, s0; ss; repeat split; auto. }
  destruct F as (F1 & F2 & F3 & F4 & F5 & F6 & F7 & F8 & F9 & F10).
  split.
  - constructor; try (fin; fail).
    + exists (m_uid s2). split; [fin; rewrite F7; reflexivity|]. unfold hl. ss. rewrite filter_app, F8, H0. cbn. rewrite F1. reflexivity.
    + unfold sl. ss. rewrite filter_app, F8. cbn [filter soft mt_kind]. rewrite app_nil_r. intros x X. left. apply ad_sl0. eapply filter_remove_in. exact X.
  - cbn [vis filter app]. rewrite app_nil_r. fold (vis (snd (update_lnav c (ack_to c p) s1))). rewrite E2. reflexivity.
Qed.

Lemma like_ar t T1 st ai f s s' : like s s' -> m_cts s' = m_cts s -> Ar t T1 st ai f s -> Ar t T1 st ai f s'.
Proof. intros [] CT []. constructor; unfold okrem in *; try congruence; rewrite ?CT, ?lk_hl, ?lk_sl, ?lk_retry, ?lk_rem; auto. Qed.
Lemma like_ad t d s s' : like s s' -> Ad t d s -> Ad t d s'.
Proof. intros [] []. constructor; unfold okrem in *; try congruence; rewrite ?lk_hl, ?lk_sl, ?lk_retry, ?lk_rem; auto. Qed.
Lemma ar_tick t t' T1 st ai f s : Ar t T1 st ai f s -> Ar t' T1 st ai f (set_now t' s).
Proof. intros []. constructor; auto. Qed.
Lemma ad_tick t t' d s : Ad t d s -> Ad t' d (set_now t' s).
Proof. intros []. constructor; auto. Qed.
End Sender.

(** ** The destination *)
Definition navs (s : mst) : Z := Z.max (m_nav s) (m_lnav s).
Lemma navs_timer ai F c e i s : Bq ai F s -> navs (fst (mstep c e s (ETimer i))) = navs s.
Proof.
  intros B. destruct (nth_error (m_timers s) i) as [x|] eqn:N; [|cbn [mstep]; rewrite N; auto].
  destruct (noise c e i x s N) as [L V]; [eapply filter_nil; [exact N|]; apply B|eapply filter_nil; [exact N|]; apply B|]. unfold navs. destruct L. congruence.
Qed.
Lemma navs_start F c e s : Ids s -> Bq None F s -> navs (fst (mstep c e s ERxStart)) = navs s.
Proof.
  intros I B. cbn [mstep]. unfold when_silent. rewrite (bq_air _ _ _ B). unfold rx_start. rewrite mseq_eq, busy_idle, (bq_cca _ _ _ _ _ B) by (auto; apply B). cbn [mlift fst snd app].
  destruct (is_state _ _); reflexivity.
Qed.
(** A CTS is due at [d]. *)
Record Bc (F : seqlist) (dst sq d : Z) (s : mst) : Prop := {
  bc_queue : m_queue s = []; bc_state : m_state s = MWaitTx; bc_air : m_air s = None; bc_sl : sl s = []; bc_filter : m_filter s = F;
  bc_hl : exists u w, hl s = [Mtimer u d (MKSendCts dst w sq)] }.
Lemma like_bc F dst sq d s s' : like s s' -> Bc F dst sq d s -> Bc F dst sq d s'.
Proof. intros [] []. constructor; try congruence. rewrite lk_hl. auto. Qed.
Lemma bc_tick F dst sq d t s : Bc F dst sq d s -> Bc F dst sq d (set_now t s).
Proof. intros []. constructor; auto. Qed.

Lemma bq_rts F c e g s : Bq None F s -> mf_type g = T_RTS -> mf_dst g = mc_addr c -> navs s <= m_now s ->
  Bc F (mf_src g) (mf_seq g) (m_now s + psec) (fst (mstep c e s (ERxEnd g true))) /\ vis (snd (mstep c e s (ERxEnd g true))) = [] /\ m_now (fst (mstep c e s (ERxEnd g true))) = m_now s.
Proof.
  intros [] TY DS NV. cbn [mstep]. unfold when_silent. rewrite bq_air. unfold rx_end. rewrite mseq_eq. cbn [mlift fst snd app negb]. rewrite TY.
  change (T_RTS =? T_RTS) with true. cbv iota. unfold receive_rts. rewrite DS, Z.eqb_refl. cbn [negb]. ss. unfold navs in NV.
  replace (Z.max (m_nav s) (m_lnav s) >? m_now s) with false by (symmetry; rewrite Z.gtb_ltb; apply Z.ltb_ge; lia).
  rewrite mseq_eq. cbn [mlift fst snd app].
  destruct (lnav_eq c (mf_dur g * nsec) (set_state MIdle s)) as (s1 & E1 & E2 & E3). rewrite E1.
  assert (F1 : m_now s1 = m_now s /\ m_queue s1 = [] /\ m_air s1 = None /\ hl s1 = [] /\ sl s1 = [] /\ m_filter s1 = F).
  { destruct E3 as [->|[v ->]]; repeat split; auto. }
  destruct F1 as (F1 & F2 & F3 & F4 & F5 & F6). clear E1 E3. split; [|split; [rewrite app_nil_r; exact E2|exact F1]].
  constructor; unfold sl, hl in *; ss; auto.
  - rewrite filter_app, F5. reflexivity.
  - exists (m_uid s1), (mf_dur g). rewrite filter_app, F4, F1. reflexivity.
Qed.

Lemma bc_cts F dst sq d u w c e i s : Bc F dst sq d s -> nth_error (m_timers s) i = Some (Mtimer u d (MKSendCts dst w sq)) ->
  exists g, mf_type g = T_CTS /\ mf_src g = mc_addr c /\ mf_dst g = dst /\ mf_seq g = sq /\
  Bq (Some g) F (fst (mstep c e s (ETimer i))) /\ vis (snd (mstep c e s (ETimer i))) = [OSnd g] /\ m_now (fst (mstep c e s (ETimer i))) = m_now s.
Proof.
  intros [] N. cbn [mstep]. rewrite N. cbn [mt_kind mfire]. destruct bc_hl0 as (v & w' & V). destruct (filter_one hard i _ _ _ N eq_refl V) as [_ H0].
  assert (S0 : filter soft (remove_nth i (m_timers s)) = []) by (rewrite (filter_miss soft i _ _ N eq_refl); exact bc_sl0).
  unfold send_cts. cbv zeta. set (s0 := set_timers _ s). set (g := mctrl c T_CTS _ _ _ s0). exists g. do 4 (split; [reflexivity|]).
  unfold send_packet, is_state. ss. change (m_state s0) with (m_state s). change (m_air s0) with (m_air s). rewrite bc_state0, bc_air0. cbn [orb]. rewrite mseq_eq. cbn [fst snd].
  set (s1 := set_tx _ _). destruct (lnav_eq c (w * nsec - mc_sifs c) s1) as (s2 & E1 & E2 & E3). rewrite E1.
  split; [|split].
  - destruct E3 as [->|[x ->]]; constructor; unfold hl, sl, s1, s0; ss; auto.
  - cbn [vis filter app]. fold (vis (snd (update_lnav c (w * nsec - mc_sifs c) s1))). rewrite E2. reflexivity.
  - destruct E3 as [->|[x ->]]; reflexivity.
Qed.
