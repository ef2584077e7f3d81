(** Steps of the macro MAC in the exchange of one packet, from channel access (without RTS) to the report: those of the sender, of the destination and of a bystander. *)
From Coq Require Import ZArith List Lia Bool.
From Verif Require Import Base HeaderModel SeqModel EnergyModel MacModel MacSpec MacProofs MacAcct MacSteps MacLive.
Import ListNotations.
Open Scope Z_scope.

(** Pending events that lead to a transmission or a report; those of the channel access; the rest (antenna, results file) does not matter. *)
Definition hard (t : mtimer) : bool := match mt_kind t with MKRot | MKResult | MKCca | MKBo | MKGrant => false | _ => true end.
Definition soft (t : mtimer) : bool := match mt_kind t with MKCca | MKBo | MKGrant => true | _ => false end.
Definition hl (s : mst) : list mtimer := filter hard (m_timers s).
Definition sl (s : mst) : list mtimer := filter soft (m_timers s).
(** What comes out, apart from undefined behaviour. *)
Definition vis (o : list mout) : list mout := filter (fun x => match x with OUb => false | _ => true end) o.

Lemma vis_app o o' : vis (o ++ o') = vis o ++ vis o'.
Proof. apply filter_app. Qed.
Lemma snd_vis o : snd_of o = snd_of (vis o).
Proof. unfold snd_of, vis. induction o as [|x o IH]; [reflexivity|]. cbn. rewrite IH. destruct x; reflexivity. Qed.
Lemma hush_vis c o : hush c o -> vis o = [].
Proof. intros [H _]. induction o as [|x o IH]; [reflexivity|]. rewrite (H x) by (left; auto). cbn. apply IH. intros; apply H; right; auto. Qed.

(** ** Lists *)
Lemma remove_split {X} i : forall (l : list X) x, nth_error l i = Some x -> exists l1 l2, l = l1 ++ x :: l2 /\ remove_nth i l = l1 ++ l2.
Proof.
  induction i as [|i IH]; intros [|y l] x N; try discriminate N; cbn in *.
  - injection N as ->. exists [], l. auto.
  - destruct (IH l x N) as (l1 & l2 & -> & R). exists (y :: l1), l2. rewrite R. auto.
Qed.
Lemma filter_miss {X} (g : X -> bool) i l x : nth_error l i = Some x -> g x = false -> filter g (remove_nth i l) = filter g l.
Proof. intros N G. destruct (remove_split i l x N) as (l1 & l2 & -> & ->). rewrite !filter_app. cbn. rewrite G. reflexivity. Qed.
Lemma filter_one {X} (g : X -> bool) i l x y : nth_error l i = Some x -> g x = true -> filter g l = [y] -> x = y /\ filter g (remove_nth i l) = [].
Proof.
  intros N G. destruct (remove_split i l x N) as (l1 & l2 & -> & ->). rewrite !filter_app. cbn. rewrite G.
  destruct (filter g l1) as [|z k]; cbn; intros E; injection E as E1 E2; [subst; auto|]. destruct k; discriminate E2.
Qed.
Lemma filter_nil {X} (g : X -> bool) i l x : nth_error l i = Some x -> filter g l = [] -> g x = false.
Proof. intros N F. destruct (g x) eqn:G; auto. apply nth_error_In in N. assert (I : In x (filter g l)) by (apply filter_In; auto). rewrite F in I. destruct I. Qed.
Lemma filter_sub {X} (g h : X -> bool) l : filter g l = [] -> filter g (filter h l) = [].
Proof.
  induction l as [|x l IH]; intros F; [reflexivity|]. cbn in *. destruct (g x) eqn:G; [discriminate F|]. destruct (h x); cbn; rewrite ?G; auto.
Qed.
Lemma filter_comm {X} (g h : X -> bool) l : filter g (filter h l) = filter h (filter g l).
Proof. induction l as [|x l IH]; [reflexivity|]. cbn. destruct (g x) eqn:G, (h x) eqn:H; cbn; rewrite ?G, ?H, IH; reflexivity. Qed.
Lemma filter_all {X} (g : X -> bool) l : (forall x, In x l -> g x = true) -> filter g l = l.
Proof. induction l as [|x l IH]; intros F; [reflexivity|]. cbn. rewrite (F x (or_introl eq_refl)), IH; auto. intros; apply F; right; auto. Qed.
Lemma soft_hard t : soft t = true -> hard t = false.
Proof. unfold soft, hard. destruct (mt_kind t); auto; discriminate. Qed.
Lemma soft_kind t : soft t = true -> mt_kind t = MKCca \/ mt_kind t = MKBo \/ mt_kind t = MKGrant.
Proof. unfold soft. destruct (mt_kind t); auto; discriminate. Qed.

Lemma filter_remove_in {X} (g : X -> bool) i l x : In x (filter g (remove_nth i l)) -> In x (filter g l).
Proof.
  intros I. apply filter_In in I. destruct I as [I G]. apply filter_In. split; auto.
  revert i I. induction l as [|y l IH]; intros [|i] I; cbn in *; auto. destruct I as [->|I]; eauto.
Qed.

Section Sender.
Variables (c : mcfg) (p : mframe) (T0 Tr lim : Z).
Definition okrem (s : mst) : Prop := m_borem s = 0 \/ tdata <= m_borem s <= 16 * tdata.
(** The rest of a backoff that was interrupted. *)
Definition wkrem (s : mst) : Prop := m_borem s = 0 \/ nsec <= m_borem s.
(** The acknowledgement timeout, counted from the start of the transmission. *)
Definition ack_to : Z := mc_data c (mf_size p) + prop + mc_sifs c + mc_ctrl c T_ACK + prop + mc_slot c.

(** Channel access: one event of kind [k] at [d] is pending. *)
Record Aw (t u d : Z) (k : mkind) (s : mst) : Prop := {
  aw_now : m_now s = t; aw_queue : m_queue s = [p]; aw_rec : m_rec s = [Mrec p 0 Tr]; aw_state : m_state s = MIdle; aw_air : m_air s = None;
  aw_ack : m_ack s = []; aw_hl : hl s = []; aw_sl : sl s = [Mtimer u d k]; aw_nav : Z.max (m_nav s) (m_lnav s) <= T0;
  aw_retry : 0 <= m_retry s <= 4; aw_rem : okrem s }.
(** The packet has been sent at [T1]; [st], [air]: on the air, waiting for the acknowledgement, or receiving it. Further
    channel assessments may be pending if [js], and a backoff that ends after [T1 + lim]. *)
Record As (t T1 : Z) (st : mstate) (air : option mframe) (js : bool) (s : mst) : Prop := {
  as_now : m_now s = t; as_queue : m_queue s = [p]; as_rec : m_rec s = [Mrec p 0 Tr]; as_state : m_state s = st; as_air : m_air s = air;
  as_tx : m_tx s = Some (mf_id p);
  as_ack : exists u, m_ack s = [(mf_seq p, u)] /\ hl s = [Mtimer u (T1 + ack_to) (MKAck (mf_seq p))];
  as_sl : if js then forall x, In x (sl s) -> idle_kind (mt_kind x) \/ T1 + lim < mt_due x else sl s = [];
  as_retry : 0 <= m_retry s <= 4; as_rem : match st with MRx => wkrem s | _ => okrem s end }.
(** The acknowledgement is in; SendDataDone is pending for [d]. *)
Record Af (t d : Z) (s : mst) : Prop := {
  af_now : m_now s = t; af_queue : m_queue s = [p]; af_rec : m_rec s = [Mrec p 0 Tr]; af_air : m_air s = None; af_ack : m_ack s = [];
  af_hl : exists u, hl s = [Mtimer u d (MKDone true (mf_seq p))];
  af_sl : forall x, In x (sl s) -> idle_kind (mt_kind x) \/ d < mt_due x;
  af_retry : 0 <= m_retry s <= 4; af_rem : wkrem s }.
(** All is over. *)
Record Ae (s : mst) : Prop := { ae_queue : m_queue s = []; ae_rec : m_rec s = []; ae_air : m_air s = None; ae_hl : hl s = [] }.

Lemma hl_sched d k s : hl (msched d k s) = hl s ++ filter hard [Mtimer (m_uid s) (m_now s + d) k].
Proof. unfold hl. ss. apply filter_app. Qed.
Lemma sl_sched d k s : sl (msched d k s) = sl s ++ filter soft [Mtimer (m_uid s) (m_now s + d) k].
Proof. unfold sl. ss. apply filter_app. Qed.

Lemma not_running s : Ids s -> sl s = [] -> mrunning (m_cca s) s = false.
Proof.
  intros I S. unfold mrunning. destruct (m_cca s) as [u|] eqn:C; auto. apply not_true_is_false. intros E. apply existsb_exists in E. destruct E as (t & T & U).
  apply Z.eqb_eq in U. destruct (i_cca _ I u C) as [_ K]. specialize (K t T U).
  assert (X : In t (sl s)). { apply filter_In. split; auto. unfold soft. destruct K as [-> | ->]; reflexivity. }
  rewrite S in X. destruct X.
Qed.

Ltac fin := ss; unfold hl, sl, okrem, wkrem in *; ss; auto; try congruence.

Lemma aw_cca t u d e i s : Aw t u d MKCca s -> Ids s -> nth_error (m_timers s) i = Some (Mtimer u d MKCca) -> T0 <= t -> 0 <= mc_slot c -> e_idle e = true ->
  exists u', Aw t u' (t + mc_difs c) MKBo (fst (mstep c e s (ETimer i))) /\ snd (mstep c e s (ETimer i)) = [].
Proof.
  intros [] I N T S E. cbn [mstep]. rewrite N. cbn [mt_kind mfire]. set (s0 := set_timers _ s).
  destruct (filter_one soft i _ _ _ N eq_refl aw_sl0) as [_ S0]. assert (H0 : hl s0 = []) by (unfold hl, s0; ss; rewrite (filter_miss hard i _ _ N eq_refl); exact aw_hl0).
  assert (R : mrunning (m_cca s0) s0 = false) by (apply not_running; [apply ids_fired; auto|exact S0]).
  unfold cca. change (m_queue s0) with (m_queue s). rewrite aw_queue0, R. cbv zeta. change (m_nav s0) with (m_nav s). change (m_lnav s0) with (m_lnav s). change (m_now s0) with (m_now s).
  replace (Z.max (m_nav s) (m_lnav s) >? m_now s + mc_slot c) with false by (symmetry; rewrite Z.gtb_ltb; apply Z.ltb_ge; lia).
  unfold is_state, phy_idle. change (m_state s0) with (m_state s). change (m_air s0) with (m_air s). rewrite aw_state0, aw_air0, E. cbn [negb andb orb].
  exists (m_uid s). split; [|reflexivity]. constructor; try (fin; fail).
  - cbn [fst]. rewrite hl_sched. change (hl (set_cca _ s0)) with (hl s0). rewrite H0. reflexivity.
  - cbn [fst]. rewrite sl_sched. change (sl (set_cca _ s0)) with (filter soft (remove_nth i (m_timers s))). rewrite S0. cbn. rewrite aw_now0. reflexivity.
Qed.

Lemma draw_bound r k : 0 <= r <= 4 -> 0 <= k < 4294967088 -> 1 <= mdraw r k <= 16.
Proof.
  intros R K. unfold mdraw. assert (P : 1 <= 2 ^ r <= 16). { split; [change 1 with (2 ^ 0); apply Z.pow_le_mono_r; lia|change 16 with (2 ^ 4); apply Z.pow_le_mono_r; lia]. }
  revert P. generalize (2 ^ r). intros q P.
  assert (0 <= k * q / 4294967088 < q). { split; [apply Z.div_pos; [apply Z.mul_nonneg_nonneg|]; lia|apply Z.div_lt_upper_bound; [lia|apply Z.mul_lt_mono_pos_r; lia]]. }
  lia.
Qed.
Lemma drawn s e : okrem s -> 0 <= m_retry s <= 4 -> (forall z, 0 <= e_draw e z < 4294967088) ->
  tdata <= (if m_borem s =? 0 then mdraw (m_retry s) (e_draw e (-1)) * tdata else m_borem s) <= 16 * tdata.
Proof.
  intros O R K. pose proof (draw_bound _ _ R (K (-1))). unfold okrem, tdata, nsec in *. destruct (Z.eqb_spec (m_borem s) 0); cbv iota; lia.
Qed.

Lemma ok_wk s : okrem s -> wkrem s.
Proof. unfold okrem, wkrem, tdata, nsec. lia. Qed.
Lemma wdrawn s e : wkrem s -> 0 <= m_retry s <= 4 -> (forall z, 0 <= e_draw e z < 4294967088) ->
  nsec <= (if m_borem s =? 0 then mdraw (m_retry s) (e_draw e (-1)) * tdata else m_borem s).
Proof.
  intros O R K. pose proof (draw_bound _ _ R (K (-1))). unfold wkrem, tdata, nsec in *. destruct (Z.eqb_spec (m_borem s) 0); cbv iota; lia.
Qed.

Lemma aw_bo t u d e i s : Aw t u d MKBo s -> nth_error (m_timers s) i = Some (Mtimer u d MKBo) -> e_idle e = true -> (forall z, 0 <= e_draw e z < 4294967088) ->
  exists u' w, tdata <= w <= 16 * tdata /\ Aw t u' (t + w) MKGrant (fst (mstep c e s (ETimer i))) /\ snd (mstep c e s (ETimer i)) = [].
Proof.
  intros [] N E K. cbn [mstep]. rewrite N. cbn [mt_kind mfire]. set (s0 := set_timers _ s).
  destruct (filter_one soft i _ _ _ N eq_refl aw_sl0) as [_ S0]. assert (H0 : hl s0 = []) by (unfold hl, s0; ss; rewrite (filter_miss hard i _ _ N eq_refl); exact aw_hl0).
  pose proof (drawn s e aw_rem0 aw_retry0 K) as W. set (w := if m_borem s =? 0 then _ else _) in W. exists (m_uid s), w. split; [exact W|].
  unfold backoff_start. cbv zeta. change (m_borem s0) with (m_borem s). change (m_retry s0) with (m_retry s). change (m_now s0) with (m_now s).
  unfold is_state, phy_idle. change (m_state s0) with (m_state s). change (m_air s0) with (m_air s). rewrite aw_state0, aw_air0, E. cbn [negb andb orb].
  set (s2 := if m_borem s =? 0 then _ else _).
  assert (B : m_borem s2 = w) by (unfold s2, w; destruct (m_borem s =? 0); reflexivity).
  assert (L : s2 = set_borem w (set_bostart (m_now s) s0)). { unfold s2, w. destruct (m_borem s =? 0); reflexivity. }
  split; [|reflexivity]. rewrite B, L. constructor; try (fin; fail).
  - cbn [fst]. rewrite hl_sched. change (hl (set_bo _ _)) with (hl s0). rewrite H0. reflexivity.
  - cbn [fst]. rewrite sl_sched. change (sl (set_bo _ _)) with (filter soft (remove_nth i (m_timers s))). rewrite S0. cbn. rewrite aw_now0. reflexivity.
Qed.

Lemma lnav_eq d s : exists s', fst (update_lnav c d s) = s' /\ vis (snd (update_lnav c d s)) = [] /\ (s' = s \/ exists v, s' = set_lnav v s).
Proof. unfold update_lnav. destruct (round_off _ _) as [v|]; eexists; (split; [reflexivity|]); (split; [reflexivity|]); [right; exists v|left]; reflexivity. Qed.

Hypothesis RTS : mc_rts c = false.
Hypothesis UNI : mf_dst p <> bcast.

Lemma aw_grant t u d e i s : Aw t u d MKGrant s -> nth_error (m_timers s) i = Some (Mtimer u d MKGrant) ->
  As t t MTx (Some p) false (fst (mstep c e s (ETimer i))) /\ vis (snd (mstep c e s (ETimer i))) = [OSnd p].
Proof.
  intros [] N. cbn [mstep]. rewrite N. cbn [mt_kind mfire]. set (s0 := set_timers _ s).
  destruct (filter_one soft i _ _ _ N eq_refl aw_sl0) as [_ S0]. assert (H0 : hl s0 = []) by (unfold hl, s0; ss; rewrite (filter_miss hard i _ _ N eq_refl); exact aw_hl0).
  unfold granted. change (m_queue s0) with (m_queue s). rewrite aw_queue0, RTS, andb_false_r. cbv zeta.
  unfold send_data. ss. change (m_queue s0) with (m_queue s). rewrite aw_queue0. unfold send_packet, is_state. ss. change (m_air s0) with (m_air s). rewrite aw_air0. cbn [orb].
  replace (mf_dst p =? bcast) with false by (symmetry; apply Z.eqb_neq; auto).
  set (s1 := set_tx _ _). rewrite !mseq_eq. ss. fold ack_to.
  destruct (lnav_eq ack_to s1) as (s2 & E1 & E2 & E3). rewrite E1.
  assert (F : m_now s2 = t /\ m_queue s2 = [p] /\ m_rec s2 = [Mrec p 0 Tr] /\ m_state s2 = MTx /\ m_air s2 = Some p /\ m_tx s2 = Some (mf_id p) /\ m_ack s2 = [] /\
              m_timers s2 = remove_nth i (m_timers s) /\ m_retry s2 = m_retry s /\ m_borem s2 = 0).
  { destruct E3 as [->|[v ->]]; unfold s1, s0; ss; repeat split; auto. }
  destruct F as (F1 & F2 & F3 & F4 & F5 & F6 & F7 & F8 & F9 & F10).
  split.
  - constructor; try (fin; fail).
    + exists (m_uid s2). split; [fin; rewrite F7; reflexivity|]. unfold hl. ss. rewrite filter_app, F8. unfold hl, s0 in H0. revert H0. ss. intros ->. cbn. rewrite F1. reflexivity.
    + unfold sl. ss. rewrite filter_app, F8, S0. reflexivity.
  - cbn [vis filter app]. rewrite app_nil_r. fold (vis (snd (update_lnav c ack_to s1))). rewrite E2. reflexivity.
Qed.

Hypothesis DATA : mf_type p = T_DATA.

Lemma as_done t T1 e js s : As t T1 MTx (Some p) js s -> As t T1 MIdle None js (fst (mstep c e s ETxDone)) /\ snd (mstep c e s ETxDone) = [].
Proof.
  intros []. cbn [mstep]. unfold tx_done, is_state. rewrite as_air0, as_state0, as_tx0, Z.eqb_refl, DATA. cbn [andb].
  change ((T_DATA =? T_RTS) || (T_DATA =? T_CTS)) with false. change (T_DATA =? T_DATA) with true. cbv iota.
  replace (mf_dst p =? bcast) with false by (symmetry; apply Z.eqb_neq; auto).
  split; [|reflexivity]. constructor; fin.
Qed.

(** What a channel assessment leaves alone. *)
Lemma cca_soft e s : exists l, m_timers (fst (cca c e s)) = m_timers s ++ l /\ (forall x, In x l -> idle_kind (mt_kind x)) /\ filter hard l = [] /\ snd (cca c e s) = [] /\
  m_now (fst (cca c e s)) = m_now s /\ m_queue (fst (cca c e s)) = m_queue s /\ m_rec (fst (cca c e s)) = m_rec s /\ m_state (fst (cca c e s)) = m_state s /\
  m_air (fst (cca c e s)) = m_air s /\ m_tx (fst (cca c e s)) = m_tx s /\ m_ack (fst (cca c e s)) = m_ack s /\ m_retry (fst (cca c e s)) = m_retry s /\
  m_borem (fst (cca c e s)) = m_borem s /\ m_bo (fst (cca c e s)) = m_bo s /\ m_filter (fst (cca c e s)) = m_filter s.
Proof.
  destruct (cca_cases c e s) as [[-> _]|[d [k [K ->]]]].
  - exists []. rewrite app_nil_r. repeat split; auto. intros x [].
  - eexists. ss. split; [reflexivity|]. repeat split; auto.
    + intros x [<-|[]]. exact K.
    + destruct K as [-> | ->]; reflexivity.
Qed.

Lemma busy_idle e s : Ids s -> sl s = [] -> becomes_busy c e s = cca c e s.
Proof.
  intros I S. unfold becomes_busy. rewrite mseq_eq.
  assert (E : match m_bo s with Some u => mrunning (Some u) s | None => false end = false).
  { destruct (m_bo s) as [u|] eqn:B; auto. unfold mrunning. apply not_true_is_false. intros E. apply existsb_exists in E. destruct E as (t & T & U). apply Z.eqb_eq in U.
    destruct (i_bo _ I u B) as [_ K]. specialize (K t T U). assert (X : In t (sl s)) by (apply filter_In; split; auto; unfold soft; rewrite K; reflexivity). rewrite S in X. destruct X. }
  destruct (m_bo s) as [u|]; [rewrite E|]; cbn [fst snd app]; symmetry; apply surjective_pairing.
Qed.

(** A reception begins: a backoff that runs is interrupted. *)
Lemma round_wk t v : 0 <= t -> 0 < mc_slot c -> round_off c t = Some v -> v = 0 \/ nsec <= v.
Proof.
  intros T S. unfold round_off. assert (Q : 0 <= Z.quot (mc_slot c) nsec) by (apply Z.quot_pos; unfold nsec; lia). assert (R : 0 <= Z.quot t nsec) by (apply Z.quot_pos; unfold nsec; lia).
  revert Q R. generalize (Z.quot (mc_slot c) nsec) (Z.quot t nsec). intros q y Q R. destruct (Z.eqb_spec q 0) as [->|NQ]; [discriminate|]. assert (Y : 0 <= Z.quot y q) by (apply Z.quot_pos; lia).
  revert Y. generalize (Z.quot y q). intros w Y.
  assert (G : forall n, 0 <= n -> q * n * nsec = 0 \/ nsec <= q * n * nsec).
  { intros n N. destruct (Z.eq_dec n 0) as [->|]; [left; rewrite Z.mul_0_r; reflexivity|right]. assert (1 <= q * n) by (assert (0 < q * n) by (apply Z.mul_pos_pos; lia); lia). unfold nsec. lia. }
  destruct (_ <=? _); intros E; injection E as <-; apply G; lia.
Qed.
Lemma busy_soft e s : Ids s -> okrem s -> 0 < mc_slot c -> exists s1 o, becomes_busy c e s = (fst (cca c e s1), o ++ snd (cca c e s1)) /\ vis o = [] /\ hl s1 = hl s /\ (forall x, In x (sl s1) -> In x (sl s)) /\ wkrem s1 /\
  m_now s1 = m_now s /\ m_queue s1 = m_queue s /\ m_rec s1 = m_rec s /\ m_state s1 = m_state s /\ m_air s1 = m_air s /\ m_tx s1 = m_tx s /\ m_ack s1 = m_ack s /\ m_cts s1 = m_cts s /\ m_data s1 = m_data s /\ m_retry s1 = m_retry s.
Proof.
  intros I O S. unfold becomes_busy. rewrite mseq_eq.
  assert (ID : exists s1 o, (s, []) = (s1, o) /\ vis o = [] /\ hl s1 = hl s /\ (forall x, In x (sl s1) -> In x (sl s)) /\ wkrem s1 /\
     m_now s1 = m_now s /\ m_queue s1 = m_queue s /\ m_rec s1 = m_rec s /\ m_state s1 = m_state s /\ m_air s1 = m_air s /\ m_tx s1 = m_tx s /\ m_ack s1 = m_ack s /\ m_cts s1 = m_cts s /\ m_data s1 = m_data s /\ m_retry s1 = m_retry s).
  { exists s, []. pose proof (ok_wk _ O). repeat (split; [auto|]). auto. }
  set (r := match m_bo s with Some u => _ | None => _ end).
  assert (G : exists s1 o, r = (s1, o) /\ vis o = [] /\ hl s1 = hl s /\ (forall x, In x (sl s1) -> In x (sl s)) /\ wkrem s1 /\
     m_now s1 = m_now s /\ m_queue s1 = m_queue s /\ m_rec s1 = m_rec s /\ m_state s1 = m_state s /\ m_air s1 = m_air s /\ m_tx s1 = m_tx s /\ m_ack s1 = m_ack s /\ m_cts s1 = m_cts s /\ m_data s1 = m_data s /\ m_retry s1 = m_retry s).
  { unfold r. destruct (m_bo s) as [u|] eqn:B; [|exact ID]. destruct (mrunning (Some u) s); [|exact ID]. destruct (i_bo _ I u B) as [_ KD].
    assert (H1 : hl (mcancel u s) = hl s).
    { unfold hl, mcancel. ss. rewrite filter_comm. apply filter_all. intros x X. apply filter_In in X. destruct X as [X1 X2]. destruct (Z.eqb_spec (mt_id x) u) as [E|]; [|reflexivity].
      specialize (KD x X1 E). unfold hard in X2. rewrite KD in X2. discriminate X2. }
    assert (H2 : forall x, In x (sl (mcancel u s)) -> In x (sl s)). { unfold sl, mcancel. ss. intros x X. apply filter_In in X. destruct X as [X1 X2]. apply filter_In in X1. apply filter_In. tauto. }
    set (el := if m_now s >? m_bostart s then _ else _). destruct (Z.ltb_spec el (m_borem s)) as [L|L].
    - destruct (round_off c (m_borem s - el)) as [v|] eqn:RO.
      + do 2 eexists. split; [reflexivity|]. split; [reflexivity|]. split; [exact H1|]. split; [exact H2|]. split; [|unfold mcancel; ss; repeat (split; [reflexivity|]); reflexivity].
        unfold wkrem. ss. eapply round_wk; [|exact S|exact RO]. lia.
      + do 2 eexists. split; [reflexivity|]. split; [reflexivity|]. split; [exact H1|]. split; [exact H2|]. split; [apply ok_wk; exact O|unfold mcancel; ss; repeat (split; [reflexivity|]); reflexivity].
    - do 2 eexists. split; [reflexivity|]. split; [reflexivity|]. split; [exact H1|]. split; [exact H2|]. split; [apply ok_wk; exact O|unfold mcancel; ss; repeat (split; [reflexivity|]); reflexivity]. }
  destruct G as (s1 & o & E & G). exists s1, o. rewrite E. cbn [fst snd]. split; [reflexivity|exact G].
Qed.

Lemma as_start t T1 e js s : Ids s -> 0 < mc_slot c -> As t T1 MIdle None js s -> As t T1 MRx None true (fst (mstep c e s ERxStart)) /\ vis (snd (mstep c e s ERxStart)) = [].
Proof.
  intros I S []. cbn [mstep]. unfold when_silent. rewrite as_air0. unfold rx_start. rewrite mseq_eq.
  destruct (busy_soft e s I as_rem0 S) as (s0 & o & EQ & V & H1 & H2 & W & Q1 & Q2 & Q3 & Q4 & Q5 & Q6 & Q7 & _ & _ & Q8). rewrite EQ. cbn [fst snd].
  destruct (cca_soft e s0) as (l & L1 & L2 & L3 & L4 & R1 & R2 & R3 & R4 & R5 & R6 & R7 & R8 & R9 & _). rewrite L4. set (s1 := fst (cca c e s0)) in *. ss. unfold is_state. rewrite R4, Q4, as_state0.
  split; [|rewrite !app_nil_r; exact V]. constructor; try (ss; congruence).
  - destruct as_ack0 as (u & U1 & U2). exists u. split; [ss; congruence|]. unfold hl. ss. rewrite L1, filter_app, L3, app_nil_r. fold (hl s0). congruence.
  - unfold sl. ss. rewrite L1, filter_app. intros x X. apply in_app_or in X. destruct X as [X|X]; [|left; apply filter_In in X; apply L2, X].
    apply H2 in X. destruct js; [auto|]. rewrite as_sl0 in X. destruct X.
  - unfold wkrem in *. ss. rewrite R9. exact W.
Qed.

Lemma in_soft x s : In x (sl s) -> soft x = true.
Proof. intros I. apply filter_In in I. apply I. Qed.

(** A channel assessment in the meantime. *)
Lemma as_soft t T1 st ai e i x s : As t T1 st ai true s -> st <> MWaitTx -> nth_error (m_timers s) i = Some x -> soft x = true -> mt_due x = t -> t <= T1 + lim -> (st = MIdle -> T1 + lim < t + tdata) ->
  (forall z, 0 <= e_draw e z < 4294967088) -> As t T1 st ai true (fst (mstep c e s (ETimer i))) /\ snd (mstep c e s (ETimer i)) = [].
Proof.
  intros A NW N S DX TL TI K. destruct A. cbv iota in as_sl0. cbn [mstep]. rewrite N. set (s0 := set_timers _ s).
  assert (H0 : hl s0 = hl s) by (unfold hl, s0; ss; rewrite (filter_miss hard i _ _ N (soft_hard _ S)); reflexivity).
  assert (S0 : forall y, In y (sl s0) -> idle_kind (mt_kind y) \/ T1 + lim < mt_due y) by (intros y Y; apply as_sl0; eapply filter_remove_in; exact Y).
  assert (KD : idle_kind (mt_kind x) \/ T1 + lim < mt_due x) by (apply as_sl0, filter_In; split; auto; eapply nth_error_In; eauto).
  destruct KD as [[KD|KD]|KD]; [| |lia]; rewrite KD; cbn [mfire].
  - destruct (cca_soft e s0) as (l & L1 & L2 & L3 & L4 & R1 & R2 & R3 & R4 & R5 & R6 & R7 & R8 & R9 & _). rewrite L4. set (s1 := fst (cca c e s0)) in *.
    split; [|reflexivity]. constructor; try (first [rewrite R1|rewrite R2|rewrite R3|rewrite R4|rewrite R5|rewrite R6|rewrite R7|rewrite R8]; assumption).
    + destruct as_ack0 as (u & U1 & U2). exists u. split; [rewrite R7; exact U1|]. unfold hl at 1. rewrite L1, filter_app, L3, app_nil_r. fold (hl s0). congruence.
    + unfold sl. rewrite L1, filter_app. intros y Y. apply in_app_or in Y. destruct Y as [Y|Y]; [apply S0; exact Y|]. apply filter_In in Y. left. apply L2, Y.
    + unfold okrem, wkrem in *. rewrite R9. exact as_rem0.
  - unfold backoff_start. cbv zeta. unfold is_state. change (m_state s0) with (m_state s). rewrite as_state0.
    change (m_borem s0) with (m_borem s). change (m_retry s0) with (m_retry s). change (m_now s0) with (m_now s).
    set (w := if m_borem s =? 0 then mdraw (m_retry s) (e_draw e (-1)) * tdata else m_borem s).
    assert (W : match st with MRx => nsec <= w | _ => tdata <= w <= 16 * tdata end) by (destruct st; first [apply wdrawn; assumption|apply drawn; assumption]).
    set (s2 := if m_borem s =? 0 then _ else _). assert (L : s2 = set_borem w (set_bostart (m_now s) s0)) by (unfold s2, w; destruct (m_borem s =? 0); reflexivity).
    assert (W' : match st with MRx => wkrem s2 | _ => okrem s2 end) by (rewrite L; unfold wkrem, okrem; ss; destruct st; tauto).
    rewrite L in *. destruct (_ || _) eqn:BZ; (split; [|reflexivity]); constructor; try (fin; fail); try (cbn [fst]; exact W').
    + destruct as_ack0 as (u & U1 & U2). exists u. split; [fin|]. cbn [fst]. rewrite hl_sched. change (hl (set_cca _ _)) with (hl s0). rewrite H0, U2. reflexivity.
    + cbn [fst]. rewrite sl_sched. change (sl (set_cca _ _)) with (sl s0). intros y Y. apply in_app_or in Y. destruct Y as [Y|[<-|[]]]; [apply S0; exact Y|]. left. left. reflexivity.
    + destruct as_ack0 as (u & U1 & U2). exists u. split; [fin|]. cbn [fst]. rewrite hl_sched. change (hl (set_bo _ _)) with (hl s0). rewrite H0, U2. reflexivity.
    + cbn [fst]. rewrite sl_sched. change (sl (set_bo _ _)) with (sl s0). intros y Y. apply in_app_or in Y. destruct Y as [Y|[<-|[]]]; [apply S0; exact Y|]. right. cbn.
      destruct st; try discriminate BZ. specialize (TI eq_refl). lia.
Qed.

Lemma as_end t T1 e g s : As t T1 MRx None true s -> mf_type g = T_ACK -> mf_dst g = mc_addr c -> mf_seq g = mf_seq p -> t + psec <= T1 + lim ->
  Af t (t + psec) (fst (mstep c e s (ERxEnd g true))) /\ snd (mstep c e s (ERxEnd g true)) = [].
Proof.
  intros A TY DS SQ TL. destruct A. cbv iota in as_sl0. cbn [mstep]. unfold when_silent. rewrite as_air0. unfold rx_end. rewrite mseq_eq. cbn [negb mlift fst snd]. rewrite TY.
  change (T_ACK =? T_RTS) with false. change (T_ACK =? T_CTS) with false. change (T_ACK =? T_DATA) with false. change (T_ACK =? T_ACK) with true. cbv iota.
  unfold receive_ack. rewrite DS, Z.eqb_refl. destruct as_ack0 as (u & U1 & U2). change (m_ack (set_state MIdle s)) with (m_ack s). rewrite U1. cbn [find fst]. rewrite SQ, Z.eqb_refl.
  cbn [erase1 fst snd app]. rewrite Z.eqb_refl. split; [|reflexivity].
  assert (H : filter hard (filter (fun t => negb (mt_id t =? u)) (m_timers s)) = []). { rewrite filter_comm. unfold hl in U2. rewrite U2. cbn. rewrite Z.eqb_refl. reflexivity. }
  constructor; try (fin; fail).
  - exists (m_uid s). unfold hl. ss. rewrite filter_app, H, as_now0. reflexivity.
  - unfold sl. ss. rewrite filter_app. cbn [filter soft mt_kind]. intros x X. apply in_app_or in X. destruct X as [X|[]].
    assert (Y : In x (sl s)) by (apply filter_In in X; destruct X as [X1 X2]; apply filter_In in X1; apply filter_In; tauto). destruct (as_sl0 x Y); [auto|right; lia].
Qed.

(** Channel assessments before SendDataDone. *)
Lemma af_soft t d e i x s : Af t d s -> nth_error (m_timers s) i = Some x -> soft x = true -> mt_due x = t -> t <= d <= t + psec -> (forall z, 0 <= e_draw e z < 4294967088) ->
  Af t d (fst (mstep c e s (ETimer i))) /\ snd (mstep c e s (ETimer i)) = [].
Proof.
  intros A N S DX B K. destruct A. cbn [mstep]. rewrite N. set (s0 := set_timers _ s).
  assert (H0 : hl s0 = hl s) by (unfold hl, s0; ss; rewrite (filter_miss hard i _ _ N (soft_hard _ S)); reflexivity).
  assert (S0 : forall y, In y (sl s0) -> idle_kind (mt_kind y) \/ d < mt_due y) by (intros y Y; apply af_sl0; eapply filter_remove_in; exact Y).
  assert (KD : idle_kind (mt_kind x) \/ d < mt_due x) by (apply af_sl0, filter_In; split; auto; eapply nth_error_In; eauto).
  destruct KD as [[KD|KD]|KD]; [| |lia]; rewrite KD; cbn [mfire].
  - destruct (cca_soft e s0) as (l & L1 & L2 & L3 & L4 & R1 & R2 & R3 & R4 & R5 & R6 & R7 & R8 & R9 & _). rewrite L4. set (s1 := fst (cca c e s0)) in *.
    split; [|reflexivity]. constructor; try (first [rewrite R1|rewrite R2|rewrite R3|rewrite R4|rewrite R5|rewrite R6|rewrite R7|rewrite R8]; assumption).
    + destruct af_hl0 as (u & U). exists u. unfold hl at 1. rewrite L1, filter_app, L3, app_nil_r. fold (hl s0). congruence.
    + unfold sl. rewrite L1, filter_app. intros y Y. apply in_app_or in Y. destruct Y as [Y|Y]; [apply S0; exact Y|]. apply filter_In in Y. left. apply L2, Y.
    + unfold wkrem in *. rewrite R9. exact af_rem0.
  - unfold backoff_start. cbv zeta. change (m_borem s0) with (m_borem s). change (m_retry s0) with (m_retry s). change (m_now s0) with (m_now s).
    pose proof (wdrawn s e af_rem0 af_retry0 K) as W. set (w := if m_borem s =? 0 then _ else _) in W.
    set (s2 := if m_borem s =? 0 then _ else _). assert (L : s2 = set_borem w (set_bostart (m_now s) s0)) by (unfold s2, w; destruct (m_borem s =? 0); reflexivity).
    rewrite L. destruct (_ || _); (split; [|reflexivity]); constructor; try (fin; fail).
    + destruct af_hl0 as (u & U). exists u. cbn [fst]. rewrite hl_sched. change (hl (set_cca _ _)) with (hl s0). rewrite H0, U. reflexivity.
    + cbn [fst]. rewrite sl_sched. change (sl (set_cca _ _)) with (sl s0). intros y Y. apply in_app_or in Y. destruct Y as [Y|[<-|[]]]; [apply S0; exact Y|]. left. left. reflexivity.
    + destruct af_hl0 as (u & U). exists u. cbn [fst]. rewrite hl_sched. change (hl (set_bo _ _)) with (hl s0). rewrite H0, U. reflexivity.
    + cbn [fst]. rewrite sl_sched. change (sl (set_bo _ _)) with (sl s0). intros y Y. apply in_app_or in Y. destruct Y as [Y|[<-|[]]]; [apply S0; exact Y|]. right. cbn.
      unfold tdata, psec, nsec in *. rewrite af_now0. lia.
Qed.

Lemma af_done t d u e i s : Af t d s -> nth_error (m_timers s) i = Some (Mtimer u d (MKDone true (mf_seq p))) ->
  Ae (fst (mstep c e s (ETimer i))) /\ vis (snd (mstep c e s (ETimer i))) = [ORep true p].
Proof.
  intros A N. destruct A. cbn [mstep]. rewrite N. cbn [mt_kind mfire]. destruct af_hl0 as (v & V). destruct (filter_one hard i _ _ _ N eq_refl V) as [_ H0].
  unfold send_data_done. ss. rewrite af_queue0, af_rec0. cbn [done_loop mr_pkt]. rewrite Z.eqb_refl. unfold mremove. cbn [filter]. rewrite Z.eqb_refl. cbn [negb]. change (1 =? 0) with false. cbv iota.
  change (Z.to_nat 1) with 1%nat. change (Z.of_nat (length [p]) =? 0) with false. cbv iota. cbn [times]. split; [|reflexivity].
  constructor; ss; auto. unfold hl. ss. rewrite filter_app, H0. reflexivity.
Qed.

Lemma ae_soft e i x s : Ae s -> nth_error (m_timers s) i = Some x -> soft x = true -> Ae (fst (mstep c e s (ETimer i))) /\ snd (mstep c e s (ETimer i)) = [].
Proof.
  intros [] N S. cbn [mstep]. rewrite N. set (s0 := set_timers _ s).
  assert (H0 : hl s0 = []) by (unfold hl, s0; ss; rewrite (filter_miss hard i _ _ N (soft_hard _ S)); exact ae_hl0).
  assert (E0 : Ae s0) by (constructor; auto).
  destruct (soft_kind _ S) as [K|[K|K]]; rewrite K; cbn [mfire].
  - unfold cca. change (m_queue s0) with (m_queue s). rewrite ae_queue0. auto.
  - unfold backoff_start. cbv zeta. set (s2 := if m_borem s0 =? 0 then _ else _).
    assert (E2 : Ae s2) by (unfold s2; destruct (_ =? 0); constructor; auto). destruct E2.
    destruct (_ || _); (split; [|reflexivity]); cbn [fst]; constructor; auto; rewrite hl_sched.
    + change (hl (set_cca _ s2)) with (hl s2). rewrite ae_hl1. reflexivity.
    + change (hl (set_bo _ s2)) with (hl s2). rewrite ae_hl1. reflexivity.
  - unfold granted. change (m_queue s0) with (m_queue s). rewrite ae_queue0. auto.
Qed.
End Sender.

(** Enqueue at a node with nothing to do. *)
Record Ready (T0 : Z) (s : mst) : Prop := {
  rd_now : m_now s = T0; rd_queue : m_queue s = []; rd_rec : m_rec s = []; rd_state : m_state s = MIdle; rd_air : m_air s = None; rd_ack : m_ack s = [];
  rd_hl : hl s = []; rd_sl : sl s = []; rd_nav : Z.max (m_nav s) (m_lnav s) <= T0; rd_retry : 0 <= m_retry s <= 4; rd_rem : okrem s }.
Definition enq_pkt (c : mcfg) (size : Z) (dst : addr) (junk : Z) (s : mst) : mframe :=
  Mframe T_DATA (mc_addr c) dst (wrap16 (m_seq s + 1)) junk (size + 17) (m_ids s).
Lemma ready_enq c e T0 size dst junk s : Ready T0 s -> 15000 <= wrap16 size ->
  Aw (enq_pkt c size dst junk s) T0 T0 T0 (m_uid s) (T0 + psec) MKCca (fst (mstep c e s (EEnq size dst junk))) /\
  snd (mstep c e s (EEnq size dst junk)) = [OAcc (enq_pkt c size dst junk s); ORet false].
Proof.
  intros [] SZ. cbn [mstep]. unfold menqueue. replace (wrap16 size <? 15000) with false by (symmetry; apply Z.ltb_ge; auto). cbv zeta. fold (enq_pkt c size dst junk s).
  set (s1 := match m_rot s with Some u => _ | None => _ end).
  assert (F : m_now s1 = T0 /\ m_uid s1 = m_uid s /\ m_queue s1 = [enq_pkt c size dst junk s] /\ m_state s1 = MIdle /\ m_air s1 = None /\ m_ack s1 = [] /\ hl s1 = [] /\ sl s1 = [] /\
              m_nav s1 = m_nav s /\ m_lnav s1 = m_lnav s /\ m_retry s1 = m_retry s /\ m_borem s1 = m_borem s).
  { unfold s1. destruct (m_rot s) as [u|]; unfold hl, sl; ss; rewrite ?rd_queue0; repeat split; auto; apply filter_sub; auto. }
  destruct F as (F1 & F2 & F3 & F4 & F5 & F6 & F7 & F8 & F9 & F10 & F11 & F12). clearbody s1. split; [|reflexivity].
  cbn [fst]. constructor; try (unfold hl, sl, okrem in *; ss; rewrite ?rd_rec0, ?rd_now0; auto; congruence).
  - rewrite hl_sched. change (hl (MacModel.set_data _ _)) with (hl s1). rewrite F7. reflexivity.
  - rewrite sl_sched. change (sl (MacModel.set_data _ _)) with (sl s1). rewrite F8. ss. rewrite F1, F2. reflexivity.
Qed.

(** Events that do not matter. *)
Record like (s s' : mst) : Prop := {
  lk_now : m_now s' = m_now s; lk_queue : m_queue s' = m_queue s; lk_rec : m_rec s' = m_rec s; lk_state : m_state s' = m_state s; lk_nav : m_nav s' = m_nav s;
  lk_lnav : m_lnav s' = m_lnav s; lk_rem : m_borem s' = m_borem s; lk_retry : m_retry s' = m_retry s; lk_ack : m_ack s' = m_ack s; lk_filter : m_filter s' = m_filter s;
  lk_tx : m_tx s' = m_tx s; lk_air : m_air s' = m_air s; lk_hl : hl s' = hl s; lk_sl : sl s' = sl s }.
Lemma noise c e i x s : nth_error (m_timers s) i = Some x -> hard x = false -> soft x = false ->
  like s (fst (mstep c e s (ETimer i))) /\ vis (snd (mstep c e s (ETimer i))) = [].
Proof.
  intros N H S. cbn [mstep]. rewrite N. set (s0 := set_timers _ s).
  assert (H0 : hl s0 = hl s) by (unfold hl, s0; ss; apply (filter_miss hard i _ _ N H)).
  assert (S0 : sl s0 = sl s) by (unfold sl, s0; ss; apply (filter_miss soft i _ _ N S)).
  unfold hard, soft in H, S. destruct (mt_kind x); try discriminate H; try discriminate S; cbn [mfire].
  - split; [|unfold results; destruct (m_res s0); reflexivity]. constructor; auto.
  - split; [|reflexivity]. unfold rotate. constructor; auto.
    + cbn [fst]. rewrite hl_sched. change (hl (set_rot _ _)) with (hl s0). rewrite H0, app_nil_r. reflexivity.
    + cbn [fst]. rewrite sl_sched. change (sl (set_rot _ _)) with (sl s0). rewrite S0, app_nil_r. reflexivity.
Qed.
Lemma like_aw p T0 Tr t u d k s s' : like s s' -> Aw p T0 Tr t u d k s -> Aw p T0 Tr t u d k s'.
Proof. intros [] []. constructor; unfold okrem in *; try congruence; rewrite ?lk_nav0, ?lk_lnav0, ?lk_retry0, ?lk_rem0; auto. Qed.
Lemma like_as c p Tr lim t T1 st ai js s s' : like s s' -> As c p Tr lim t T1 st ai js s -> As c p Tr lim t T1 st ai js s'.
Proof. intros [] []. constructor; unfold okrem, wkrem in *; try congruence; rewrite ?lk_ack0, ?lk_hl0, ?lk_sl0, ?lk_retry0, ?lk_rem0; auto. Qed.
Lemma like_af p Tr t d s s' : like s s' -> Af p Tr t d s -> Af p Tr t d s'.
Proof. intros [] []. constructor; unfold wkrem in *; try congruence; rewrite ?lk_hl0, ?lk_sl0, ?lk_retry0, ?lk_rem0; auto. Qed.
Lemma like_ae s s' : like s s' -> Ae s -> Ae s'.
Proof. intros [] []. constructor; congruence. Qed.

(** The clock. *)
Lemma aw_tick p T0 Tr t t' u d k s : Aw p T0 Tr t u d k s -> Aw p T0 Tr t' u d k (set_now t' s).
Proof. intros []. constructor; auto. Qed.
Lemma as_tick c p Tr lim t t' T1 st ai js s : As c p Tr lim t T1 st ai js s -> As c p Tr lim t' T1 st ai js (set_now t' s).
Proof. intros []. constructor; auto. Qed.
Lemma af_tick p Tr t t' d s : Af p Tr t d s -> Af p Tr t' d (set_now t' s).
Proof. intros []. constructor; auto. Qed.
Lemma ae_tick t' s : Ae s -> Ae (set_now t' s).
Proof. intros []. constructor; auto. Qed.

(** ** A node without packets *)
Record Bq (air : option mframe) (F : seqlist) (s : mst) : Prop := {
  bq_queue : m_queue s = []; bq_hl : hl s = []; bq_sl : sl s = []; bq_air : m_air s = air; bq_filter : m_filter s = F }.
Lemma like_bq ai F s s' : like s s' -> Bq ai F s -> Bq ai F s'.
Proof. intros [] []. constructor; congruence. Qed.
Lemma bq_tick ai F t s : Bq ai F s -> Bq ai F (set_now t s).
Proof. intros []. constructor; auto. Qed.
Lemma bq_timer ai F c e i s : Bq ai F s -> Bq ai F (fst (mstep c e s (ETimer i))) /\ vis (snd (mstep c e s (ETimer i))) = [] /\ m_now (fst (mstep c e s (ETimer i))) = m_now s.
Proof.
  intros B. destruct (nth_error (m_timers s) i) as [x|] eqn:N; [|cbn [mstep]; rewrite N; auto].
  destruct (noise c e i x s N) as [L V]; [eapply filter_nil; [exact N|]; apply B|eapply filter_nil; [exact N|]; apply B|].
  split; [eapply like_bq; eauto|]. split; auto. apply L.
Qed.
Lemma bq_cca ai F c e s : Bq ai F s -> cca c e s = (s, []).
Proof. intros []. unfold cca. rewrite bq_queue0. reflexivity. Qed.
Lemma bq_start F c e s : Ids s -> Bq None F s -> Bq None F (fst (mstep c e s ERxStart)) /\ snd (mstep c e s ERxStart) = [] /\ m_now (fst (mstep c e s ERxStart)) = m_now s.
Proof.
  intros I B. cbn [mstep]. unfold when_silent. rewrite (bq_air _ _ _ B). unfold rx_start. rewrite mseq_eq, busy_idle, (bq_cca _ _ _ _ _ B) by (auto; apply B). cbn [mlift fst snd app].
  split; [|split; [reflexivity|destruct (is_state _ _); reflexivity]]. destruct B. destruct (is_state _ _); constructor; auto.
Qed.
Lemma bq_done g F c e s : Bq (Some g) F s -> mf_type g <> T_DATA -> Bq None F (fst (mstep c e s ETxDone)) /\ snd (mstep c e s ETxDone) = [] /\ m_now (fst (mstep c e s ETxDone)) = m_now s.
Proof.
  intros [] TY. cbn [mstep]. unfold tx_done. rewrite bq_air0. destruct (_ && _); [|split; [constructor; auto|auto]]. destruct (_ || _); [split; [constructor; auto|auto]|].
  replace (mf_type g =? T_DATA) with false by (symmetry; apply Z.eqb_neq; auto). unfold cca. ss. rewrite bq_queue0. split; [constructor; auto|auto].
Qed.
Lemma nav_bq ai F c d s : Bq ai F s -> Bq ai F (fst (update_nav c d s)) /\ vis (snd (update_nav c d s)) = [] /\ m_now (fst (update_nav c d s)) = m_now s.
Proof.
  intros []. unfold update_nav. destruct (round_off _ _) as [v|]; [destruct (v >? m_nav s)|]; (split; [constructor; auto|auto]).
Qed.
Lemma state_bq ai F st s : Bq ai F s -> Bq ai F (set_state st s).
Proof. intros []. constructor; auto. Qed.
(** A frame for somebody else, or one received with an error. *)
Lemma bq_other F c e g ok s : Bq None F s -> ok = false \/ mf_dst g <> mc_addr c /\ mf_dst g <> bcast ->
  Bq None F (fst (mstep c e s (ERxEnd g ok))) /\ vis (snd (mstep c e s (ERxEnd g ok))) = [] /\ m_now (fst (mstep c e s (ERxEnd g ok))) = m_now s.
Proof.
  intros B D. cbn [mstep]. unfold when_silent. rewrite (bq_air _ _ _ B). unfold rx_end. rewrite mseq_eq. cbn [mlift fst snd app]. pose proof (state_bq _ _ MIdle _ B) as B1.
  set (s1 := set_state MIdle s) in *. assert (N1 : m_now s1 = m_now s) by reflexivity. clearbody s1. destruct ok; [|cbn; auto]. destruct D as [D|[D1 D2]]; [discriminate D|]. cbn [negb].
  assert (G : forall d, let r := (update_nav c d ;; mlift (set_state MIdle) ;; cca c e) s1 in Bq None F (fst r) /\ vis (snd r) = [] /\ m_now (fst r) = m_now s).
  { intros d r. unfold r. rewrite !mseq_eq. cbn [mlift fst snd]. destruct (nav_bq _ _ c d s1 B1) as (X1 & X2 & X3). pose proof (state_bq _ _ MIdle _ X1) as Y. rewrite (bq_cca _ _ c e _ Y).
    cbn [fst snd]. split; auto. split; [rewrite vis_app, X2; reflexivity|]. ss. congruence. }
  apply Z.eqb_neq in D1. apply Z.eqb_neq in D2.
  destruct (mf_type g =? T_RTS). { unfold receive_rts. rewrite D1. cbn [negb]. apply G. }
  destruct (mf_type g =? T_CTS). { unfold receive_cts. rewrite D1. cbn [negb]. apply G. }
  destruct (mf_type g =? T_DATA). { unfold receive_data. rewrite D1, D2. cbn [negb]. apply G. }
  destruct (mf_type g =? T_ACK).
  - unfold receive_ack. rewrite D1. rewrite (bq_cca _ _ c e _ (state_bq _ _ MIdle _ B1)). cbn. split; [apply state_bq; auto|auto].
  - rewrite (bq_cca _ _ c e _ B1). auto.
Qed.

(** ** The destination *)
Section Dest.
Variables (c : mcfg) (g : mframe).
Hypothesis DATA : mf_type g = T_DATA.
Hypothesis MINE : mf_dst g = mc_addr c.
Hypothesis UNI : mf_dst g <> bcast.
(** The acknowledgement is due at [d]. *)
Record Bk (d : Z) (s : mst) : Prop := {
  bk_queue : m_queue s = []; bk_state : m_state s = MWaitTx; bk_air : m_air s = None; bk_sl : sl s = [];
  bk_hl : exists u, hl s = [Mtimer u d (MKSendAck (mf_src g) (mf_seq g))] }.
Lemma like_bk d s s' : like s s' -> Bk d s -> Bk d s'.
Proof. intros [] []. constructor; try congruence. rewrite lk_hl0. auto. Qed.
Lemma bk_tick d t s : Bk d s -> Bk d (set_now t s).
Proof. intros []. constructor; auto. Qed.
(** The acknowledgement. *)
Definition ack_of (s : mst) : mframe := mctrl c T_ACK (mf_src g) (mf_seq g) 0 s.

Lemma bq_data F e s : Bq None F s -> fst (is_new F (mf_src g) (mf_seq g)) = true ->
  Bk (m_now s + mc_sifs c) (fst (mstep c e s (ERxEnd g true))) /\ vis (snd (mstep c e s (ERxEnd g true))) = [OUp g] /\ m_now (fst (mstep c e s (ERxEnd g true))) = m_now s.
Proof.
  intros [] NEW. cbn [mstep]. unfold when_silent. rewrite bq_air0. unfold rx_end. rewrite mseq_eq. cbn [mlift fst snd app negb]. rewrite DATA.
  change (T_DATA =? T_RTS) with false. change (T_DATA =? T_CTS) with false. change (T_DATA =? T_DATA) with true. cbv iota. unfold receive_data.
  replace (mf_dst g =? bcast) with false by (symmetry; apply Z.eqb_neq; auto). rewrite MINE, Z.eqb_refl. cbn [negb]. rewrite !mseq_eq. cbn [mlift fst snd].
  destruct (lnav_eq c (mf_dur g * nsec) (set_state MIdle s)) as (s1 & E1 & E2 & E3). rewrite E1.
  assert (F1 : m_now s1 = m_now s /\ m_queue s1 = [] /\ m_air s1 = None /\ hl s1 = [] /\ sl s1 = [] /\ m_filter s1 = F).
  { destruct E3 as [->|[v ->]]; repeat split; auto. }
  destruct F1 as (F1 & F2 & F3 & F4 & F5 & F6). clear E1 E3. unfold forward_new. ss. rewrite F6. destruct (is_new F _ _) as [bb l]. cbn [fst] in NEW. subst bb. ss.
  split; [|split; [|exact F1]].
  - constructor; unfold sl, hl in *; ss; auto.
    + rewrite filter_app, F5. reflexivity.
    + exists (m_uid s1). rewrite filter_app, F4, F1. reflexivity.
  - rewrite vis_app, E2. reflexivity.
Qed.

Lemma bk_ack d u e i s : Bk d s -> nth_error (m_timers s) i = Some (Mtimer u d (MKSendAck (mf_src g) (mf_seq g))) ->
  exists F, Bq (Some (ack_of s)) F (fst (mstep c e s (ETimer i))) /\ vis (snd (mstep c e s (ETimer i))) = [OSnd (ack_of s)] /\ m_now (fst (mstep c e s (ETimer i))) = m_now s.
Proof.
  intros [] N. cbn [mstep]. rewrite N. cbn [mt_kind mfire]. destruct bk_hl0 as (v & V). destruct (filter_one hard i _ _ _ N eq_refl V) as [_ H0].
  unfold send_ack. fold (ack_of s). change (mctrl c T_ACK (mf_src g) (mf_seq g) 0 (set_timers (remove_nth i (m_timers s)) s)) with (ack_of s).
  rewrite mseq_eq. destruct (lnav_eq c (mc_ctrl c T_ACK + prop + mc_slot c) (set_ids (m_ids (set_timers (remove_nth i (m_timers s)) s) + 1) (set_timers (remove_nth i (m_timers s)) s))) as (s1 & E1 & E2 & E3).
  rewrite E1.
  assert (F1 : m_now s1 = m_now s /\ m_queue s1 = [] /\ m_state s1 = MWaitTx /\ m_air s1 = None /\ hl s1 = [] /\ sl s1 = []).
  { assert (S0 : filter soft (remove_nth i (m_timers s)) = []) by (rewrite (filter_miss soft i _ _ N eq_refl); exact bk_sl0).
    destruct E3 as [->|[w ->]]; unfold hl, sl; ss; repeat split; auto. }
  destruct F1 as (F1 & F2 & F3 & F4 & F5 & F6). clear E1 E3. unfold send_packet, is_state. rewrite F3, F4. cbn [orb]. rewrite mseq_eq. unfold mskip. cbn [fst snd app].
  exists (m_filter s1). split; [|split; [|exact F1]].
  - constructor; auto.
  - rewrite vis_app, E2. reflexivity.
Qed.
End Dest.
