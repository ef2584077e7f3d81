(** Property C130: one packet in an otherwise idle network of THzMacMacro nodes with PHYs and channel, without RTS. *)
From Coq Require Import ZArith List Lia Bool.
From Verif Require Import Base HeaderModel SeqModel EnergyModel MacModel MacSpec MacProofs MacAcct MacSteps MacLive MacNet MacProps MacExch
  MacroPhyModel ChannelModel MStackModel MStackProofs MStackMac MStackProps MStackProps2 MStackLive.
Import ListNotations.
Open Scope Z_scope.

(** Nothing to send, no event pending but those of antenna and results file. *)
Definition at_rest (s : mst) : Prop := m_queue s = [] /\ forall t, In t (m_timers s) -> mt_kind t = MKRot \/ mt_kind t = MKResult.
(** The PHY is idle, and all signals it has seen are over. *)
Definition phy_rest (T0 : Z) (q : kphy) : Prop := k_now q = T0 /\ is_idle q = true /\ k_end q <= T0 /\ forall g, In g (k_list q) -> g_start g + g_dur g <= T0.
(** The sender may start at once: no NAV, at most 4 failures in a row, no or a complete rest of a backoff. *)
Definition may_send (T0 : Z) (s : mst) : Prop :=
  m_state s = MIdle /\ m_rec s = [] /\ m_ack s = [] /\ m_nav s <= T0 /\ m_lnav s <= T0 /\ 0 <= m_retry s <= 4 /\ (m_borem s = 0 \/ 810 * nsec <= m_borem s <= 12960 * nsec).

(** The settings: both nodes have the same SIFS, and the durations the MAC computes are those of the PHY. *)
Definition settings (cfg : addr -> mcfg) (dur : mframe -> Z) (a b : addr) (p : mframe) : Prop :=
  mc_rts (cfg a) = false /\ 0 < mc_slot (cfg a) /\ 0 <= mc_difs (cfg a) /\ 0 <= mc_sifs (cfg a) /\ mc_sifs (cfg b) = mc_sifs (cfg a) /\
  0 < dur p /\ mc_data (cfg a) (mf_size p) = dur p /\ 0 < mc_ctrl (cfg a) T_ACK /\ forall f, mf_type f = T_ACK -> dur f = mc_ctrl (cfg a) T_ACK.
(** What may happen: pending events of MACs and channel, and the passing of time; no further packet from an application. Signals
    take at most [reach]; one at the two nodes is sensed and, if alone, decoded. *)
Definition undisturbed (reach : Z) (sense : addr -> Z -> bool) (good : addr -> Z -> Z -> bool) (nodes : list addr) (a b : addr) (e : qev (X := yev) (O := yenv)) : Prop :=
  match e with
  | QOwn x o dl y => In x nodes /\ (exists i, y = YTimer i) /\ (forall j, 0 < dl j <= reach) /\ (forall z, 0 <= ye_draw o z < 4294967088)
  | QChan _ _ _ pw => sense a pw = true /\ good a pw 0 = true /\ sense b pw = true /\ good b pw 0 = true
  | QTick _ => True
  end.

Lemma rest_lists s : at_rest s -> hl s = [] /\ sl s = [].
Proof.
  intros [_ H]. unfold hl, sl. induction (m_timers s) as [|t l IH]; [auto|]. destruct IH as [I1 I2]; [intros; apply H; right; auto|].
  cbn [filter]. unfold hard at 1, soft at 1. destruct (H t (or_introl eq_refl)) as [-> | ->]; auto.
Qed.

Section Ex.
Variables (cfg : addr -> mcfg) (q0 : addr -> Z) (dur : mframe -> Z) (sense : addr -> Z -> bool) (good : addr -> Z -> Z -> bool) (nodes : list addr) (o0 : yenv).
Let K := mac_conf cfg dur sense good nodes.
Variables (l0 : list (qev (X := yev) (O := yenv))) (a b : addr) (size junk : Z) (e1 : yenv) (dl1 : nat -> Z).
Let s := qrun K o0 (qinit K (macs0 q0)) l0.
Let T0 := c_now (q_chan s).
Let A (z : mstack (addr -> mnode) mframe) := n_st (q_net z a).
Let B (z : mstack (addr -> mnode) mframe) := n_st (q_net z b).
Let p := Mframe T_DATA a b (wrap16 (m_seq (A s) + 1)) junk (size + 17) (m_ids (A s)).
Let s1 := qstep K o0 s (QOwn a e1 dl1 (YEnqueue size b junk)).
Hypothesis ND : NoDup nodes.
Hypothesis Ia : In a nodes.
Hypothesis Ib : In b nodes.
Hypothesis AB : a <> b.
Hypothesis ADDR : forall x, In x nodes -> mc_addr (cfg x) = x.
Hypothesis NBC : a <> bcast /\ b <> bcast.
Hypothesis SET : settings cfg dur a b p.
Hypothesis PEND : c_pend (q_chan s) = [].
Hypothesis REST : forall x, In x nodes -> at_rest (n_st (q_net s x)).
Hypothesis PHY : phy_rest T0 (q_phy s a) /\ phy_rest T0 (q_phy s b).
Hypothesis NOW : m_now (A s) = T0 /\ m_now (B s) = T0.
Hypothesis MAY : may_send T0 (A s).
Hypothesis NEW : fst (is_new (m_filter (B s)) a (mf_seq p)) = true.
Variable reach : Z.
Hypothesis REACH0 : 0 <= reach.
Hypothesis REACH : 2 * reach < 2 * 33356000 + mc_slot (cfg a).
Hypothesis SIZE : 15000 <= wrap16 size.

Let OA := Ot s a ++ [OAcc p; ORet false].
Let OB := Ot s b.
Let com := Com cfg q0 dur sense good nodes o0 a b.
Let Tmax := T0 + psec + mc_difs (cfg a) + 16 * tdata.
Let ph := PhS cfg dur good nodes a b p T0 T0 Tmax (m_filter (B s)) OA OB reach.

Lemma ex_start : com s1 /\ ph s1.
Proof.
  assert (R : reached cfg q0 dur sense good nodes o0 s) by (exists l0; reflexivity). destruct (reached_inv _ _ _ _ _ _ _ _ R) as [V AG].
  assert (PI : forall x, phy_rest T0 (q_phy s x) -> Pi T0 T0 KIdle (q_phy s x)).
  { intros x (H1 & H2 & H3 & H4). unfold is_idle in H2. constructor; auto.
    - destruct (k_state (q_phy s x)); auto; discriminate H2.
    - destruct (k_state (q_phy s x)), (k_busy (q_phy s x)); auto; discriminate H2.
    - destruct (k_rxs (q_phy s x)) as [|g r] eqn:E; auto. pose proof (i_rx _ _ _ _ V x (g_id g)) as X. rewrite E in X. unfold s, K in PEND. unfold s, K in X. rewrite PEND in X. cbn in X. rewrite Z.eqb_refl in X. discriminate X. }
  destruct PHY as [PA PB]. apply PI in PA. apply PI in PB.
  assert (AIR : forall x, In x nodes -> m_air (n_st (q_net s x)) = None).
  { intros x I. destruct (m_air (n_st (q_net s x))) as [f|] eqn:E; auto. exfalso. assert (X : macs_air (q_net s) x = true) by (unfold macs_air, on_air; rewrite E; reflexivity). apply AG in X.
    pose proof (i_tx _ _ _ _ V x) as L. pose proof (i_phy _ _ _ _ V x) as Y. unfold s, K in PEND, X, L, Y. rewrite PEND in L. cbn in L. destruct Y as [[_ Y]|[Y _]]; [rewrite Y in L; discriminate L|contradiction]. }
  assert (BQ : forall x, In x nodes -> Bq None (m_filter (n_st (q_net s x))) (n_st (q_net s x))).
  { intros x I. destruct (rest_lists _ (REST x I)) as [H1 H2]. constructor; auto. apply (REST x I). }
  assert (RD : Ready T0 (A s)).
  { destruct MAY as (M1 & M2 & M3 & M4 & M5 & M6 & M7). destruct (rest_lists _ (REST a Ia)) as [H1 H2]. constructor; auto; try (apply NOW); try (apply (REST a Ia)); try (apply (AIR a Ia)); try lia.
  }
  assert (EP : enq_pkt (cfg a) size b junk (A s) = p) by (unfold enq_pkt; rewrite ADDR by auto; reflexivity).
  destruct (ready_enq (cfg a) (Menv (is_idle (q_phy s a)) (ye_draw e1)) T0 size b junk (A s) RD SIZE) as [X1 X2]. rewrite EP in X1, X2.
  set (r := after_ev cfg s a e1 (is_idle (q_phy s a)) (NOwn (YEnqueue size b junk))). change (mstep (cfg a) _ (A s) _) with r in X1, X2.
  assert (E1 : s1 = set_net (mput (q_net s) a (node_of s a (EEnq size b junk) r)) s).
  { unfold s1. cbn [qstep]. cbn [K mac_conf q_nodes]. rewrite (in_node nodes a Ia). fold K. apply (mac_mute cfg dur sense good nodes). right. fold r. rewrite X2. reflexivity. }
  assert (R1 : reached cfg q0 dur sense good nodes o0 s1) by (apply (reached_step cfg q0 dur sense good nodes o0); exact R).
  destruct (st_same s s1 a (EEnq size b junk) r) as [S1 S2]; [rewrite E1; reflexivity|]. rewrite X2 in S2.
  assert (OT : forall x, x <> a -> St s1 x = St s x /\ Ot s1 x = Ot s x) by (intros x NE; apply (st_other s s1 a (EEnq size b junk) r); [rewrite E1; reflexivity|exact NE]).
  assert (CH : q_chan s1 = q_chan s /\ q_phy s1 = q_phy s) by (rewrite E1; auto). destruct CH as [CH PH]. destruct (OT b (not_eq_sym AB)) as [B1 B2]. clearbody s1.
  split.
  - constructor; auto.
    + intros x I XA XB. exists (m_filter (n_st (q_net s x))). rewrite (proj1 (OT x XA)). apply BQ. exact I.
    + rewrite CH, PEND. intros e [].
    + unfold now. rewrite CH, S1. apply (aw_now _ _ _ _ _ _ _ _ X1).
    + unfold now. rewrite CH, B1. apply NOW.
  - unfold ph, PhS, now, pD, pR. rewrite CH, PH, S1, S2, B1, B2, PEND. cbn [filter vis]. fold T0.
    eapply P1; [split; [apply SET|unfold Tmax; lia]|exact X1|unfold psec; lia|exact PA|reflexivity|reflexivity|reflexivity|exact PB|exact (BQ b Ib)|apply NOW|reflexivity|reflexivity].
Qed.

Lemma ex_run l : Forall (undisturbed reach sense good nodes a b) l -> qtimely_run K (macs_due nodes) macs_own o0 s1 l = true -> com (qrun K o0 s1 l) /\ ph (qrun K o0 s1 l).
Proof.
  intros F T. destruct ex_start as [C P]. destruct SET as (H1 & H2 & H3 & H4 & H5 & H6 & H7 & H8 & H9).
  apply (all_steps cfg q0 dur sense good nodes o0 a b p T0 T0 Tmax (m_filter (B s)) OA OB) with (reach := reach); auto. intros X. rewrite H1 in X. discriminate X.
Qed.
End Ex.

(** A packet for another node, given to a node of an idle network of any size, is sent once, handed up at its destination, acknowledged and
    reported as sent; all is over 12960 ns (the longest backoff), DIFS, SIFS, the two durations and twice the largest delay
    after it came, plus 2 ps. Nothing else is sent, handed up or reported by the two nodes. *)
Definition C130_at (near : mcfg -> Z -> Prop) : Prop := forall cfg q0 dur sense good nodes o0 l0 a b size junk e1 dl1 l reach,
  let K := mac_conf cfg dur sense good nodes in let s := qrun K o0 (qinit K (macs0 q0)) l0 in
  let T0 := c_now (q_chan s) in let sa := n_st (q_net s a) in let sb := n_st (q_net s b) in
  let p := Mframe T_DATA a b (wrap16 (m_seq sa + 1)) junk (size + 17) (m_ids sa) in
  let s1 := qstep K o0 s (QOwn a e1 dl1 (YEnqueue size b junk)) in let s2 := qrun K o0 s1 l in
  NoDup nodes -> In a nodes -> In b nodes -> a <> b -> (forall x, In x nodes -> mc_addr (cfg x) = x) -> a <> bcast /\ b <> bcast -> settings cfg dur a b p ->
  c_pend (q_chan s) = [] -> (forall x, In x nodes -> at_rest (n_st (q_net s x))) -> phy_rest T0 (q_phy s a) /\ phy_rest T0 (q_phy s b) ->
  m_now sa = T0 /\ m_now sb = T0 -> may_send T0 sa -> fst (is_new (m_filter sb) a (mf_seq p)) = true -> 0 <= reach -> near (cfg a) reach -> 15000 <= wrap16 size ->
  Forall (undisturbed reach sense good nodes a b) l -> qtimely_run K (macs_due nodes) macs_own o0 s1 l = true ->
  let reported := [OAcc p; ORet false; OSnd p; ORep true p] in
  (exists r, vis (n_out (q_net s2 a)) ++ r = vis (n_out (q_net s a)) ++ reported) /\
  (exists g r, vis (n_out (q_net s2 b)) ++ r = vis (n_out (q_net s b)) ++ [OUp p; OSnd g]) /\ q_bad s2 = false /\
  (T0 + mc_difs (cfg a) + 12960 * nsec + dur p + mc_sifs (cfg a) + mc_ctrl (cfg a) T_ACK + 2 * reach + 2000 < c_now (q_chan s2) ->
   vis (n_out (q_net s2 a)) = vis (n_out (q_net s a)) ++ reported /\
   exists g, vis (n_out (q_net s2 b)) = vis (n_out (q_net s b)) ++ [OUp p; OSnd g] /\ mf_type g = T_ACK /\ mf_src g = b /\ mf_dst g = a /\ mf_seq g = mf_seq p).

(** It holds while twice the delay is below 66712 ps and a slot (10.7 m with the default slot of 5 ns): the timeout of the acknowledgement does not
    depend on the distance. *)
Theorem C130_exchange_partial : C130_at (fun c reach => 2 * reach < 66712000 + mc_slot c).
Proof.
  intros cfg q0 dur sense good nodes o0 l0 a b size junk e1 dl1 l reach K s T0 sa sb p s1 s2 ND Ia Ib AB ADDR NBC SET PEND REST PHY NOW MAY NEW REACH0 REACH SIZE F T reported.
  destruct (ex_run cfg q0 dur sense good nodes o0 l0 a b size junk e1 dl1 ND Ia Ib AB ADDR NBC SET PEND REST PHY NOW MAY NEW reach REACH0 REACH SIZE l F T) as [C P]. fold K s s1 s2 T0 sa sb p in C, P.
  destruct (reached_inv _ _ _ _ _ _ _ _ (cm_r _ _ _ _ _ _ _ _ _ _ C)) as [V _]. unfold PhS, Ot in P. fold (vis (n_out (q_net s a))) in P.
  assert (BAD : q_bad s2 = false) by apply (i_bad _ _ _ _ V).
  assert (EQ : vis (n_out (q_net s a)) ++ reported = (vis (n_out (q_net s a)) ++ [OAcc p; ORet false]) ++ [OSnd p; ORep true p]) by (rewrite <- app_assoc; reflexivity).
  rewrite EQ. split; [|split; [|split; [exact BAD|]]].
  - destruct P; match goal with H : vis (n_out (q_net s2 a)) = _ |- _ => rewrite H end; try (exists [OSnd p; ORep true p]; reflexivity); try (exists [ORep true p]; rewrite <- !app_assoc; reflexivity).
    exists []. apply app_nil_r.
  - destruct P; match goal with H : vis (n_out (q_net s2 b)) = _ |- _ => rewrite H end; try (exists p, [OUp p; OSnd p]; reflexivity); try (exists p, [OSnd p]; rewrite <- !app_assoc; reflexivity); exists g, []; apply app_nil_r.
  - intros L. destruct SET as (H1 & H2 & H3 & H4 & H5 & H6 & H7 & H8 & H9).
    destruct (at_end cfg dur good a b p T0 T0 (T0 + psec + mc_difs (cfg a) + 16 * tdata) (m_filter sb) (vis (n_out (q_net s a)) ++ [OAcc p; ORet false]) (vis (n_out (q_net s b))) AB NBC H3 (conj H4 H5) (conj H6 H7) (conj H8 H9) reach REACH0 _ _ _ _ _ _ _ _ _ _ _ P) as (_ & g & (G1 & G2 & G3 & G4) & E1 & E2).
    + unfold deadline, tdata, psec, prop, nsec in *. unfold now. unfold psec. lia.
    + split; [exact E1|]. exists g. auto.
Qed.
Print Assumptions C130_exchange_partial.

Lemma qfirst_in {X Y} (g : X -> option Y) y : forall l, qfirst g l = Some y -> exists x, g x = Some y.
Proof. induction l as [|x l IH]; cbn; intros E; [discriminate E|]. destruct (g x) eqn:G; [injection E as ->; eauto|auto]. Qed.
Lemma qnext_own {Net X F O : Type} (c : mconf Net X F O) due timer (o : O) d s (e : qev (X := X) (O := O)) : qnext c due timer o d s = Some e ->
  match e with QOwn _ o' dl _ => o' = o /\ dl = (fun _ => d) | _ => True end.
Proof.
  unfold qnext. cbv zeta. destruct (qindex _ _); [intros E; injection E as <-; exact I|]. destruct (qfirst _ _) as [e'|] eqn:Q.
  - intros E. injection E as <-. apply qfirst_in in Q. destruct Q as [x Q]. unfold option_map in Q. destruct (timer _ _ x); [injection Q as <-; auto|discriminate Q].
  - destruct (_ ++ _); intros E; [discriminate E|injection E as <-; exact I].
Qed.

(** A network of three nodes; node 1 has a packet for node 2. *)
Definition ex3 : mconf (addr -> mnode) yev mframe yenv := mac_conf (mex false) mdur (fun _ _ => true) (fun _ _ _ => true) [1; 2; 3].
Definition ex3_s1 := qstep ex3 me (qinit ex3 (macs0 (fun _ => 0))) (QOwn 1 me (fun _ => mhop) (YEnqueue 15000 2 0)).
Definition ex3_script (hop : Z) (n : nat) := qscript ex3 (macs_due [1; 2; 3]) macs_timer me hop n ex3_s1.
Lemma ex3_settings : settings (mex false) mdur 1 2 (Mframe T_DATA 1 2 1 0 15017 0).
Proof. unfold settings. repeat split; try (vm_compute; discriminate). intros f E. unfold mdur. rewrite E. reflexivity. Qed.
Lemma ex3_rest x : at_rest (n_st (q_net (qinit ex3 (macs0 (fun _ => 0))) x)).
Proof. split; [reflexivity|]. cbn. intros t [<-|[]]. left. reflexivity. Qed.
Lemma ex3_phy x : phy_rest 0 (q_phy (qinit ex3 (macs0 (fun _ => 0))) x).
Proof. repeat split; cbn; try lia. Qed.
Lemma ex3_may : may_send 0 (n_st (q_net (qinit ex3 (macs0 (fun _ => 0))) 1)).
Proof. repeat split; cbn; try lia. Qed.
Lemma ex3_und hop n t reach : 0 < hop <= reach ->
  forallb (fun e => match e with QOwn x _ _ (YTimer _) => (x =? 1) || (x =? 2) || (x =? 3) | QOwn _ _ _ _ => false | _ => true end) (ex3_script hop n) = true ->
  Forall (undisturbed reach (fun _ _ => true) (fun _ _ _ => true) [1; 2; 3] 1 2) (ex3_script hop n ++ [QTick t]).
Proof.
  intros H E. apply Forall_forall. intros e I. apply in_app_or in I. destruct I as [I|[<-|[]]]; [|exact Logic.I]. rewrite forallb_forall in E. specialize (E e I).
  assert (Q : match e with QOwn _ o dl _ => o = me /\ dl = (fun _ => hop) | _ => True end).
  { clear E. unfold ex3_script in I. revert I. generalize ex3_s1. induction n as [|n IH]; intros s I; [destruct I|]. cbn [qscript] in I.
    destruct (qnext _ _ _ _ _ s) as [e'|] eqn:N; [|destruct I]. destruct I as [<-|I]; [|eapply IH; exact I]. clear IH. apply qnext_own in N. exact N. }
  destruct e as [x o dl y|i o dl pw|u]; cbn [undisturbed]; auto. destruct Q as [-> ->]. destruct y as [i|]; [|discriminate E].
  split; [|split; [eauto|split; [intros _; exact H|cbn; intros _; lia]]].
  cbn. apply orb_true_iff in E. destruct E as [E|E]; [apply orb_true_iff in E; destruct E as [E|E]|]; apply Z.eqb_eq in E; auto.
Qed.

(** The hypotheses hold of a fresh network with delays of 33 ns, and the run goes past the deadline. *)
Definition ex3_run := ex3_script mhop 34 ++ [QTick (20000 * nsec)].
Example C130_example : let s := qinit ex3 (macs0 (fun _ => 0)) in
  settings (mex false) mdur 1 2 (Mframe T_DATA 1 2 1 0 15017 0) /\ (forall x, In x [1; 2; 3] -> at_rest (n_st (q_net s x))) /\ phy_rest 0 (q_phy s 1) /\ phy_rest 0 (q_phy s 2) /\ may_send 0 (n_st (q_net s 1)) /\
  Forall (undisturbed 33356000 (fun _ _ => true) (fun _ _ _ => true) [1; 2; 3] 1 2) ex3_run /\ qtimely_run ex3 (macs_due [1; 2; 3]) macs_own me ex3_s1 ex3_run = true /\
  c_now (q_chan (qrun ex3 me ex3_s1 ex3_run)) = 20000 * nsec /\ map mf_type (q_frames (qrun ex3 me ex3_s1 ex3_run)) = [T_DATA; T_ACK].
Proof.
  cbv zeta. split; [exact ex3_settings|]. split; [intros x _; apply ex3_rest|]. split; [apply ex3_phy|]. split; [apply ex3_phy|]. split; [apply ex3_may|].
  split; [apply ex3_und; [unfold mhop, nsec; lia|vm_compute; reflexivity]|]. split; [vm_compute; reflexivity|]. split; vm_compute; reflexivity.
Qed.
(** What the two nodes of the example have put out, in agreement with the theorem. ([vis] leaves out undefined behaviour; here
    it is that of the results file, C127.) *)
Example C130_example_out : let s := qrun ex3 me ex3_s1 ex3_run in
  vis (n_out (q_net s 1)) = [OAcc (Mframe T_DATA 1 2 1 0 15017 0); ORet false; OSnd (Mframe T_DATA 1 2 1 0 15017 0); ORep true (Mframe T_DATA 1 2 1 0 15017 0)] /\
  up_of (n_out (q_net s 2)) = [Mframe T_DATA 1 2 1 0 15017 0] /\ n_out (q_net s 3) = [].
Proof. vm_compute. auto. Qed.

(** Without that bound on the distance it is false: at 12 m (40 ns) each acknowledgement comes 8288 ps after the timeout; the
    packet is handed up at its destination, sent five times and reported as discarded. *)
Definition C130_full : Prop := C130_at (fun _ _ => True).
Lemma ex3_far : C130_full -> forall l reach, 0 <= reach -> Forall (undisturbed reach (fun _ _ => true) (fun _ _ _ => true) [1; 2; 3] 1 2) l ->
  qtimely_run ex3 (macs_due [1; 2; 3]) macs_own me ex3_s1 l = true -> 13774 * nsec + 2 * reach + 2000 < c_now (q_chan (qrun ex3 me ex3_s1 l)) ->
  rep_of false (n_out (q_net (qrun ex3 me ex3_s1 l) 1)) = [].
Proof.
  intros H l reach R F T L.
  destruct (H (mex false) (fun _ => 0) mdur (fun _ _ => true) (fun _ _ _ => true) [1; 2; 3] me [] 1 2 15000 0 me (fun _ => mhop) l reach) as (_ & _ & _ & E); auto.
  - repeat constructor; cbn; intros X; repeat (destruct X as [X|X]; [discriminate X|]); destruct X.
  - cbn. auto.
  - cbn. auto.
  - discriminate.
  - split; discriminate.
  - exact ex3_settings.
  - intros x _. apply ex3_rest.
  - split; apply ex3_phy.
  - exact ex3_may.
  - vm_compute. discriminate.
  - destruct E as [E _]; [change (0 + mc_difs (mex false 1) + 12960 * nsec + 812 * nsec + mc_sifs (mex false 1) + 2 * nsec + 2 * reach + 2000 < c_now (q_chan (qrun ex3 me ex3_s1 l))); cbn [mex mc_difs mc_sifs]; unfold nsec in *; lia|].
    change (mac_conf (mex false) mdur (fun _ _ => true) (fun _ _ _ => true) [1; 2; 3]) with ex3 in E. change (qstep ex3 me _ _) with ex3_s1 in E. set (o := n_out _) in E |- *.
    assert (V : rep_of false o = rep_of false (vis o)). { unfold rep_of, vis. clearbody o. clear E. induction o as [|y o IH]; [reflexivity|]. cbn [flat_map filter]. rewrite IH. destruct y; reflexivity. }
    rewrite V, E. reflexivity.
Qed.
Definition far_run := ex3_script (40 * nsec) 158 ++ [QTick (20000 * nsec)].
Theorem C130_exchange_refuted : ~ C130_full.
Proof.
  intros H. pose proof (ex3_far H far_run (40 * nsec)) as X.
  assert (L : length (rep_of false (n_out (q_net (qrun ex3 me ex3_s1 far_run) 1))) = 1%nat) by (vm_compute; reflexivity). rewrite X in L; [discriminate L|discriminate| | |].
  - apply ex3_und; [unfold nsec; lia|vm_compute; reflexivity].
  - vm_compute. reflexivity.
  - vm_compute. reflexivity.
Qed.
Print Assumptions C130_exchange_refuted.
(** The witness: the packet arrived. *)
Example C130_far : let s := qrun ex3 me ex3_s1 far_run in
  up_of (n_out (q_net s 2)) = [Mframe T_DATA 1 2 1 0 15017 0] /\ map mf_type (q_frames s) = [4; 3; 4; 3; 4; 3; 4; 3; 4; 3] /\ rep_of true (n_out (q_net s 1)) = [].
Proof. vm_compute. auto. Qed.
