(** Property C131: one packet in an otherwise idle network of THzMacMacro nodes with PHYs and channel, in RTS mode. *)
From Coq Require Import ZArith List Lia Bool.
From Verif Require Import Base HeaderModel SeqModel EnergyModel MacModel MacSpec MacProofs MacAcct MacSteps MacLive MacNet MacProps MacExch MacRts
  MacroPhyModel ChannelModel MStackModel MStackProofs MStackMac MStackProps MStackProps2 MStackLive MStackProps3 MStackRts.
Import ListNotations.
Open Scope Z_scope.

(** The settings: both nodes have the same SIFS, and the durations the MAC computes are those of the PHY. *)
Definition rts_settings (cfg : addr -> mcfg) (dur : mframe -> Z) (a b : addr) (p : mframe) : Prop :=
  mc_rts (cfg a) = true /\ 0 < mc_slot (cfg a) /\ 0 <= mc_difs (cfg a) /\ 0 <= mc_sifs (cfg a) /\ mc_sifs (cfg b) = mc_sifs (cfg a) /\
  0 < dur p /\ mc_data (cfg a) (mf_size p) = dur p /\
  forall ty, ty = T_RTS \/ ty = T_CTS \/ ty = T_ACK -> 0 < mc_ctrl (cfg a) ty /\ forall f, mf_type f = ty -> dur f = mc_ctrl (cfg a) ty.
(** CTS and acknowledgement come back before their timeouts, the latter within a backoff slot of 810 ns. *)
Definition close (c : mcfg) (reach : Z) : Prop :=
  2 * reach < 66712000 + mc_slot c /\ 2 * reach + 1000 < 66712000 + mc_sifs c + mc_slot c /\ mc_sifs c + mc_ctrl c T_ACK + 2 * reach + 1000 < 810 * nsec.
(** The destination may answer. *)
Definition may_answer (T0 : Z) (s : mst) : Prop := m_nav s <= T0 /\ m_lnav s <= T0.

Lemma enq_cts c e size dst junk s : m_cts (fst (mstep c e s (EEnq size dst junk))) = m_cts s.
Proof. cbn [mstep]. unfold menqueue. destruct (_ <? _); [reflexivity|]. destruct (m_rot s); reflexivity. Qed.

Section Ex.
Variables (cfg : addr -> mcfg) (q0 : addr -> Z) (dur : mframe -> Z) (sense : addr -> Z -> bool) (good : addr -> Z -> Z -> bool) (nodes : list addr) (o0 : yenv).
Let K := mac_conf cfg dur sense good nodes.
Variables (l0 : list (qev (X := yev) (O := yenv))) (a b : addr) (size junk : Z) (e1 : yenv) (dl1 : nat -> Z).
Let s := qrun K o0 (qinit K (macs0 q0)) l0.
Let T0 := c_now (q_chan s).
Let A (z : mstack (addr -> mnode) mframe) := n_st (q_net z a).
Let B (z : mstack (addr -> mnode) mframe) := n_st (q_net z b).
Let p := Mframe T_DATA a b (wrap16 (m_seq (A s) + 1)) junk (size + 17) (m_ids (A s)).
Let s1 := qstep K o0 s (QOwn a e1 dl1 (YEnqueue size b junk)).
Hypothesis ND : NoDup nodes.
Hypothesis Ia : In a nodes.
Hypothesis Ib : In b nodes.
Hypothesis AB : a <> b.
Hypothesis ADDR : forall x, In x nodes -> mc_addr (cfg x) = x.
Hypothesis NBC : a <> bcast /\ b <> bcast.
Hypothesis SET : rts_settings cfg dur a b p.
Hypothesis PEND : c_pend (q_chan s) = [].
Hypothesis REST : forall x, In x nodes -> at_rest (n_st (q_net s x)).
Hypothesis PHY : phy_rest T0 (q_phy s a) /\ phy_rest T0 (q_phy s b).
Hypothesis NOW : m_now (A s) = T0 /\ m_now (B s) = T0.
Hypothesis MAY : may_send T0 (A s) /\ m_cts (A s) = [].
Hypothesis ANS : may_answer T0 (B s).
Hypothesis NEW : fst (is_new (m_filter (B s)) a (mf_seq p)) = true.
Variable reach : Z.
Hypothesis REACH0 : 0 <= reach.
Hypothesis REACH : close (cfg a) reach.
Hypothesis SIZE : 15000 <= wrap16 size.

Let OA := Ot s a ++ [OAcc p; ORet false].
Let OB := Ot s b.
Let com := Com cfg q0 dur sense good nodes o0 a b.
Let ph z := RhS cfg good nodes a b p T0 (m_filter (B s)) OA OB reach z \/ Next cfg dur good nodes a b p T0 (m_filter (B s)) OA OB reach z.

Lemma rx_start_ok : com s1 /\ ph s1.
Proof.
  assert (R : reached cfg q0 dur sense good nodes o0 s) by (exists l0; reflexivity). destruct (reached_inv _ _ _ _ _ _ _ _ R) as [V AG].
  assert (PI : forall x, phy_rest T0 (q_phy s x) -> Pi T0 T0 KIdle (q_phy s x)).
  { intros x (H1 & H2 & H3 & H4). unfold is_idle in H2. constructor; auto.
    - destruct (k_state (q_phy s x)); auto; discriminate H2.
    - destruct (k_state (q_phy s x)), (k_busy (q_phy s x)); auto; discriminate H2.
    - destruct (k_rxs (q_phy s x)) as [|g r] eqn:E; auto. pose proof (i_rx _ _ _ _ V x (g_id g)) as X. rewrite E in X. unfold s, K in PEND. unfold s, K in X. rewrite PEND in X. cbn in X. rewrite Z.eqb_refl in X. discriminate X. }
  destruct PHY as [PA PB]. apply PI in PA. apply PI in PB.
  assert (AIR : forall x, In x nodes -> m_air (n_st (q_net s x)) = None).
  { intros x I. destruct (m_air (n_st (q_net s x))) as [f|] eqn:E; auto. exfalso. assert (X : macs_air (q_net s) x = true) by (unfold macs_air, on_air; rewrite E; reflexivity). apply AG in X.
    pose proof (i_tx _ _ _ _ V x) as L. pose proof (i_phy _ _ _ _ V x) as Y. unfold s, K in PEND, X, L, Y. rewrite PEND in L. cbn in L. destruct Y as [[_ Y]|[Y _]]; [rewrite Y in L; discriminate L|contradiction]. }
  assert (BQ : forall x, In x nodes -> Bq None (m_filter (n_st (q_net s x))) (n_st (q_net s x))).
  { intros x I. destruct (rest_lists _ (REST x I)) as [H1 H2]. constructor; auto. apply (REST x I). }
  assert (RD : Ready T0 (A s)).
  { destruct MAY as ((M1 & M2 & M3 & M4 & M5 & M6 & M7) & _). destruct (rest_lists _ (REST a Ia)) as [H1 H2]. constructor; auto; try (apply NOW); try (apply (REST a Ia)); try (apply (AIR a Ia)); try lia.
  }
  assert (EP : enq_pkt (cfg a) size b junk (A s) = p) by (unfold enq_pkt; rewrite ADDR by auto; reflexivity).
  destruct (ready_enq (cfg a) (Menv (is_idle (q_phy s a)) (ye_draw e1)) T0 size b junk (A s) RD SIZE) as [X1 X2]. rewrite EP in X1, X2.
  pose proof (enq_cts (cfg a) (Menv (is_idle (q_phy s a)) (ye_draw e1)) size b junk (A s)) as X3.
  set (r := after_ev cfg s a e1 (is_idle (q_phy s a)) (NOwn (YEnqueue size b junk))). change (mstep (cfg a) _ (A s) _) with r in X1, X2, X3.
  assert (E1 : s1 = set_net (mput (q_net s) a (node_of s a (EEnq size b junk) r)) s).
  { unfold s1. cbn [qstep]. cbn [K mac_conf q_nodes]. rewrite (in_node nodes a Ia). fold K. apply (mac_mute cfg dur sense good nodes). right. fold r. rewrite X2. reflexivity. }
  assert (RS1 : reached cfg q0 dur sense good nodes o0 s1) by (apply (reached_step cfg q0 dur sense good nodes o0); exact R).
  destruct (st_same s s1 a (EEnq size b junk) r) as [S1 S2]; [rewrite E1; reflexivity|]. rewrite X2 in S2.
  assert (OT : forall x, x <> a -> St s1 x = St s x /\ Ot s1 x = Ot s x) by (intros x NE; apply (st_other s s1 a (EEnq size b junk) r); [rewrite E1; reflexivity|exact NE]).
  assert (CH : q_chan s1 = q_chan s /\ q_phy s1 = q_phy s) by (rewrite E1; auto). destruct CH as [CH PH]. destruct (OT b (not_eq_sym AB)) as [B1 B2]. clearbody s1.
  split.
  - constructor; auto.
    + intros x I XA XB. exists (m_filter (n_st (q_net s x))). rewrite (proj1 (OT x XA)). apply BQ. exact I.
    + rewrite CH, PEND. intros e [].
    + unfold now. rewrite CH, S1. apply (aw_now _ _ _ _ _ _ _ _ X1).
    + unfold now. rewrite CH, B1. apply NOW.
  - left. unfold RhS, now, pD, pR. rewrite CH, PH, S1, S2, B1, B2, PEND. cbn [filter vis]. fold T0.
    eapply R1; [exact X1|rewrite X3; apply MAY|unfold psec; lia|]. constructor; auto. split; [exact (BQ b Ib)|]. split; [|apply NOW]. unfold navs. destruct ANS. apply Z.max_lub; auto.
Qed.

Lemma rx_run l : Forall (undisturbed reach sense good nodes a b) l -> qtimely_run K (macs_due nodes) macs_own o0 s1 l = true -> com (qrun K o0 s1 l) /\ ph (qrun K o0 s1 l).
Proof.
  intros F T. destruct rx_start_ok as [C P]. destruct SET as (H1 & H2 & H3 & H4 & H5 & H6 & H7 & H8). destruct REACH as (G1 & G2 & G3).
  apply (MStackRts.all_steps cfg q0 dur sense good nodes o0 a b p T0 (m_filter (B s)) OA OB) with (reach := reach); auto.
Qed.
End Ex.

Lemma rh_out cfg good a b p T0 FB OA OB reach t sa sb oa ob pa pb d ra rb fr : Rh cfg good a b p T0 FB OA OB reach t sa sb oa ob pa pb d ra rb fr ->
  (exists f r, oa ++ r = OA ++ [OSnd f; OSnd p; ORep true p]) /\ (exists c g r, ob ++ r = OB ++ [OSnd c; OUp p; OSnd g]).
Proof.
  assert (X : (exists f r, OA ++ r = OA ++ [OSnd f; OSnd p; ORep true p])) by (exists p; eexists; reflexivity).
  assert (Y : (exists c g r, OB ++ r = OB ++ [OSnd c; OUp p; OSnd g])) by (exists p, p; eexists; reflexivity).
  assert (X1 : forall f, exists f' r, (OA ++ [OSnd f]) ++ r = OA ++ [OSnd f'; OSnd p; ORep true p]) by (intros f; exists f; eexists; rewrite <- app_assoc; reflexivity).
  assert (Y1 : forall c, exists c' g r, (OB ++ [OSnd c]) ++ r = OB ++ [OSnd c'; OUp p; OSnd g]) by (intros c; exists c, p; eexists; rewrite <- app_assoc; reflexivity).
  intros P. destruct P as [u _ _ _ Q|u _ _ _ Q|u T1 _ _ _ _ Q| | | | | |]; try (destruct Q as [_ _ _ _ _ _ -> ->]); try subst oa; try subst ob; auto.
Qed.

(** A packet for another node, given to a node of an idle network of any size in RTS mode: one RTS, one CTS, the packet and one
    acknowledgement are sent by the two nodes, whatever uninitialised durations are read; the packet is handed up at its destination and reported as sent;
    all is over 12960 ns (the longest backoff), DIFS, SIFS, the four durations and four times the largest delay
    after it came, plus 4 ps. Nothing else is sent, handed up or reported by the two nodes. *)
Definition C131_at (dest : Z -> mst -> Prop) : Prop := forall cfg q0 dur sense good nodes o0 l0 a b size junk e1 dl1 l reach,
  let K := mac_conf cfg dur sense good nodes in let s := qrun K o0 (qinit K (macs0 q0)) l0 in
  let T0 := c_now (q_chan s) in let sa := n_st (q_net s a) in let sb := n_st (q_net s b) in
  let p := Mframe T_DATA a b (wrap16 (m_seq sa + 1)) junk (size + 17) (m_ids sa) in
  let s1 := qstep K o0 s (QOwn a e1 dl1 (YEnqueue size b junk)) in let s2 := qrun K o0 s1 l in
  NoDup nodes -> In a nodes -> In b nodes -> a <> b -> (forall x, In x nodes -> mc_addr (cfg x) = x) -> a <> bcast /\ b <> bcast -> rts_settings cfg dur a b p ->
  c_pend (q_chan s) = [] -> (forall x, In x nodes -> at_rest (n_st (q_net s x))) -> phy_rest T0 (q_phy s a) /\ phy_rest T0 (q_phy s b) ->
  m_now sa = T0 /\ m_now sb = T0 -> may_send T0 sa -> m_cts sa = [] -> dest T0 sb -> fst (is_new (m_filter sb) a (mf_seq p)) = true -> 0 <= reach -> close (cfg a) reach -> 15000 <= wrap16 size ->
  Forall (undisturbed reach sense good nodes a b) l -> qtimely_run K (macs_due nodes) macs_own o0 s1 l = true ->
  let sent f := [OAcc p; ORet false; OSnd f; OSnd p; ORep true p] in let got c g := [OSnd c; OUp p; OSnd g] in
  (exists f r, vis (n_out (q_net s2 a)) ++ r = vis (n_out (q_net s a)) ++ sent f) /\
  (exists c g r, vis (n_out (q_net s2 b)) ++ r = vis (n_out (q_net s b)) ++ got c g) /\ q_bad s2 = false /\
  (T0 + mc_difs (cfg a) + 12960 * nsec + dur p + mc_ctrl (cfg a) T_RTS + mc_ctrl (cfg a) T_CTS + mc_ctrl (cfg a) T_ACK + mc_sifs (cfg a) + 4 * reach + 4000 < c_now (q_chan s2) ->
   exists f c g, vis (n_out (q_net s2 a)) = vis (n_out (q_net s a)) ++ sent f /\ vis (n_out (q_net s2 b)) = vis (n_out (q_net s b)) ++ got c g /\
     (mf_type f = T_RTS /\ mf_src f = a /\ mf_dst f = b) /\ (mf_type c = T_CTS /\ mf_src c = b /\ mf_dst c = a) /\ (mf_type g = T_ACK /\ mf_src g = b /\ mf_dst g = a) /\
     mf_seq f = mf_seq p /\ mf_seq c = mf_seq p /\ mf_seq g = mf_seq p).

(** It holds if no NAV is set at the destination when the packet comes. *)
Theorem C131_rts_partial : C131_at may_answer.
Proof.
  intros cfg q0 dur sense good nodes o0 l0 a b size junk e1 dl1 l reach K s T0 sa sb p s1 s2 ND Ia Ib AB ADDR NBC SET PEND REST PHY NOW MAY CTS ANS NEW REACH0 REACH SIZE F T sent got.
  destruct (rx_run cfg q0 dur sense good nodes o0 l0 a b size junk e1 dl1 ND Ia Ib AB ADDR NBC SET PEND REST PHY NOW (conj MAY CTS) ANS NEW reach REACH0 REACH SIZE l F T) as [C P]. fold K s s1 s2 T0 sa sb p in C, P.
  destruct (reached_inv _ _ _ _ _ _ _ _ (cm_r _ _ _ _ _ _ _ _ _ _ C)) as [V _].
  assert (BAD : q_bad s2 = false) by apply (i_bad _ _ _ _ V).
  assert (EQ : forall f, vis (n_out (q_net s a)) ++ sent f = (vis (n_out (q_net s a)) ++ [OAcc p; ORet false]) ++ [OSnd f; OSnd p; ORep true p]) by (intros f; rewrite <- app_assoc; reflexivity).
  split; [|split; [|split; [exact BAD|]]].
  - destruct P as [P|(T3 & f & c & _ & _ & _ & P)]; unfold RhS, PhS, Ot in P.
    + apply rh_out in P. destruct P as [(f & r & E) _]. exists f, r. rewrite EQ. exact E.
    + exists f. rewrite EQ. destruct P; match goal with H : vis (n_out (q_net s2 a)) = _ |- _ => rewrite H end; try (eexists; rewrite <- !app_assoc; reflexivity); exists []; rewrite app_nil_r, <- ?app_assoc; reflexivity.
  - destruct P as [P|(T3 & f & c & _ & _ & _ & P)]; unfold RhS, PhS, Ot in P.
    + apply rh_out in P. exact (proj2 P).
    + exists c. destruct P; match goal with H : vis (n_out (q_net s2 b)) = _ |- _ => rewrite H end; first [exists g, []; rewrite app_nil_r, <- ?app_assoc; reflexivity|exists g; eexists; rewrite <- ?app_assoc; reflexivity|exists p; eexists; rewrite <- ?app_assoc; reflexivity].
  - intros L. destruct SET as (H1 & H2 & H3 & H4 & H5 & H6 & H7 & H8).
    destruct (rts_end cfg dur good nodes a b p T0 (m_filter sb) (vis (n_out (q_net s a)) ++ [OAcc p; ORet false]) (vis (n_out (q_net s b)))) with (reach := reach) (s := s2) as (_ & f & c & g & (F1 & F2 & F3 & F4) & (C1 & C2 & C3 & C4) & (G1 & G2 & G3 & G4) & E1 & E2); auto.
    + apply REACH.
    + unfold rdeadline, tdata, psec, prop, nsec in *. unfold now. lia.
    + exists f, c, g. split; [rewrite EQ; exact E1|]. split; [exact E2|]. tauto.
Qed.
Print Assumptions C131_rts_partial.

(** A network of three nodes. Node 1 cannot decode what comes at power 1. *)
Definition lossy (x pw i : Z) : bool := (pw =? 0) || (x =? 2).
Definition rx3 : mconf (addr -> mnode) yev mframe yenv := mac_conf (mex true) mdur (fun _ _ => true) lossy [1; 2; 3].
Definition rx3_s0 := qinit rx3 (macs0 (fun _ => 0)).
Definition rx3_enq : qev (X := yev) (O := yenv) := QOwn 1 me (fun _ => mhop) (YEnqueue 15000 2 0).
Definition rx3_s1 := qstep rx3 me rx3_s0 rx3_enq.
Definition rx3_script (n : nat) s := qscript rx3 (macs_due [1; 2; 3]) macs_timer me mhop n s.
Lemma rx3_settings i j : rts_settings (mex true) mdur 1 2 (Mframe T_DATA 1 2 i 0 15017 j).
Proof. unfold rts_settings. repeat split; try (vm_compute; reflexivity); try (vm_compute; discriminate). intros f E. unfold mdur. rewrite E. destruct H as [-> | [-> | ->]]; reflexivity. Qed.
Lemma rx3_close : close (mex true 1) (33 * nsec).
Proof. repeat split. Qed.
Lemma rx3_und n t s :
  forallb (fun e => match e with QOwn x _ _ (YTimer _) => (x =? 1) || (x =? 2) || (x =? 3) | QOwn _ _ _ _ => false | QChan _ _ _ pw => pw =? 0 | _ => true end) (rx3_script n s) = true ->
  Forall (undisturbed (33 * nsec) (fun _ _ => true) lossy [1; 2; 3] 1 2) (rx3_script n s ++ [QTick t]).
Proof.
  intros E. apply Forall_forall. intros e I. apply in_app_or in I. destruct I as [I|[<-|[]]]; [|exact Logic.I]. rewrite forallb_forall in E. specialize (E e I).
  assert (Q : match e with QOwn _ o dl _ => o = me /\ dl = (fun _ => mhop) | _ => True end).
  { clear E. unfold rx3_script in I. revert s I. induction n as [|n IH]; intros s I; [destruct I|]. cbn [qscript] in I.
    destruct (qnext _ _ _ _ _ s) as [e'|] eqn:N; [|destruct I]. destruct I as [<-|I]; [|eapply IH; exact I]. clear IH. apply qnext_own in N. exact N. }
  destruct e as [x o dl y|i o dl pw|u]; cbn [undisturbed]; auto.
  - destruct Q as [-> ->]. destruct y as [i|]; [|discriminate E].
    split; [|split; [eauto|split; [intros _; unfold mhop, nsec; lia|cbn; intros _; lia]]].
    cbn. apply orb_true_iff in E. destruct E as [E|E]; [apply orb_true_iff in E; destruct E as [E|E]|]; apply Z.eqb_eq in E; auto.
  - apply Z.eqb_eq in E. subst pw. unfold lossy. cbn. auto.
Qed.

(** The hypotheses hold of a fresh network with delays of 33 ns, and the run goes past the deadline. *)
Definition rx3_run := rx3_script 60 rx3_s1 ++ [QTick (20000 * nsec)].
Example C131_example : let s := rx3_s0 in
  rts_settings (mex true) mdur 1 2 (Mframe T_DATA 1 2 1 0 15017 0) /\ (forall x, In x [1; 2; 3] -> at_rest (n_st (q_net s x))) /\ phy_rest 0 (q_phy s 1) /\ phy_rest 0 (q_phy s 2) /\
  may_send 0 (n_st (q_net s 1)) /\ m_cts (n_st (q_net s 1)) = [] /\ may_answer 0 (n_st (q_net s 2)) /\ close (mex true 1) (33 * nsec) /\
  Forall (undisturbed (33 * nsec) (fun _ _ => true) lossy [1; 2; 3] 1 2) rx3_run /\ qtimely_run rx3 (macs_due [1; 2; 3]) macs_own me rx3_s1 rx3_run = true /\
  c_now (q_chan (qrun rx3 me rx3_s1 rx3_run)) = 20000 * nsec /\ map mf_type (q_frames (qrun rx3 me rx3_s1 rx3_run)) = [T_RTS; T_CTS; T_DATA; T_ACK].
Proof.
  cbv zeta. split; [apply rx3_settings|]. split; [intros x _; apply ex3_rest|]. split; [apply ex3_phy|]. split; [apply ex3_phy|]. split; [apply ex3_may|]. split; [reflexivity|].
  split; [split; cbn; lia|]. split; [exact rx3_close|]. split; [apply rx3_und; vm_compute; reflexivity|]. split; [vm_compute; reflexivity|]. split; vm_compute; reflexivity.
Qed.
(** What the two nodes of the example have put out, in agreement with the theorem. *)
Example C131_example_out : let s := qrun rx3 me rx3_s1 rx3_run in let p := Mframe T_DATA 1 2 1 0 15017 0 in
  map mf_type (snd_of (n_out (q_net s 1))) = [T_RTS; T_DATA] /\ rep_of true (n_out (q_net s 1)) = [p] /\ up_of (n_out (q_net s 2)) = [p] /\ map mf_type (snd_of (n_out (q_net s 2))) = [T_CTS; T_ACK] /\ n_out (q_net s 3) = [].
Proof. vm_compute. auto 6. Qed.

(** Without the condition on the destination's NAV it is false. Node 1 does not decode the answer to its first RTS, from which
    node 2 has read an uninitialised duration (60 microseconds here): it answers none of the next four, and the packet is
    reported as discarded. When the second packet comes the network is at rest, but node 2 answers no RTS for 55 more
    microseconds: all five get no CTS on the idle channel, and that packet is reported as discarded too. *)
Definition weak (e : qev (X := yev) (O := yenv)) := match e with QChan i o dl _ => QChan i o dl 1 | _ => e end.
Fixpoint weak_script (n : nat) s := match n with
  | 0%nat => []
  | S n => match qnext rx3 (macs_due [1; 2; 3]) macs_timer me mhop s with Some e => weak e :: weak_script n (qstep rx3 me s (weak e)) | None => [] end
  end.
Definition nav_hist := rx3_enq :: weak_script 116 rx3_s1 ++ [QTick (6000 * nsec)].
Definition nav_s := qrun rx3 me rx3_s0 nav_hist.
Definition nav_s1 := qstep rx3 me nav_s rx3_enq.
Definition nav_run := rx3_script 88 nav_s1 ++ [QTick (25000 * nsec)].

Definition C131_full : Prop := C131_at (fun _ _ => True).
Definition kinds_rest (s : mst) : bool := match m_queue s with [] => forallb (fun t => match mt_kind t with MKRot | MKResult => true | _ => false end) (m_timers s) | _ => false end.
Lemma kinds_rest_ok s : kinds_rest s = true -> at_rest s.
Proof.
  unfold kinds_rest, at_rest. destruct (m_queue s); [|discriminate]. intros E. split; [reflexivity|]. intros t I. rewrite forallb_forall in E. specialize (E t I). destruct (mt_kind t); try discriminate E; auto.
Qed.
Lemma over_ok T0 (l : list sig) : forallb (fun g => g_start g + g_dur g <=? T0) l = true -> forall g, In g l -> g_start g + g_dur g <= T0.
Proof. intros E g I. rewrite forallb_forall in E. apply Z.leb_le. exact (E g I). Qed.
Lemma rep_false : forall l o p f, vis l = o ++ [OAcc p; ORet false; OSnd f; OSnd p; ORep true p] -> rep_of false l = rep_of false o.
Proof.
  intros l o p f E. assert (V : rep_of false l = rep_of false (vis l)). { unfold rep_of, vis. clear. induction l as [|y l IH]; [reflexivity|]. cbn [flat_map filter]. rewrite IH. destruct y; reflexivity. }
  rewrite V, E. unfold rep_of. rewrite flat_map_app. apply app_nil_r.
Qed.
Lemma nav_at : C131_full -> forall l0 l, let s := qrun rx3 me rx3_s0 l0 in let s2 := qrun rx3 me (qstep rx3 me s rx3_enq) l in
  c_pend (q_chan s) = [] -> c_now (q_chan s) = 6000 * nsec -> (forall x, In x [1; 2; 3] -> at_rest (n_st (q_net s x))) ->
  phy_rest (6000 * nsec) (q_phy s 1) /\ phy_rest (6000 * nsec) (q_phy s 2) -> m_now (n_st (q_net s 1)) = 6000 * nsec /\ m_now (n_st (q_net s 2)) = 6000 * nsec ->
  may_send (6000 * nsec) (n_st (q_net s 1)) -> m_cts (n_st (q_net s 1)) = [] -> m_seq (n_st (q_net s 1)) = 1 -> m_filter (n_st (q_net s 2)) = [] ->
  Forall (undisturbed (33 * nsec) (fun _ _ => true) lossy [1; 2; 3] 1 2) l -> qtimely_run rx3 (macs_due [1; 2; 3]) macs_own me (qstep rx3 me s rx3_enq) l = true -> 20500 * nsec < c_now (q_chan s2) ->
  exists p f, vis (n_out (q_net s2 1)) = vis (n_out (q_net s 1)) ++ [OAcc p; ORet false; OSnd f; OSnd p; ORep true p].
Proof.
  intros H l0 l s s2 PE NW RE PH MN MS MC SQ FI F T L.
  assert (IN : forall x, In x [1; 2; 3] -> mc_addr (mex true x) = x) by (intros x _; reflexivity).
  assert (NDX : NoDup [1; 2; 3]) by (repeat constructor; cbn; intros X; repeat (destruct X as [X|X]; [discriminate X|]); destruct X).
  pose proof (H (mex true) (fun _ => 0) mdur (fun _ _ => true) lossy [1; 2; 3] me l0 1 2 15000 0 me (fun _ => mhop) l (33 * nsec) NDX (or_introl eq_refl) (or_intror (or_introl eq_refl))) as X.
  cbv zeta in X. fold rx3 in X. fold rx3_s0 in X. fold s in X. fold rx3_enq in X. fold s2 in X. rewrite NW, SQ, FI in X.
  destruct X as (_ & _ & _ & X); auto; try discriminate.
  - split; discriminate.
  - apply rx3_settings.
  - exact rx3_close.
  - destruct X as (f & c & g & E & _); [|eauto].
    clear - L. cbn [mex mc_difs mc_ctrl mc_sifs]. change (mdur _) with (812 * nsec). unfold nsec in *. lia.
Qed.
Lemma nav_s_facts : c_pend (q_chan nav_s) = [] /\ c_now (q_chan nav_s) = 6000 * nsec /\ (forall x, In x [1; 2; 3] -> kinds_rest (n_st (q_net nav_s x)) = true) /\
  (forall x, In x [1; 2] -> (k_now (q_phy nav_s x), is_idle (q_phy nav_s x), k_end (q_phy nav_s x) <=? 6000 * nsec, forallb (fun g => g_start g + g_dur g <=? 6000 * nsec) (k_list (q_phy nav_s x)), m_now (n_st (q_net nav_s x))) = (6000 * nsec, true, true, true, 6000 * nsec)) /\
  (let m := n_st (q_net nav_s 1) in (m_state m, m_rec m, m_ack m, m_cts m, (m_nav m, m_lnav m, m_retry m, m_borem m, m_seq m)) = (MIdle, [], [], [], (0, 4425 * nsec, 4, 0, 1))) /\ m_filter (n_st (q_net nav_s 2)) = [].
Proof.
  split; [vm_compute; reflexivity|]. split; [vm_compute; reflexivity|]. split; [intros x [<-|[<-|[<-|[]]]]; vm_compute; reflexivity|].
  split; [intros x [<-|[<-|[]]]; vm_compute; reflexivity|]. split; vm_compute; reflexivity.
Qed.
Lemma nav_run_facts : Forall (undisturbed (33 * nsec) (fun _ _ => true) lossy [1; 2; 3] 1 2) nav_run /\ qtimely_run rx3 (macs_due [1; 2; 3]) macs_own me nav_s1 nav_run = true /\
  (20500 * nsec <? c_now (q_chan (qrun rx3 me nav_s1 nav_run))) = true.
Proof. split; [apply rx3_und; vm_compute; reflexivity|]. split; vm_compute; reflexivity. Qed.
Lemma nav_rep : length (rep_of false (n_out (q_net (qrun rx3 me nav_s1 nav_run) 1))) = 2%nat /\ length (rep_of false (vis (n_out (q_net nav_s 1)))) = 1%nat.
Proof. split; vm_compute; reflexivity. Qed.
Lemma phy_rest_b T0 q n : (k_now q, is_idle q, k_end q <=? T0, forallb (fun g => g_start g + g_dur g <=? T0) (k_list q), n) = (T0, true, true, true, T0) -> phy_rest T0 q /\ n = T0.
Proof. intros E. injection E as E1 E2 E3 E4 E5. split; [|exact E5]. split; [exact E1|]. split; [exact E2|]. split; [apply Z.leb_le; exact E3|]. apply over_ok. exact E4. Qed.
Theorem C131_rts_refuted : ~ C131_full.
Proof.
  intros H. destruct nav_s_facts as (P1 & P2 & P3 & P4 & P5 & P6). destruct nav_run_facts as (R1 & R2 & R3). destruct nav_rep as [N1 N2].
  pose proof (nav_at H nav_hist nav_run) as X. cbv zeta in X. fold nav_s in X. fold nav_s1 in X. revert P1 P2 P3 P4 P5 P6 R1 R2 R3 N1 N2 X. generalize nav_s nav_s1 nav_run. intros s s1 l P1 P2 P3 P4 P5 P6 R1 R2 R3 N1 N2 X.
  destruct (phy_rest_b _ _ _ (P4 1 (or_introl eq_refl))) as [A1 A2]. destruct (phy_rest_b _ _ _ (P4 2 (or_intror (or_introl eq_refl)))) as [B1 B2].
  cbv zeta in P5. injection P5 as M1 M2 M3 M4 M5 M6 M7 M8 M9.
  destruct X as (p & f & E); auto.
  - intros x I. apply kinds_rest_ok. auto.
  - unfold may_send. rewrite M1, M2, M3, M5, M6, M7, M8. unfold nsec. repeat split; lia.
  - apply Z.ltb_lt. exact R3.
  - apply rep_false in E. rewrite E, N2 in N1. discriminate N1.
Qed.
Print Assumptions C131_rts_refuted.
(** The witness: the history runs in real time; no frame but an RTS is sent for the second packet. *)
Example C131_witness : let s := qrun rx3 me nav_s1 nav_run in
  qtimely_run rx3 (macs_due [1; 2; 3]) macs_own me rx3_s0 nav_hist = true /\ map mf_type (q_frames nav_s) = [T_RTS; T_CTS; T_RTS; T_RTS; T_RTS; T_RTS] /\
  map mf_type (skipn 6 (q_frames s)) = [T_RTS; T_RTS; T_RTS; T_RTS; T_RTS] /\ up_of (n_out (q_net s 2)) = [] /\ m_lnav (n_st (q_net nav_s 2)) = 60845 * nsec.
Proof. vm_compute. auto 6. Qed.
