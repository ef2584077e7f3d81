(** One packet in an otherwise idle network of THzMacMacro nodes with PHYs and channel, in RTS mode: channel access, RTS and CTS, up to
    the transmission of the packet (the rest is in MStackLive). *)
From Coq Require Import ZArith List Lia Bool.
From Verif Require Import Base HeaderModel SeqModel EnergyModel MacModel MacSpec MacProofs MacAcct MacSteps MacLive MacNet MacExch MacRts
  MacroPhyModel ChannelModel MStackModel MStackProofs MStackMac MStackLive.
Import ListNotations.
Open Scope Z_scope.

Lemma pi_later T T' t st q : Pi T t st q -> T <= T' -> Pi T' t st q.
Proof. intros [] L. constructor; auto; [lia|]. intros g G. specialize (pi_list g G). lia. Qed.
Lemma pi_same T t t' st q : Pi T t st q -> t = t' -> Pi T t' st q.
Proof. intros P <-. exact P. Qed.

Section Rts.
Variables (cfg : addr -> mcfg) (q0 : addr -> Z) (dur : mframe -> Z) (sense : addr -> Z -> bool) (good : addr -> Z -> Z -> bool) (nodes : list addr) (o0 : yenv).
Let K := mac_conf cfg dur sense good nodes.
Notation stack := (mstack (addr -> mnode) mframe).
Variables (a b : addr) (p : mframe) (T0 : Z) (FB : seqlist) (OA OB : list mout).
Hypothesis ND : NoDup nodes.
Hypothesis Ia : In a nodes.
Hypothesis Ib : In b nodes.
Hypothesis AB : a <> b.
Hypothesis ADDR : forall x, In x nodes -> mc_addr (cfg x) = x.
Hypothesis NBC : a <> bcast /\ b <> bcast.
Hypothesis PKT : mf_type p = T_DATA /\ mf_src p = a /\ mf_dst p = b.
Hypothesis RTS : mc_rts (cfg a) = true.
Hypothesis SLOT : 0 < mc_slot (cfg a).
Hypothesis DIFS : 0 <= mc_difs (cfg a).
Hypothesis SIFS : 0 <= mc_sifs (cfg a).
Let Rd := mc_ctrl (cfg a) T_RTS.
Let Cd := mc_ctrl (cfg a) T_CTS.
Hypothesis RDUR : 0 < Rd /\ forall f, mf_type f = T_RTS -> dur f = Rd.
Hypothesis CDUR : 0 < Cd /\ forall f, mf_type f = T_CTS -> dur f = Cd.
Variable reach : Z.
Hypothesis DPOS : 0 < dur p.
Hypothesis REACH0 : 0 <= reach.
(** The CTS is back before the timeout. *)
Hypothesis REACH : 2 * reach + psec < 2 * prop + mc_sifs (cfg a) + mc_slot (cfg a).
Let Lim := dur p + mc_sifs (cfg a) + mc_ctrl (cfg a) T_ACK + 2 * reach + psec.
(** The RTS is sent by then; the CTS is in by then. *)
Let Tg := T0 + psec + mc_difs (cfg a) + 16 * tdata.
Let Tc := Tg + Rd + psec + Cd + 2 * reach.

Notation mac_mute := (MStackLive.mac_mute cfg dur sense good nodes).
Notation mac_sends_one := (MStackLive.mac_sends_one cfg dur sense good nodes).
Notation chan_done := (MStackLive.chan_done cfg dur sense good nodes o0).
Notation chan_recv := (MStackLive.chan_recv cfg dur sense good nodes o0).
Notation chan_end := (MStackLive.chan_end cfg dur sense good nodes o0).
Notation other_chan := (MStackLive.other_chan cfg dur sense good nodes o0).
Notation after_ev := (MStackLive.after_ev cfg).
Notation reached := (MStackLive.reached cfg q0 dur sense good nodes o0).
Notation reached_step := (MStackLive.reached_step cfg q0 dur sense good nodes o0).
Notation reached_inv := (MStackLive.reached_inv cfg q0 dur sense good nodes o0).
Notation reached_ids := (MStackLive.reached_ids cfg q0 dur sense good nodes o0).
Notation isR := (MStackLive.isR nodes).
Notation pR := (MStackLive.pR nodes).
Notation Com := (MStackLive.Com cfg q0 dur sense good nodes o0 a b).
Notation cm_r := (MStackLive.cm_r cfg q0 dur sense good nodes o0 a b).
Notation cm_a := (MStackLive.cm_a cfg q0 dur sense good nodes o0 a b).
Notation cm_b := (MStackLive.cm_b cfg q0 dur sense good nodes o0 a b).
Notation cm_pend := (MStackLive.cm_pend cfg q0 dur sense good nodes o0 a b).
Notation cm_idle := (MStackLive.cm_idle cfg q0 dur sense good nodes o0 a b).
Notation com_net := (MStackLive.com_net cfg q0 dur sense good nodes o0 a b).
Notation okp := (MStackLive.okp a b).
Notation okp_more := (MStackLive.okp_more a b).
Notation ann_okp := (MStackLive.ann_okp nodes a b).
Notation ann_one := (MStackLive.ann_one nodes).
Notation ann_none := (MStackLive.ann_none nodes).
Notation dest_foreign := (MStackLive.dest_foreign cfg nodes a b ADDR NBC).
Notation in_node := (MStackLive.in_node nodes).
Notation ticks := (MStackLive.ticks cfg dur sense good nodes o0).
Notation hears := (MStackLive.hears sense good a b).
Notation internal := (MStackLive.internal sense good nodes a b reach).

(** The RTS, sent at [T1], is on the air, or the sender waits. *)
Definition Artx (t T1 : Z) (f : mframe) (sa : mst) (pa : kphy) (d : list (Z * cev)) : Prop :=
  (Ar (cfg a) p T0 t T1 MTx (Some f) f sa /\ Pi T0 t KTx pa /\ (exists k, d = [(T1 + Rd, ESendDone k a)]) /\ t <= T1 + Rd) \/
  (Ar (cfg a) p T0 t T1 MIdle None f sa /\ Pi T0 t KIdle pa /\ d = []).
(** The CTS is on the air until [te], or it was. *)
Definition Bctx (t Tb te : Z) (sb : mst) (pb : kphy) (d : list (Z * cev)) : Prop :=
  (exists g k, Bq (Some g) FB sb /\ mf_type g = T_CTS /\ Pi Tb t KTx pb /\ d = [(te, ESendDone k b)] /\ t <= te) \/ (Bq None FB sb /\ Pi Tb t KIdle pb /\ d = []).
Definition isrts (f : mframe) : Prop := mf_type f = T_RTS /\ mf_src f = a /\ mf_dst f = b /\ mf_seq f = mf_seq p.
Definition iscts (g : mframe) : Prop := mf_type g = T_CTS /\ mf_src g = b /\ mf_dst g = a /\ mf_seq g = mf_seq p.
Definition Waits (t : Z) (sb : mst) : Prop := Bq None FB sb /\ navs sb <= T0 /\ m_now sb = t.
Record Quiet (t : Z) (sb : mst) (oa ob : list mout) (pa pb : kphy) (d ra rb : list (Z * cev)) : Prop := {
  qt_pa : Pi T0 t KIdle pa; qt_d : d = []; qt_ra : ra = []; qt_rb : rb = []; qt_pb : Pi T0 t KIdle pb; qt_b : Waits t sb; qt_oa : oa = OA; qt_ob : ob = OB }.

Inductive Rh (t : Z) (sa sb : mst) (oa ob : list mout) (pa pb : kphy) (d ra rb : list (Z * cev)) (fr : list mframe) : Prop :=
| R1 u : Aw p T0 T0 t u (T0 + psec) MKCca sa -> m_cts sa = [] -> T0 <= t <= T0 + psec -> Quiet t sb oa ob pa pb d ra rb -> Rh t sa sb oa ob pa pb d ra rb fr
| R2 u : Aw p T0 T0 t u (T0 + psec + mc_difs (cfg a)) MKBo sa -> m_cts sa = [] -> T0 + psec <= t <= T0 + psec + mc_difs (cfg a) -> Quiet t sb oa ob pa pb d ra rb -> Rh t sa sb oa ob pa pb d ra rb fr
| R3 u T1 : Aw p T0 T0 t u T1 MKGrant sa -> m_cts sa = [] -> T0 + psec <= t <= T1 -> T1 <= Tg -> Quiet t sb oa ob pa pb d ra rb -> Rh t sa sb oa ob pa pb d ra rb fr
| R4 T1 d1 j ne f : Artx t T1 f sa pa d -> T0 + psec <= T1 <= Tg -> T1 <= t <= T1 + d1 -> 0 < d1 <= reach -> ra = [] -> rb = [(T1 + d1, ERecv j ne)] -> n_dur ne = Rd -> nth_error fr (n_k ne) = Some f -> isrts f ->
    Pi T0 t KIdle pb -> Waits t sb -> oa = OA ++ [OSnd f] -> ob = OB -> Rh t sa sb oa ob pa pb d ra rb fr
| R5 T1 d1 j ne f : Artx t T1 f sa pa d -> T0 + psec <= T1 <= Tg -> T1 + d1 <= t <= T1 + d1 + Rd -> 0 < d1 <= reach -> ra = [] -> rb = [(T1 + d1 + Rd, ERecvDone j ne)] -> nth_error fr (n_k ne) = Some f -> isrts f ->
    Pr T0 t (Z.of_nat (n_k ne)) (T1 + d1 + Rd) (fun w => good b w 0) pb -> Waits t sb -> oa = OA ++ [OSnd f] -> ob = OB -> Rh t sa sb oa ob pa pb d ra rb fr
| R6 T1 d1 f : Artx t T1 f sa pa d -> T0 + psec <= T1 <= Tg -> T1 + d1 + Rd <= t <= T1 + d1 + Rd + psec -> 0 < d1 <= reach -> ra = [] -> rb = [] -> isrts f ->
    Pi (T1 + d1 + Rd) t KIdle pb -> Bc FB a (mf_seq p) (T1 + d1 + Rd + psec) sb -> oa = OA ++ [OSnd f] -> ob = OB -> Rh t sa sb oa ob pa pb d ra rb fr
| R7 T1 d1 d2 j ne f g : Ar (cfg a) p T0 t T1 MIdle None f sa -> Pi T0 t KIdle pa -> Bctx t (T1 + d1 + Rd) (T1 + d1 + Rd + psec + Cd) sb pb d -> T0 + psec <= T1 <= Tg -> 0 < d1 <= reach -> 0 < d2 <= reach ->
    T1 + d1 + Rd + psec <= t <= T1 + d1 + Rd + psec + d2 -> ra = [(T1 + d1 + Rd + psec + d2, ERecv j ne)] -> rb = [] -> n_dur ne = Cd -> nth_error fr (n_k ne) = Some g -> isrts f -> iscts g ->
    oa = OA ++ [OSnd f] -> ob = OB ++ [OSnd g] -> Rh t sa sb oa ob pa pb d ra rb fr
| R8 T1 d1 d2 j ne f g : Ar (cfg a) p T0 t T1 MRx None f sa -> Pr T0 t (Z.of_nat (n_k ne)) (T1 + d1 + Rd + psec + d2 + Cd) (fun w => good a w 0) pa -> Bctx t (T1 + d1 + Rd) (T1 + d1 + Rd + psec + Cd) sb pb d -> T0 + psec <= T1 <= Tg -> 0 < d1 <= reach -> 0 < d2 <= reach ->
    T1 + d1 + Rd + psec + d2 <= t <= T1 + d1 + Rd + psec + d2 + Cd -> ra = [(T1 + d1 + Rd + psec + d2 + Cd, ERecvDone j ne)] -> rb = [] -> nth_error fr (n_k ne) = Some g -> isrts f -> iscts g ->
    oa = OA ++ [OSnd f] -> ob = OB ++ [OSnd g] -> Rh t sa sb oa ob pa pb d ra rb fr
| R9 T3 Tb te f g : Ad p T0 t (T3 + psec) sa -> Pi T3 t KIdle pa -> Bctx t Tb te sb pb d -> T0 <= T3 <= Tc -> Tb <= T3 -> te < T3 + psec -> T3 <= t <= T3 + psec -> ra = [] -> rb = [] -> isrts f -> iscts g ->
    oa = OA ++ [OSnd f] -> ob = OB ++ [OSnd g] -> Rh t sa sb oa ob pa pb d ra rb fr.

(** The packet is sent at [T3 + psec], when the CTS has come at [T3]. *)
Definition Launch (t T3 : Z) (f g : mframe) (sa sb : mst) (oa ob : list mout) (pa pb : kphy) (d ra rb : list (Z * cev)) : Prop :=
  As (cfg a) p T0 Lim t t MTx (Some p) true sa /\ t = T3 + psec /\ T0 <= T3 <= Tc /\ Pi T3 t KIdle pa /\ d = [] /\ ra = [] /\ rb = [] /\ Pi T3 t KIdle pb /\ Bq None FB sb /\
  isrts f /\ iscts g /\ oa = OA ++ [OSnd f] /\ ob = OB ++ [OSnd g].

(** ** Timers *)
Lemma timer_a e t i x sa sb oa ob pa pb d ra rb fr : Rh t sa sb oa ob pa pb d ra rb fr -> Ids sa -> nth_error (m_timers sa) i = Some x -> mt_due x = t ->
  e_idle e = is_idle pa -> (forall z, 0 <= e_draw e z < 4294967088) ->
  let r := mstep (cfg a) e sa (ETimer i) in
  vis (snd r) = [] /\ Rh t (fst r) sb oa ob pa pb d ra rb fr \/
  (exists f, vis (snd r) = [OSnd f] /\ isrts f /\ Ar (cfg a) p T0 t t MTx (Some f) f (fst r) /\ T0 + psec <= t <= Tg /\ Quiet t sb oa ob pa pb d ra rb) \/
  (exists T3 f g, vis (snd r) = [OSnd p] /\ Launch t T3 f g (fst r) sb oa ob pa pb d ra rb).
Proof.
  intros P I N DX EI DR r. destruct PKT as (PT & PS & PD). assert (UNI : mf_dst p <> bcast) by (rewrite PD; apply NBC). destruct RDUR as [RP _]. destruct CDUR as [CP _].
  assert (PSC : 0 < psec) by (unfold psec; lia).
  destruct (hard x) eqn:HX; [|destruct (soft x) eqn:SX].
  - (* SendData, or the timeout *)
    assert (NH : hl sa = [] -> False) by (intros H; rewrite (filter_nil hard i _ _ N H) in HX; discriminate HX).
    assert (TMO : forall st ai T1 f, Ar (cfg a) p T0 t T1 st ai f sa -> t < T1 + cts_to (cfg a) -> False).
    { intros st ai T1 f [] L. destruct ar_cts as (u & U1 & U2). destruct (filter_one hard i _ _ _ N HX U2) as [-> _]. cbn in DX. lia. }
    unfold cts_to in TMO. fold Rd Cd in TMO.
    assert (TT : forall T1 f, Artx t T1 f sa pa d -> t < T1 + (Rd + prop + mc_sifs (cfg a) + Cd + prop + mc_slot (cfg a)) -> False).
    { intros T1 f [[X _]|[X _]]; eapply TMO; exact X. }
    assert (PP : 0 < prop) by (unfold prop, psec; lia).
    destruct P as [u X|u X|u T1 X|T1 d1 j ne f X|T1 d1 j ne f X|T1 d1 f X|T1 d1 d2 j ne f g X|T1 d1 d2 j ne f g X|T3 Tb te f g X PA B L1 L2 L3 L4 RA RB FR FC EA EB]; try (exfalso; apply NH, X; fail);
      try (exfalso; eapply TT; [exact X|]; lia); try (exfalso; eapply TMO; [exact X|]; lia).
    right. right. pose proof (ad_hl _ _ _ _ _ X) as [u U]. destruct (filter_one hard i _ _ _ N HX U) as [-> _]. cbn in DX.
    destruct (ad_send (cfg a) p T0 Lim UNI t (T3 + psec) u e i sa X N) as [Y V]. exists T3, f, g. split; [exact V|].
    destruct B as [(g' & k & B1 & B2 & B3 & B4 & B5)|(B1 & B2 & B3)]; [lia|]. unfold Launch. split; [exact Y|]. split; [lia|]. split; [exact L1|]. split; [exact PA|]. split; [exact B3|]. split; [exact RA|]. split; [exact RB|].
    split; [exact (pi_later _ _ _ _ _ B2 L2)|]. tauto.
  - (* channel access *)
    assert (NS : sl sa = [] -> False) by (intros H; rewrite (filter_nil soft i _ _ N H) in SX; discriminate SX).
    assert (TT : forall T1 f, Artx t T1 f sa pa d -> False) by (intros T1 f [[X _]|[X _]]; apply NS, X).
    destruct P as [u X CT L1 Q|u X CT L1 Q|u T1 X CT L1 L2 Q|T1 d1 j ne f X|T1 d1 j ne f X|T1 d1 f X|T1 d1 d2 j ne f g X|T1 d1 d2 j ne f g X|T3 Tb te f g X]; try (destruct (TT _ _ X)); try (exfalso; apply NS, X; fail).
    + left. destruct (filter_one soft i _ _ _ N SX (aw_sl _ _ _ _ _ _ _ _ X)) as [-> _]. cbn in DX. pose proof (qt_pa _ _ _ _ _ _ _ _ _ Q) as PA.
      destruct (aw_cca (cfg a) p T0 T0 t u (T0 + psec) e i sa X I N) as (u' & Y & V); [lia|lia|rewrite EI; unfold is_idle; rewrite (pi_state _ _ _ _ PA), (pi_busy _ _ _ _ PA); reflexivity|].
      unfold r. rewrite V. split; [reflexivity|]. replace (t + mc_difs (cfg a)) with (T0 + psec + mc_difs (cfg a)) in Y by lia. eapply R2; eauto; [|lia]. rewrite (soft_cts _ _ _ _ _ N) by (left; reflexivity). exact CT.
    + left. destruct (filter_one soft i _ _ _ N SX (aw_sl _ _ _ _ _ _ _ _ X)) as [-> _]. cbn in DX. pose proof (qt_pa _ _ _ _ _ _ _ _ _ Q) as PA.
      destruct (aw_bo (cfg a) p T0 T0 t u _ e i sa X N) as (u' & w & W & Y & V); [rewrite EI; unfold is_idle; rewrite (pi_state _ _ _ _ PA), (pi_busy _ _ _ _ PA); reflexivity|exact DR|].
      unfold r. rewrite V. split; [reflexivity|]. assert (0 < tdata) by (unfold tdata, nsec; lia). eapply R3; eauto; [|lia|unfold Tg; lia]. rewrite (soft_cts _ _ _ _ _ N) by (right; reflexivity). exact CT.
    + right. left. destruct (filter_one soft i _ _ _ N SX (aw_sl _ _ _ _ _ _ _ _ X)) as [-> _]. cbn in DX.
      destruct (ar_grant (cfg a) p T0 T0 RTS UNI t u _ e i sa X CT N) as (Y & V). exists (rts_of (cfg a) p sa). split; [exact V|]. split.
      { unfold isrts, rts_of, mctrl. cbn. rewrite ADDR by auto. auto. }
      split; [exact Y|]. split; [lia|exact Q].
    + left. destruct (ar_soft (cfg a) p T0 t T1 e i x f sa X N SX DR) as (Y & V). unfold r. rewrite V. split; [reflexivity|]. eapply R8 with (T1 := T1) (d1 := d1) (d2 := d2) (ne := ne) (f := f) (g := g); eauto.
    + left. destruct (ad_soft (cfg a) p T0 t (T3 + psec) e i x sa X N SX DR) as (Y & V). unfold r. rewrite V. split; [reflexivity|]. eapply R9 with (T3 := T3) (Tb := Tb) (te := te) (f := f) (g := g); eauto.
  - (* the rest *)
    left. destruct (noise (cfg a) e i x sa N HX SX) as [L V]. pose proof (noise_cts (cfg a) e i x sa N HX SX) as CT'. split; [exact V|]. fold r in L, CT'.
    assert (TT : forall T1 f, Artx t T1 f sa pa d -> Artx t T1 f (fst r) pa d). { intros T1 f [[X Y]|[X Y]]; [left|right]; (split; [eapply like_ar; eauto|exact Y]). }
    destruct P as [u X CT L1 Q|u X CT L1 Q|u T1 X CT L1 L2 Q|T1 d1 j ne f X|T1 d1 j ne f X|T1 d1 f X|T1 d1 d2 j ne f g X|T1 d1 d2 j ne f g X|T3 Tb te f g X].
    + eapply R1; eauto; [eapply like_aw; eauto|congruence].
    + eapply R2; eauto; [eapply like_aw; eauto|congruence].
    + eapply R3; eauto; [eapply like_aw; eauto|congruence].
    + eapply R4 with (T1 := T1) (d1 := d1) (ne := ne) (f := f); eauto.
    + eapply R5 with (T1 := T1) (d1 := d1) (ne := ne) (f := f); eauto.
    + eapply R6 with (T1 := T1) (d1 := d1) (f := f); eauto.
    + eapply R7 with (T1 := T1) (d1 := d1) (d2 := d2) (ne := ne) (f := f) (g := g); eauto. eapply like_ar; eauto.
    + eapply R8 with (T1 := T1) (d1 := d1) (d2 := d2) (ne := ne) (f := f) (g := g); eauto. eapply like_ar; eauto.
    + eapply R9 with (T3 := T3) (Tb := Tb) (te := te) (f := f) (g := g); eauto. eapply like_ad; eauto.
Qed.

Lemma timer_b e t i x sa sb oa ob pa pb d ra rb fr : Rh t sa sb oa ob pa pb d ra rb fr -> nth_error (m_timers sb) i = Some x -> mt_due x = t ->
  let r := mstep (cfg b) e sb (ETimer i) in
  vis (snd r) = [] /\ Rh t sa (fst r) oa ob pa pb d ra rb fr \/
  exists T1 d1 f g, vis (snd r) = [OSnd g] /\ isrts f /\ iscts g /\ Bq (Some g) FB (fst r) /\ Ar (cfg a) p T0 t T1 MIdle None f sa /\ Pi T0 t KIdle pa /\ Pi (T1 + d1 + Rd) t KIdle pb /\ d = [] /\ T0 + psec <= T1 <= Tg /\
    t = T1 + d1 + Rd + psec /\ 0 < d1 <= reach /\ ra = [] /\ rb = [] /\ oa = OA ++ [OSnd f] /\ ob = OB.
Proof.
  intros P N DX r. destruct PKT as (PT & PS & PD). assert (PSC : 0 < psec) by (unfold psec; lia).
  assert (Q : forall ai F, Bq ai F sb -> Bq ai F (fst r) /\ vis (snd r) = [] /\ m_now (fst r) = m_now sb) by (intros; apply bq_timer; auto).
  assert (QW : Waits t sb -> vis (snd r) = [] /\ Waits t (fst r)). { intros (W1 & W2 & W3). destruct (Q _ _ W1) as (Q1 & Q2 & Q3). split; [exact Q2|]. split; [exact Q1|]. split; [unfold r; rewrite (navs_timer _ _ _ _ _ _ W1); exact W2|congruence]. }
  assert (QQ : Quiet t sb oa ob pa pb d ra rb -> vis (snd r) = [] /\ Quiet t (fst r) oa ob pa pb d ra rb). { intros []. destruct (QW qt_b0). split; auto. constructor; auto. }
  assert (TB : forall Tb te, Bctx t Tb te sb pb d -> vis (snd r) = [] /\ Bctx t Tb te (fst r) pb d).
  { intros Tb te [(g & k & X & Y)|(X & Y)]; destruct (Q _ _ X) as (Q1 & Q2 & Q3); (split; [exact Q2|]); [left; exists g, k|right]; auto. }
  destruct P as [u X CT L1 QT|u X CT L1 QT|u T1 X CT L1 L2 QT|T1 d1 j ne f X L1 L2 L3 RA RB ? ? ? ? B|T1 d1 j ne f X L1 L2 L3 RA RB ? ? ? B|T1 d1 f X L1 L2 L3 RA RB FR PB B EA EB|T1 d1 d2 j ne f g X Y B|T1 d1 d2 j ne f g X Y B|T3 Tb te f g X Y B].
  - left. destruct (QQ QT). split; auto. eapply R1; eauto.
  - left. destruct (QQ QT). split; auto. eapply R2; eauto.
  - left. destruct (QQ QT). split; auto. eapply R3; eauto.
  - left. destruct (QW B). split; auto. eapply R4 with (T1 := T1) (d1 := d1) (ne := ne) (f := f); eauto.
  - left. destruct (QW B). split; auto. eapply R5 with (T1 := T1) (d1 := d1) (ne := ne) (f := f); eauto.
  - destruct (hard x) eqn:HX; [|destruct (soft x) eqn:SX].
    + right. pose proof (bc_hl _ _ _ _ _ B) as (u & w & U). destruct (filter_one hard i _ _ _ N HX U) as [-> _]. cbn in DX.
      destruct (bc_cts _ _ _ _ u w (cfg b) e i sb B N) as (g & G1 & G2 & G3 & G4 & G5 & G6 & _). exists T1, d1, f, g. split; [exact G6|]. split; [exact FR|]. split.
      { unfold iscts. rewrite ADDR in G2 by auto. auto. }
      split; [exact G5|]. destruct X as [(_ & _ & _ & L)|(X1 & X2 & X3)]; [lia|]. split; [exact X1|]. split; [exact X2|]. split; [exact PB|]. split; [exact X3|]. split; [lia|]. split; [lia|]. split; [lia|]. tauto.
    + exfalso. rewrite (filter_nil soft i _ _ N (bc_sl _ _ _ _ _ B)) in SX. discriminate SX.
    + left. destruct (noise (cfg b) e i x sb N HX SX) as [L V]. split; [exact V|]. eapply R6 with (T1 := T1) (d1 := d1) (f := f); eauto. eapply like_bc; eauto.
  - left. destruct (TB _ _ B). split; auto. eapply R7 with (T1 := T1) (d1 := d1) (d2 := d2) (ne := ne) (f := f) (g := g); eauto.
  - left. destruct (TB _ _ B). split; auto. eapply R8 with (T1 := T1) (d1 := d1) (d2 := d2) (ne := ne) (f := f) (g := g); eauto.
  - left. destruct (TB _ _ B). split; auto. eapply R9 with (T3 := T3) (Tb := Tb) (te := te) (f := f) (g := g); eauto.
Qed.

(** ** The invariant of the exchange *)
Definition RhS (s : stack) : Prop := Rh (now s) (St s a) (St s b) (Ot s a) (Ot s b) (q_phy s a) (q_phy s b) (pD s) (pR s a) (pR s b) (q_frames s).
(** From the transmission of the packet on. *)
Definition Next (s : stack) : Prop := exists T3 f g, T0 <= T3 <= Tc /\ isrts f /\ iscts g /\ PhS cfg dur good nodes a b p T3 T0 (T3 + psec) FB (OA ++ [OSnd f]) (OB ++ [OSnd g]) reach s.

Lemma own_step x o dl i s : In x nodes -> Com s -> RhS s -> macs_own (q_net s) x (YTimer i) = true -> (forall j, 0 < dl j <= reach) -> draws o ->
  let s' := qstep K o0 s (QOwn x o dl (YTimer i)) in Com s' /\ (RhS s' \/ Next s').
Proof.
  intros IX C P OW DL DR s'. assert (R : reached s') by (apply reached_step; apply C).
  assert (ES : s' = mac_ev K x o dl (NOwn (YTimer i)) s). { unfold s'. cbn [qstep]. cbn [K mac_conf q_nodes]. rewrite in_node by auto. reflexivity. }
  clearbody s'. set (r := after_ev s x o (is_idle (q_phy s x)) (NOwn (YTimer i))).
  assert (MN : m_now (fst r) = m_now (St s x)) by (unfold r, MStackLive.after_ev; apply ev_now; discriminate).
  destruct (reached_inv s (cm_r _ C)) as [V AG]. pose proof (i_devs _ _ _ _ V) as DV. cbn [K mac_conf q_nodes] in DV.
  assert (MUTE : snd_of (snd r) = [] -> (x <> a -> x <> b -> exists F, Bq None F (fst r)) -> s' = set_net (mput (q_net s) x (node_of s x (ETimer i) r)) s /\ Com s').
  { intros S B. assert (E : s' = set_net (mput (q_net s) x (node_of s x (ETimer i) r)) s) by (rewrite ES; unfold K; rewrite mac_mute; [reflexivity|right; exact S]).
    split; auto. rewrite E in R |- *. exact (com_net s x (ETimer i) r _ C R eq_refl B MN eq_refl (cm_pend _ C)). }
  unfold macs_own, mtimely in OW. fold (St s x) in OW. destruct (nth_error (m_timers (St s x)) i) as [z|] eqn:N; [|discriminate OW]. apply andb_true_iff in OW. destruct OW as [DZ _]. apply Z.eqb_eq in DZ.
  destruct RDUR as [RP RE]. destruct CDUR as [CP CE].
  destruct (Z.eq_dec x a) as [->|XA]; [|destruct (Z.eq_dec x b) as [->|XB]].
  - pose proof (cm_a _ C) as CA. rewrite CA in DZ.
    destruct (timer_a (Menv (is_idle (q_phy s a)) (ye_draw o)) _ i z _ _ _ _ _ _ _ _ _ _ P (reached_ids _ _ (cm_r _ C)) N DZ eq_refl DR) as [[T1 T2]|[(f & T1 & T2 & T3 & T4 & T5)|(T3 & f & g & T1 & T2)]];
      change (mstep (cfg a) _ (St s a) (ETimer i)) with r in *.
    + destruct MUTE as [E CM]; [rewrite snd_vis, T1; reflexivity|contradiction|]. split; auto. left. rewrite E. unfold RhS, now, pD, MStackLive.pR. cbn [set_net q_phy q_chan q_frames].
      destruct (st_same s (set_net (mput (q_net s) a (node_of s a (ETimer i) r)) s) a _ _ eq_refl) as [E1 E2]. rewrite E1, E2, T1, app_nil_r.
      destruct (st_other s (set_net (mput (q_net s) a (node_of s a (ETimer i) r)) s) a _ _ b eq_refl (not_eq_sym AB)) as [E3 E4]. rewrite E3, E4. exact T2.
    + destruct T5 as [Q1 Q2 Q3 Q4 Q5 Q6 Q7 Q8].
      destruct (mac_sends_one a o dl (NOwn (YTimer i)) s f) as (S1 & S2 & S3 & S4 & S5 & S6); [fold r; rewrite snd_vis, T1; reflexivity|rewrite (pi_state _ _ _ _ Q1); discriminate|exact DV|exact Ia|].
      fold K in S1, S2, S3, S4, S5, S6. rewrite <- ES in *. fold r in S1. cbn [mac_event] in S1. destruct (ann_one b (c_now (q_chan s)) (length (c_log (q_chan s))) a (dur f) dl nodes 0%nat (fun _ => eq_refl) ND Ib (not_eq_sym AB)) as (j & J1 & J2).
      assert (NF : nth_error (q_frames s') (length (c_log (q_chan s))) = Some f).
      { rewrite S6, <- (i_len _ _ _ _ V), nth_error_app2, Nat.sub_diag by auto. reflexivity. }
      split.
      * eapply com_net; eauto; [intros X; contradiction|]. intros e I. rewrite S5 in I. apply in_app_or in I. destruct I as [I|[<-|I]].
        -- eapply okp_more; [exact S6|apply C; exact I].
        -- exact Logic.I.
        -- eapply ann_okp; [exact NF| |exact I]. right. apply T2.
      * left. unfold RhS. destruct (st_same _ _ _ _ _ S1) as [E1 E2]. destruct (st_other _ _ _ _ _ b S1 (not_eq_sym AB)) as [E3 E4]. rewrite E1, E2, E3, E4, T1, Q7, Q8, S2, (S3 b (not_eq_sym AB)).
        unfold now, pD, MStackLive.pR. rewrite S4, S5, !filter_app. cbn [filter]. fold (pD s). fold (pR s a). fold (pR s b). rewrite isD_d, !isR_d. rewrite ann_D, ann_none, J1, Q2, Q3, Q4 by auto. cbn [app].
        fold (now s). pose proof (RE f (proj1 T2)) as RF. rewrite RF in *. eapply R4 with (T1 := now s) (d1 := dl j) (f := f); eauto; try lia.
        -- left. split; [exact T3|]. split; [destruct Q1; constructor; auto|]. split; [eexists; reflexivity|]. lia.
        -- specialize (DL j). lia.
    + destruct T2 as (L0 & L1 & L2 & L3 & L4 & L5 & L6 & L7 & L8 & L9 & L10 & L11 & L12).
      destruct (mac_sends_one a o dl (NOwn (YTimer i)) s p) as (S1 & S2 & S3 & S4 & S5 & S6); [fold r; rewrite snd_vis, T1; reflexivity|rewrite (pi_state _ _ _ _ L3); discriminate|exact DV|exact Ia|].
      fold K in S1, S2, S3, S4, S5, S6. rewrite <- ES in *. fold r in S1. cbn [mac_event] in S1. destruct (ann_one b (c_now (q_chan s)) (length (c_log (q_chan s))) a (dur p) dl nodes 0%nat (fun _ => eq_refl) ND Ib (not_eq_sym AB)) as (j & J1 & J2).
      assert (NF : nth_error (q_frames s') (length (c_log (q_chan s))) = Some p).
      { rewrite S6, <- (i_len _ _ _ _ V), nth_error_app2, Nat.sub_diag by auto. reflexivity. }
      split.
      * eapply com_net; eauto; [intros X; contradiction|]. intros e I. rewrite S5 in I. apply in_app_or in I. destruct I as [I|[<-|I]].
        -- eapply okp_more; [exact S6|apply C; exact I].
        -- exact Logic.I.
        -- eapply ann_okp; [exact NF| |exact I]. right. apply PKT.
      * right. exists T3, f, g. split; [exact L2|]. split; [exact L9|]. split; [exact L10|].
        unfold PhS. destruct (st_same _ _ _ _ _ S1) as [E1 E2]. destruct (st_other _ _ _ _ _ b S1 (not_eq_sym AB)) as [E3 E4]. rewrite E1, E2, E3, E4, T1, L11, L12, S2, (S3 b (not_eq_sym AB)).
        unfold now, pD, MStackLive.pR. rewrite S4, S5, !filter_app. cbn [filter]. fold (pD s). fold (pR s a). fold (pR s b). rewrite isD_d, !isR_d. rewrite ann_D, ann_none, J1, L4, L5, L6 by auto. cbn [app].
        fold (now s). eapply P4 with (T1 := now s) (d1 := dl j); eauto; try lia.
        -- left. rewrite RTS. split; [exact L0|]. split; [destruct L3; constructor; auto|]. split; [eexists; reflexivity|]. lia.
        -- specialize (DL j). lia.
        -- rewrite (cm_b _ C). reflexivity.
  - pose proof (cm_b _ C) as CB. rewrite CB in DZ.
    destruct (timer_b (Menv (is_idle (q_phy s b)) (ye_draw o)) _ i z _ _ _ _ _ _ _ _ _ _ P N DZ) as [[T1 T2]|(T & d1 & f & g & T1 & T2 & T3 & T4 & T5 & T6 & T7 & T8 & T9 & T10 & T11 & T12 & T13 & T14 & T15)];
      change (mstep (cfg b) _ (St s b) (ETimer i)) with r in *.
    + destruct MUTE as [E CM]; [rewrite snd_vis, T1; reflexivity|contradiction|]. split; auto. left. rewrite E. unfold RhS, now, pD, MStackLive.pR. cbn [set_net q_phy q_chan q_frames].
      destruct (st_same s (set_net (mput (q_net s) b (node_of s b (ETimer i) r)) s) b _ _ eq_refl) as [E1 E2]. rewrite E1, E2, T1, app_nil_r.
      destruct (st_other s (set_net (mput (q_net s) b (node_of s b (ETimer i) r)) s) b _ _ a eq_refl AB) as [E3 E4]. rewrite E3, E4. exact T2.
    + destruct (mac_sends_one b o dl (NOwn (YTimer i)) s g) as (S1 & S2 & S3 & S4 & S5 & S6); [fold r; rewrite snd_vis, T1; reflexivity|rewrite (pi_state _ _ _ _ T7); discriminate|exact DV|exact Ib|].
      fold K in S1, S2, S3, S4, S5, S6. rewrite <- ES in *. fold r in S1. cbn [mac_event] in S1. destruct (ann_one a (c_now (q_chan s)) (length (c_log (q_chan s))) b (dur g) dl nodes 0%nat (fun _ => eq_refl) ND Ia AB) as (j & J1 & J2).
      assert (NF : nth_error (q_frames s') (length (c_log (q_chan s))) = Some g).
      { rewrite S6, <- (i_len _ _ _ _ V), nth_error_app2, Nat.sub_diag by auto. reflexivity. }
      split.
      * eapply com_net; eauto; [intros X Y; contradiction|]. intros e I. rewrite S5 in I. apply in_app_or in I. destruct I as [I|[<-|I]].
        -- eapply okp_more; [exact S6|apply C; exact I].
        -- exact Logic.I.
        -- eapply ann_okp; [exact NF| |exact I]. left. apply T3.
      * left. unfold RhS. destruct (st_same _ _ _ _ _ S1) as [E1 E2]. destruct (st_other _ _ _ _ _ a S1 AB) as [E3 E4]. rewrite E1, E2, E3, E4, T1, T14, T15, (S3 a AB).
        unfold now, pD, MStackLive.pR. rewrite S4, S5, !filter_app. cbn [filter]. fold (pD s). fold (pR s a). fold (pR s b). rewrite isD_d, !isR_d. rewrite ann_D, J1, T8, T12, T13. rewrite (ann_none b) by auto. cbn [app].
        fold (now s). specialize (DL j). pose proof (CE g (proj1 T3)) as CF. rewrite CF in *. rewrite T10. eapply R7 with (T1 := T) (d1 := d1) (d2 := dl j) (f := f) (g := g); eauto; try lia.
        -- rewrite <- T10. exact T5.
        -- rewrite <- T10. exact T6.
        -- left. exists g. eexists. split; [exact T4|]. split; [apply T3|]. split; [|split; [reflexivity|lia]]. rewrite S2, <- T10. destruct T7. constructor; auto.
  - destruct (cm_idle _ C x IX XA XB) as [F B]. destruct (bq_timer _ _ (cfg x) (Menv (is_idle (q_phy s x)) (ye_draw o)) i _ B) as (B1 & B2 & _).
    destruct MUTE as [E CM]; [rewrite snd_vis; change (snd r) with (snd (mstep (cfg x) (Menv (is_idle (q_phy s x)) (ye_draw o)) (St s x) (ETimer i))); rewrite B2; reflexivity|intros _ _; exists F; exact B1|].
    split; auto. left. rewrite E. unfold RhS, now, pD, MStackLive.pR. cbn [set_net q_phy q_chan q_frames].
    destruct (st_other s (set_net (mput (q_net s) x (node_of s x (ETimer i) r)) s) x _ _ a eq_refl (not_eq_sym XA)) as [E1 E2]. rewrite E1, E2.
    destruct (st_other s (set_net (mput (q_net s) x (node_of s x (ETimer i) r)) s) x _ _ b eq_refl (not_eq_sym XB)) as [E3 E4]. rewrite E3, E4. exact P.
Qed.

(** ** The clock *)
Lemma rh_tick t t' sa sb oa ob pa pb d ra rb fr : Rh t sa sb oa ob pa pb d ra rb fr -> t <= t' -> (forall e, In e d \/ In e ra \/ In e rb -> t' <= fst e) ->
  (forall x, In x (m_timers sa) \/ In x (m_timers sb) -> t' <= mt_due x) -> Rh t' (set_now t' sa) (set_now t' sb) oa ob (ktick t' pa) (ktick t' pb) d ra rb fr.
Proof.
  intros P L HE HT.
  assert (TS : forall u x k, sl sa = [Mtimer u x k] -> t' <= x). { intros u x k E. apply (HT (Mtimer u x k)). left. apply in_sl. rewrite E. left. reflexivity. }
  assert (TT : forall T1 f, Artx t T1 f sa pa d -> Artx t' T1 f (set_now t' sa) (ktick t' pa) d).
  { intros T1 f [(X1 & X2 & (k & X3) & X4)|(X1 & X2 & X3)]; [left|right].
    - split; [eapply ar_tick; exact X1|]. split; [eapply pi_tick; exact X2|]. split; [eauto|]. apply (HE (T1 + Rd, ESendDone k a)). left. rewrite X3. left. reflexivity.
    - split; [eapply ar_tick; exact X1|]. split; [eapply pi_tick; exact X2|]. exact X3. }
  assert (TB : forall Tb te, Bctx t Tb te sb pb d -> Bctx t' Tb te (set_now t' sb) (ktick t' pb) d).
  { intros Tb te [(g & k & X1 & X2 & X3 & X4 & X5)|(X1 & X2 & X3)]; [left; exists g, k|right].
    - split; [apply bq_tick; exact X1|]. split; [exact X2|]. split; [eapply pi_tick; exact X3|]. split; [exact X4|]. apply (HE (te, ESendDone k b)). left. rewrite X4. left. reflexivity.
    - split; [apply bq_tick; exact X1|]. split; [eapply pi_tick; exact X2|]. exact X3. }
  assert (TW : Waits t sb -> Waits t' (set_now t' sb)). { intros (W1 & W2 & W3). split; [apply bq_tick; exact W1|]. split; [exact W2|reflexivity]. }
  assert (TQ : Quiet t sb oa ob pa pb d ra rb -> Quiet t' (set_now t' sb) oa ob (ktick t' pa) (ktick t' pb) d ra rb).
  { intros []. constructor; auto; eapply pi_tick; eauto. }
  destruct P as [u X CT L1 QT|u X CT L1 QT|u T1 X CT L1 L2 QT|T1 d1 j ne f X L1 L2 L3 RA RB ? ? ? PB B|T1 d1 j ne f X L1 L2 L3 RA RB ? ? PB B|T1 d1 f X L1 L2 L3 RA RB FR PB B EA EB|T1 d1 d2 j ne f g X PA B L1 L2 L3 L4 RA RB|T1 d1 d2 j ne f g X PA B L1 L2 L3 L4 RA RB|T3 Tb te f g X PA B L1 L2 L3 L4].
  - pose proof (TS _ _ _ (aw_sl _ _ _ _ _ _ _ _ X)). eapply R1; eauto; [eapply aw_tick; eauto|lia].
  - pose proof (TS _ _ _ (aw_sl _ _ _ _ _ _ _ _ X)). eapply R2; eauto; [eapply aw_tick; eauto|lia].
  - pose proof (TS _ _ _ (aw_sl _ _ _ _ _ _ _ _ X)). eapply R3; eauto; [eapply aw_tick; eauto|lia].
  - assert (t' <= T1 + d1) by (apply (HE (T1 + d1, ERecv j ne)); right; right; rewrite RB; left; reflexivity).
    eapply R4 with (T1 := T1) (d1 := d1) (ne := ne) (f := f); eauto; [lia|eapply pi_tick; eauto].
  - assert (t' <= T1 + d1 + Rd) by (apply (HE (T1 + d1 + Rd, ERecvDone j ne)); right; right; rewrite RB; left; reflexivity).
    eapply R5 with (T1 := T1) (d1 := d1) (ne := ne) (f := f); eauto; [lia|eapply pr_tick; eauto].
  - assert (t' <= T1 + d1 + Rd + psec). { destruct (bc_hl _ _ _ _ _ B) as (u & w & U). apply (HT (Mtimer u (T1 + d1 + Rd + psec) (MKSendCts a w (mf_seq p)))). right. apply in_hl. rewrite U. left. reflexivity. }
    eapply R6 with (T1 := T1) (d1 := d1) (f := f); eauto; [lia|eapply pi_tick; eauto|apply bc_tick; auto].
  - match type of RA with _ = [?y] => assert (t' <= fst y) by (apply HE; right; left; rewrite RA; left; reflexivity) end. cbn [fst] in *.
    eapply R7 with (T1 := T1) (d1 := d1) (d2 := d2) (ne := ne) (f := f) (g := g); eauto; [eapply ar_tick; eauto|eapply pi_tick; eauto|lia].
  - match type of RA with _ = [?y] => assert (t' <= fst y) by (apply HE; right; left; rewrite RA; left; reflexivity) end. cbn [fst] in *.
    eapply R8 with (T1 := T1) (d1 := d1) (d2 := d2) (ne := ne) (f := f) (g := g); eauto; [eapply ar_tick; eauto|eapply pr_tick; eauto|lia].
  - assert (t' <= T3 + psec). { destruct (ad_hl _ _ _ _ _ X) as [u U]. apply (HT (Mtimer u (T3 + psec) (MKSendData p))). left. apply in_hl. rewrite U. left. reflexivity. }
    eapply R9 with (T3 := T3) (Tb := Tb) (te := te) (f := f) (g := g); eauto; [eapply ad_tick; eauto|eapply pi_tick; eauto|lia].
Qed.

Lemma tick_step t s : Com s -> RhS s -> qtimely (macs_due nodes) macs_own s (QTick t : qev (X := yev) (O := yenv)) = true ->
  let s' := qstep K o0 s (QTick t) in Com s' /\ RhS s'.
Proof.
  intros C P T s'. assert (R : reached s') by (apply reached_step; apply C). cbn [qtimely ctimely] in T. apply andb_true_iff in T. destruct T as [T TD]. apply andb_true_iff in T. destruct T as [T1 T2].
  apply Z.leb_le in T1. rewrite forallb_forall in T2, TD.
  pose proof (ticks t nodes s ND) as TK. fold K in TK. destruct TK as (H1 & H2 & H3 & H4 & H5). set (s1 := fold_left _ nodes s) in *.
  assert (E : q_net s' = q_net s1 /\ c_now (q_chan s') = t /\ c_pend (q_chan s') = c_pend (q_chan s) /\ q_frames s' = q_frames s /\ forall x, q_phy s' x = ktick t (q_phy s x)).
  { unfold s'. cbn [qstep]. cbn [K mac_conf q_nodes]. fold K. fold s1. cbn [q_net q_chan q_frames q_phy chan_step fst c_now c_pend]. rewrite H3, H4, H5. repeat split; auto. }
  destruct E as (E1 & E2 & E3 & E4 & E5). clearbody s'.
  assert (N : forall x, In x nodes -> St s' x = set_now t (St s x) /\ Ot s' x = Ot s x). { intros x I. unfold St, Ot. rewrite E1. apply H1. exact I. }
  split.
  - destruct C. constructor; auto.
    + intros x I XA XB. destruct (cm_idle x I XA XB) as [F B]. exists F. rewrite (proj1 (N x I)). apply bq_tick. exact B.
    + intros e. rewrite E3. intros I. specialize (cm_pend e I). unfold MStackLive.okp in *. rewrite E4. exact cm_pend.
    + rewrite (proj1 (N a Ia)). unfold now. rewrite E2. reflexivity.
    + rewrite (proj1 (N b Ib)). unfold now. rewrite E2. reflexivity.
  - unfold RhS. destruct (N a Ia) as [A1 A2], (N b Ib) as [B1 B2]. rewrite A1, A2, B1, B2, !E5, E4. unfold now, pD, MStackLive.pR. rewrite E2, E3. eapply rh_tick; [exact P|exact T1| |].
    + intros e [I|[I|I]]; apply filter_In in I; destruct I as [I _]; specialize (T2 e I); apply Z.leb_le in T2; exact T2.
    + intros x I. apply Z.leb_le, TD. unfold macs_due. apply in_flat_map. destruct I as [I|I]; [exists a|exists b]; (split; [auto|apply in_map; exact I]).
Qed.

(** ** Events of the channel *)
Lemma done_step i tt k x o dl pw s : Com s -> RhS s -> nth_error (c_pend (q_chan s)) i = Some (tt, ESendDone k x) ->
  let s' := qstep K o0 s (QChan i o dl pw) in Com s' /\ RhS s'.
Proof.
  intros C P N s'. assert (R : reached s') by (apply reached_step; apply C). destruct (reached_inv s (cm_r _ C)) as [V _].
  assert (TX : k_txs (q_phy s x) <> []).
  { intros E. pose proof (i_tx _ _ _ _ V x) as L. rewrite E in L. pose proof (num_pos (is_done x) _ _ _ N) as Q. unfold is_done in Q at 1. cbn [snd] in Q. rewrite Z.eqb_refl in Q. specialize (Q eq_refl). cbn [length] in L. lia. }
  assert (PS' : c_pend (q_chan s') = remove_nth i (c_pend (q_chan s)) -> forall y, pR s' y = pR s y).
  { intros E y. unfold MStackLive.pR. rewrite E. apply (filter_miss (isR y) i _ _ N). reflexivity. }
  assert (NO : pD s = [] -> False). { intros E. pose proof (filter_nil isD i _ _ N E) as X. discriminate X. }
  assert (FIN : forall ev r, x = a \/ x = b -> q_net s' = mput (q_net s) x (node_of s x ev r) -> m_now (fst r) = m_now (St s x) -> c_now (q_chan s') = c_now (q_chan s) ->
    c_pend (q_chan s') = remove_nth i (c_pend (q_chan s)) -> q_frames s' = q_frames s -> Com s').
  { intros ev r X E1 E2 E3 E4 E5. eapply com_net; [exact C|exact R|exact E1| |exact E2|exact E3|].
    - intros Y1 Y2. destruct X; contradiction.
    - intros e I. rewrite E4 in I. apply in_remove_nth in I. pose proof (cm_pend _ C e I) as Y. unfold MStackLive.okp in *. rewrite E5. exact Y. }
  assert (HA : forall T1 f, isrts f -> Artx (now s) T1 f (St s a) (q_phy s a) (pD s) -> Com s' /\ Artx (now s') T1 f (St s' a) (q_phy s' a) (pD s') /\ St s' b = St s b /\ Ot s' a = Ot s a /\ Ot s' b = Ot s b /\ q_phy s' b = q_phy s b /\
     pR s' a = pR s a /\ pR s' b = pR s b /\ q_frames s' = q_frames s /\ now s' = now s).
  { intros T1 f FR [(X1 & X2 & (k' & X3) & X4)|(X1 & X2 & X3)]; [|destruct (NO X3)]. destruct (filter_one isD i _ _ _ N eq_refl X3) as [E E']. injection E as TT -> ->.
    destruct (ar_done (cfg a) p T0 _ _ (Menv (is_idle (idled (q_phy s a) (remove_nth 0 (k_txs (q_phy s a))))) (ye_draw o)) f _ (proj1 FR) X1) as [Y1 Y2].
    destruct (chan_done i _ _ _ o dl pw s N TX) as (S1 & S2 & S3 & S4 & S5 & S6); [unfold MStackLive.after_ev; cbn [mac_event]; rewrite Y2; reflexivity|]. fold K in S1, S2, S3, S4, S5, S6. fold s' in S1, S2, S3, S4, S5, S6.
    assert (C' : Com s') by (eapply FIN; eauto; unfold MStackLive.after_ev; apply ev_now; discriminate).
    destruct (st_same _ _ _ _ _ S1) as [E1 E2]. destruct (st_other _ _ _ _ _ b S1 (not_eq_sym AB)) as [E3 E4]. unfold MStackLive.after_ev in E1, E2. cbn [mac_event] in E1, E2. rewrite Y2, app_nil_r in E2.
    split; [exact C'|]. rewrite !(PS' S5), S6, (S3 b (not_eq_sym AB)), E1, E2, E3, E4, S2. unfold now. rewrite S4. split; [|repeat (split; [reflexivity|]); reflexivity].
    right. split; [exact Y1|]. split; [destruct X2; constructor; auto|]. unfold pD; rewrite S5; exact E'. }
  assert (HB : forall Tb te, Bctx (now s) Tb te (St s b) (q_phy s b) (pD s) -> Com s' /\ Bctx (now s') Tb te (St s' b) (q_phy s' b) (pD s') /\ St s' a = St s a /\ Ot s' a = Ot s a /\ Ot s' b = Ot s b /\ q_phy s' a = q_phy s a /\
     pR s' a = pR s a /\ pR s' b = pR s b /\ q_frames s' = q_frames s /\ now s' = now s).
  { intros Tb te [(g & k' & X1 & X2 & X4 & X3 & _)|(X1 & X2 & X3)]; [|destruct (NO X3)]. destruct (filter_one isD i _ _ _ N eq_refl X3) as [E E']. injection E as -> -> ->.
    destruct (bq_done g FB (cfg b) (Menv (is_idle (idled (q_phy s b) (remove_nth 0 (k_txs (q_phy s b))))) (ye_draw o)) _ X1) as (Y1 & Y2 & _); [rewrite X2; discriminate|].
    destruct (chan_done i _ _ _ o dl pw s N TX) as (S1 & S2 & S3 & S4 & S5 & S6); [unfold MStackLive.after_ev; cbn [mac_event]; rewrite Y2; reflexivity|]. fold K in S1, S2, S3, S4, S5, S6. fold s' in S1, S2, S3, S4, S5, S6.
    assert (C' : Com s') by (eapply FIN; eauto; unfold MStackLive.after_ev; apply ev_now; discriminate).
    destruct (st_same _ _ _ _ _ S1) as [E1 E2]. destruct (st_other _ _ _ _ _ a S1 AB) as [E3 E4]. unfold MStackLive.after_ev in E1, E2. cbn [mac_event] in E1, E2. rewrite Y2, app_nil_r in E2.
    split; [exact C'|]. rewrite !(PS' S5), S6, (S3 a AB), E1, E2, E3, E4, S2. unfold now. rewrite S4. split; [|repeat (split; [reflexivity|]); reflexivity].
    right. split; [exact Y1|]. split; [destruct X4; constructor; auto|]. unfold pD. rewrite S5. exact E'. }
  clearbody s'. unfold RhS in P |- *.
  destruct P as [u X CT L1 QT|u X CT L1 QT|u T1 X CT L1 L2 QT|T1 d1 j ne f X L1 L2 L3 RA RB ? ? FR PB B|T1 d1 j ne f X L1 L2 L3 RA RB ? FR PB B|T1 d1 f X L1 L2 L3 RA RB FR PB B EA EB|T1 d1 d2 j ne f g X PA B L1 L2 L3 L4 RA RB|T1 d1 d2 j ne f g X PA B L1 L2 L3 L4 RA RB|T3 Tb te f g X PA B L1 L2 L3 L4];
    try (destruct (NO (qt_d _ _ _ _ _ _ _ _ _ QT)));
    try (destruct (HA _ _ FR X) as (C' & X' & E1 & E2 & E3 & E4 & E5 & E6 & E7 & E8); split; [exact C'|]; rewrite E1, E2, E3, E4, E5, E6, E7; rewrite E8 in X' |- *);
    try (destruct (HB _ _ B) as (C' & B' & E1 & E2 & E3 & E4 & E5 & E6 & E7 & E8); split; [exact C'|]; rewrite E1, E2, E3, E4, E5, E6, E7; rewrite E8 in B' |- *).
  - eapply R4 with (T1 := T1) (d1 := d1) (ne := ne) (f := f); eauto.
  - eapply R5 with (T1 := T1) (d1 := d1) (ne := ne) (f := f); eauto.
  - eapply R6 with (T1 := T1) (d1 := d1) (f := f); eauto.
  - eapply R7 with (T1 := T1) (d1 := d1) (d2 := d2) (ne := ne) (f := f) (g := g); eauto.
  - eapply R8 with (T1 := T1) (d1 := d1) (d2 := d2) (ne := ne) (f := f) (g := g); eauto.
  - eapply R9 with (T3 := T3) (Tb := Tb) (te := te) (f := f) (g := g); eauto.
Qed.

Lemma delete_step i tt ne o dl pw s : Com s -> RhS s -> nth_error (c_pend (q_chan s)) i = Some (tt, EDelete ne) ->
  let s' := qstep K o0 s (QChan i o dl pw) in Com s' /\ RhS s'.
Proof.
  intros C P N s'. assert (R : reached s') by (apply reached_step; apply C).
  assert (E : q_net s' = q_net s /\ q_phy s' = q_phy s /\ q_frames s' = q_frames s /\ c_now (q_chan s') = c_now (q_chan s) /\ c_pend (q_chan s') = remove_nth i (c_pend (q_chan s))).
  { unfold s'. cbn [qstep]. rewrite N. cbn [chan_step]. rewrite N. repeat split; reflexivity. }
  destruct E as (E1 & E2 & E3 & E4 & E5). clearbody s'. split.
  - destruct C. unfold idle_node, St, now in *. constructor; auto; unfold idle_node, St, now; rewrite ?E1, ?E4; auto. intros e I. rewrite E5 in I. apply in_remove_nth in I. specialize (cm_pend e I). unfold MStackLive.okp in *. rewrite E3. exact cm_pend.
  - unfold RhS, now, pD, MStackLive.pR, St, Ot in *. rewrite E1, E2, E3, E4, E5, !(filter_miss _ i _ _ N eq_refl). exact P.
Qed.

Lemma rx_step i tt ce j ne x o dl pw s : Com s -> RhS s -> nth_error (c_pend (q_chan s)) i = Some (tt, ce) -> ce = ERecv j ne \/ ce = ERecvDone j ne -> @nth_error Z nodes j = Some x ->
  tt = now s -> hears pw -> let s' := qstep K o0 s (QChan i o dl pw) in Com s' /\ RhS s'.
Proof.
  intros C P N CE NX TN HE s'. assert (R : reached s') by (apply reached_step; apply C). destruct (reached_inv s (cm_r _ C)) as [V _]. pose proof (i_devs _ _ _ _ V) as DV. cbn [K mac_conf q_nodes] in DV.
  assert (IX : In x nodes) by (eapply nth_error_In; exact NX).
  assert (OK : okp s (tt, ce)) by (apply C; eapply nth_error_In; exact N). assert (OK' : exists f, nth_error (q_frames s) (n_k ne) = Some f /\ (mf_dst f = a \/ mf_dst f = b)) by (destruct CE as [-> | ->]; exact OK). clear OK.
  assert (RX : forall y, isR y (tt, ce) = (x =? y)) by (intros y; unfold MStackLive.isR; destruct CE as [-> | ->]; cbn [snd]; rewrite NX; reflexivity).
  assert (DX : isD (tt, ce) = false) by (destruct CE as [-> | ->]; reflexivity).
  assert (FIN : forall ev r e, x = a \/ x = b -> q_net s' = mput (q_net s) x (node_of s x ev r) -> m_now (fst r) = m_now (St s x) -> c_now (q_chan s') = c_now (q_chan s) ->
    c_pend (q_chan s') = remove_nth i (c_pend (q_chan s)) ++ [e] -> (snd e = ERecvDone j ne \/ snd e = EDelete ne) -> q_frames s' = q_frames s -> Com s').
  { intros ev r e0 X E1 E2 E3 E4 E4' E5. eapply com_net; [exact C|exact R|exact E1| |exact E2|exact E3|].
    - intros Y1 Y2. destruct X; contradiction.
    - intros e I. rewrite E4 in I. unfold MStackLive.okp. rewrite E5. apply in_app_or in I. destruct I as [I|[<-|[]]]; [apply in_remove_nth in I; exact (cm_pend _ C e I)|].
      destruct E4' as [-> | ->]; auto. }
  assert (PD' : forall e, c_pend (q_chan s') = remove_nth i (c_pend (q_chan s)) ++ [e] -> snd e = ERecvDone j ne \/ snd e = EDelete ne -> pD s' = pD s).
  { intros e E2 E1. unfold pD. rewrite E2, filter_app, (filter_miss isD i _ _ N DX). cbn [filter]. unfold isD at 2. destruct E1 as [-> | ->]; apply app_nil_r. }
  assert (PR' : forall y e, y <> x -> c_pend (q_chan s') = remove_nth i (c_pend (q_chan s)) ++ [e] -> snd e = ERecvDone j ne \/ snd e = EDelete ne -> pR s' y = pR s y).
  { intros y e NE E2 E1. apply not_eq_sym, Z.eqb_neq in NE. unfold MStackLive.pR. rewrite E2, filter_app, (filter_miss (isR y) i _ _ N) by (rewrite RX; exact NE). cbn [filter]. unfold MStackLive.isR at 2.
    destruct E1 as [-> | ->]; [rewrite NX, NE|]; apply app_nil_r. }
  destruct HE as (HE1 & HE2 & HE3 & HE4). destruct RDUR as [RP RE]. destruct CDUR as [CP CE0]. assert (PSC : 0 < psec) by (unfold psec; lia).
  destruct (Z.eq_dec x a) as [->|XA]; [|destruct (Z.eq_dec x b) as [->|XB]].
  - (* the CTS at a *)
    assert (RA : isR a (tt, ce) = true) by (rewrite RX; apply Z.eqb_refl).
    assert (NO : pR s a = [] -> False) by (intros E; rewrite (filter_nil (isR a) i _ _ N E) in RA; discriminate RA).
    destruct P as [u X CT L1 QT|u X CT L1 QT|u T1 X CT L1 L2 QT|T1 d1 j' ne' f X L1 L2 L3 RA'|T1 d1 j' ne' f X L1 L2 L3 RA'|T1 d1 f X L1 L2 L3 RA'
      |T1 d1 d2 j' ne' f g X PA B L1 L2 L3 L4 RA' RB ND' NF FR AK EA EB|T1 d1 d2 j' ne' f g X PA B L1 L2 L3 L4 RA' RB NF FR AK EA EB|T3 Tb te f g X PA B L1 L2 L3 L4 RA']; try (destruct (NO RA')); try (destruct (NO (qt_ra _ _ _ _ _ _ _ _ _ QT))).
    + destruct (filter_one (isR a) i _ _ _ N RA RA') as [E E']. injection E as TT CE'. rewrite CE' in CE. destruct CE as [CE|CE]; [|discriminate CE]. injection CE as -> ->. subst ce.
      destruct (ar_start (cfg a) p T0 _ _ (Menv false (ye_draw o)) _ _ (reached_ids s a (cm_r _ C)) X) as [Y1 Y2].
      assert (TM : T0 < now s + n_dur ne) by (rewrite ND'; unfold psec in *; lia).
      destruct (chan_recv i tt j ne a o dl pw s T0 (now s) N DV NX PA HE1 TM) as (S1 & S2 & S3 & S4 & S5 & S6); [unfold MStackLive.after_ev; cbn [mac_event]; rewrite Y2; reflexivity|]. fold K in S1, S2, S3, S4, S5, S6. fold s' in S1, S2, S3, S4, S5, S6.
      split; [eapply FIN; [auto|exact S1|unfold MStackLive.after_ev; apply ev_now; discriminate|exact S4|exact S5|left; reflexivity|exact S6]|].
      destruct (st_same _ _ _ _ _ S1) as [E1 E2]. destruct (st_other _ _ _ _ _ b S1 (not_eq_sym AB)) as [E3 E4]. unfold MStackLive.after_ev in E1, E2. cbn [mac_event] in E1, E2. rewrite Y2, app_nil_r in E2.
      unfold RhS. rewrite E1, E2, E3, E4, S2, (S3 b (not_eq_sym AB)), S6, (PD' _ S5 (or_introl eq_refl)), (PR' b _ (not_eq_sym AB) S5 (or_introl eq_refl)). unfold now. rewrite S4. fold (now s).
      assert (RR : pR s' a = [(T1 + d1 + Rd + psec + d2 + Cd, ERecvDone j ne)]).
      { unfold MStackLive.pR. rewrite S5, filter_app, E'. cbn [filter]. unfold MStackLive.isR. cbn [snd]. rewrite NX, Z.eqb_refl. cbn [app]. fold (now s). rewrite <- TN, TT, ND'. reflexivity. }
      rewrite RR. eapply R8 with (T1 := T1) (d1 := d1) (d2 := d2) (ne := ne) (f := f) (g := g); eauto; [|lia].
      destruct PA. constructor; auto; cbn [receiving k_end k_rxs k_list].
      * rewrite ND', pi_now, <- TN, TT. reflexivity.
      * rewrite pi_rxs. eexists. split; [reflexivity|]. auto.
      * intros z Z. apply in_app_or in Z. destruct Z as [Z|[<-|[]]]; [right; apply pi_list; auto|left; split; [reflexivity|]]. unfold g_end. cbn [g_start g_dur]. rewrite ND', pi_now, <- TN, TT. lia.
    + destruct (filter_one (isR a) i _ _ _ N RA RA') as [E E']. injection E as TT CE'. rewrite CE' in CE. destruct CE as [CE|CE]; [discriminate CE|]. injection CE as -> ->. subst ce.
      destruct AK as (AK1 & AK2 & AK3 & AK4).
      destruct (ar_end (cfg a) p T0 _ _ (Menv true (ye_draw o)) f g _ X) as [Y1 Y2]; [exact AK1|rewrite ADDR by auto; exact AK3|exact AK4|].
      assert (RF : read_frame (ye_junk o) g = g) by (unfold read_frame; rewrite AK1; reflexivity).
      assert (TM : T0 < now s) by (unfold psec in *; lia). assert (PA' : Pr T0 (now s) (Z.of_nat (n_k ne)) (now s) (fun w => good a w 0) (q_phy s a)) by (rewrite <- TN at 2; rewrite TT; exact PA).
      destruct (chan_end i tt j ne a o dl pw s T0 (now s) g N DV NX PA' TM NF) as (S1 & S2 & S4 & S5 & S6 & S7); [unfold MStackLive.after_ev; cbn [mac_event]; rewrite RF, snd_vis, Y2; reflexivity|]. fold K in S1, S2, S4, S5, S6, S7. fold s' in S1, S2, S4, S5, S6, S7.
      split; [eapply FIN; [auto|exact S1|unfold MStackLive.after_ev; apply ev_now; discriminate|exact S5|exact S6|right; reflexivity|exact S7]|].
      destruct (st_same _ _ _ _ _ S1) as [E1 E2]. destruct (st_other _ _ _ _ _ b S1 (not_eq_sym AB)) as [E3 E4]. unfold MStackLive.after_ev in E1, E2. cbn [mac_event] in E1, E2. rewrite RF in E1, E2. rewrite Y2, app_nil_r in E2.
      unfold RhS. rewrite E1, E2, E3, E4, S7, (S4 b (not_eq_sym AB)), (PD' _ S6 (or_intror eq_refl)), (PR' b _ (not_eq_sym AB) S6 (or_intror eq_refl)). unfold now. rewrite S5. fold (now s).
      assert (RR : pR s' a = []). { unfold MStackLive.pR. rewrite S6, filter_app, E'. reflexivity. }
      rewrite RR. eapply R9 with (T3 := now s) (Tb := T1 + d1 + Rd) (te := T1 + d1 + Rd + psec + Cd) (f := f) (g := g); eauto; try (unfold iscts; auto; fail); try (rewrite <- TN, TT; unfold Tc; lia).
  - (* the RTS at b *)
    assert (RA : isR b (tt, ce) = true) by (rewrite RX; apply Z.eqb_refl).
    assert (NO : pR s b = [] -> False) by (intros E; rewrite (filter_nil (isR b) i _ _ N E) in RA; discriminate RA).
    destruct P as [u X CT L1 QT|u X CT L1 QT|u T1 X CT L1 L2 QT|T1 d1 j' ne' f X L1 L2 L3 RA' RB ND' NF FR PB B EA EB|T1 d1 j' ne' f X L1 L2 L3 RA' RB NF FR PB B EA EB|T1 d1 f X L1 L2 L3 RA' RB
      |T1 d1 d2 j' ne' f g X PA B L1 L2 L3 L4 RA' RB|T1 d1 d2 j' ne' f g X PA B L1 L2 L3 L4 RA' RB|T3 Tb te f g X PA B L1 L2 L3 L4 RA' RB]; try (destruct (NO RB)); try (destruct (NO (qt_rb _ _ _ _ _ _ _ _ _ QT))).
    + destruct (filter_one (isR b) i _ _ _ N RA RB) as [E E']. injection E as TT CE'. rewrite CE' in CE. destruct CE as [CE|CE]; [|discriminate CE]. injection CE as -> ->. subst ce.
      destruct B as (B1 & B2 & B3).
      destruct (bq_start FB (cfg b) (Menv false (ye_draw o)) _ (reached_ids s b (cm_r _ C)) B1) as (Y1 & Y2 & Y3). pose proof (navs_start FB (cfg b) (Menv false (ye_draw o)) _ (reached_ids s b (cm_r _ C)) B1) as Y4.
      assert (TM : T0 < now s + n_dur ne) by (rewrite ND'; unfold psec in *; lia).
      destruct (chan_recv i tt j ne b o dl pw s T0 (now s) N DV NX PB HE3 TM) as (S1 & S2 & S3 & S4 & S5 & S6); [unfold MStackLive.after_ev; cbn [mac_event]; rewrite Y2; reflexivity|]. fold K in S1, S2, S3, S4, S5, S6. fold s' in S1, S2, S3, S4, S5, S6.
      split; [eapply FIN; [auto|exact S1|unfold MStackLive.after_ev; apply ev_now; discriminate|exact S4|exact S5|left; reflexivity|exact S6]|].
      destruct (st_same _ _ _ _ _ S1) as [E1 E2]. destruct (st_other _ _ _ _ _ a S1 AB) as [E3 E4]. unfold MStackLive.after_ev in E1, E2. cbn [mac_event] in E1, E2. rewrite Y2, app_nil_r in E2.
      unfold RhS. rewrite E1, E2, E3, E4, S2, (S3 a AB), S6, (PD' _ S5 (or_introl eq_refl)), (PR' a _ AB S5 (or_introl eq_refl)). unfold now. rewrite S4. fold (now s).
      assert (RR : pR s' b = [(T1 + d1 + Rd, ERecvDone j ne)]).
      { unfold MStackLive.pR. rewrite S5, filter_app, E'. cbn [filter]. unfold MStackLive.isR. cbn [snd]. rewrite NX, Z.eqb_refl. cbn [app]. fold (now s). rewrite <- TN, TT, ND'. reflexivity. }
      rewrite RR. eapply R5 with (T1 := T1) (d1 := d1) (ne := ne) (f := f); eauto; [lia| |split; [exact Y1|split; [rewrite Y4; exact B2|congruence]]].
      destruct PB. constructor; auto; cbn [receiving k_end k_rxs k_list].
      * rewrite ND', pi_now, <- TN, TT. reflexivity.
      * rewrite pi_rxs. eexists. split; [reflexivity|]. auto.
      * intros z Z. apply in_app_or in Z. destruct Z as [Z|[<-|[]]]; [right; apply pi_list; auto|left; split; [reflexivity|]]. unfold g_end. cbn [g_start g_dur]. rewrite ND', pi_now, <- TN, TT. lia.
    + destruct (filter_one (isR b) i _ _ _ N RA RB) as [E E']. injection E as TT CE'. rewrite CE' in CE. destruct CE as [CE|CE]; [discriminate CE|]. injection CE as -> ->. subst ce.
      destruct B as (B1 & B2 & B3). destruct FR as (F1 & F2 & F3 & F4).
      set (f' := read_frame (ye_junk o) f). assert (RF : mf_type f' = T_RTS /\ mf_src f' = a /\ mf_dst f' = b /\ mf_seq f' = mf_seq p) by (unfold f', read_frame; destruct (_ =? _); cbn; auto). destruct RF as (G1 & G2 & G3 & G4).
      destruct (bq_rts FB (cfg b) (Menv true (ye_draw o)) f' (St s b)) as (Y1 & Y2 & Y3); [exact B1|exact G1|rewrite ADDR by auto; exact G3|unfold psec in *; lia|].
      assert (TM : T0 < now s) by (unfold psec in *; lia). assert (PB' : Pr T0 (now s) (Z.of_nat (n_k ne)) (now s) (fun w => good b w 0) (q_phy s b)) by (rewrite <- TN at 2; rewrite TT; exact PB).
      destruct (chan_end i tt j ne b o dl pw s T0 (now s) f N DV NX PB' TM NF) as (S1 & S2 & S4 & S5 & S6 & S7); [unfold MStackLive.after_ev; cbn [mac_event]; rewrite snd_vis; fold f'; rewrite Y2; reflexivity|]. fold K in S1, S2, S4, S5, S6, S7. fold s' in S1, S2, S4, S5, S6, S7.
      split; [eapply FIN; [auto|exact S1|unfold MStackLive.after_ev; apply ev_now; discriminate|exact S5|exact S6|right; reflexivity|exact S7]|].
      destruct (st_same _ _ _ _ _ S1) as [E1 E2]. destruct (st_other _ _ _ _ _ a S1 AB) as [E3 E4]. unfold MStackLive.after_ev in E1, E2. cbn [mac_event] in E1, E2. fold f' in E1, E2. rewrite Y2, app_nil_r in E2.
      unfold RhS. rewrite E1, E2, E3, E4, S7, (S4 a AB), (PD' _ S6 (or_intror eq_refl)), (PR' a _ AB S6 (or_intror eq_refl)), EB. unfold now. rewrite S5. fold (now s).
      assert (RR : pR s' b = []). { unfold MStackLive.pR. rewrite S6, filter_app, E'. reflexivity. }
      rewrite RR. eapply R6 with (T1 := T1) (d1 := d1) (f := f); eauto; [lia|unfold isrts; auto| |].
      * rewrite <- TT, TN. exact S2.
      * rewrite G2, G4, B3, <- TN, TT in Y1. exact Y1.
  - (* at another node *)
    destruct (other_chan x i tt ce j ne o dl pw s N CE DV NX (cm_idle _ C x IX XA XB) (reached_ids s x (cm_r _ C))) as (O1 & O2 & O3 & O4 & e & O5 & O6).
    { destruct OK' as (f & F1 & F2). intros f' F'. assert (f' = f) by congruence. subst f'. apply dest_foreign; auto. }
    fold K in O1, O2, O3, O4, O5. fold s' in O1, O2, O3, O4, O5. clearbody s'. destruct (O2 a (not_eq_sym XA)) as [A1 A2], (O2 b (not_eq_sym XB)) as [B1 B2]. split.
    + destruct C. constructor; auto.
      * intros y Y1 Y2 Y3. destruct (Z.eq_dec y x) as [->|NE]; [exact O1|]. unfold idle_node, St. rewrite (proj1 (O2 y NE)). apply cm_idle; auto.
      * intros e' I. rewrite O5 in I. unfold MStackLive.okp. rewrite O3. apply in_app_or in I. destruct I as [I|[<-|[]]]; [apply in_remove_nth in I; exact (cm_pend e' I)|]. destruct O6 as [-> | ->]; auto.
      * unfold St, now in *. rewrite A1, O4. exact cm_a.
      * unfold St, now in *. rewrite B1, O4. exact cm_b.
    + unfold RhS. rewrite (PD' e O5 O6), (PR' a e (not_eq_sym XA) O5 O6), (PR' b e (not_eq_sym XB) O5 O6), O3, A2, B2. unfold St, Ot, now. rewrite A1, B1, O4. exact P.
Qed.

Lemma chan_ok i o dl pw s : Com s -> RhS s -> ctimely (q_chan s) (CFire i) = true -> hears pw -> let s' := qstep K o0 s (QChan i o dl pw) in Com s' /\ RhS s'.
Proof.
  intros C P T H s'. cbn [ctimely] in T. destruct (nth_error (c_pend (q_chan s)) i) as [[tt ce]|] eqn:N; [|discriminate T]. apply Z.eqb_eq in T.
  destruct (reached_inv s (cm_r _ C)) as [V _]. pose proof (i_pend _ _ _ _ V _ (nth_error_In _ _ N)) as PO. unfold pend_ok in PO. cbn [snd] in PO.
  destruct ce as [k x|j ne|j ne|ne]; [eapply done_step; eauto| | |eapply delete_step; eauto]; destruct PO as (x & r & NX & _); eapply rx_step; eauto.
Qed.

(** ** All executions *)
Hypothesis SIFSB : mc_sifs (cfg b) = mc_sifs (cfg a).
Hypothesis DUR : mc_data (cfg a) (mf_size p) = dur p.
Hypothesis ADUR : 0 < mc_ctrl (cfg a) T_ACK /\ forall f, mf_type f = T_ACK -> dur f = mc_ctrl (cfg a) T_ACK.
Hypothesis REACHA : 2 * reach < 2 * prop + mc_slot (cfg a).
Hypothesis NEW : fst (is_new FB a (mf_seq p)) = true.
Hypothesis QUICK : mc_sifs (cfg a) + mc_ctrl (cfg a) T_ACK + 2 * reach + psec < tdata.
Lemma one_step e s : Com s -> RhS s \/ Next s -> internal e -> qtimely (macs_due nodes) macs_own s e = true -> Com (qstep K o0 s e) /\ (RhS (qstep K o0 s e) \/ Next (qstep K o0 s e)).
Proof.
  intros C [P|(T3 & f & g & P1 & P2 & P3 & P)] I T.
  - destruct e as [x o dl y|i o dl pw|t]; cbn [MStackLive.internal qtimely] in *.
    + destruct I as (IX & [i ->] & DL & DR). apply own_step; auto.
    + destruct (chan_ok i o dl pw s); auto.
    + destruct (tick_step t s); auto.
  - destruct (MStackLive.one_step cfg q0 dur sense good nodes o0 a b p T3 T0 (T3 + psec) FB (OA ++ [OSnd f]) (OB ++ [OSnd g])) with (reach := reach) (e := e) (s := s) as [C' P']; auto.
    split; [exact C'|]. right. exists T3, f, g. auto.
Qed.
Lemma all_steps l : forall s, Com s -> RhS s \/ Next s -> Forall internal l -> qtimely_run K (macs_due nodes) macs_own o0 s l = true -> Com (qrun K o0 s l) /\ (RhS (qrun K o0 s l) \/ Next (qrun K o0 s l)).
Proof.
  induction l as [|e l IH]; intros s C P F T; [auto|]. inversion F; subst. cbn [qtimely_run] in T. apply andb_true_iff in T. destruct T as [T1 T2].
  destruct (one_step e s C P) as [C' P']; auto. cbn [qrun]. apply IH; auto.
Qed.
(** The report comes at the latest then. *)
Definition rdeadline : Z := Tc + psec + dur p + mc_sifs (cfg a) + mc_ctrl (cfg a) T_ACK + 2 * reach + psec.
Lemma rts_end s : RhS s \/ Next s -> rdeadline < now s -> Ae (St s a) /\ exists f c g, isrts f /\ iscts c /\ isack a b p g /\
  Ot s a = OA ++ [OSnd f; OSnd p; ORep true p] /\ Ot s b = OB ++ [OSnd c; OUp p; OSnd g].
Proof.
  intros [P|(T3 & f & c & P1 & P2 & P3 & P)] L.
  - exfalso. assert (TP : 0 < tdata) by (unfold tdata, nsec; lia). assert (PS : 0 < psec) by (unfold psec; lia). destruct RDUR as [RP _]. destruct CDUR as [CP _]. destruct ADUR as [AP _].
    unfold rdeadline in L. destruct P; unfold Tc, Tg in *; lia.
  - destruct (at_end cfg dur good a b p T3 T0 (T3 + psec) FB (OA ++ [OSnd f]) (OB ++ [OSnd c]) AB NBC DIFS (conj SIFS SIFSB) (conj DPOS DUR) ADUR reach REACH0 _ _ _ _ _ _ _ _ _ _ _ P) as (E & g & G1 & G2 & G3).
    { unfold deadline, rdeadline in *. lia. }
    split; [exact E|]. exists f, c, g. rewrite G2, G3, <- !app_assoc. auto.
Qed.
End Rts.
