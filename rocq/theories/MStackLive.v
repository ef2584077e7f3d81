(** One packet in an otherwise idle network of THzMacMacro nodes with PHYs and channel, step by step: all of it without RTS; with
    RTS, from the transmission of the packet on (the rest is in MStackRts). *)
From Coq Require Import ZArith List Lia Bool.
From Verif Require Import Base HeaderModel SeqModel EnergyModel MacModel MacSpec MacProofs MacAcct MacSteps MacLive MacNet MacExch
  MacroPhyModel ChannelModel MStackModel MStackProofs MStackMac.
From Verif Require StatMac.
Import ListNotations.
Open Scope Z_scope.

(** The PHY of a node does not receive anything and has not since [T0]. *)
Record Pi (T0 t : Z) (st : kst) (q : kphy) : Prop := {
  pi_now : k_now q = t; pi_state : k_state q = st; pi_busy : k_busy q = false; pi_end : k_end q <= T0; pi_rxs : k_rxs q = [];
  pi_list : forall g, In g (k_list q) -> g_end g <= T0 }.
(** It receives the packet [id] until [te]. *)
Record Pr (T0 t id te : Z) (ok : Z -> bool) (q : kphy) : Prop := {
  pr_now : k_now q = t; pr_state : k_state q = KRx; pr_end : k_end q = te; pr_rx : k_rx q = Some id;
  pr_rxs : exists g, k_rxs q = [g] /\ g_id g = id /\ ok (g_pow g) = true;
  pr_list : forall g, In g (k_list q) -> g_id g = id /\ g_end g <= te \/ g_end g <= T0 }.

Lemma no_interference T0 now id l : T0 < now -> (forall g, In g l -> g_id g = id \/ g_end g <= T0) -> k_interference now id l = 0.
Proof.
  intros L. induction l as [|g l IH]; intros F; [reflexivity|]. cbn [k_interference]. rewrite IH by (intros; apply F; right; auto). rewrite Z.add_0_r.
  destruct (F g (or_introl eq_refl)) as [E|E]; [rewrite E, Z.eqb_refl; reflexivity|]. unfold g_end in E.
  replace (now - g_start g <=? g_dur g) with false by (symmetry; apply Z.leb_gt; lia). rewrite andb_false_r. reflexivity.
Qed.

Section Live.
Variables (cfg : addr -> mcfg) (q0 : addr -> Z) (dur : mframe -> Z) (sense : addr -> Z -> bool) (good : addr -> Z -> Z -> bool) (nodes : list addr) (o0 : yenv).
Let K := mac_conf cfg dur sense good nodes.
Notation stack := (mstack (addr -> mnode) mframe).
Definition reached (s : stack) : Prop := exists l, s = qrun K o0 (qinit K (macs0 q0)) l.

Definition St (s : stack) (x : addr) : mst := n_st (q_net s x).
Definition Ot (s : stack) (x : addr) : list mout := vis (n_out (q_net s x)).
Definition isD (e : Z * cev) : bool := match snd e with ESendDone _ _ => true | _ => false end.
Definition isR (x : addr) (e : Z * cev) : bool :=
  match snd e with ERecv j _ | ERecvDone j _ => match @nth_error Z nodes j with Some d => d =? x | None => false end | _ => false end.
Definition pD (s : stack) := filter isD (c_pend (q_chan s)).
Definition pR (s : stack) x := filter (isR x) (c_pend (q_chan s)).
Definition now (s : stack) : Z := c_now (q_chan s).

(** ** Invariants of all executions *)
Lemma reached_step s e : reached s -> reached (qstep K o0 s e).
Proof.
  intros [l ->]. exists (l ++ [e]). generalize (qinit K (macs0 q0)). induction l as [|x l IH]; intros s; [reflexivity|]. cbn [app qrun]. apply IH.
Qed.
Lemma reached_inv s : reached s -> Inv K (nreach cfg q0) macs_sent s /\ forall a, agree macs_air s a.
Proof. intros [l ->]. apply macs_run. Qed.
Lemma mreach_ids c q h s o : mreach c q h s o -> Ids s.
Proof. induction 1 as [|h s o e ev H IH]; [apply ids_init|]. eapply ids_step; [apply cases|exact IH]. Qed.
Lemma reached_ids s x : reached s -> Ids (St s x).
Proof. intros R. destruct (reached_inv s R) as [I _]. eapply mreach_ids, nreach_node, (i_net _ _ _ _ I). Qed.

(** ** One event at one node *)
Definition after_ev (s : stack) (x : addr) (o : yenv) (idle : bool) (ev : nev yev mframe) : mst * list mout := mstep (cfg x) (Menv idle (ye_draw o)) (St s x) (mac_event o ev).
Definition node_of (s : stack) (x : addr) (ev : mevent) (r : mst * list mout) : mnode := Mnode (n_hist (q_net s x) ++ [ev]) (fst r) (n_out (q_net s x) ++ snd r).

Lemma mac_mute x o dl ev s : let r := after_ev s x o (is_idle (q_phy s x)) ev in vis (snd r) = [] \/ snd_of (snd r) = [] ->
  mac_ev K x o dl ev s = set_net (mput (q_net s) x (node_of s x (mac_event o ev) r)) s.
Proof.
  intros r V. assert (E : snd_of (snd r) = []). { destruct V as [V|V]; auto. rewrite snd_vis, V. reflexivity. }
  unfold mac_ev. cbn [K mac_conf q_step mac_step snd fst]. change (mstep _ _ _ _) with r. unfold mac_sends. rewrite E. reflexivity.
Qed.
Lemma mac_sends_one x o dl ev s f : let r := after_ev s x o (is_idle (q_phy s x)) ev in snd_of (snd r) = [f] ->
  k_state (q_phy s x) <> KTx -> c_devs (q_chan s) = nodes -> In x nodes ->
  let s' := mac_ev K x o dl ev s in let h := q_chan s in
  q_net s' = mput (q_net s) x (node_of s x (mac_event o ev) r) /\
  q_phy s' x = KPhy (k_now (q_phy s x)) KTx (k_busy (q_phy s x)) (k_end (q_phy s x)) (k_rx (q_phy s x)) (k_list (q_phy s x)) (k_txs (q_phy s x) ++ [k_now (q_phy s x) + dur f]) (k_rxs (q_phy s x)) (k_next (q_phy s x)) /\
  (forall y, y <> x -> q_phy s' y = q_phy s y) /\
  c_now (q_chan s') = c_now h /\ c_pend (q_chan s') = c_pend h ++ (c_now h + dur f, ESendDone (length (c_log h)) x) :: announce (c_now h) (length (c_log h)) x (dur f) dl 0 nodes /\
  q_frames s' = q_frames s ++ [f].
Proof.
  intros r E KS DV IX s' h. unfold s', mac_ev. cbn [K mac_conf q_step mac_step snd fst]. change (mstep _ _ _ _) with r. unfold mac_sends. rewrite E. cbn [map fold_left].
  unfold one_send. cbn [set_net q_phy snd fst q_net q_chan q_frames q_bad q_sense q_good mac_conf K].
  assert (Q : kstep (sense x) (good x) (q_phy s x) (KSend (dur f)) =
    (KPhy (k_now (q_phy s x)) KTx (k_busy (q_phy s x)) (k_end (q_phy s x)) (k_rx (q_phy s x)) (k_list (q_phy s x)) (k_txs (q_phy s x) ++ [k_now (q_phy s x) + dur f]) (k_rxs (q_phy s x)) (k_next (q_phy s x)), [KOwn (k_now (q_phy s x)) (dur f)])).
  { cbn [kstep]. unfold k_send. destruct (k_state (q_phy s x)); auto. exfalso. apply KS. reflexivity. }
  rewrite Q. cbn [chan_step]. unfold chan_send. rewrite DV.
  replace (existsb (Z.eqb x) nodes) with true by (symmetry; apply existsb_exists; exists x; split; [auto|apply Z.eqb_refl]). cbn [negb andb fst snd q_net q_phy q_chan q_frames c_now c_pend].
  rewrite Z.eqb_refl. repeat split; auto. intros y N. apply Z.eqb_neq in N. rewrite N. reflexivity.
Qed.

Lemma st_same s s' x ev r : q_net s' = mput (q_net s) x (node_of s x ev r) -> St s' x = fst r /\ Ot s' x = Ot s x ++ vis (snd r).
Proof. intros E. unfold St, Ot. rewrite E. unfold mput. rewrite Z.eqb_refl. cbn. rewrite vis_app. auto. Qed.
Lemma st_other s s' x ev r y : q_net s' = mput (q_net s) x (node_of s x ev r) -> y <> x -> St s' y = St s y /\ Ot s' y = Ot s y.
Proof. intros E N. unfold St, Ot. rewrite E. unfold mput. apply Z.eqb_neq in N. rewrite N. auto. Qed.

Lemma st_set s x ev r : St (set_net (mput (q_net s) x (node_of s x ev r)) s) x = fst r.
Proof. unfold St. cbn [set_net q_net]. unfold mput. rewrite Z.eqb_refl. reflexivity. Qed.

(** ** Events of the channel *)
Definition idled (q : kphy) (txs : list Z) : kphy := KPhy (k_now q) KIdle (k_busy q) (k_end q) (k_rx q) (k_list q) txs (k_rxs q) (k_next q).
Lemma chan_done i tt k x o dl pw s : nth_error (c_pend (q_chan s)) i = Some (tt, ESendDone k x) -> k_txs (q_phy s x) <> [] ->
  let q' := idled (q_phy s x) (remove_nth 0 (k_txs (q_phy s x))) in let r := after_ev s x o (is_idle q') NTxDone in vis (snd r) = [] ->
  let s' := qstep K o0 s (QChan i o dl pw) in
  q_net s' = mput (q_net s) x (node_of s x ETxDone r) /\ q_phy s' x = q' /\ (forall y, y <> x -> q_phy s' y = q_phy s y) /\
  c_now (q_chan s') = c_now (q_chan s) /\ c_pend (q_chan s') = remove_nth i (c_pend (q_chan s)) /\ q_frames s' = q_frames s.
Proof.
  intros N T q' r V s'. unfold s'. cbn [qstep]. rewrite N. cbn [chan_step]. rewrite N. cbn [chan_run fst snd fold_left chan_out cev_dur set_chan q_phy q_chan q_net].
  destruct (k_txs (q_phy s x)) as [|z l] eqn:TX; [contradiction|]. unfold phy_ev. cbn [q_sense q_good K mac_conf kstep]. rewrite TX. cbn [nth_error remove_nth]. unfold k_send_done. cbn [fst snd fold_left phy_out].
  match goal with |- context [mac_ev K x o dl NTxDone ?s1] => set (s2 := s1) end.
  assert (P2 : q_phy s2 x = q') by (unfold s2; cbn [set_phy q_phy]; rewrite Z.eqb_refl; reflexivity).
  assert (R2 : after_ev s2 x o (is_idle (q_phy s2 x)) NTxDone = r) by (rewrite P2; reflexivity).
  rewrite mac_mute by (left; rewrite R2; exact V). rewrite R2. cbn [set_net q_net q_phy q_chan q_frames]. rewrite P2. repeat split; auto.
  intros y NE. unfold s2. cbn [set_phy q_phy]. apply Z.eqb_neq in NE. rewrite NE. reflexivity.
Qed.

Definition receiving (q : kphy) (k : nat) (d pw : Z) : kphy :=
  let g := Sig (Z.of_nat k) (k_now q) d pw in
  KPhy (k_now q) KRx true (k_now q + d) (Some (Z.of_nat k)) (k_list q ++ [g]) (k_txs q) (k_rxs q ++ [g]) (Z.of_nat k + 1).
Lemma chan_recv i tt j ne x o dl pw s T0 t : nth_error (c_pend (q_chan s)) i = Some (tt, ERecv j ne) -> c_devs (q_chan s) = nodes -> @nth_error Z nodes j = Some x ->
  Pi T0 t KIdle (q_phy s x) -> sense x pw = true -> T0 < t + n_dur ne ->
  let q' := receiving (q_phy s x) (n_k ne) (n_dur ne) pw in let r := after_ev s x o false NRxStart in vis (snd r) = [] ->
  let s' := qstep K o0 s (QChan i o dl pw) in
  q_net s' = mput (q_net s) x (node_of s x ERxStart r) /\ q_phy s' x = q' /\ (forall y, y <> x -> q_phy s' y = q_phy s y) /\
  c_now (q_chan s') = c_now (q_chan s) /\ c_pend (q_chan s') = remove_nth i (c_pend (q_chan s)) ++ [(c_now (q_chan s) + n_dur ne, ERecvDone j ne)] /\ q_frames s' = q_frames s.
Proof.
  intros N DV NX [] SE L q' r V s'. unfold s'. cbn [qstep]. rewrite N. cbn [chan_step]. rewrite N. cbv zeta. unfold chan_run. cbn [c_devs c_now c_noise c_pend c_log]. rewrite !DV, !NX.
  cbn [fst snd fold_left chan_out cev_dur set_chan q_phy q_chan q_net c_now c_pend]. unfold phy_ev. cbn [q_sense q_good K mac_conf kstep]. unfold k_receive. cbn [with_next k_state k_now k_next k_list k_rxs k_busy k_end k_rx k_txs].
  rewrite pi_state0, SE, pi_busy0, pi_now0. replace (t + n_dur ne >? k_end (q_phy s x)) with true by (symmetry; rewrite Z.gtb_ltb; apply Z.ltb_lt; lia). cbn [andb fst snd fold_left phy_out].
  match goal with |- context [mac_ev K x o dl NRxStart ?s1] => set (s2 := s1) end.
  assert (P2 : q_phy s2 x = q') by (unfold s2; cbn [set_phy q_phy]; rewrite Z.eqb_refl; unfold q', receiving; rewrite pi_now0; reflexivity).
  assert (R2 : after_ev s2 x o (is_idle (q_phy s2 x)) NRxStart = r) by (rewrite P2; reflexivity).
  rewrite mac_mute by (left; rewrite R2; exact V). rewrite R2. cbn [set_net q_net q_phy q_chan q_frames]. rewrite P2. repeat split; auto.
  intros y NE. unfold s2. cbn [set_phy q_phy]. apply Z.eqb_neq in NE. rewrite NE. reflexivity.
Qed.

Lemma chan_end i tt j ne x o dl pw s T0 t f : nth_error (c_pend (q_chan s)) i = Some (tt, ERecvDone j ne) -> c_devs (q_chan s) = nodes -> @nth_error Z nodes j = Some x ->
  Pr T0 t (Z.of_nat (n_k ne)) t (fun p => good x p 0) (q_phy s x) -> T0 < t -> nth_error (q_frames s) (n_k ne) = Some f ->
  let r := after_ev s x o true (NRxEnd f true 0) in snd_of (snd r) = [] ->
  let s' := qstep K o0 s (QChan i o dl pw) in
  q_net s' = mput (q_net s) x (node_of s x (ERxEnd (read_frame (ye_junk o) f) true) r) /\
  Pi t t KIdle (q_phy s' x) /\ (forall y, y <> x -> q_phy s' y = q_phy s y) /\
  c_now (q_chan s') = c_now (q_chan s) /\ c_pend (q_chan s') = remove_nth i (c_pend (q_chan s)) ++ [(c_now (q_chan s), EDelete ne)] /\ q_frames s' = q_frames s.
Proof.
  intros N DV NX [] L FR r V s'. unfold s'. cbn [qstep]. rewrite N. cbn [chan_step]. rewrite N. cbv zeta. unfold chan_run. cbn [c_devs c_now c_noise c_pend c_log]. rewrite !DV, !NX.
  cbn [fst snd fold_left chan_out cev_dur set_chan q_phy q_chan q_net c_now c_pend]. destruct pr_rxs0 as (g & G1 & G2 & G3). rewrite G1. cbn [sig_at]. rewrite G2, Z.eqb_refl.
  unfold phy_ev. cbn [q_sense q_good K mac_conf kstep]. rewrite G1. cbn [nth_error remove_nth]. unfold k_receive_done. cbn [k_state k_now k_next k_list k_rxs k_busy k_end k_rx k_txs].
  rewrite pr_state0, pr_rx0, pr_end0, pr_now0, G2, Z.eqb_refl. replace (t <=? t + ns) with true by (symmetry; apply Z.leb_le; unfold ns; lia).
  rewrite (no_interference T0 t _ _ L) by (intros z Z; destruct (pr_list0 z Z) as [[Y _]|Y]; auto). rewrite G3. cbn [fst snd fold_left phy_out set_phy set_chan q_frames]. rewrite Nat2Z.id, FR.
  match goal with |- context [mac_ev K x o dl ?ev ?s1] => set (s2 := s1) end.
  assert (P2 : Pi t t KIdle (q_phy s2 x)).
  { unfold s2; cbn [set_phy q_phy]; rewrite Z.eqb_refl. constructor; auto; cbn [k_end k_list]; try lia. intros z Z. destruct (pr_list0 z Z) as [[_ Y]|Y]; lia. }
  assert (P3 : is_idle (q_phy s2 x) = true) by (unfold is_idle; rewrite (pi_state _ _ _ _ P2), (pi_busy _ _ _ _ P2); reflexivity).
  assert (R2 : after_ev s2 x o (is_idle (q_phy s2 x)) (NRxEnd f true (g_pow g)) = r) by (rewrite P3; reflexivity).
  rewrite mac_mute by (right; rewrite R2; exact V). rewrite R2. cbn [set_net q_net q_phy q_chan q_frames]. split; [reflexivity|]. split; [exact P2|]. repeat split; auto.
  intros y NE. unfold s2. cbn [set_phy q_phy]. apply Z.eqb_neq in NE. rewrite NE. reflexivity.
Qed.

(** ** A bystander *)
Lemma mstep_ids c e s ev : Ids s -> Ids (fst (mstep c e s ev)).
Proof. intros I. eapply ids_step; [apply cases|exact I]. Qed.
Definition idle_node (s : stack) (x : addr) : Prop := exists F, Bq None F (St s x).
(** Nothing but node [x] changes. *)
Definition only (x : addr) (s s' : stack) : Prop :=
  (forall y, y <> x -> q_net s' y = q_net s y /\ q_phy s' y = q_phy s y) /\ q_chan s' = q_chan s /\ q_frames s' = q_frames s.
Lemma only_refl x s : only x s s.
Proof. repeat split; auto. Qed.
Lemma only_trans x a b d : only x a b -> only x b d -> only x a d.
Proof. intros (A1 & A2 & A3) (B1 & B2 & B3). split; [|split; congruence]. intros y N. destruct (A1 y N), (B1 y N). split; congruence. Qed.
Lemma only_net x s n : only x s (set_net (mput (q_net s) x n) s).
Proof. split; [|auto]. intros y N. cbn. unfold mput. apply Z.eqb_neq in N. rewrite N. auto. Qed.

Definition foreign (x : addr) (f : mframe) : Prop := mf_dst f <> mc_addr (cfg x) /\ mf_dst f <> bcast.
Lemma outs_idle x o dl pw outs : forall s, idle_node s x -> Ids (St s x) ->
  (forall z, In z outs -> match z with KSent _ => False | KDone id _ _ => forall f, nth_error (q_frames s) (Z.to_nat id) = Some f -> foreign x f | _ => True end) ->
  let s' := fold_left (phy_out K x o dl pw) outs s in idle_node s' x /\ only x s s'.
Proof.
  induction outs as [|z outs IH]; intros s [F B] I H; [split; [exists F; auto|apply only_refl]|]. cbn [fold_left].
  assert (G : exists F', Bq None F' (St (phy_out K x o dl pw s z) x) /\ Ids (St (phy_out K x o dl pw s z) x) /\ only x s (phy_out K x o dl pw s z)).
  { pose proof (H z (or_introl eq_refl)) as Hz. destruct z as [| | | | |id ok t]; cbn [phy_out]; try (exists F; split; [exact B|split; [exact I|apply only_refl]]; fail).
    - destruct Hz.
    - destruct (bq_start F (cfg x) (Menv (is_idle (q_phy s x)) (ye_draw o)) _ I B) as (X & V & _).
      rewrite mac_mute by (left; unfold after_ev; cbn [mac_event]; rewrite V; reflexivity). exists F. rewrite st_set. split; [exact X|split; [apply mstep_ids; exact I|apply only_net]].
    - destruct (nth_error (q_frames s) (Z.to_nat id)) as [f|] eqn:N; [|exists F; split; [exact B|split; [exact I|repeat split; auto]]].
      assert (FG : ok = false \/ mf_dst (read_frame (ye_junk o) f) <> mc_addr (cfg x) /\ mf_dst (read_frame (ye_junk o) f) <> bcast).
      { right. destruct (Hz f eq_refl). unfold read_frame. destruct (_ =? _); auto. }
      destruct (bq_other F (cfg x) (Menv (is_idle (q_phy s x)) (ye_draw o)) _ ok _ B FG) as (X & V & _).
      rewrite mac_mute by (left; unfold after_ev; cbn [mac_event]; exact V). exists F. rewrite st_set. split; [exact X|split; [apply mstep_ids; exact I|apply only_net]]. }
  destruct G as (F' & B' & I' & O). destruct (IH (phy_out K x o dl pw s z)) as [G1 G2]; [exists F'; auto|auto| |split; auto; eapply only_trans; eauto].
  intros y Y. specialize (H y (or_intror Y)). destruct y; auto. destruct O as (_ & _ & ->). exact H.
Qed.

Lemma other_chan x i tt ce j ne o dl pw s : nth_error (c_pend (q_chan s)) i = Some (tt, ce) -> ce = ERecv j ne \/ ce = ERecvDone j ne -> c_devs (q_chan s) = nodes -> @nth_error Z nodes j = Some x ->
  idle_node s x -> Ids (St s x) -> (forall f, nth_error (q_frames s) (n_k ne) = Some f -> foreign x f) ->
  let s' := qstep K o0 s (QChan i o dl pw) in idle_node s' x /\ (forall y, y <> x -> q_net s' y = q_net s y /\ q_phy s' y = q_phy s y) /\ q_frames s' = q_frames s /\
  c_now (q_chan s') = c_now (q_chan s) /\ exists e, c_pend (q_chan s') = remove_nth i (c_pend (q_chan s)) ++ [e] /\ (snd e = ERecvDone j ne \/ snd e = EDelete ne).
Proof.
  intros N CE DV NX ID I FO s'. unfold s'. cbn [qstep]. rewrite N. cbn [chan_step]. rewrite N. cbv zeta.
  destruct CE as [-> | ->]; unfold chan_run; cbn [c_devs c_now c_noise c_pend c_log]; rewrite !DV, !NX; cbn [fst snd fold_left chan_out].
  - unfold phy_ev. match goal with |- context [fold_left _ _ (set_phy x ?p (set_chan ?h s))] => set (s1 := set_phy x p (set_chan h s)) end.
    destruct (outs_idle x o dl pw (snd (kstep (q_sense K x) (q_good K x) (with_next (Z.of_nat (n_k ne)) (q_phy (set_chan {| c_now := c_now (q_chan s); c_devs := nodes; c_noise := c_noise (q_chan s) ++ [ne]; c_pend := remove_nth i (c_pend (q_chan s)) ++ [(c_now (q_chan s) + n_dur ne, ERecvDone j ne)]; c_log := c_log (q_chan s) |} s) x)) (KSignal (cev_dur (ERecv j ne)) pw))) s1) as [G1 (G2 & G3 & G4)]; [exact ID|exact I| |].
    + cbn [kstep]. unfold k_receive. intros z Z. destruct (k_state _); [| |]; try (destruct (_ && _); [destruct (k_busy _)|]); cbn in Z; repeat (destruct Z as [<-|Z]; [exact Logic.I|]); destruct Z.
    + split; [exact G1|]. split; [|split; [exact G4|rewrite G3; split; [reflexivity|eexists; split; [reflexivity|auto]]]].
      intros y NY. destruct (G2 y NY) as [A1 A2]. rewrite A1, A2. unfold s1. cbn. apply Z.eqb_neq in NY. rewrite NY. auto.
  - cbn [set_chan q_phy]. destruct (sig_at _ _) as [[m g]|] eqn:SA.
    + apply sig_at_some in SA. destruct SA as [SA1 SA2]. unfold phy_ev. match goal with |- context [fold_left _ ?l (set_phy x ?p ?h)] => set (s1 := set_phy x p h); set (outs := l) end.
      destruct (outs_idle x o dl (g_pow g) outs s1) as [G1 (G2 & G3 & G4)]; [exact ID|exact I| |].
      * unfold outs. cbn [kstep]. rewrite SA1. unfold k_receive_done. intros z Z.
        assert (Y : forall ok t, z = KDone (g_id g) ok t -> match z with KSent _ => False | KDone id _ _ => forall f, nth_error (q_frames s1) (Z.to_nat id) = Some f -> foreign x f | _ => True end).
        { intros ok t ->. rewrite SA2, Nat2Z.id. exact FO. }
        cbn [k_state k_rx k_end k_now k_busy k_list] in Z. destruct (k_state (q_phy s x)); cbn in Z; try contradiction.
        destruct (k_rx (q_phy s x)) as [id|]; repeat (match type of Z with context [if ?b then _ else _] => destruct b end);
          cbn [In snd] in Z; repeat (destruct Z as [<-|Z]; [eapply Y; reflexivity|]); destruct Z.
      * split; [exact G1|]. split; [|split; [exact G4|rewrite G3; split; [reflexivity|eexists; split; [reflexivity|auto]]]].
        intros y NY. destruct (G2 y NY) as [A1 A2]. rewrite A1, A2. unfold s1. cbn. apply Z.eqb_neq in NY. rewrite NY. auto.
    + cbn. split; [exact ID|]. repeat split; auto. eexists. split; [reflexivity|auto].
Qed.

(** ** Phases of the exchange *)
Variables (a b : addr) (p : mframe) (T0 Tr Tmax : Z) (FB : seqlist) (OA OB : list mout).
Hypothesis ND : NoDup nodes.
Hypothesis Ia : In a nodes.
Hypothesis Ib : In b nodes.
Hypothesis AB : a <> b.
Hypothesis ADDR : forall x, In x nodes -> mc_addr (cfg x) = x.
Hypothesis NBC : a <> bcast /\ b <> bcast.
Hypothesis PKT : mf_type p = T_DATA /\ mf_src p = a /\ mf_dst p = b.
Hypothesis SLOT : 0 < mc_slot (cfg a).
Hypothesis DIFS : 0 <= mc_difs (cfg a).
Hypothesis SIFS : 0 <= mc_sifs (cfg a) /\ mc_sifs (cfg b) = mc_sifs (cfg a).
Let Dd := dur p.
Let A := mc_ctrl (cfg a) T_ACK.
Hypothesis DUR : 0 < Dd /\ mc_data (cfg a) (mf_size p) = Dd.
Hypothesis ADUR : 0 < A /\ forall f, mf_type f = T_ACK -> dur f = A.
Variable reach : Z.
(** The acknowledgement is back before the timeout. *)
Hypothesis REACH0 : 0 <= reach.
Hypothesis REACH : 2 * reach < 2 * prop + mc_slot (cfg a).
Hypothesis NEW : fst (is_new FB a (mf_seq p)) = true.
(** With RTS, a backoff may begin when the packet has been sent; it does not end before the report. *)
Hypothesis QUICK : mc_rts (cfg a) = true -> mc_sifs (cfg a) + A + 2 * reach + psec < tdata.
Let Lim := Dd + mc_sifs (cfg a) + A + 2 * reach + psec.
(** Channel access without RTS ends at [Tmax] at the latest. *)
Definition acc : Prop := mc_rts (cfg a) = false /\ T0 + psec + mc_difs (cfg a) + 16 * tdata <= Tmax.
(** The report comes at the latest then. *)
Definition deadline : Z := Tmax + Dd + mc_sifs (cfg a) + A + 2 * reach + psec.

(** The data packet, sent at [T1], is on the air, or the sender waits. *)
Definition Atx (t T1 : Z) (sa : mst) (pa : kphy) (d : list (Z * cev)) : Prop :=
  (As (cfg a) p Tr Lim t T1 MTx (Some p) (mc_rts (cfg a)) sa /\ Pi T0 t KTx pa /\ (exists k, d = [(T1 + Dd, ESendDone k a)]) /\ t <= T1 + Dd) \/
  (As (cfg a) p Tr Lim t T1 MIdle None (mc_rts (cfg a)) sa /\ Pi T0 t KIdle pa /\ d = [] /\ T1 + Dd <= t).
(** The acknowledgement is on the air, or it was. *)
Definition Btx (sb : mst) (d : list (Z * cev)) : Prop :=
  (exists F g k x, Bq (Some g) F sb /\ mf_type g = T_ACK /\ d = [(x, ESendDone k b)]) \/ (exists F, Bq None F sb /\ d = []).
Definition isack (g : mframe) : Prop := mf_type g = T_ACK /\ mf_src g = b /\ mf_dst g = a /\ mf_seq g = mf_seq p.

Inductive Ph (t : Z) (sa sb : mst) (oa ob : list mout) (pa pb : kphy) (d ra rb : list (Z * cev)) (fr : list mframe) : Prop :=
| P1 u : acc -> Aw p T0 Tr t u (T0 + psec) MKCca sa -> T0 <= t <= T0 + psec -> Pi T0 t KIdle pa -> d = [] -> ra = [] -> rb = [] -> Pi T0 t KIdle pb -> Bq None FB sb -> m_now sb = t ->
    oa = OA -> ob = OB -> Ph t sa sb oa ob pa pb d ra rb fr
| P2 u : acc -> Aw p T0 Tr t u (T0 + psec + mc_difs (cfg a)) MKBo sa -> T0 + psec <= t <= T0 + psec + mc_difs (cfg a) -> Pi T0 t KIdle pa -> d = [] -> ra = [] -> rb = [] -> Pi T0 t KIdle pb -> Bq None FB sb -> m_now sb = t ->
    oa = OA -> ob = OB -> Ph t sa sb oa ob pa pb d ra rb fr
| P3 u T1 : acc -> Aw p T0 Tr t u T1 MKGrant sa -> T0 + psec <= t <= T1 -> T1 <= Tmax -> Pi T0 t KIdle pa -> d = [] -> ra = [] -> rb = [] -> Pi T0 t KIdle pb -> Bq None FB sb -> m_now sb = t ->
    oa = OA -> ob = OB -> Ph t sa sb oa ob pa pb d ra rb fr
| P4 T1 d1 j ne : Atx t T1 sa pa d -> T0 + psec <= T1 <= Tmax -> T1 <= t <= T1 + d1 -> 0 < d1 <= reach -> ra = [] -> rb = [(T1 + d1, ERecv j ne)] -> n_dur ne = Dd -> nth_error fr (n_k ne) = Some p ->
    Pi T0 t KIdle pb -> Bq None FB sb -> m_now sb = t -> oa = OA ++ [OSnd p] -> ob = OB -> Ph t sa sb oa ob pa pb d ra rb fr
| P5 T1 d1 j ne : Atx t T1 sa pa d -> T0 + psec <= T1 <= Tmax -> T1 + d1 <= t <= T1 + d1 + Dd -> 0 < d1 <= reach -> ra = [] -> rb = [(T1 + d1 + Dd, ERecvDone j ne)] -> nth_error fr (n_k ne) = Some p ->
    Pr T0 t (Z.of_nat (n_k ne)) (T1 + d1 + Dd) (fun w => good b w 0) pb -> Bq None FB sb -> m_now sb = t -> oa = OA ++ [OSnd p] -> ob = OB -> Ph t sa sb oa ob pa pb d ra rb fr
| P6 T1 d1 : Atx t T1 sa pa d -> T0 + psec <= T1 <= Tmax -> T1 + d1 + Dd <= t <= T1 + d1 + Dd + mc_sifs (cfg a) -> 0 < d1 <= reach -> ra = [] -> rb = [] ->
    Bk p (T1 + d1 + Dd + mc_sifs (cfg a)) sb -> m_now sb = t -> oa = OA ++ [OSnd p] -> ob = OB ++ [OUp p] -> Ph t sa sb oa ob pa pb d ra rb fr
| P7 T1 d1 d2 j ne g : As (cfg a) p Tr Lim t T1 MIdle None (mc_rts (cfg a)) sa -> Pi T0 t KIdle pa -> Btx sb d -> T0 + psec <= T1 <= Tmax -> 0 < d1 <= reach -> 0 < d2 <= reach ->
    T1 + d1 + Dd + mc_sifs (cfg a) <= t <= T1 + d1 + Dd + mc_sifs (cfg a) + d2 ->
    ra = [(T1 + d1 + Dd + mc_sifs (cfg a) + d2, ERecv j ne)] -> rb = [] -> n_dur ne = A -> nth_error fr (n_k ne) = Some g -> isack g ->
    oa = OA ++ [OSnd p] -> ob = OB ++ [OUp p; OSnd g] -> Ph t sa sb oa ob pa pb d ra rb fr
| P8 T1 d1 d2 j ne g : As (cfg a) p Tr Lim t T1 MRx None true sa -> Pr T0 t (Z.of_nat (n_k ne)) (T1 + d1 + Dd + mc_sifs (cfg a) + d2 + A) (fun w => good a w 0) pa -> Btx sb d -> T0 + psec <= T1 <= Tmax -> 0 < d1 <= reach -> 0 < d2 <= reach ->
    T1 + d1 + Dd + mc_sifs (cfg a) + d2 <= t <= T1 + d1 + Dd + mc_sifs (cfg a) + d2 + A ->
    ra = [(T1 + d1 + Dd + mc_sifs (cfg a) + d2 + A, ERecvDone j ne)] -> rb = [] -> nth_error fr (n_k ne) = Some g -> isack g ->
    oa = OA ++ [OSnd p] -> ob = OB ++ [OUp p; OSnd g] -> Ph t sa sb oa ob pa pb d ra rb fr
| P9 T3 g : Af p Tr t (T3 + psec) sa -> T3 <= t <= T3 + psec -> T3 + psec <= deadline -> Btx sb d -> ra = [] -> rb = [] -> isack g ->
    oa = OA ++ [OSnd p] -> ob = OB ++ [OUp p; OSnd g] -> Ph t sa sb oa ob pa pb d ra rb fr
| P10 g : Ae sa -> Btx sb d -> ra = [] -> rb = [] -> isack g ->
    oa = OA ++ [OSnd p; ORep true p] -> ob = OB ++ [OUp p; OSnd g] -> Ph t sa sb oa ob pa pb d ra rb fr.

(** ** Timers *)
Lemma timer_a e t i x sa sb oa ob pa pb d ra rb fr : Ph t sa sb oa ob pa pb d ra rb fr -> Ids sa -> nth_error (m_timers sa) i = Some x -> mt_due x = t ->
  e_idle e = is_idle pa -> (forall z, 0 <= e_draw e z < 4294967088) ->
  let r := mstep (cfg a) e sa (ETimer i) in
  vis (snd r) = [] /\ Ph t (fst r) sb oa ob pa pb d ra rb fr \/ vis (snd r) = [ORep true p] /\ Ph t (fst r) sb (oa ++ [ORep true p]) ob pa pb d ra rb fr \/
  vis (snd r) = [OSnd p] /\ As (cfg a) p Tr Lim t t MTx (Some p) (mc_rts (cfg a)) (fst r) /\ T0 + psec <= t <= Tmax /\ Pi T0 t KIdle pa /\ d = [] /\ ra = [] /\ rb = [] /\ Pi T0 t KIdle pb /\ Bq None FB sb /\ m_now sb = t /\ oa = OA /\ ob = OB.
Proof.
  intros P I N DX EI DR r. destruct PKT as (PT & PS & PD). assert (UNI : mf_dst p <> bcast) by (rewrite PD; apply NBC). destruct (hard x) eqn:HX; [|destruct (soft x) eqn:SX].
  - (* SendDataDone, or the timeout *)
    assert (NH : hl sa = [] -> False) by (intros H; rewrite (filter_nil hard i _ _ N H) in HX; discriminate HX).
    assert (TMO : forall st ai js T1, As (cfg a) p Tr Lim t T1 st ai js sa -> t < T1 + ack_to (cfg a) p -> False).
    { intros st ai js T1 [] L. destruct as_ack as (u & U1 & U2). destruct (filter_one hard i _ _ _ N HX U2) as [-> _]. cbn in DX. lia. }
    unfold ack_to in TMO. destruct DUR as [_ DE]. rewrite DE in TMO. fold A in TMO. destruct ADUR as [AP _].
    assert (TT : forall T1, Atx t T1 sa pa d -> t < T1 + (Dd + prop + mc_sifs (cfg a) + A + prop + mc_slot (cfg a)) -> False).
    { intros T1 [[X _]|[X _]]; eapply TMO; exact X. }
    assert (PP : 0 < prop) by (unfold prop, psec; lia).
    destruct P as [u AC X|u AC X|u T1 AC X|T1 d1 j ne X|T1 d1 j ne X|T1 d1 X|T1 d1 d2 j ne g X|T1 d1 d2 j ne g X|T3 g X|g X]; try (exfalso; apply NH, X; fail);
      try (exfalso; eapply TT; [exact X|]; lia); try (exfalso; eapply TMO; [exact X|]; lia).
    right. left. pose proof (af_hl _ _ _ _ _ X) as [u U]. destruct (filter_one hard i _ _ _ N HX U) as [-> _].
    destruct (af_done (cfg a) p Tr t (T3 + psec) u e i sa X N) as [Y V]. split; [exact V|]. subst oa. rewrite <- app_assoc. eapply P10; eauto.
  - (* channel access *)
    assert (NS : sl sa = [] -> False) by (intros H; rewrite (filter_nil soft i _ _ N H) in SX; discriminate SX).
    assert (PSC : 0 < psec) by (unfold psec; lia). assert (TW : forall T1 st ai, As (cfg a) p Tr Lim t T1 st ai (mc_rts (cfg a)) sa -> st <> MWaitTx -> T1 <= t <= T1 + Lim -> (st = MIdle -> T1 + Dd <= t) -> snd r = [] /\ As (cfg a) p Tr Lim t T1 st ai (mc_rts (cfg a)) (fst r)).
    { intros T1 st ai X NW TL TI. destruct (mc_rts (cfg a)) eqn:RT; [|exfalso; apply NS, X]. specialize (QUICK eq_refl). destruct (as_soft (cfg a) p Tr Lim t T1 st ai e i x sa X NW N SX DX) as [Y Y']; auto; [lia|].
      intros E. specialize (TI E). unfold Lim. lia. }
    destruct DUR as [DP _]. destruct ADUR as [AP _]. destruct SIFS as [SP _].
    assert (TT : forall T1, Atx t T1 sa pa d -> T1 <= t <= T1 + Lim -> snd r = [] /\ Atx t T1 (fst r) pa d).
    { intros T1 [(X1 & X2)|(X1 & X2 & X3 & X4)] TL; [destruct (TW T1 _ _ X1) as [Y1 Y2]; [discriminate|exact TL|discriminate|]; split; [exact Y1|left; split; [exact Y2|exact X2]]
      |destruct (TW T1 _ _ X1) as [Y1 Y2]; [discriminate|exact TL|auto|]; split; [exact Y1|right; auto]]. }
    destruct P as [u AC X L1 PA|u AC X L1 PA|u T1 AC X L1 L2 PA|T1 d1 j ne X|T1 d1 j ne X|T1 d1 X|T1 d1 d2 j ne g X|T1 d1 d2 j ne g X|T3 g X|g X]; 
      try (destruct (TT _ X) as [Y V]; [unfold Lim; lia|]; left; split; [rewrite Y; reflexivity|]).
    + left. destruct (filter_one soft i _ _ _ N SX (aw_sl _ _ _ _ _ _ _ _ X)) as [-> _]. cbn in DX.
      destruct (aw_cca (cfg a) p T0 Tr t u (T0 + psec) e i sa X I N) as (u' & Y & V); [lia|lia|rewrite EI; unfold is_idle; rewrite (pi_state _ _ _ _ PA), (pi_busy _ _ _ _ PA); reflexivity|].
      unfold r. rewrite V. split; [reflexivity|]. replace (t + mc_difs (cfg a)) with (T0 + psec + mc_difs (cfg a)) in Y by lia. eapply P2; eauto. lia.
    + left. destruct (filter_one soft i _ _ _ N SX (aw_sl _ _ _ _ _ _ _ _ X)) as [-> _]. cbn in DX.
      destruct (aw_bo (cfg a) p T0 Tr t u _ e i sa X N) as (u' & w & W & Y & V); [rewrite EI; unfold is_idle; rewrite (pi_state _ _ _ _ PA), (pi_busy _ _ _ _ PA); reflexivity|exact DR|].
      unfold r. rewrite V. split; [reflexivity|]. assert (0 < tdata) by (unfold tdata, nsec; lia). destruct AC. eapply P3; eauto; [split; auto|lia|lia].
    + right. right. destruct (filter_one soft i _ _ _ N SX (aw_sl _ _ _ _ _ _ _ _ X)) as [-> _]. cbn in DX.
      destruct (aw_grant (cfg a) p T0 Tr Lim (proj1 AC) UNI t u _ e i sa X N) as (Y & V). split; [exact V|]. split; [rewrite (proj1 AC); exact Y|]. split; [lia|]. tauto.
    + eapply P4 with (T1 := T1) (d1 := d1) (ne := ne); eauto.
    + eapply P5 with (T1 := T1) (d1 := d1) (ne := ne); eauto.
    + eapply P6 with (T1 := T1) (d1 := d1); eauto.
    + left. destruct (TW T1 _ _ X) as [Y V]; [discriminate|unfold Lim; lia|intros _; lia|]. split; [rewrite Y; reflexivity|]. eapply P7 with (T1 := T1) (d1 := d1) (d2 := d2) (ne := ne) (g := g); eauto.
    + left. destruct (as_soft (cfg a) p Tr Lim t T1 MRx None e i x sa X) as (Y & V); [discriminate|exact N|exact SX|exact DX|unfold Lim; lia|discriminate|exact DR|]. unfold r. rewrite V. split; [reflexivity|]. eapply P8 with (T1 := T1) (d1 := d1) (d2 := d2) (ne := ne) (g := g); eauto.
    + left. destruct (af_soft (cfg a) p Tr t (T3 + psec) e i x sa X N SX DX) as (Y & V); [lia|exact DR|]. unfold r. rewrite V. split; [reflexivity|]. eapply P9; eauto.
    + left. destruct (ae_soft (cfg a) e i x sa X N SX) as (Y & V). unfold r. rewrite V. split; [reflexivity|]. eapply P10; eauto.
  - (* the rest *)
    left. destruct (noise (cfg a) e i x sa N HX SX) as [L V]. split; [exact V|]. fold r in L.
    assert (TT : forall T1, Atx t T1 sa pa d -> Atx t T1 (fst r) pa d). { intros T1 [[X Y]|[X Y]]; [left|right]; (split; [eapply like_as; eauto|exact Y]). }
    destruct P as [u AC X|u AC X|u T1 AC X|T1 d1 j ne X|T1 d1 j ne X|T1 d1 X|T1 d1 d2 j ne g X|T1 d1 d2 j ne g X|T3 g X|g X].
    + eapply P1; eauto. eapply like_aw; eauto.
    + eapply P2; eauto. eapply like_aw; eauto.
    + eapply P3; eauto. eapply like_aw; eauto.
    + eapply P4 with (T1 := T1) (d1 := d1) (ne := ne); eauto.
    + eapply P5 with (T1 := T1) (d1 := d1) (ne := ne); eauto.
    + eapply P6 with (T1 := T1) (d1 := d1); eauto.
    + eapply P7 with (T1 := T1) (d1 := d1) (d2 := d2) (ne := ne) (g := g); eauto. eapply like_as; eauto.
    + eapply P8 with (T1 := T1) (d1 := d1) (d2 := d2) (ne := ne) (g := g); eauto. eapply like_as; eauto.
    + eapply P9; eauto. eapply like_af; eauto.
    + eapply P10; eauto. eapply like_ae; eauto.
Qed.

Lemma timer_b e t i x sa sb oa ob pa pb d ra rb fr : Ph t sa sb oa ob pa pb d ra rb fr -> nth_error (m_timers sb) i = Some x -> mt_due x = t ->
  let r := mstep (cfg b) e sb (ETimer i) in
  vis (snd r) = [] /\ Ph t sa (fst r) oa ob pa pb d ra rb fr \/
  exists T1 d1 g F, vis (snd r) = [OSnd g] /\ isack g /\ Bq (Some g) F (fst r) /\ As (cfg a) p Tr Lim t T1 MIdle None (mc_rts (cfg a)) sa /\ Pi T0 t KIdle pa /\ d = [] /\ T0 + psec <= T1 <= Tmax /\
    t = T1 + d1 + Dd + mc_sifs (cfg a) /\ 0 < d1 <= reach /\ ra = [] /\ rb = [] /\ m_air sb = None /\ oa = OA ++ [OSnd p] /\ ob = OB ++ [OUp p].
Proof.
  intros P N DX r. destruct PKT as (PT & PS & PD).
  assert (Q : forall ai F, Bq ai F sb -> Bq ai F (fst r) /\ vis (snd r) = [] /\ m_now (fst r) = m_now sb) by (intros; apply bq_timer; auto).
  assert (TB : Btx sb d -> vis (snd r) = [] /\ Btx (fst r) d).
  { intros [(F & g & k & x0 & X & Y)|(F & X & Y)]; destruct (Q _ _ X) as (Q1 & Q2 & Q3); (split; [exact Q2|]); [left; exists F, g, k, x0|right; exists F]; auto. }
  destruct P as [u AC X ? ? ? ? ? ? B M|u AC X ? ? ? ? ? ? B M|u T1 AC X ? ? ? ? ? ? ? B M|T1 d1 j ne X ? ? ? ? ? ? ? ? B M|T1 d1 j ne X ? ? ? ? ? ? ? B M|T1 d1 X L1 L2 L3 RA RB B M EA EB|T1 d1 d2 j ne g X Y B|T1 d1 d2 j ne g X Y B|T3 g X Y Z B|g X B].
  - left. destruct (Q _ _ B) as (Q1 & Q2 & Q3). split; [exact Q2|]. rewrite M in Q3. eapply P1; eauto.
  - left. destruct (Q _ _ B) as (Q1 & Q2 & Q3). split; [exact Q2|]. rewrite M in Q3. eapply P2; eauto.
  - left. destruct (Q _ _ B) as (Q1 & Q2 & Q3). split; [exact Q2|]. rewrite M in Q3. eapply P3; eauto.
  - left. destruct (Q _ _ B) as (Q1 & Q2 & Q3). split; [exact Q2|]. rewrite M in Q3. eapply P4 with (T1 := T1) (d1 := d1) (ne := ne); eauto.
  - left. destruct (Q _ _ B) as (Q1 & Q2 & Q3). split; [exact Q2|]. rewrite M in Q3. eapply P5 with (T1 := T1) (d1 := d1) (ne := ne); eauto.
  - destruct (hard x) eqn:HX; [|destruct (soft x) eqn:SX].
    + right. pose proof (bk_hl _ _ _ B) as [u U]. destruct (filter_one hard i _ _ _ N HX U) as [-> _]. cbn in DX.
      destruct (bk_ack (cfg b) p _ u e i sb B N) as (F & Y & V & _). exists T1, d1, (ack_of (cfg b) p sb), F. split; [exact V|]. split.
      { unfold isack, ack_of, mctrl. cbn. rewrite PS, ADDR; auto. }
      split; [exact Y|]. destruct X as [(_ & _ & _ & L)|(X1 & X2 & X3 & _)]; [lia|]. split; [exact X1|]. split; [exact X2|]. split; [exact X3|]. split; [lia|]. split; [lia|]. split; [lia|]. pose proof (bk_air _ _ _ B). tauto.
    + exfalso. rewrite (filter_nil soft i _ _ N (bk_sl _ _ _ B)) in SX. discriminate SX.
    + left. destruct (noise (cfg b) e i x sb N HX SX) as [L V]. split; [exact V|]. eapply P6 with (T1 := T1) (d1 := d1); eauto; [eapply like_bk; eauto|]. rewrite <- M. apply L.
  - left. destruct (TB B). split; auto. eapply P7 with (T1 := T1) (d1 := d1) (d2 := d2) (ne := ne) (g := g); eauto.
  - left. destruct (TB B). split; auto. eapply P8 with (T1 := T1) (d1 := d1) (d2 := d2) (ne := ne) (g := g); eauto.
  - left. destruct (TB B). split; auto. eapply P9; eauto.
  - left. destruct (TB B). split; auto. eapply P10; eauto.
Qed.

(** ** The invariant of the exchange *)
Definition okp (s : stack) (e : Z * cev) : Prop :=
  match snd e with ERecv _ ne | ERecvDone _ ne => exists f, nth_error (q_frames s) (n_k ne) = Some f /\ (mf_dst f = a \/ mf_dst f = b) | _ => True end.
Record Com (s : stack) : Prop := {
  cm_r : reached s; cm_idle : forall x, In x nodes -> x <> a -> x <> b -> idle_node s x; cm_pend : forall e, In e (c_pend (q_chan s)) -> okp s e;
  cm_a : m_now (St s a) = now s; cm_b : m_now (St s b) = now s }.
Definition PhS (s : stack) : Prop := Ph (now s) (St s a) (St s b) (Ot s a) (Ot s b) (q_phy s a) (q_phy s b) (pD s) (pR s a) (pR s b) (q_frames s).

Lemma dest_foreign x f : In x nodes -> x <> a -> x <> b -> mf_dst f = a \/ mf_dst f = b -> foreign x f.
Proof. intros I A1 B1 D. unfold foreign. rewrite ADDR by auto. destruct NBC. destruct D as [-> | ->]; auto. Qed.

Lemma ev_now c e s ev : (forall t, ev <> ETick t) -> m_now (fst (mstep c e s ev)) = m_now s.
Proof. intros N. destruct (StatMac.step_now _ _ _ _ _ _ (cases c e s ev)) as [E|E]; auto. destruct (N _ E). Qed.

Lemma isD_d t k x : isD (t, ESendDone k x) = true. Proof. reflexivity. Qed.
Lemma isR_d y t k x : isR y (t, ESendDone k x) = false. Proof. reflexivity. Qed.
(** What is announced to whom. *)
Lemma ann_none x t k phy D dl l : forall j, (forall i, @nth_error Z nodes (j + i) = nth_error l i) -> ~ In x l \/ x = phy -> filter (isR x) (announce t k phy D dl j l) = [].
Proof.
  induction l as [|d l IH]; intros j E N; [reflexivity|]. cbn [announce]. rewrite filter_app, IH.
  - rewrite app_nil_r. destruct (Z.eqb_spec phy d) as [|NE]; [reflexivity|]. cbn [filter]. unfold isR. cbn [snd]. pose proof (E 0%nat) as E0. rewrite Nat.add_0_r in E0. rewrite E0. cbn [nth_error].
    destruct (Z.eqb_spec d x) as [->|]; [|reflexivity]. exfalso. destruct N as [N|N]; [apply N; left; reflexivity|auto].
  - intros i. rewrite Nat.add_succ_l, <- Nat.add_succ_r. apply E.
  - destruct N as [N|N]; [left; intros X; apply N; right; auto|auto].
Qed.
Lemma ann_one x t k phy D dl l : forall j, (forall i, @nth_error Z nodes (j + i) = nth_error l i) -> NoDup l -> In x l -> x <> phy ->
  exists j', filter (isR x) (announce t k phy D dl j l) = [(t + dl j', ERecv j' (NEntry k j' x D))] /\ @nth_error Z nodes j' = Some x.
Proof.
  induction l as [|d l IH]; intros j E N I P; [destruct I|]. cbn [announce]. rewrite filter_app. inversion N as [|? ? N1 N2]; subst. pose proof (E 0%nat) as E0. rewrite Nat.add_0_r in E0. cbn [nth_error] in E0.
  assert (E' : forall i, @nth_error Z nodes (S j + i) = nth_error l i) by (intros i; rewrite Nat.add_succ_l, <- Nat.add_succ_r; apply E).
  destruct (Z.eq_dec d x) as [->|NE].
  - exists j. rewrite ann_none by auto. rewrite app_nil_r. destruct (Z.eqb_spec phy x) as [->|_]; [contradiction|]. cbn [filter]. unfold isR. cbn [snd]. rewrite E0, Z.eqb_refl. auto.
  - destruct I as [I|I]; [contradiction|]. destruct (IH (S j) E' N2 I P) as (j' & F & F'). exists j'. rewrite F. split; auto.
    destruct (phy =? d); [reflexivity|]. cbn [filter]. unfold isR. cbn [snd]. rewrite E0. apply Z.eqb_neq in NE. rewrite NE. reflexivity.
Qed.
Lemma ann_D t k phy D dl l : forall j, filter isD (announce t k phy D dl j l) = [].
Proof. induction l as [|d l IH]; intros j; [reflexivity|]. cbn [announce]. rewrite filter_app, IH. destruct (phy =? d); reflexivity. Qed.
Lemma ann_okp s t k phy D dl f : nth_error (q_frames s) k = Some f -> mf_dst f = a \/ mf_dst f = b -> forall e, In e (announce t k phy D dl 0 nodes) -> okp s e.
Proof. intros N F e I. apply announce_in in I. destruct I as (i & d & E & _). unfold okp. rewrite E. cbn [n_k]. eauto. Qed.
Lemma okp_more s s' f e : q_frames s' = q_frames s ++ [f] -> okp s e -> okp s' e.
Proof.
  intros E. unfold okp. destruct (snd e); auto; intros (g & G1 & G2); exists g; (split; [|auto]); rewrite E, nth_error_app1; auto; apply nth_error_Some; congruence.
Qed.

Lemma in_node x : In x nodes -> existsb (Z.eqb x) nodes = true.
Proof. intros I. apply existsb_exists. exists x. split; [auto|apply Z.eqb_refl]. Qed.

(** A step of node [x] that sends nothing. *)
Lemma com_net s x ev r s' : Com s -> reached s' -> q_net s' = mput (q_net s) x (node_of s x ev r) -> (x <> a -> x <> b -> exists F, Bq None F (fst r)) -> m_now (fst r) = m_now (St s x) ->
  c_now (q_chan s') = c_now (q_chan s) -> (forall e, In e (c_pend (q_chan s')) -> okp s' e) -> Com s'.
Proof.
  intros [] R E B M C O. constructor; auto.
  - intros y Y1 Y2 Y3. destruct (Z.eq_dec y x) as [->|NE].
    + unfold idle_node. rewrite (proj1 (st_same _ _ _ _ _ E)). auto.
    + unfold idle_node. rewrite (proj1 (st_other _ _ _ _ _ y E NE)). apply cm_idle0; auto.
  - unfold now in *. rewrite C. destruct (Z.eq_dec a x) as [<-|NE]; [rewrite (proj1 (st_same _ _ _ _ _ E)), M|rewrite (proj1 (st_other _ _ _ _ _ a E NE))]; auto.
  - unfold now in *. rewrite C. destruct (Z.eq_dec b x) as [<-|NE]; [rewrite (proj1 (st_same _ _ _ _ _ E)), M|rewrite (proj1 (st_other _ _ _ _ _ b E NE))]; auto.
Qed.

(** ** Timers of the nodes *)
Definition draws (o : yenv) : Prop := forall z, 0 <= ye_draw o z < 4294967088.

Lemma own_step x o dl i s : In x nodes -> Com s -> PhS s -> macs_own (q_net s) x (YTimer i) = true -> (forall j, 0 < dl j <= reach) -> draws o ->
  let s' := qstep K o0 s (QOwn x o dl (YTimer i)) in Com s' /\ PhS s'.
Proof.
  intros IX C P OW DL DR s'. assert (R : reached s') by (apply reached_step; apply C).
  assert (ES : s' = mac_ev K x o dl (NOwn (YTimer i)) s). { unfold s'. cbn [qstep]. cbn [K mac_conf q_nodes]. rewrite in_node by auto. reflexivity. }
  clearbody s'. set (r := after_ev s x o (is_idle (q_phy s x)) (NOwn (YTimer i))).
  assert (MN : m_now (fst r) = m_now (St s x)) by (unfold r, after_ev; apply ev_now; discriminate).
  destruct (reached_inv s (cm_r _ C)) as [V AG]. pose proof (i_devs _ _ _ _ V) as DV. cbn [K mac_conf q_nodes] in DV.
  assert (MUTE : snd_of (snd r) = [] -> (x <> a -> x <> b -> exists F, Bq None F (fst r)) -> s' = set_net (mput (q_net s) x (node_of s x (ETimer i) r)) s /\ Com s').
  { intros S B. assert (E : s' = set_net (mput (q_net s) x (node_of s x (ETimer i) r)) s) by (rewrite ES; rewrite mac_mute; [reflexivity|right; exact S]).
    split; auto. rewrite E in R |- *. exact (com_net s x (ETimer i) r _ C R eq_refl B MN eq_refl (cm_pend _ C)). }
  unfold macs_own, mtimely in OW. fold (St s x) in OW. destruct (nth_error (m_timers (St s x)) i) as [z|] eqn:N; [|discriminate OW]. apply andb_true_iff in OW. destruct OW as [DZ _]. apply Z.eqb_eq in DZ.
  destruct (Z.eq_dec x a) as [->|XA]; [|destruct (Z.eq_dec x b) as [->|XB]].
  - pose proof (cm_a _ C) as CA. rewrite CA in DZ.
    destruct (timer_a (Menv (is_idle (q_phy s a)) (ye_draw o)) _ i z _ _ _ _ _ _ _ _ _ _ P (reached_ids _ _ (cm_r _ C)) N DZ eq_refl DR) as [[T1 T2]|[[T1 T2]|(T1 & T2 & T3 & T4 & T5 & T6 & T7 & T8 & T9 & T10 & T11 & T12)]];
      change (mstep (cfg a) _ (St s a) (ETimer i)) with r in *.
    + destruct MUTE as [E CM]; [rewrite snd_vis, T1; reflexivity|contradiction|]. split; auto. rewrite E. unfold PhS, now, pD, pR. cbn [set_net q_phy q_chan q_frames].
      destruct (st_same s (set_net (mput (q_net s) a (node_of s a (ETimer i) r)) s) a _ _ eq_refl) as [E1 E2]. rewrite E1, E2, T1, app_nil_r.
      destruct (st_other s (set_net (mput (q_net s) a (node_of s a (ETimer i) r)) s) a _ _ b eq_refl (not_eq_sym AB)) as [E3 E4]. rewrite E3, E4. exact T2.
    + destruct MUTE as [E CM]; [rewrite snd_vis, T1; reflexivity|contradiction|]. split; auto. rewrite E. unfold PhS, now, pD, pR. cbn [set_net q_phy q_chan q_frames].
      destruct (st_same s (set_net (mput (q_net s) a (node_of s a (ETimer i) r)) s) a _ _ eq_refl) as [E1 E2]. rewrite E1, E2, T1.
      destruct (st_other s (set_net (mput (q_net s) a (node_of s a (ETimer i) r)) s) a _ _ b eq_refl (not_eq_sym AB)) as [E3 E4]. rewrite E3, E4. exact T2.
    + destruct (mac_sends_one a o dl (NOwn (YTimer i)) s p) as (S1 & S2 & S3 & S4 & S5 & S6); [fold r; rewrite snd_vis, T1; reflexivity|rewrite (pi_state _ _ _ _ T4); discriminate|exact DV|exact Ia|].
      rewrite <- ES in *. fold r in S1. cbn [mac_event] in S1. destruct (ann_one b (c_now (q_chan s)) (length (c_log (q_chan s))) a Dd dl nodes 0 (fun _ => eq_refl) ND Ib (not_eq_sym AB)) as (j & J1 & J2).
      assert (NF : nth_error (q_frames s') (length (c_log (q_chan s))) = Some p).
      { rewrite S6, <- (i_len _ _ _ _ V), nth_error_app2, Nat.sub_diag by auto. reflexivity. }
      split.
      * eapply com_net; eauto; [intros X; contradiction|]. intros e I. rewrite S5 in I. apply in_app_or in I. destruct I as [I|[<-|I]].
        -- eapply okp_more; [exact S6|apply C; exact I].
        -- exact Logic.I.
        -- eapply ann_okp; [exact NF| |exact I]. right. apply PKT.
      * unfold PhS. destruct (st_same _ _ _ _ _ S1) as [E1 E2]. destruct (st_other _ _ _ _ _ b S1 (not_eq_sym AB)) as [E3 E4]. rewrite E1, E2, E3, E4, T1, T11, T12, S2, (S3 b (not_eq_sym AB)).
        unfold now, pD, pR. rewrite S4, S5, !filter_app. cbn [filter]. fold (pD s). fold (pR s a). fold (pR s b). rewrite isD_d, !isR_d. fold Dd. rewrite ann_D, ann_none, J1, T5, T6, T7 by auto. cbn [app].
        fold (now s). eapply P4 with (T1 := now s) (d1 := dl j); eauto; try lia.
        -- left. split; [exact T2|]. split; [destruct T4; constructor; auto|]. split; [eexists; reflexivity|]. destruct DUR. lia.
        -- specialize (DL j). lia.
  - pose proof (cm_b _ C) as CB. rewrite CB in DZ.
    destruct (timer_b (Menv (is_idle (q_phy s b)) (ye_draw o)) _ i z _ _ _ _ _ _ _ _ _ _ P N DZ) as [[T1 T2]|(T & d1 & g & F & T1 & T2 & T3 & T4 & T5 & T6 & T7 & T8 & T9 & T10 & T11 & T12 & T13 & T14)];
      change (mstep (cfg b) _ (St s b) (ETimer i)) with r in *.
    + destruct MUTE as [E CM]; [rewrite snd_vis, T1; reflexivity|contradiction|]. split; auto. rewrite E. unfold PhS, now, pD, pR. cbn [set_net q_phy q_chan q_frames].
      destruct (st_same s (set_net (mput (q_net s) b (node_of s b (ETimer i) r)) s) b _ _ eq_refl) as [E1 E2]. rewrite E1, E2, T1, app_nil_r.
      destruct (st_other s (set_net (mput (q_net s) b (node_of s b (ETimer i) r)) s) b _ _ a eq_refl AB) as [E3 E4]. rewrite E3, E4. exact T2.
    + destruct (mac_sends_one b o dl (NOwn (YTimer i)) s g) as (S1 & S2 & S3 & S4 & S5 & S6); [fold r; rewrite snd_vis, T1; reflexivity| |exact DV|exact Ib|].
      { intros KS. apply AG in KS. unfold macs_air, on_air in KS. fold (St s b) in KS. rewrite T12 in KS. discriminate KS. }
      rewrite <- ES in *. fold r in S1. cbn [mac_event] in S1. destruct (ann_one a (c_now (q_chan s)) (length (c_log (q_chan s))) b (dur g) dl nodes 0 (fun _ => eq_refl) ND Ia AB) as (j & J1 & J2).
      assert (NF : nth_error (q_frames s') (length (c_log (q_chan s))) = Some g).
      { rewrite S6, <- (i_len _ _ _ _ V), nth_error_app2, Nat.sub_diag by auto. reflexivity. }
      split.
      * eapply com_net; eauto; [intros X Y; contradiction|]. intros e I. rewrite S5 in I. apply in_app_or in I. destruct I as [I|[<-|I]].
        -- eapply okp_more; [exact S6|apply C; exact I].
        -- exact Logic.I.
        -- eapply ann_okp; [exact NF| |exact I]. left. apply T2.
      * unfold PhS. destruct (st_same _ _ _ _ _ S1) as [E1 E2]. destruct (st_other _ _ _ _ _ a S1 AB) as [E3 E4]. rewrite E1, E2, E3, E4, T1, T13, T14, (S3 a AB).
        unfold now, pD, pR. rewrite S4, S5, !filter_app. cbn [filter]. fold (pD s). fold (pR s a). fold (pR s b). rewrite isD_d, !isR_d. rewrite ann_D, J1, T6, T10, T11. rewrite (ann_none b) by auto. cbn [app].
        fold (now s). specialize (DL j). rewrite T8. eapply P7 with (T1 := T) (d1 := d1) (d2 := dl j) (g := g); eauto; try lia.
        -- rewrite <- T8. exact T4.
        -- rewrite <- T8. exact T5.
        -- left. exists F, g. do 2 eexists. split; [exact T3|]. split; [apply T2|reflexivity].
        -- cbn. destruct ADUR as [_ AD]. apply AD, T2.
        -- rewrite <- app_assoc. reflexivity.
  - destruct (cm_idle _ C x IX XA XB) as [F B]. destruct (bq_timer _ _ (cfg x) (Menv (is_idle (q_phy s x)) (ye_draw o)) i _ B) as (B1 & B2 & _).
    destruct MUTE as [E CM]; [rewrite snd_vis; change (snd r) with (snd (mstep (cfg x) (Menv (is_idle (q_phy s x)) (ye_draw o)) (St s x) (ETimer i))); rewrite B2; reflexivity|intros _ _; exists F; exact B1|].
    split; auto. rewrite E. unfold PhS, now, pD, pR. cbn [set_net q_phy q_chan q_frames].
    destruct (st_other s (set_net (mput (q_net s) x (node_of s x (ETimer i) r)) s) x _ _ a eq_refl (not_eq_sym XA)) as [E1 E2]. rewrite E1, E2.
    destruct (st_other s (set_net (mput (q_net s) x (node_of s x (ETimer i) r)) s) x _ _ b eq_refl (not_eq_sym XB)) as [E3 E4]. rewrite E3, E4. exact P.
Qed.

(** ** The clock *)
Lemma ticks t l : forall s, NoDup l -> let s' := fold_left (fun s x => mac_ev K x o0 (fun _ => 0) (NTick t) s) l s in
  (forall x, In x l -> St s' x = set_now t (St s x) /\ Ot s' x = Ot s x) /\ (forall x, ~ In x l -> q_net s' x = q_net s x) /\ q_phy s' = q_phy s /\ q_chan s' = q_chan s /\ q_frames s' = q_frames s.
Proof.
  induction l as [|y l IH]; intros s N s'; [split; [intros x []|auto]|]. inversion N as [|? ? N1 N2]; subst. unfold s'. cbn [fold_left]. clear s'.
  rewrite mac_mute by (left; reflexivity). set (r := after_ev _ _ _ _ _). set (s1 := set_net _ s).
  destruct (IH s1 N2) as (H1 & H2 & H3 & H4 & H5). split; [|split; [|auto]].
  - intros x [->|I].
    + specialize (H2 x N1). unfold St, Ot. rewrite H2. fold (St s1 x) (Ot s1 x). destruct (st_same s s1 x _ _ eq_refl) as [E1 E2]. rewrite E1, E2. split; [reflexivity|apply app_nil_r].
    + destruct (H1 x I) as [E1 E2]. rewrite E1, E2. assert (NE : x <> y) by (intros ->; contradiction). destruct (st_other s s1 y _ _ x eq_refl NE) as [E3 E4]. rewrite E3, E4. auto.
  - intros x I. rewrite H2 by (intros Y; apply I; right; auto). unfold s1. cbn [set_net q_net]. unfold mput. assert (NE : x <> y) by (intros ->; apply I; left; auto). apply Z.eqb_neq in NE. rewrite NE. reflexivity.
Qed.

Definition ktick (t : Z) (q : kphy) : kphy := KPhy t (k_state q) (k_busy q) (k_end q) (k_rx q) (k_list q) (k_txs q) (k_rxs q) (k_next q).
Lemma pi_tick t t' st q : Pi T0 t st q -> Pi T0 t' st (ktick t' q).
Proof. intros []. constructor; auto. Qed.
Lemma pr_tick t t' id te ok q : Pr T0 t id te ok q -> Pr T0 t' id te ok (ktick t' q).
Proof. intros []. constructor; auto. Qed.
Lemma btx_tick t sb d : Btx sb d -> Btx (set_now t sb) d.
Proof. intros [(F & g & k & x & B & H)|(F & B & H)]; [left; exists F, g, k, x|right; exists F]; (split; [apply bq_tick; exact B|exact H]). Qed.
Lemma in_hl x s : In x (hl s) -> In x (m_timers s).
Proof. intros I. apply filter_In in I. apply I. Qed.
Lemma in_sl x s : In x (sl s) -> In x (m_timers s).
Proof. intros I. apply filter_In in I. apply I. Qed.

Lemma ph_tick t t' sa sb oa ob pa pb d ra rb fr : Ph t sa sb oa ob pa pb d ra rb fr -> t <= t' -> (forall e, In e d \/ In e ra \/ In e rb -> t' <= fst e) ->
  (forall x, In x (m_timers sa) \/ In x (m_timers sb) -> t' <= mt_due x) -> Ph t' (set_now t' sa) (set_now t' sb) oa ob (ktick t' pa) (ktick t' pb) d ra rb fr.
Proof.
  intros P L HE HT.
  assert (TS : forall u x k, sl sa = [Mtimer u x k] -> t' <= x). { intros u x k E. apply (HT (Mtimer u x k)). left. apply in_sl. rewrite E. left. reflexivity. }
  assert (TT : forall T1, Atx t T1 sa pa d -> Atx t' T1 (set_now t' sa) (ktick t' pa) d).
  { intros T1 [(X1 & X2 & (k & X3) & X4)|(X1 & X2 & X3 & X4)]; [left|right].
    - split; [eapply as_tick; exact X1|]. split; [eapply pi_tick; exact X2|]. split; [eauto|]. apply (HE (T1 + Dd, ESendDone k a)). left. rewrite X3. left. reflexivity.
    - split; [eapply as_tick; exact X1|]. split; [eapply pi_tick; exact X2|]. split; [exact X3|lia]. }
  destruct P as [u AC X L1 PA ? ? ? PB B M|u AC X L1 PA ? ? ? PB B M|u T1 AC X L1 L2 PA ? ? ? PB B M|T1 d1 j ne X L1 L2 L3 RA RB ? ? PB B M|T1 d1 j ne X L1 L2 L3 RA RB ? PB B M|T1 d1 X L1 L2 L3 RA RB B M EA EB
    |T1 d1 d2 j ne g X PA B L1 L2 L3 L4 RA RB|T1 d1 d2 j ne g X PA B L1 L2 L3 L4 RA RB|T3 g X L1 L2 B|g X B].
  - pose proof (TS _ _ _ (aw_sl _ _ _ _ _ _ _ _ X)). eapply P1; eauto; [eapply aw_tick; eauto|lia|eapply pi_tick; eauto|eapply pi_tick; eauto|apply bq_tick; auto].
  - pose proof (TS _ _ _ (aw_sl _ _ _ _ _ _ _ _ X)). eapply P2; eauto; [eapply aw_tick; eauto|lia|eapply pi_tick; eauto|eapply pi_tick; eauto|apply bq_tick; auto].
  - pose proof (TS _ _ _ (aw_sl _ _ _ _ _ _ _ _ X)). eapply P3; eauto; [eapply aw_tick; eauto|lia|eapply pi_tick; eauto|eapply pi_tick; eauto|apply bq_tick; auto].
  - assert (t' <= T1 + d1) by (apply (HE (T1 + d1, ERecv j ne)); right; right; rewrite RB; left; reflexivity).
    eapply P4 with (T1 := T1) (d1 := d1) (ne := ne); eauto; [lia|eapply pi_tick; eauto|apply bq_tick; auto].
  - assert (t' <= T1 + d1 + Dd) by (apply (HE (T1 + d1 + Dd, ERecvDone j ne)); right; right; rewrite RB; left; reflexivity).
    eapply P5 with (T1 := T1) (d1 := d1) (ne := ne); eauto; [lia|eapply pr_tick; eauto|apply bq_tick; auto].
  - assert (t' <= T1 + d1 + Dd + mc_sifs (cfg a)). { destruct (bk_hl _ _ _ B) as [u U]. apply (HT (Mtimer u (T1 + d1 + Dd + mc_sifs (cfg a)) (MKSendAck (mf_src p) (mf_seq p)))). right. apply in_hl. rewrite U. left. reflexivity. }
    eapply P6 with (T1 := T1) (d1 := d1); eauto; [lia|apply bk_tick; auto].
  - match type of RA with _ = [?y] => assert (t' <= fst y) by (apply HE; right; left; rewrite RA; left; reflexivity) end. cbn [fst] in *.
    eapply P7 with (T1 := T1) (d1 := d1) (d2 := d2) (ne := ne) (g := g); eauto; [eapply as_tick; eauto|eapply pi_tick; eauto|apply btx_tick; auto|lia].
  - match type of RA with _ = [?y] => assert (t' <= fst y) by (apply HE; right; left; rewrite RA; left; reflexivity) end. cbn [fst] in *.
    eapply P8 with (T1 := T1) (d1 := d1) (d2 := d2) (ne := ne) (g := g); eauto; [eapply as_tick; eauto|eapply pr_tick; eauto|apply btx_tick; auto|lia].
  - assert (t' <= T3 + psec). { destruct (af_hl _ _ _ _ _ X) as [u U]. apply (HT (Mtimer u (T3 + psec) (MKDone true (mf_seq p)))). left. apply in_hl. rewrite U. left. reflexivity. }
    eapply P9 with (T3 := T3); eauto; [eapply af_tick; eauto|lia|apply btx_tick; auto].
  - eapply P10; eauto; [apply ae_tick; auto|apply btx_tick; auto].
Qed.

Lemma tick_step t s : Com s -> PhS s -> qtimely (macs_due nodes) macs_own s (QTick t : qev (X := yev) (O := yenv)) = true ->
  let s' := qstep K o0 s (QTick t) in Com s' /\ PhS s'.
Proof.
  intros C P T s'. assert (R : reached s') by (apply reached_step; apply C). cbn [qtimely ctimely] in T. apply andb_true_iff in T. destruct T as [T TD]. apply andb_true_iff in T. destruct T as [T1 T2].
  apply Z.leb_le in T1. rewrite forallb_forall in T2, TD.
  destruct (ticks t nodes s ND) as (H1 & H2 & H3 & H4 & H5). set (s1 := fold_left _ nodes s) in *.
  assert (E : q_net s' = q_net s1 /\ c_now (q_chan s') = t /\ c_pend (q_chan s') = c_pend (q_chan s) /\ q_frames s' = q_frames s /\ forall x, q_phy s' x = ktick t (q_phy s x)).
  { unfold s'. cbn [qstep]. cbn [K mac_conf q_nodes]. fold K. fold s1. cbn [q_net q_chan q_frames q_phy chan_step fst c_now c_pend]. rewrite H3, H4, H5. repeat split; auto. }
  destruct E as (E1 & E2 & E3 & E4 & E5). clearbody s'.
  assert (N : forall x, In x nodes -> St s' x = set_now t (St s x) /\ Ot s' x = Ot s x). { intros x I. unfold St, Ot. rewrite E1. apply H1. exact I. }
  split.
  - destruct C. constructor; auto.
    + intros x I XA XB. destruct (cm_idle0 x I XA XB) as [F B]. exists F. rewrite (proj1 (N x I)). apply bq_tick. exact B.
    + intros e. rewrite E3. intros I. specialize (cm_pend0 e I). unfold okp in *. rewrite E4. exact cm_pend0.
    + rewrite (proj1 (N a Ia)). unfold now. rewrite E2. reflexivity.
    + rewrite (proj1 (N b Ib)). unfold now. rewrite E2. reflexivity.
  - unfold PhS. destruct (N a Ia) as [A1 A2], (N b Ib) as [B1 B2]. rewrite A1, A2, B1, B2, !E5, E4. unfold now, pD, pR. rewrite E2, E3. eapply ph_tick; [exact P|exact T1| |].
    + intros e [I|[I|I]]; apply filter_In in I; destruct I as [I _]; specialize (T2 e I); apply Z.leb_le in T2; exact T2.
    + intros x I. apply Z.leb_le, TD. unfold macs_due. apply in_flat_map. destruct I as [I|I]; [exists a|exists b]; (split; [auto|apply in_map; exact I]).
Qed.

(** ** Events of the channel *)
Definition hears (pw : Z) : Prop := sense a pw = true /\ good a pw 0 = true /\ sense b pw = true /\ good b pw 0 = true.

Lemma done_step i tt k x o dl pw s : Com s -> PhS s -> nth_error (c_pend (q_chan s)) i = Some (tt, ESendDone k x) -> tt = now s ->
  let s' := qstep K o0 s (QChan i o dl pw) in Com s' /\ PhS s'.
Proof.
  intros C P N TN s'. assert (R : reached s') by (apply reached_step; apply C). destruct (reached_inv s (cm_r _ C)) as [V _].
  assert (TX : k_txs (q_phy s x) <> []).
  { intros E. pose proof (i_tx _ _ _ _ V x) as L. rewrite E in L. pose proof (num_pos (is_done x) _ _ _ N) as Q. unfold is_done in Q at 1. cbn [snd] in Q. rewrite Z.eqb_refl in Q. specialize (Q eq_refl). cbn [length] in L. lia. }
  assert (PS' : c_pend (q_chan s') = remove_nth i (c_pend (q_chan s)) -> forall y, pR s' y = pR s y).
  { intros E y. unfold pR. rewrite E. apply (filter_miss (isR y) i _ _ N). reflexivity. }
  assert (NO : pD s = [] -> False). { intros E. pose proof (filter_nil isD i _ _ N E) as X. discriminate X. }
  assert (FIN : forall ev r, x = a \/ x = b -> q_net s' = mput (q_net s) x (node_of s x ev r) -> m_now (fst r) = m_now (St s x) -> c_now (q_chan s') = c_now (q_chan s) ->
    c_pend (q_chan s') = remove_nth i (c_pend (q_chan s)) -> q_frames s' = q_frames s -> Com s').
  { intros ev r X E1 E2 E3 E4 E5. eapply com_net; [exact C|exact R|exact E1| |exact E2|exact E3|].
    - intros Y1 Y2. destruct X; contradiction.
    - intros e I. rewrite E4 in I. apply in_remove_nth in I. pose proof (cm_pend _ C e I) as Y. unfold okp in *. rewrite E5. exact Y. }
  assert (HA : forall T1, Atx (now s) T1 (St s a) (q_phy s a) (pD s) -> Com s' /\ Atx (now s') T1 (St s' a) (q_phy s' a) (pD s') /\ St s' b = St s b /\ Ot s' a = Ot s a /\ Ot s' b = Ot s b /\ q_phy s' b = q_phy s b /\
     pR s' a = pR s a /\ pR s' b = pR s b /\ q_frames s' = q_frames s /\ now s' = now s).
  { intros T1 [(X1 & X2 & (k' & X3) & X4)|(X1 & X2 & X3 & X4)]; [|destruct (NO X3)]. destruct (filter_one isD i _ _ _ N eq_refl X3) as [E E']. injection E as TT -> ->.
    destruct PKT as (PT & PS & PD). assert (UNI : mf_dst p <> bcast) by (rewrite PD; apply NBC).
    destruct (as_done (cfg a) p Tr Lim UNI PT _ _ (Menv (is_idle (idled (q_phy s a) (remove_nth 0 (k_txs (q_phy s a))))) (ye_draw o)) _ _ X1) as [Y1 Y2].
    destruct (chan_done i _ _ _ o dl pw s N TX) as (S1 & S2 & S3 & S4 & S5 & S6); [unfold after_ev; cbn [mac_event]; rewrite Y2; reflexivity|]. fold s' in S1, S2, S3, S4, S5, S6.
    assert (C' : Com s') by (eapply FIN; eauto; unfold after_ev; apply ev_now; discriminate).
    destruct (st_same _ _ _ _ _ S1) as [E1 E2]. destruct (st_other _ _ _ _ _ b S1 (not_eq_sym AB)) as [E3 E4]. unfold after_ev in E1, E2. cbn [mac_event] in E1, E2. rewrite Y2, app_nil_r in E2.
    split; [exact C'|]. rewrite !(PS' S5), S6, (S3 b (not_eq_sym AB)), E1, E2, E3, E4, S2. unfold now. rewrite S4. split; [|repeat (split; [reflexivity|]); reflexivity].
    right. split; [exact Y1|]. split; [destruct X2; constructor; auto|]. split; [unfold pD; rewrite S5; exact E'|]. fold (now s). lia. }
  assert (HB : Btx (St s b) (pD s) -> Com s' /\ Btx (St s' b) (pD s') /\ St s' a = St s a /\ Ot s' a = Ot s a /\ Ot s' b = Ot s b /\ q_phy s' a = q_phy s a /\
     pR s' a = pR s a /\ pR s' b = pR s b /\ q_frames s' = q_frames s /\ now s' = now s).
  { intros [(F & g & k' & x' & X1 & X2 & X3)|(F & X1 & X3)]; [|destruct (NO X3)]. destruct (filter_one isD i _ _ _ N eq_refl X3) as [E E']. injection E as -> -> ->.
    destruct (bq_done g F (cfg b) (Menv (is_idle (idled (q_phy s b) (remove_nth 0 (k_txs (q_phy s b))))) (ye_draw o)) _ X1) as (Y1 & Y2 & _); [rewrite X2; discriminate|].
    destruct (chan_done i _ _ _ o dl pw s N TX) as (S1 & S2 & S3 & S4 & S5 & S6); [unfold after_ev; cbn [mac_event]; rewrite Y2; reflexivity|]. fold s' in S1, S2, S3, S4, S5, S6.
    assert (C' : Com s') by (eapply FIN; eauto; unfold after_ev; apply ev_now; discriminate).
    destruct (st_same _ _ _ _ _ S1) as [E1 E2]. destruct (st_other _ _ _ _ _ a S1 AB) as [E3 E4]. unfold after_ev in E1, E2. cbn [mac_event] in E1, E2. rewrite Y2, app_nil_r in E2.
    split; [exact C'|]. rewrite !(PS' S5), S6, (S3 a AB), E1, E2, E3, E4. unfold now. rewrite S4. split; [|repeat (split; [reflexivity|]); reflexivity].
    right. exists F. split; [exact Y1|]. unfold pD. rewrite S5. exact E'. }
  clearbody s'. unfold PhS in P |- *.
  destruct P as [u AC X L1 PA D|u AC X L1 PA D|u T1 AC X L1 L2 PA D|T1 d1 j ne X|T1 d1 j ne X|T1 d1 X|T1 d1 d2 j ne g X PA B|T1 d1 d2 j ne g X PA B|T3 g X L1 L2 B|g X B]; try (destruct (NO D));
    try (destruct (HA _ X) as (C' & X' & E1 & E2 & E3 & E4 & E5 & E6 & E7 & E8); split; [exact C'|]; rewrite E1, E2, E3, E4, E5, E6, E7; rewrite E8 in X' |- *);
    try (destruct (HB B) as (C' & B' & E1 & E2 & E3 & E4 & E5 & E6 & E7 & E8); split; [exact C'|]; rewrite E1, E2, E3, E4, E5, E6, E7, E8).
  - eapply P4 with (T1 := T1) (d1 := d1) (ne := ne); eauto.
  - eapply P5 with (T1 := T1) (d1 := d1) (ne := ne); eauto.
  - eapply P6 with (T1 := T1) (d1 := d1); eauto.
  - eapply P7 with (T1 := T1) (d1 := d1) (d2 := d2) (ne := ne) (g := g); eauto.
  - eapply P8 with (T1 := T1) (d1 := d1) (d2 := d2) (ne := ne) (g := g); eauto.
  - eapply P9; eauto.
  - eapply P10; eauto.
Qed.

Lemma delete_step i tt ne o dl pw s : Com s -> PhS s -> nth_error (c_pend (q_chan s)) i = Some (tt, EDelete ne) ->
  let s' := qstep K o0 s (QChan i o dl pw) in Com s' /\ PhS s'.
Proof.
  intros C P N s'. assert (R : reached s') by (apply reached_step; apply C).
  assert (E : q_net s' = q_net s /\ q_phy s' = q_phy s /\ q_frames s' = q_frames s /\ c_now (q_chan s') = c_now (q_chan s) /\ c_pend (q_chan s') = remove_nth i (c_pend (q_chan s))).
  { unfold s'. cbn [qstep]. rewrite N. cbn [chan_step]. rewrite N. repeat split; reflexivity. }
  destruct E as (E1 & E2 & E3 & E4 & E5). clearbody s'. split.
  - destruct C. unfold idle_node, St, now in *. constructor; auto; unfold idle_node, St, now; rewrite ?E1, ?E4; auto. intros e I. rewrite E5 in I. apply in_remove_nth in I. specialize (cm_pend0 e I). unfold okp in *. rewrite E3. exact cm_pend0.
  - unfold PhS, now, pD, pR, St, Ot in *. rewrite E1, E2, E3, E4, E5, !(filter_miss _ i _ _ N eq_refl). exact P.
Qed.

Lemma rx_step i tt ce j ne x o dl pw s : Com s -> PhS s -> nth_error (c_pend (q_chan s)) i = Some (tt, ce) -> ce = ERecv j ne \/ ce = ERecvDone j ne -> @nth_error Z nodes j = Some x ->
  tt = now s -> hears pw -> let s' := qstep K o0 s (QChan i o dl pw) in Com s' /\ PhS s'.
Proof.
  intros C P N CE NX TN HE s'. assert (R : reached s') by (apply reached_step; apply C). destruct (reached_inv s (cm_r _ C)) as [V _]. pose proof (i_devs _ _ _ _ V) as DV. cbn [K mac_conf q_nodes] in DV.
  assert (IX : In x nodes) by (eapply nth_error_In; exact NX).
  assert (OK : okp s (tt, ce)) by (apply C; eapply nth_error_In; exact N). assert (OK' : exists f, nth_error (q_frames s) (n_k ne) = Some f /\ (mf_dst f = a \/ mf_dst f = b)) by (destruct CE as [-> | ->]; exact OK). clear OK.
  assert (RX : forall y, isR y (tt, ce) = (x =? y)) by (intros y; unfold isR; destruct CE as [-> | ->]; cbn [snd]; rewrite NX; reflexivity).
  assert (DX : isD (tt, ce) = false) by (destruct CE as [-> | ->]; reflexivity).
  assert (FIN : forall ev r e, x = a \/ x = b -> q_net s' = mput (q_net s) x (node_of s x ev r) -> m_now (fst r) = m_now (St s x) -> c_now (q_chan s') = c_now (q_chan s) ->
    c_pend (q_chan s') = remove_nth i (c_pend (q_chan s)) ++ [e] -> (snd e = ERecvDone j ne \/ snd e = EDelete ne) -> q_frames s' = q_frames s -> Com s').
  { intros ev r e0 X E1 E2 E3 E4 E4' E5. eapply com_net; [exact C|exact R|exact E1| |exact E2|exact E3|].
    - intros Y1 Y2. destruct X; contradiction.
    - intros e I. rewrite E4 in I. unfold okp. rewrite E5. apply in_app_or in I. destruct I as [I|[<-|[]]]; [apply in_remove_nth in I; exact (cm_pend _ C e I)|].
      destruct E4' as [-> | ->]; auto. }
  assert (PD' : forall e, c_pend (q_chan s') = remove_nth i (c_pend (q_chan s)) ++ [e] -> snd e = ERecvDone j ne \/ snd e = EDelete ne -> pD s' = pD s).
  { intros e E2 E1. unfold pD. rewrite E2, filter_app, (filter_miss isD i _ _ N DX). cbn [filter]. unfold isD at 2. destruct E1 as [-> | ->]; apply app_nil_r. }
  assert (PR' : forall y e, y <> x -> c_pend (q_chan s') = remove_nth i (c_pend (q_chan s)) ++ [e] -> snd e = ERecvDone j ne \/ snd e = EDelete ne -> pR s' y = pR s y).
  { intros y e NE E2 E1. apply not_eq_sym, Z.eqb_neq in NE. unfold pR. rewrite E2, filter_app, (filter_miss (isR y) i _ _ N) by (rewrite RX; exact NE). cbn [filter]. unfold isR at 2.
    destruct E1 as [-> | ->]; [rewrite NX, NE|]; apply app_nil_r. }
  destruct PKT as (PT & PS & PD). destruct HE as (HE1 & HE2 & HE3 & HE4). destruct DUR as [DP _]. destruct ADUR as [AP _]. destruct SIFS as [SP SE].
  destruct (Z.eq_dec x a) as [->|XA]; [|destruct (Z.eq_dec x b) as [->|XB]].
  - (* the acknowledgement at a *)
    assert (RA : isR a (tt, ce) = true) by (rewrite RX; apply Z.eqb_refl).
    assert (NO : pR s a = [] -> False) by (intros E; rewrite (filter_nil (isR a) i _ _ N E) in RA; discriminate RA).
    destruct P as [u AC X L1 PA ? RA'|u AC X L1 PA ? RA'|u T1 AC X L1 L2 PA ? RA'|T1 d1 j' ne' X L1 L2 L3 RA'|T1 d1 j' ne' X L1 L2 L3 RA'|T1 d1 X L1 L2 L3 RA'|T1 d1 d2 j' ne' g X PA B L1 L2 L3 L4 RA' RB ND' NF AK EA EB|T1 d1 d2 j' ne' g X PA B L1 L2 L3 L4 RA' RB NF AK EA EB|T3 g X L1 L2 B RA'|g X B RA']; try (destruct (NO RA')).
    + destruct (filter_one (isR a) i _ _ _ N RA RA') as [E E']. injection E as TT CE'. rewrite CE' in CE. destruct CE as [CE|CE]; [|discriminate CE]. injection CE as -> ->. subst ce.
      destruct (as_start (cfg a) p Tr Lim _ _ (Menv false (ye_draw o)) _ _ (reached_ids s a (cm_r _ C)) SLOT X) as [Y1 Y2].
      assert (TM : T0 < now s + n_dur ne) by (rewrite ND'; unfold psec in *; lia).
      destruct (chan_recv i tt j ne a o dl pw s T0 (now s) N DV NX PA HE1 TM) as (S1 & S2 & S3 & S4 & S5 & S6); [unfold after_ev; cbn [mac_event]; exact Y2|]. fold s' in S1, S2, S3, S4, S5, S6.
      split; [eapply FIN; [auto|exact S1|unfold after_ev; apply ev_now; discriminate|exact S4|exact S5|left; reflexivity|exact S6]|].
      destruct (st_same _ _ _ _ _ S1) as [E1 E2]. destruct (st_other _ _ _ _ _ b S1 (not_eq_sym AB)) as [E3 E4]. unfold after_ev in E1, E2. cbn [mac_event] in E1, E2. rewrite Y2, app_nil_r in E2.
      unfold PhS. rewrite E1, E2, E3, E4, S2, (S3 b (not_eq_sym AB)), S6, (PD' _ S5 (or_introl eq_refl)), (PR' b _ (not_eq_sym AB) S5 (or_introl eq_refl)). unfold now. rewrite S4. fold (now s).
      assert (RR : pR s' a = [(T1 + d1 + Dd + mc_sifs (cfg a) + d2 + A, ERecvDone j ne)]).
      { unfold pR. rewrite S5, filter_app, E'. cbn [filter]. unfold isR. cbn [snd]. rewrite NX, Z.eqb_refl. cbn [app]. fold (now s). rewrite <- TN, TT, ND'. reflexivity. }
      rewrite RR. eapply P8 with (T1 := T1) (d1 := d1) (d2 := d2) (ne := ne) (g := g); eauto; [|lia].
      destruct PA. constructor; auto; cbn [receiving k_end k_rxs k_list].
      * rewrite ND', pi_now0, <- TN, TT. reflexivity.
      * rewrite pi_rxs0. eexists. split; [reflexivity|]. auto.
      * intros z Z. apply in_app_or in Z. destruct Z as [Z|[<-|[]]]; [right; apply pi_list0; auto|left; split; [reflexivity|]]. unfold g_end. cbn [g_start g_dur]. rewrite ND', pi_now0, <- TN, TT. lia.
    + destruct (filter_one (isR a) i _ _ _ N RA RA') as [E E']. injection E as TT CE'. rewrite CE' in CE. destruct CE as [CE|CE]; [discriminate CE|]. injection CE as -> ->. subst ce.
      destruct AK as (AK1 & AK2 & AK3 & AK4).
      destruct (as_end (cfg a) p Tr Lim _ _ (Menv true (ye_draw o)) g _ X) as [Y1 Y2]; [exact AK1|rewrite ADDR by auto; exact AK3|exact AK4|unfold Lim; lia|].
      assert (RF : read_frame (ye_junk o) g = g) by (unfold read_frame; rewrite AK1; reflexivity).
      assert (TM : T0 < now s) by (unfold psec in *; lia). assert (PA' : Pr T0 (now s) (Z.of_nat (n_k ne)) (now s) (fun w => good a w 0) (q_phy s a)) by (rewrite <- TN at 2; rewrite TT; exact PA).
      destruct (chan_end i tt j ne a o dl pw s T0 (now s) g N DV NX PA' TM NF) as (S1 & S2 & S4 & S5 & S6 & S7); [unfold after_ev; cbn [mac_event]; rewrite RF, Y2; reflexivity|]. fold s' in S1, S2, S4, S5, S6, S7.
      split; [eapply FIN; [auto|exact S1|unfold after_ev; apply ev_now; discriminate|exact S5|exact S6|right; reflexivity|exact S7]|].
      destruct (st_same _ _ _ _ _ S1) as [E1 E2]. destruct (st_other _ _ _ _ _ b S1 (not_eq_sym AB)) as [E3 E4]. unfold after_ev in E1, E2. cbn [mac_event] in E1, E2. rewrite RF in E1, E2. rewrite Y2, app_nil_r in E2.
      unfold PhS. rewrite E1, E2, E3, E4, S7, (PD' _ S6 (or_intror eq_refl)), (PR' b _ (not_eq_sym AB) S6 (or_intror eq_refl)). unfold now. rewrite S5. fold (now s).
      assert (RR : pR s' a = []). { unfold pR. rewrite S6, filter_app, E'. reflexivity. }
      rewrite RR. eapply P9 with (T3 := now s) (g := g); eauto; [unfold psec; lia| |unfold isack; auto].
      unfold deadline. rewrite <- TN, TT. fold A Dd. lia.
  - (* the packet at b *)
    assert (RA : isR b (tt, ce) = true) by (rewrite RX; apply Z.eqb_refl).
    assert (NO : pR s b = [] -> False) by (intros E; rewrite (filter_nil (isR b) i _ _ N E) in RA; discriminate RA).
    destruct P as [u AC X L1 PA ? ? RB|u AC X L1 PA ? ? RB|u T1 AC X L1 L2 PA ? ? RB|T1 d1 j' ne' X L1 L2 L3 RA' RB ND' NF PB B M EA EB|T1 d1 j' ne' X L1 L2 L3 RA' RB NF PB B M EA EB|T1 d1 X L1 L2 L3 RA' RB|T1 d1 d2 j' ne' g X PA B L1 L2 L3 L4 RA' RB|T1 d1 d2 j' ne' g X PA B L1 L2 L3 L4 RA' RB|T3 g X L1 L2 B RA' RB|g X B RA' RB]; try (destruct (NO RB)).
    + destruct (filter_one (isR b) i _ _ _ N RA RB) as [E E']. injection E as TT CE'. rewrite CE' in CE. destruct CE as [CE|CE]; [|discriminate CE]. injection CE as -> ->. subst ce.
      destruct (bq_start FB (cfg b) (Menv false (ye_draw o)) _ (reached_ids s b (cm_r _ C)) B) as (Y1 & Y2 & Y3).
      assert (TM : T0 < now s + n_dur ne) by (rewrite ND'; unfold psec in *; lia).
      destruct (chan_recv i tt j ne b o dl pw s T0 (now s) N DV NX PB HE3 TM) as (S1 & S2 & S3 & S4 & S5 & S6); [unfold after_ev; cbn [mac_event]; rewrite Y2; reflexivity|]. fold s' in S1, S2, S3, S4, S5, S6.
      split; [eapply FIN; [auto|exact S1|unfold after_ev; apply ev_now; discriminate|exact S4|exact S5|left; reflexivity|exact S6]|].
      destruct (st_same _ _ _ _ _ S1) as [E1 E2]. destruct (st_other _ _ _ _ _ a S1 AB) as [E3 E4]. unfold after_ev in E1, E2. cbn [mac_event] in E1, E2. rewrite Y2, app_nil_r in E2.
      unfold PhS. rewrite E1, E2, E3, E4, S2, (S3 a AB), S6, (PD' _ S5 (or_introl eq_refl)), (PR' a _ AB S5 (or_introl eq_refl)). unfold now. rewrite S4. fold (now s).
      assert (RR : pR s' b = [(T1 + d1 + Dd, ERecvDone j ne)]).
      { unfold pR. rewrite S5, filter_app, E'. cbn [filter]. unfold isR. cbn [snd]. rewrite NX, Z.eqb_refl. cbn [app]. fold (now s). rewrite <- TN, TT, ND'. reflexivity. }
      rewrite RR. eapply P5 with (T1 := T1) (d1 := d1) (ne := ne); eauto; [lia| |congruence].
      destruct PB. constructor; auto; cbn [receiving k_end k_rxs k_list].
      * rewrite ND', pi_now0, <- TN, TT. reflexivity.
      * rewrite pi_rxs0. eexists. split; [reflexivity|]. auto.
      * intros z Z. apply in_app_or in Z. destruct Z as [Z|[<-|[]]]; [right; apply pi_list0; auto|left; split; [reflexivity|]]. unfold g_end. cbn [g_start g_dur]. rewrite ND', pi_now0, <- TN, TT. lia.
    + destruct (filter_one (isR b) i _ _ _ N RA RB) as [E E']. injection E as TT CE'. rewrite CE' in CE. destruct CE as [CE|CE]; [discriminate CE|]. injection CE as -> ->. subst ce.
      destruct (bq_data (cfg b) p PT) with (F := FB) (e := Menv true (ye_draw o)) (s := St s b) as (Y1 & Y2 & Y3); [rewrite ADDR by auto; exact PD|rewrite PD; apply NBC|exact B|rewrite PS; exact NEW|].
      assert (RF : read_frame (ye_junk o) p = p) by (unfold read_frame; rewrite PT; reflexivity).
      assert (TM : T0 < now s) by (unfold psec in *; lia). assert (PB' : Pr T0 (now s) (Z.of_nat (n_k ne)) (now s) (fun w => good b w 0) (q_phy s b)) by (rewrite <- TN at 2; rewrite TT; exact PB).
      destruct (chan_end i tt j ne b o dl pw s T0 (now s) p N DV NX PB' TM NF) as (S1 & S2 & S4 & S5 & S6 & S7); [unfold after_ev; cbn [mac_event]; rewrite RF, snd_vis, Y2; reflexivity|]. fold s' in S1, S2, S4, S5, S6, S7.
      split; [eapply FIN; [auto|exact S1|unfold after_ev; apply ev_now; discriminate|exact S5|exact S6|right; reflexivity|exact S7]|].
      destruct (st_same _ _ _ _ _ S1) as [E1 E2]. destruct (st_other _ _ _ _ _ a S1 AB) as [E3 E4]. unfold after_ev in E1, E2. cbn [mac_event] in E1, E2. rewrite RF in E1, E2. rewrite Y2 in E2.
      unfold PhS. rewrite E1, E2, E3, E4, S7, (S4 a AB), (PD' _ S6 (or_intror eq_refl)), (PR' a _ AB S6 (or_intror eq_refl)), EB. unfold now. rewrite S5. fold (now s).
      assert (RR : pR s' b = []). { unfold pR. rewrite S6, filter_app, E'. reflexivity. }
      rewrite RR. eapply P6 with (T1 := T1) (d1 := d1); eauto; [lia| |congruence]. rewrite M, SE, <- TN, TT in Y1. exact Y1.
  - (* at another node *)
    destruct (other_chan x i tt ce j ne o dl pw s N CE DV NX (cm_idle _ C x IX XA XB) (reached_ids s x (cm_r _ C))) as (O1 & O2 & O3 & O4 & e & O5 & O6).
    { destruct OK' as (f & F1 & F2). intros f' F'. assert (f' = f) by congruence. subst f'. apply dest_foreign; auto. }
    fold s' in O1, O2, O3, O4, O5. clearbody s'. destruct (O2 a (not_eq_sym XA)) as [A1 A2], (O2 b (not_eq_sym XB)) as [B1 B2]. split.
    + destruct C. constructor; auto.
      * intros y Y1 Y2 Y3. destruct (Z.eq_dec y x) as [->|NE]; [exact O1|]. unfold idle_node, St. rewrite (proj1 (O2 y NE)). apply cm_idle0; auto.
      * intros e' I. rewrite O5 in I. unfold okp. rewrite O3. apply in_app_or in I. destruct I as [I|[<-|[]]]; [apply in_remove_nth in I; exact (cm_pend0 e' I)|]. destruct O6 as [-> | ->]; auto.
      * unfold St, now in *. rewrite A1, O4. exact cm_a0.
      * unfold St, now in *. rewrite B1, O4. exact cm_b0.
    + unfold PhS. rewrite (PD' e O5 O6), (PR' a e (not_eq_sym XA) O5 O6), (PR' b e (not_eq_sym XB) O5 O6), O3, A2, B2. unfold St, Ot, now. rewrite A1, B1, O4. exact P.
Qed.

Lemma chan_ok i o dl pw s : Com s -> PhS s -> ctimely (q_chan s) (CFire i) = true -> hears pw -> let s' := qstep K o0 s (QChan i o dl pw) in Com s' /\ PhS s'.
Proof.
  intros C P T H s'. cbn [ctimely] in T. destruct (nth_error (c_pend (q_chan s)) i) as [[tt ce]|] eqn:N; [|discriminate T]. apply Z.eqb_eq in T.
  destruct (reached_inv s (cm_r _ C)) as [V _]. pose proof (i_pend _ _ _ _ V _ (nth_error_In _ _ N)) as PO. unfold pend_ok in PO. cbn [snd] in PO.
  destruct ce as [k x|j ne|j ne|ne]; [eapply done_step; eauto| | |eapply delete_step; eauto]; destruct PO as (x & r & NX & _); eapply rx_step; eauto.
Qed.

(** ** All executions *)
(** No packet arrives from the upper layer; the delays are at most [reach]; every signal at [a] and [b] is sensed and decoded if alone. *)
Definition internal (e : qev (X := yev) (O := yenv)) : Prop :=
  match e with
  | QOwn x o dl y => In x nodes /\ (exists i, y = YTimer i) /\ (forall j, 0 < dl j <= reach) /\ draws o
  | QChan _ _ _ pw => hears pw
  | QTick _ => True
  end.
Lemma one_step e s : Com s -> PhS s -> internal e -> qtimely (macs_due nodes) macs_own s e = true -> Com (qstep K o0 s e) /\ PhS (qstep K o0 s e).
Proof.
  intros C P I T. destruct e as [x o dl y|i o dl pw|t]; cbn [internal qtimely] in *.
  - destruct I as (IX & [i ->] & DL & DR). apply own_step; auto.
  - apply chan_ok; auto.
  - apply tick_step; auto.
Qed.
Lemma all_steps l : forall s, Com s -> PhS s -> Forall internal l -> qtimely_run K (macs_due nodes) macs_own o0 s l = true -> Com (qrun K o0 s l) /\ PhS (qrun K o0 s l).
Proof.
  induction l as [|e l IH]; intros s C P F T; [auto|]. inversion F; subst. cbn [qtimely_run] in T. apply andb_true_iff in T. destruct T as [T1 T2].
  destruct (one_step e s C P) as [C' P']; auto. cbn [qrun]. apply IH; auto.
Qed.
Lemma at_end t sa sb oa ob pa pb d ra rb fr : Ph t sa sb oa ob pa pb d ra rb fr -> deadline < t -> Ae sa /\ exists g, isack g /\ oa = OA ++ [OSnd p; ORep true p] /\ ob = OB ++ [OUp p; OSnd g].
Proof.
  intros P L. assert (TP : 0 < tdata) by (unfold tdata, nsec; lia). assert (PS : 0 < psec) by (unfold psec; lia). destruct DUR as [DP _]. destruct ADUR as [AP _]. destruct SIFS as [SP SE].
  destruct P; try (match goal with H : acc |- _ => destruct H end); try (exfalso; unfold deadline in *; fold Dd A in L; lia); try (exfalso; lia). split; eauto.
Qed.
End Live.
