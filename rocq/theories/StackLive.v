(** One packet in an otherwise idle network of nano nodes: what happens, step by step. *)
From Coq Require Import ZArith List Lia Bool.
From Verif Require Import Base HeaderModel SeqModel EnergyModel NanoModel NetModel PhyModel PhySpec PhyProofs ChannelModel StackModel.
Import ListNotations.
Open Scope Z_scope.

(** Nothing is going on. *)
Record quiet (c : sconf) (s : stack) : Prop := {
  q_sends : k_sends s = [];
  q_pend : c_pend (k_chan s) = [];
  q_phy : forall x, k_phy s x = Phy (know s) [] [] [];
  q_timers : forall x, s_timers (fst (k_net s x)) = [];
  q_now : forall x, In x (k_nodes c) -> s_now (fst (k_net s x)) = know s;
  q_devs : c_devs (k_chan s) = k_nodes c;
  q_len : length (c_log (k_chan s)) = length (k_frames s);
  q_bad : k_bad s = false }.

(** What the simulator does by itself, with propagation delays up to [dmax] and powers that
    suffice for an undisturbed reception. *)
Definition internal (c : sconf) (dmax : Z) (e : sev) : Prop :=
  match e with
  | KMac _ (EvTimer _ _) => True
  | KMac _ _ => False
  | KSend _ delay => forall j, 0 <= delay j <= dmax
  | KChan _ pow junk => forall x, k_low c x pow junk = false
  | KDel _ _ | KTick _ => True
  end.

Section Exchange.
Variables (c : sconf) (s0 : stack) (a b : addr) (size dmax : Z).
Hypothesis Q : quiet c s0.
Hypothesis ND : NoDup (k_nodes c).
Hypothesis Ia : In a (k_nodes c).
Hypothesis Ib : In b (k_nodes c).
Hypothesis AB : a <> b.
Hypothesis Bc : b <> bcast.
Hypothesis ADDR : forall x, In x (k_nodes c) -> c_addr (k_mac c x) = x.
Let ca := k_mac c a.
Let cb := k_mac c b.
Let Sa := fst (k_net s0 a).
Let Sb := fst (k_net s0 b).
Let T0 := know s0.
Let sq := wrap16 (s_seq Sa + 1).
Let p := Frame T_DATA a b sq (size + hdr_size T_DATA) (s_ids Sa).
Let ack := ctrl T_ACK b a sq.
Let D := c_dur ca (f_size p).
Let A := c_dur cb (hdr_size T_ACK).
Let TO := D + c_dur ca (hdr_size T_ACK) + margin.
Hypothesis RA : c_rts ca = false.
Hypothesis RB : c_rts cb = false.
Hypothesis SZ : size <> 64.
Hypothesis LIM : 0 < c_limit ca.
Hypothesis Qa : s_queue Sa = [] /\ s_tx Sa = [] /\ s_ack Sa = [].
Hypothesis Ea : fst (book (c_energy ca) (s_energy Sa) (f_size p) (hdr_size T_ACK)) = true.
Hypothesis Eb : fst (book (c_energy cb) (s_energy Sb) (hdr_size T_RTS) (f_size p - hdr_size T_DATA)) = true.
Hypothesis NEW : fst (is_new (s_filter Sb) a sq) = true.
Hypothesis DP : 0 <= D /\ 0 <= A /\ A = c_dur ca (hdr_size T_ACK).
Hypothesis PC : 0 < p_pulse (k_pc c b) /\ 4 * p_pulse (k_pc c b) <= p_ts (k_pc c b).
Hypothesis EARLY : 0 <= T0 /\ 0 <= dmax /\ T0 + D + dmax + 2 * p_ts (k_pc c b) <= 2 ^ 52.
Hypothesis MARGIN : 2 * dmax + p_ts (k_pc c b) - p_pulse (k_pc c b) < margin.

(** ** The two MACs *)
Let SA := fst (step ca Sa (EvEnqueue size b)).

Lemma enq : step ca Sa (EvEnqueue size b) =
    (SA, [OAccept p; OBooked true (f_size p) (hdr_size T_ACK); OSend p; ORet true]) /\
  s_timers SA = [Timer (s_uid Sa) (T0 + TO) (KAck sq)] /\
  s_ack SA = [(sq, s_uid Sa, p)] /\ s_tx SA = [Tx p 0] /\ s_queue SA = [p] /\ s_now SA = T0.
Proof.
  destruct Qa as [Q1 [Q2 Q3]]. subst SA. cbn [step]. unfold enqueue.
  destruct (Z.eqb_spec size 64) as [X|_]; [contradiction|].
  rewrite Q1. change (Z.of_nat (length (@nil frame))) with 0.
  destruct (Z.leb_spec (c_limit ca) 0) as [X|_]; [lia|].
  rewrite Q2. cbn [existsb app]. unfold seqa, emit, tx_first.
  cbn [s_queue set_tx set_ids set_queue set_seq].
  unfold check_resources.
  replace (f_dst (Frame T_DATA (c_addr ca) b (wrap16 (s_seq Sa + 1)) (size + hdr_size T_DATA) (s_ids Sa)) =? bcast) with false
    by (symmetry; apply Z.eqb_neq; exact Bc).
  rewrite RA. cbn [negb andb]. unfold booking.
  assert (P : Frame T_DATA (c_addr ca) b (wrap16 (s_seq Sa + 1)) (size + hdr_size T_DATA) (s_ids Sa) = p)
    by (unfold p, ca; rewrite (ADDR a Ia); reflexivity).
  rewrite P. cbn [s_energy set_tx set_ids set_queue set_seq].
  destruct (book _ _ _ _) as [ok r] eqn:B. cbn [fst] in Ea. subst ok.
  unfold seqa, emit, send_data.
  replace (f_dst p =? bcast) with false by (symmetry; apply Z.eqb_neq; exact Bc).
  assert (TM : s_timers Sa = []) by apply (q_timers c s0 Q a).
  assert (NW : s_now Sa = T0) by apply (q_now c s0 Q a Ia).
  cbn. rewrite Q3, TM, NW.
  repeat split; rewrite ?Q2; auto.
Qed.

(** The acknowledgement arrives at the sender. *)
Let SA' t := fst (step ca (set_now t SA) (EvRecv ack true)).
Lemma got_ack t : step ca (set_now t SA) (EvRecv ack true) = (SA' t, [ODone true p]) /\ s_timers (SA' t) = [].
Proof.
  destruct enq as [_ [T [K [X [U _]]]]]. subst SA'. cbn [step]. unfold receive, ack, ctrl.
  cbn [negb f_type]. change (T_ACK =? T_RTS) with false. change (T_ACK =? T_CTS) with false.
  change (T_ACK =? T_DATA) with false. change (T_ACK =? T_ACK) with true. cbv iota.
  unfold receive_ack. cbn [f_dst f_seq]. rewrite (ADDR a Ia : c_addr ca = a), Z.eqb_refl.
  cbn [s_ack set_now]. rewrite K. cbn [find fst]. rewrite Z.eqb_refl.
  unfold cancel, seqa, send_data_done. cbn [s_tx s_timers set_timers set_now]. rewrite X, T.
  cbn [find t_pkt tm_id filter]. rewrite !Z.eqb_refl. 
  replace (f_seq p >? f_seq p) with false by (symmetry; rewrite Z.gtb_ltb; apply Z.ltb_irrefl).
  cbn. split; reflexivity.
Qed.

(** The data arrives at the receiver. *)
Let SB t := fst (step cb (set_now t Sb) (EvRecv p true)).
Lemma got_data t : step cb (set_now t Sb) (EvRecv p true) =
    (SB t, [OBooked true (hdr_size T_RTS) (f_size p - hdr_size T_DATA); OSend ack; OUp p]) /\
  s_timers (SB t) = [].
Proof.
  assert (TM : s_timers Sb = []) by apply (q_timers c s0 Q b).
  subst SB. cbn [step]. unfold receive.
  change (f_type p) with T_DATA. cbn [negb]. change (T_DATA =? T_RTS) with false. change (T_DATA =? T_CTS) with false.
  change (T_DATA =? T_DATA) with true. cbv iota.
  unfold receive_data. change (f_dst p) with b.
  replace (b =? bcast) with false by (symmetry; apply Z.eqb_neq; exact Bc).
  rewrite (ADDR b Ib : c_addr cb = b), Z.eqb_refl. cbn [negb]. rewrite RB.
  unfold booking. cbn [s_energy set_now].
  rewrite (surjective_pairing (book (c_energy cb) (s_energy Sb) (hdr_size T_RTS) (f_size p - hdr_size T_DATA))), Eb.
  unfold seqa, emit, send_ack, emit, forward_new.
  cbn [s_data set_energy set_now]. destruct (find _ _) as [[q u]|];
    cbn -[is_new]; rewrite ?TM; cbn -[is_new];
    (rewrite (surjective_pairing (is_new (s_filter Sb) a sq)), NEW;
     unfold ack; rewrite (ADDR b Ib : c_addr cb = b); cbn; rewrite ?TM; split; reflexivity).
Qed.

(** A frame for somebody else. *)
Lemma bystander x f ok S : In x (k_nodes c) -> f = p \/ f = ack -> x <> a -> x <> b ->
  step (k_mac c x) S (EvRecv f ok) = (S, []).
Proof.
  intros I F XA XB. cbn [step]. unfold receive. destruct ok; [|reflexivity]. cbn [negb].
  destruct F as [->| ->].
  - change (f_type p) with T_DATA. change (T_DATA =? T_RTS) with false. change (T_DATA =? T_CTS) with false.
    change (T_DATA =? T_DATA) with true. cbv iota. unfold receive_data. change (f_dst p) with b.
    replace (b =? bcast) with false by (symmetry; apply Z.eqb_neq; exact Bc).
    rewrite (ADDR x I). replace (b =? x) with false by (symmetry; apply Z.eqb_neq; congruence). reflexivity.
  - unfold ack, ctrl. cbn [f_type]. change (T_ACK =? T_RTS) with false. change (T_ACK =? T_CTS) with false.
    change (T_ACK =? T_DATA) with false. change (T_ACK =? T_ACK) with true. cbv iota.
    unfold receive_ack. cbn [f_dst]. rewrite (ADDR x I).
    replace (a =? x) with false by (symmetry; apply Z.eqb_neq; congruence). reflexivity.
Qed.

(** ** The receiver's PHY finds a slot for the acknowledgement *)
Let cp := k_pc c b.
Lemma ack_slot now r : 0 <= now -> now + 2 * p_ts cp <= 2 ^ 52 -> Z.abs (r_start r) <= 2 ^ 52 ->
  exists x, place cp now [] [r] = Slot x /\ now + p_pulse cp <= x <= now + p_ts cp - p_pulse cp.
Proof.
  intros N E R. set (y := Phy now [] [r] []).
  assert (C : pconf_ok cp) by (unfold pconf_ok; fold cp in PC; lia).
  assert (Y : early cp y).
  { unfold early, y, ongoing. cbn [y_now y_txs y_rxs map app]. repeat split; try lia. intros st [<-|[]]. exact R. }
  assert (NE : ongoing y <> []) by discriminate.
  destruct (place cp now [] [r]) as [x| |] eqn:P.
  - exists x. split; auto. exact (place_window cp y C Y x NE P).
  - exfalso. fold cp in PC.
    destruct (no_slot cp y C Y (now + p_pulse cp) NE P) as [st [[<-|[]] [m [k [t O]]]]]; [cbn [y y_now]; lia|].
    destruct (no_slot cp y C Y (now + 3 * p_pulse cp) NE P) as [st' [[<-|[]] [m' [k' [t' O']]]]]; [cbn [y y_now]; lia|].
    cbn [y ongoing y_rxs y_txs map app] in O, O'.
    assert (L : k - m < k' - m' \/ k - m = k' - m' \/ k - m > k' - m') by lia.
    destruct L as [L|[L|L]].
    + assert (p_ts cp * (k - m + 1) <= p_ts cp * (k' - m')) by (apply Z.mul_le_mono_nonneg_l; lia). lia.
    + assert (p_ts cp * (k - m) = p_ts cp * (k' - m')) by (rewrite L; auto). lia.
    + assert (p_ts cp * (k' - m' + 1) <= p_ts cp * (k - m)) by (apply Z.mul_le_mono_nonneg_l; lia). lia.
  - exfalso. exact (place_in_bounds cp y C Y P).
Qed.

(** ** Phases of the exchange *)
Let k0 := length (k_frames s0).
Let fr0 := k_frames s0.
Let OA := snd (k_net s0 a) ++ [OAccept p; OBooked true (f_size p) (hdr_size T_ACK); OSend p; ORet true].
Let OA' := OA ++ [ODone true p].
Let OB := snd (k_net s0 b).
Let OB' := OB ++ [OBooked true (hdr_size T_RTS) (f_size p - hdr_size T_DATA); OSend ack; OUp p].

(** Events of the channel that concern the two nodes. *)
Definition rel (e : Z * cev) : bool :=
  match snd e with ERecv _ ne | ERecvDone _ ne => (n_phy ne =? a) || (n_phy ne =? b) | _ => false end.

(** An own transmission, until its DeleteOngoingTx. *)
Definition txs_of (y : phy) (st dur t : Z) : Prop :=
  (y_txs y = [] /\ y_dels y = []) \/ (y_txs y = [OTx st dur] /\ y_dels y = [OTx st dur] /\ t <= st + dur).

Inductive Ph (t : Z) (na nb : state * list out) (ya yb : phy) (sends : list psend) (rl : list (Z * cev)) (fr : list frame) : Prop :=
| Ph0 : t = T0 -> na = (set_now t SA, OA) -> nb = (set_now t Sb, OB) -> txs_of ya T0 D t -> y_rxs ya = [] ->
    y_txs yb = [] -> y_dels yb = [] -> y_rxs yb = [] ->
    sends = [PSendEv T0 a p D] -> rl = [] -> fr = fr0 -> Ph t na nb ya yb sends rl fr
| Ph1 d j : na = (set_now t SA, OA) -> nb = (set_now t Sb, OB) -> txs_of ya T0 D t -> y_rxs ya = [] ->
    y_txs yb = [] -> y_dels yb = [] -> y_rxs yb = [] ->
    sends = [] -> rl = [(T0 + d, ERecv j (NEntry k0 j b D))] -> fr = fr0 ++ [p] ->
    0 <= d <= dmax -> T0 <= t <= T0 + d -> Ph t na nb ya yb sends rl fr
| Ph2 d j r : na = (set_now t SA, OA) -> nb = (set_now t Sb, OB) -> txs_of ya T0 D t -> y_rxs ya = [] ->
    y_txs yb = [] -> y_dels yb = [] -> y_rxs yb = [r] -> r_id r = Z.of_nat k0 -> r_coll r = false -> r_start r = T0 + d ->
    sends = [] -> rl = [(T0 + d + D, ERecvDone j (NEntry k0 j b D))] -> fr = fr0 ++ [p] ->
    0 <= d <= dmax -> T0 + d <= t <= T0 + d + D -> Ph t na nb ya yb sends rl fr
| Ph3 t1 x : na = (set_now t SA, OA) -> s_timers (fst nb) = [] -> snd nb = OB' -> txs_of ya T0 D t -> y_rxs ya = [] ->
    txs_of yb x A t -> y_rxs yb = [] ->
    sends = [PSendEv x b ack A] -> rl = [] -> fr = fr0 ++ [p] ->
    T0 + D <= t1 <= T0 + D + dmax -> t1 + p_pulse cp <= x <= t1 + p_ts cp - p_pulse cp -> t1 <= t <= x ->
    Ph t na nb ya yb sends rl fr
| Ph4 t1 x d j : na = (set_now t SA, OA) -> s_timers (fst nb) = [] -> snd nb = OB' -> txs_of ya T0 D t -> y_rxs ya = [] ->
    txs_of yb x A t -> y_rxs yb = [] ->
    sends = [] -> rl = [(x + d, ERecv j (NEntry (S k0) j a A))] -> fr = fr0 ++ [p; ack] ->
    T0 + D <= t1 <= T0 + D + dmax -> t1 + p_pulse cp <= x <= t1 + p_ts cp - p_pulse cp ->
    0 <= d <= dmax -> x <= t <= x + d -> Ph t na nb ya yb sends rl fr
| Ph5 t1 x d j r : na = (set_now t SA, OA) -> s_timers (fst nb) = [] -> snd nb = OB' -> txs_of ya T0 D t ->
    y_rxs ya = [r] -> r_id r = Z.of_nat (S k0) -> r_coll r = false ->
    txs_of yb x A t -> y_rxs yb = [] ->
    sends = [] -> rl = [(x + d + A, ERecvDone j (NEntry (S k0) j a A))] -> fr = fr0 ++ [p; ack] ->
    T0 + D <= t1 <= T0 + D + dmax -> t1 + p_pulse cp <= x <= t1 + p_ts cp - p_pulse cp ->
    0 <= d <= dmax -> x + d <= t <= x + d + A -> Ph t na nb ya yb sends rl fr
| Ph6 x : s_timers (fst na) = [] -> snd na = OA' -> s_timers (fst nb) = [] -> snd nb = OB' -> txs_of ya T0 D t ->
    txs_of yb x A t -> sends = [] -> rl = [] -> fr = fr0 ++ [p; ack] -> Ph t na nb ya yb sends rl fr.

Definition Phs (s : stack) : Prop :=
  Ph (know s) (k_net s a) (k_net s b) (k_phy s a) (k_phy s b) (k_sends s) (filter rel (c_pend (k_chan s))) (k_frames s).

Definition pend_ok (e : Z * cev) : Prop :=
  match snd e with
  | ERecv j ne | ERecvDone j ne => nth_error (k_nodes c) j = Some (n_phy ne) /\ (k0 <= n_k ne)%nat
  | _ => True
  end.

Record Com (s : stack) : Prop := {
  m_oth : forall x, x <> a -> x <> b -> s_timers (fst (k_net s x)) = [] /\ y_dels (k_phy s x) = [];
  m_ynow : forall x, y_now (k_phy s x) = know s;
  m_devs : c_devs (k_chan s) = k_nodes c;
  m_pend : forall e, In e (c_pend (k_chan s)) -> pend_ok e;
  m_len : length (c_log (k_chan s)) = length (k_frames s);
  m_bad : k_bad s = false }.

Let s1 := kstep c s0 (KMac a (EvEnqueue size b)).

Lemma net_same x n e : net_step (k_mac c) n x e x = (fst (step (k_mac c x) (fst (n x)) e), snd (n x) ++ snd (step (k_mac c x) (fst (n x)) e)).
Proof. unfold net_step. rewrite Z.eqb_refl. reflexivity. Qed.
Lemma net_other x y n e : y <> x -> net_step (k_mac c) n x e y = n y.
Proof. intros N. unfold net_step. apply Z.eqb_neq in N. rewrite N. reflexivity. Qed.

Lemma Com_start : Com s1 /\ Phs s1.
Proof.
  destruct enq as [E [T [_ [_ [_ NA]]]]]. subst s1. cbn [kstep own_event andb].
  replace (existsb (Z.eqb a) (k_nodes c)) with true
    by (symmetry; apply existsb_exists; exists a; split; [exact Ia|apply Z.eqb_refl]).
  unfold mac_event. fold ca Sa. rewrite E. cbn [snd phy_sends].
  unfold phy_send. cbn [with_net k_phy]. rewrite (q_phy c s0 Q a). cbn [y_now y_txs y_rxs place].
  unfold send. cbn [y_now y_txs y_rxs y_dels place fst app]. fold ca. fold D. fold T0.
  split.
  - constructor; cbn [k_net k_phy k_chan k_frames k_bad with_sends with_phy with_net].
    + intros x XA XB. rewrite net_other by auto. split; [apply (q_timers c s0 Q)|].
      apply Z.eqb_neq in XA. rewrite XA. rewrite (q_phy c s0 Q x). reflexivity.
    + intros x. unfold know. cbn [k_chan with_sends with_phy with_net]. destruct (x =? a); [reflexivity|].
      rewrite (q_phy c s0 Q x). reflexivity.
    + apply (q_devs c s0 Q).
    + rewrite (q_pend c s0 Q). intros e [].
    + apply (q_len c s0 Q).
    + apply (q_bad c s0 Q).
  - unfold Phs. cbn [k_net k_phy k_chan k_frames k_bad k_sends with_sends with_phy with_net know].
    rewrite (q_pend c s0 Q), (q_sends c s0 Q). rewrite net_same, net_other by auto.
    rewrite Z.eqb_refl. replace (b =? a) with false by (symmetry; apply Z.eqb_neq; auto).
    assert (N1 : forall S t, s_now S = t -> S = set_now t S) by (intros [] t <-; reflexivity).
    assert (NB : s_now Sb = T0) by apply (q_now c s0 Q b Ib).
    rewrite (q_phy c s0 Q b). fold ca Sa. rewrite E. cbn [fst snd app].
    apply Ph0; cbn [y_txs y_rxs y_dels]; auto.
    + match goal with |- context [know ?s] => change (know s) with T0 end. rewrite <- (N1 SA T0 NA). reflexivity.
    + match goal with |- context [know ?s] => change (know s) with T0 end. rewrite <- (N1 Sb T0 NB).
      apply surjective_pairing.
    + right. cbn [y_txs y_dels]. repeat split. change (T0 <= T0 + D). lia.
Qed.

(** ** Lists *)
Lemma filter_out {X} (g : X -> bool) i : forall l e, nth_error l i = Some e -> g e = false -> filter g (remove_nth i l) = filter g l.
Proof.
  induction i as [|i IH]; intros [|y l] e N F; try discriminate; cbn in *.
  - injection N as ->. rewrite F. reflexivity.
  - rewrite (IH l e N F). reflexivity.
Qed.
Lemma filter_hit {X} (g : X -> bool) i : forall l e y, nth_error l i = Some e -> g e = true -> filter g l = [y] ->
  e = y /\ filter g (remove_nth i l) = [].
Proof.
  induction i as [|i IH]; intros [|z l] e y N F H; try discriminate; cbn in *.
  - injection N as ->. rewrite F in H. injection H as -> H. auto.
  - destruct (g z) eqn:Z.
    + injection H as -> H. exfalso. apply nth_error_In in N.
      assert (I : In e (filter g l)) by (apply filter_In; auto). rewrite H in I. destruct I.
    + eauto.
Qed.
Lemma filter_none {X} (g : X -> bool) i l e : nth_error l i = Some e -> g e = true -> filter g l <> [].
Proof.
  intros N F H. apply nth_error_In in N. assert (I : In e (filter g l)) by (apply filter_In; auto). rewrite H in I. destruct I.
Qed.
Lemma in_remove {X} i : forall (l : list X) x, In x (remove_nth i l) -> In x l.
Proof. induction i as [|i IH]; intros [|y l] x H; cbn in *; auto. destruct H as [->|H]; auto. Qed.

(** ** The clock *)
Lemma tick_in t x : forall l n, In x l ->
  fold_left (fun n a => net_step (k_mac c) n a (EvTick t)) l n x = (set_now t (fst (n x)), snd (n x)).
Proof.
  assert (K : forall l (n : net) S o, n x = (set_now t S, o) ->
    fold_left (fun n a => net_step (k_mac c) n a (EvTick t)) l n x = (set_now t S, o)).
  { induction l as [|y l IH]; intros n S o H; cbn; [exact H|]. apply IH.
    destruct (Z.eq_dec x y) as [->|N]; [|rewrite net_other by auto; exact H].
    rewrite net_same, H. cbn. rewrite app_nil_r. reflexivity. }
  induction l as [|y l IH]; intros n H; [destruct H|]. cbn. destruct (Z.eq_dec y x) as [->|N].
  - rewrite (K l _ (fst (n x)) (snd (n x))); [reflexivity|]. rewrite net_same. cbn. rewrite app_nil_r. reflexivity.
  - destruct H as [H|H]; [congruence|]. rewrite IH by auto. rewrite net_other by auto. reflexivity.
Qed.
Lemma tick_timers t x : forall l n,
  s_timers (fst (fold_left (fun n a => net_step (k_mac c) n a (EvTick t)) l n x)) = s_timers (fst (n x)).
Proof.
  induction l as [|y l IH]; intros n; cbn; [reflexivity|]. rewrite IH.
  destruct (Z.eq_dec x y) as [->|N]; [rewrite net_same; reflexivity|rewrite net_other by auto; reflexivity].
Qed.

Lemma txs_tick y st dur t t' : txs_of y st dur t -> (forall d, In d (y_dels y) -> t' <= o_start d + o_dur d) ->
  txs_of (Phy t' (y_txs y) (y_rxs y) (y_dels y)) st dur t'.
Proof.
  intros [H|[H1 [H2 H3]]] X; [left; exact H|right]. cbn [y_txs y_dels]. repeat split; auto.
  specialize (X (OTx st dur)). rewrite H2 in X. specialize (X (or_introl eq_refl)). exact X.
Qed.

Lemma Ph_tick t t' na nb ya yb sends rl fr : Ph t na nb ya yb sends rl fr -> t <= t' ->
  (forall e, In e sends -> t' <= ps_time e) -> (forall e, In e rl -> t' <= fst e) ->
  (forall d, In d (y_dels ya) -> t' <= o_start d + o_dur d) -> (forall d, In d (y_dels yb) -> t' <= o_start d + o_dur d) ->
  Ph t' (set_now t' (fst na), snd na) (set_now t' (fst nb), snd nb) (Phy t' (y_txs ya) (y_rxs ya) (y_dels ya))
    (Phy t' (y_txs yb) (y_rxs yb) (y_dels yb)) sends rl fr.
Proof.
  intros P L S R XA XB. destruct P; subst; cbn [fst snd].
  - specialize (S _ (or_introl eq_refl)). cbn in S. assert (t' = T0) as -> by lia.
    apply Ph0; auto; apply (txs_tick ya T0 D T0); auto.
  - specialize (R _ (or_introl eq_refl)). cbn in R.
    eapply Ph1; eauto; try lia. eapply txs_tick; eauto.
  - specialize (R _ (or_introl eq_refl)). cbn in R.
    eapply Ph2; eauto; try lia. eapply txs_tick; eauto.
  - specialize (S _ (or_introl eq_refl)). cbn in S.
    eapply Ph3; eauto; try lia; eapply txs_tick; eauto.
  - specialize (R _ (or_introl eq_refl)). cbn in R.
    eapply Ph4; eauto; try lia; eapply txs_tick; eauto.
  - specialize (R _ (or_introl eq_refl)). cbn in R.
    eapply Ph5; eauto; try lia; eapply txs_tick; eauto.
  - eapply Ph6; eauto; eapply txs_tick; eauto.
Qed.

Lemma Ph_ya t na nb ya yb sends rl fr ya' : Ph t na nb ya yb sends rl fr -> y_rxs ya' = y_rxs ya ->
  (txs_of ya T0 D t -> txs_of ya' T0 D t) -> Ph t na nb ya' yb sends rl fr.
Proof.
  intros P R X. destruct P.
  - apply Ph0; auto; congruence.
  - eapply Ph1; eauto; congruence.
  - eapply Ph2; eauto; congruence.
  - eapply Ph3; eauto; congruence.
  - eapply Ph4; eauto; congruence.
  - eapply Ph5; eauto; congruence.
  - eapply Ph6; eauto.
Qed.
Lemma Ph_yb t na nb ya yb sends rl fr yb' : Ph t na nb ya yb sends rl fr -> y_dels yb <> [] -> y_rxs yb' = y_rxs yb ->
  (forall x, txs_of yb x A t -> txs_of yb' x A t) -> Ph t na nb ya yb' sends rl fr.
Proof.
  intros P N R X. destruct P; try contradiction.
  - eapply Ph3; eauto; congruence.
  - eapply Ph4; eauto; congruence.
  - eapply Ph5; eauto; congruence.
  - eapply Ph6; eauto.
Qed.

Lemma del_ok y st dur t i d : txs_of y st dur t -> nth_error (y_dels y) i = Some d ->
  txs_of (fst (delete_tx i y)) st dur t.
Proof.
  intros [[H1 H2]|[H1 [H2 H3]]] N; unfold delete_tx; rewrite N; rewrite H2 in N.
  - destruct i; discriminate.
  - destruct i as [|i]; [|destruct i; discriminate]. injection N as <-.
    left. cbn [fst y_txs y_dels]. rewrite H1, H2. cbn. unfold same_tx. rewrite !Z.eqb_refl. auto.
Qed.
Lemma del_rxs y i : y_rxs (fst (delete_tx i y)) = y_rxs y /\ y_now (fst (delete_tx i y)) = y_now y.
Proof. unfold delete_tx. destruct (nth_error _ _); auto. Qed.

(** No timer runs out. *)
Lemma Ph_timers t na nb ya yb sends rl fr : Ph t na nb ya yb sends rl fr ->
  (forall tm, In tm (s_timers (fst na)) -> t < tm_due tm) /\ s_timers (fst nb) = [].
Proof.
  destruct enq as [_ [T _]]. assert (TB : s_timers Sb = []) by apply (q_timers c s0 Q b).
  assert (M : 0 < margin) by reflexivity.
  assert (TA : forall tm, In tm (s_timers (fst (set_now t SA, OA))) -> tm_due tm = T0 + TO).
  { cbn [fst s_timers set_now]. rewrite T. intros tm [<-|[]]. reflexivity. }
  fold cp in MARGIN. fold cp in PC. unfold TO in TA. destruct DP as [D0 [A0 DA]]. rewrite <- DA in TA.
  intros P. destruct P; subst; split; auto;
    try (intros tm I; rewrite (TA tm I); lia).
  match goal with E : s_timers (fst na) = [] |- _ => rewrite E end. intros tm [].
Qed.

(** ** A transmission is announced to the other node *)
Lemma announce_none now k u dur delay v : (u = a /\ v = b) \/ (u = b /\ v = a) -> forall l j, ~ In v l ->
  filter rel (announce now k u dur delay j l) = [].
Proof.
  intros UV. induction l as [|x l IH]; intros j N; [reflexivity|]. cbn [announce]. rewrite filter_app, IH by (intros X; apply N; right; exact X).
  destruct (Z.eqb_spec u x) as [->|X]; [reflexivity|]. cbn.
  replace ((x =? a) || (x =? b)) with false; [reflexivity|]. symmetry. apply orb_false_iff. rewrite !Z.eqb_neq.
  assert (x <> v) by (intros ->; apply N; left; auto). destruct UV as [[-> ->]|[-> ->]]; auto.
Qed.
Lemma announce_one now k u dur delay v : (u = a /\ v = b) \/ (u = b /\ v = a) -> forall l j, NoDup l -> In v l ->
  exists j', filter rel (announce now k u dur delay j l) = [(now + delay j', ERecv j' (NEntry k j' v dur))].
Proof.
  intros UV. induction l as [|x l IH]; intros j N I; [destruct I|]. inversion N as [|y z N1 N2]; subst. cbn [announce].
  rewrite filter_app. destruct (Z.eq_dec x v) as [->|X].
  - exists j. rewrite (announce_none now k u dur delay v UV l (S j) N1).
    replace (u =? v) with false by (symmetry; apply Z.eqb_neq; destruct UV as [[-> ->]|[-> ->]]; auto).
    cbn. replace ((v =? a) || (v =? b)) with true; [reflexivity|].
    symmetry. apply orb_true_iff. rewrite !Z.eqb_eq. destruct UV as [[_ ->]|[_ ->]]; auto.
  - destruct I as [I|I]; [congruence|]. destruct (IH (S j) N2 I) as [j' E]. exists j'. rewrite E.
    destruct (Z.eqb_spec u x) as [->|Y]; [reflexivity|]. cbn.
    replace ((x =? a) || (x =? b)) with false; [reflexivity|]. symmetry. apply orb_false_iff. rewrite !Z.eqb_neq.
    destruct UV as [[-> ->]|[-> ->]]; auto.
Qed.
Lemma announce_ok now k u dur delay e : (k0 <= k)%nat -> forall l pre, k_nodes c = pre ++ l ->
  In e (announce now k u dur delay (length pre) l) -> pend_ok e.
Proof.
  intros K. induction l as [|x l IH]; intros pre E I; [destruct I|]. cbn [announce] in I. apply in_app_or in I.
  destruct I as [I|I].
  - destruct (u =? x); [destruct I|]. destruct I as [<-|[]]. cbn. split; auto. rewrite E.
    rewrite nth_error_app2, Nat.sub_diag by auto. reflexivity.
  - apply (IH (pre ++ [x])); [rewrite <- app_assoc; exact E|]. rewrite app_length. cbn.
    rewrite Nat.add_1_r. exact I.
Qed.

(** ** One step *)
Lemma know_other s x y : know (with_phy x y s) = know s. Proof. reflexivity. Qed.

Lemma step_tick s t : Com s -> Phs s -> ktimely c s (KTick t) = true -> Com (kstep c s (KTick t)) /\ Phs (kstep c s (KTick t)).
Proof.
  intros C P K. cbn [ktimely] in K. rewrite !andb_true_iff, !forallb_forall in K. destruct K as [[[K1 K2] K3] K4].
  apply Z.leb_le in K1.
  assert (K2' : forall e, In e (k_sends s) -> t <= ps_time e) by (intros e I; apply Z.leb_le; auto).
  assert (K3' : forall e, In e (filter rel (c_pend (k_chan s))) -> t <= fst e).
  { intros e I. apply filter_In in I. apply Z.leb_le. apply K3. apply I. }
  assert (K4' : forall x, In x (k_nodes c) -> forall d, In d (y_dels (k_phy s x)) -> t <= o_start d + o_dur d).
  { intros x I d J. specialize (K4 x I). apply andb_true_iff in K4. destruct K4 as [_ K4]. rewrite forallb_forall in K4.
    apply Z.leb_le. auto. }
  cbn [kstep]. split.
  - destruct C as [C1 C2 C3 C4 C5 C6]. constructor; cbn [k_net k_phy k_chan k_frames k_bad chan_step fst c_devs c_pend c_log]; auto.
    intros x XA XB. unfold tick_all. rewrite tick_timers. cbn [y_dels]. auto.
  - unfold Phs. cbn [k_net k_phy k_chan k_frames k_sends chan_step fst c_pend know c_now]. unfold tick_all.
    rewrite !tick_in by auto. eapply Ph_tick; eauto.
Qed.

Lemma step_del s x i : Com s -> Phs s -> ktimely c s (KDel x i) = true -> Com (kstep c s (KDel x i)) /\ Phs (kstep c s (KDel x i)).
Proof.
  intros C P K. cbn [ktimely] in K. destruct (nth_error (y_dels (k_phy s x)) i) as [d|] eqn:N; [|discriminate].
  destruct (del_rxs (k_phy s x) i) as [R W].
  destruct C as [C1 C2 C3 C4 C5 C6]. cbn [kstep].
  assert (NE : y_dels (k_phy s x) <> []) by (intros E; rewrite E in N; destruct i; discriminate).
  assert (X : x = a \/ x = b).
  { destruct (Z.eq_dec x a); auto. destruct (Z.eq_dec x b); auto. destruct (C1 x) as [_ E]; auto. contradiction. }
  split.
  - constructor; cbn [k_net k_phy k_chan k_frames k_bad with_phy]; auto.
    + intros y YA YB. replace (y =? x) with false by (symmetry; apply Z.eqb_neq; destruct X as [->| ->]; auto). auto.
    + intros y. destruct (y =? x); [rewrite W|]; apply C2.
  - unfold Phs in *. cbn [k_net k_phy k_chan k_frames k_sends with_phy]. rewrite know_other. destruct X as [->| ->].
    + rewrite Z.eqb_refl. replace (b =? a) with false by (symmetry; apply Z.eqb_neq; auto).
      eapply Ph_ya; eauto. intros T. eapply del_ok; eauto.
    + rewrite Z.eqb_refl. replace (a =? b) with false by (symmetry; apply Z.eqb_neq; auto).
      eapply Ph_yb; eauto. intros y T. eapply del_ok; eauto.
Qed.

Lemma step_timer s x i draw : Com s -> Phs s -> ktimely c s (KMac x (EvTimer i draw)) = true -> False.
Proof.
  intros C P K. cbn [ktimely] in K. destruct (nth_error (s_timers (fst (k_net s x))) i) as [tm|] eqn:N; [|discriminate].
  apply Z.eqb_eq in K. destruct (Ph_timers _ _ _ _ _ _ _ _ P) as [TA TB]. apply nth_error_In in N.
  destruct (Z.eq_dec x a) as [->|XA]; [specialize (TA tm N); lia|].
  destruct (Z.eq_dec x b) as [->|XB]; [rewrite TB in N; destruct N|].
  destruct (m_oth s C x XA XB) as [E _]. rewrite E in N. destruct N.
Qed.

Lemma step_send s i delay : Com s -> Phs s -> (forall j, 0 <= delay j <= dmax) -> ktimely c s (KSend i delay) = true ->
  Com (kstep c s (KSend i delay)) /\ Phs (kstep c s (KSend i delay)).
Proof.
  intros C P DL K. cbn [ktimely] in K. cbn [kstep]. destruct (nth_error (k_sends s) i) as [q|] eqn:N; [|discriminate].
  apply Z.eqb_eq in K. pose proof C as [C1 C2 C3 C4 C5 C6].
  assert (G : forall u v, (u = a /\ v = b) \/ (u = b /\ v = a) -> ps_node q = u -> (k0 <= length (k_frames s))%nat ->
    exists j h, chan_step (k_chan s) (CSend (ps_node q) (ps_dur q) delay) = (h, []) /\
      c_now h = know s /\ c_devs h = k_nodes c /\ length (c_log h) = S (length (k_frames s)) /\
      (forall e, In e (c_pend h) -> pend_ok e) /\
      filter rel (c_pend h) = filter rel (c_pend (k_chan s)) ++
        [(know s + delay j, ERecv j (NEntry (length (k_frames s)) j v (ps_dur q)))]).
  { intros u v UV E KK. cbn [chan_step]. unfold chan_send. rewrite E, C3.
    assert (IU : In u (k_nodes c)) by (destruct UV as [[-> _]|[-> _]]; auto).
    assert (IV : In v (k_nodes c)) by (destruct UV as [[_ ->]|[_ ->]]; auto).
    replace (existsb (Z.eqb u) (k_nodes c)) with true
      by (symmetry; apply existsb_exists; exists u; split; [auto|apply Z.eqb_refl]).
    cbn [negb andb]. rewrite C5.
    destruct (announce_one (know s) (length (k_frames s)) u (ps_dur q) delay v UV (k_nodes c) 0 ND IV) as [j J].
    eexists j, _. split; [reflexivity|]. cbn [c_now c_devs c_log c_pend]. repeat split; auto.
    - rewrite app_length, C5. cbn. lia.
    - intros e I. apply in_app_or in I. destruct I as [I|[<-|I]]; [auto|exact Logic.I|].
      eapply (announce_ok _ _ _ _ _ e KK (k_nodes c) []); eauto.
    - rewrite filter_app. f_equal. cbn [filter rel snd]. exact J. }
  unfold Phs in P. remember (k_net s a) as na. remember (k_net s b) as nb. remember (k_phy s a) as ya.
  remember (k_phy s b) as yb. remember (k_sends s) as sd. remember (filter rel (c_pend (k_chan s))) as rl.
  remember (k_frames s) as fr. clear Heqsd Heqrl Heqfr. destruct P; subst sd; try (destruct i; discriminate);
    (destruct i as [|i]; [|destruct i; discriminate]); injection N as <-; cbn [ps_time ps_node ps_dur ps_frame remove_nth] in *.
  - destruct (G a b ltac:(auto) eq_refl) as [j [h [G1 [G2 [G3 [G4 [G5 G6]]]]]]]; [subst fr; auto|].
    rewrite G1. cbn [fst snd]. split.
    + constructor; cbn [k_net k_phy k_chan k_frames k_bad]; auto.
      * intros x. rewrite C2. unfold know. cbn [k_chan]. auto.
      * rewrite app_length, G4. cbn. lia.
    + unfold Phs. cbn [k_net k_phy k_chan k_frames k_sends].
      match goal with |- Ph (know ?z) _ _ _ _ _ _ _ => change (know z) with (c_now h) end. rewrite G2, G6, <- Heqna, <- Heqnb, <- Heqya, <- Heqyb.
      rewrite H8. cbn [app]. subst fr. fold k0. pose proof (DL j). rewrite H.
      apply (Ph1 _ _ _ _ _ _ _ _ (delay j) j); auto; try lia; rewrite <- H; auto.
      match goal with X : txs_of ya T0 D (know s) |- _ => rewrite H in X |- *; exact X end.
  - destruct (G b a ltac:(auto) eq_refl) as [j [h [G1 [G2 [G3 [G4 [G5 G6]]]]]]].
    { subst fr. rewrite app_length. unfold k0, fr0. lia. }
    rewrite G1. cbn [fst snd]. split.
    + constructor; cbn [k_net k_phy k_chan k_frames k_bad]; auto.
      * intros x0. rewrite C2. unfold know. cbn [k_chan]. auto.
      * rewrite app_length, G4. cbn. lia.
    + unfold Phs. cbn [k_net k_phy k_chan k_frames k_sends].
      match goal with |- Ph (know ?z) _ _ _ _ _ _ _ => change (know z) with (c_now h) end. rewrite G2, G6, <- Heqna, <- Heqnb, <- Heqya, <- Heqyb.
      match goal with E : rl = [] |- _ => rewrite E end. cbn [app]. subst fr.
      replace (length (fr0 ++ [p])) with (S k0) by (rewrite app_length; unfold k0, fr0; cbn; lia).
      rewrite <- app_assoc. cbn [app]. pose proof (DL j). rewrite <- K at 2.
      eapply (Ph4 _ _ _ _ _ _ _ _ t1 x (delay j) j); eauto; lia.
Qed.

Lemma Ph_frames t na nb ya yb sends rl fr k f : Ph t na nb ya yb sends rl fr -> (k0 <= k)%nat -> nth_error fr k = Some f ->
  f = p \/ f = ack.
Proof.
  intros P K N.
  assert (X : exists l, fr = fr0 ++ l /\ (l = [] \/ l = [p] \/ l = [p; ack])).
  { destruct P; subst fr; [exists []; rewrite app_nil_r|..]; eauto 6. }
  destruct X as [l [-> L]]. rewrite nth_error_app2 in N by exact K. apply nth_error_In in N.
  destruct L as [->|[->| ->]]; cbn in N; intuition.
Qed.

Lemma rx_same low y id dur pow junk pc : let y' := fst (rx_start low pc id dur pow junk y) in
  y_txs y' = y_txs y /\ y_dels y' = y_dels y /\ y_now y' = y_now y.
Proof. unfold rx_start. destruct (existsb _ _); cbn; auto. Qed.
Lemma rx_first low y id dur pow junk pc : y_txs y = [] -> y_rxs y = [] -> low pow junk = false ->
  y_rxs (fst (rx_start low pc id dur pow junk y)) = [ORx (y_now y) dur id false pow junk].
Proof. intros T R L. unfold rx_start. rewrite T, R. cbn. rewrite L. reflexivity. Qed.
Lemma end_same y id : let y' := fst (rx_end id y) in y_txs y' = y_txs y /\ y_dels y' = y_dels y /\ y_now y' = y_now y.
Proof. unfold rx_end. destruct (find _ _); cbn; auto. Qed.
Lemma end_only y id r : y_rxs y = [r] -> r_id r = id -> y_rxs (fst (rx_end id y)) = [].
Proof. intros R I. unfold rx_end. rewrite R. cbn. rewrite I, Z.eqb_refl. cbn. reflexivity. Qed.
Lemma txs_same y y' st dur t : txs_of y st dur t -> y_txs y' = y_txs y -> y_dels y' = y_dels y -> txs_of y' st dur t.
Proof. unfold txs_of. intros H -> ->. exact H. Qed.

Lemma step_quiet_chan s h : Com s -> Phs s -> c_now h = know s -> c_devs h = k_nodes c ->
  length (c_log h) = length (k_frames s) -> (forall e, In e (c_pend h) -> pend_ok e) ->
  filter rel (c_pend h) = filter rel (c_pend (k_chan s)) -> Com (with_chan h s) /\ Phs (with_chan h s).
Proof.
  intros [C1 C2 C3 C4 C5 C6] P H1 H2 H3 H4 H5. split.
  - constructor; cbn [k_net k_phy k_chan k_frames k_bad with_chan]; auto.
    intros x. rewrite C2. symmetry. exact H1.
  - unfold Phs in *. cbn [k_net k_phy k_chan k_frames k_sends with_chan]. rewrite H5.
    change (know (with_chan h s)) with (c_now h). rewrite H1. exact P.
Qed.

Lemma step_chan s i pow junk : Com s -> Phs s -> (forall x, k_low c x pow junk = false) ->
  ktimely c s (KChan i pow junk) = true -> Com (kstep c s (KChan i pow junk)) /\ Phs (kstep c s (KChan i pow junk)).
Proof.
  intros C P LOW K. cbn [ktimely] in K. cbn [kstep].
  destruct (nth_error (c_pend (k_chan s)) i) as [[t ce]|] eqn:N; [|discriminate]. apply Z.eqb_eq in K. subst t.
  pose proof C as [C1 C2 C3 C4 C5 C6].
  pose proof (C4 _ (nth_error_In _ _ N)) as PO. unfold pend_ok in PO. cbn [snd] in PO.
  cbn [chan_step]. rewrite N.
  set (h0 := Chan (c_now (k_chan s)) (c_devs (k_chan s)) (c_noise (k_chan s)) (remove_nth i (c_pend (k_chan s))) (c_log (k_chan s))).
  assert (R0 : forall e, In e (remove_nth i (c_pend (k_chan s))) -> pend_ok e) by (intros e I; apply C4; eapply in_remove; eauto).
  destruct ce as [k x|j ne|j ne|ne]; cbn [chan_run].
  - cbn [fst snd fold_left react]. apply step_quiet_chan; auto. cbn [h0 c_pend]. eapply filter_out; eauto.
  - destruct PO as [PO KK]. replace (nth_error (c_devs h0) j) with (Some (n_phy ne)) by (cbn [h0 c_devs]; rewrite C3; auto).
    cbn [fst snd fold_left react ev_dur].
    match goal with |- context [with_chan ?z s] => set (h := z) end.
    assert (HP : forall e, In e (c_pend h) -> pend_ok e).
    { intros e I. cbn [h c_pend h0] in I. apply in_app_or in I. destruct I as [I|[<-|[]]]; auto. cbn. auto. }
    assert (Com (phy_start c (n_k ne) (n_phy ne) (n_dur ne) pow junk (with_chan h s))) as CC.
    { unfold phy_start. cbn [with_chan k_phy].
      destruct (rx_same (k_low c (n_phy ne)) (k_phy s (n_phy ne)) (Z.of_nat (n_k ne)) (n_dur ne) pow junk (k_pc c (n_phy ne))) as [X1 [X2 X3]].
      constructor; cbn [k_net k_phy k_chan k_frames k_bad with_phy with_chan]; auto.
      - intros x XA XB. destruct (C1 x XA XB) as [Y1 Y2]. split; auto. destruct (Z.eqb_spec x (n_phy ne)) as [->|Y]; auto. congruence.
      - intros x. change (know _) with (know s). destruct (Z.eqb_spec x (n_phy ne)) as [->|Y]; auto. rewrite X3. auto. }
    split; [exact CC|].
    destruct (rel (know s, ERecv j ne)) eqn:R.
    + (* one of the two *)
      unfold phy_start. unfold Phs in *. cbn [with_chan with_phy k_net k_phy k_chan k_sends k_frames].
      change (know _) with (know s). cbn [h c_pend h0]. rewrite filter_app. cbn [filter]. change (c_now h0) with (know s).
      assert (R' : rel (know s + n_dur ne, ERecvDone j ne) = true) by exact R. rewrite R'.
      remember (k_net s a) as na. remember (k_net s b) as nb. remember (k_phy s a) as ya.
      remember (k_phy s b) as yb. remember (k_sends s) as sd. remember (k_frames s) as fr.
      remember (filter rel (c_pend (k_chan s))) as rl eqn:Heqrl. symmetry in Heqrl. destruct P; subst rl.
      * destruct (filter_none _ _ _ _ N R); congruence.
      * match goal with E : _ = [_] |- _ => destruct (filter_hit _ _ _ _ _ N R E) as [E1 E2] end.
        rewrite E2. cbn [app]. injection E1 as E1 <- ->. cbn [n_phy n_k n_dur].
        replace (a =? b) with false by (symmetry; apply Z.eqb_neq; auto). rewrite Z.eqb_refl. rewrite <- Heqyb.
        destruct (rx_same (k_low c b) yb (Z.of_nat k0) D pow junk (k_pc c b)) as [X1 [X2 X3]].
        eapply (Ph2 _ _ _ _ _ _ _ _ d j); eauto; try congruence; try lia.
        -- apply rx_first; auto.
        -- reflexivity.
        -- reflexivity.
        -- cbn. subst yb. rewrite C2. exact E1.
      * match goal with E : _ = [_] |- _ => destruct (filter_hit _ _ _ _ _ N R E) as [E1 E2] end. discriminate E1.
      * destruct (filter_none _ _ _ _ N R); congruence.
      * match goal with E : _ = [_] |- _ => destruct (filter_hit _ _ _ _ _ N R E) as [E1 E2] end.
        rewrite E2. cbn [app]. injection E1 as E1 <- ->. cbn [n_phy n_k n_dur].
        replace (b =? a) with false by (symmetry; apply Z.eqb_neq; auto). rewrite Z.eqb_refl. rewrite <- Heqya.
        destruct (rx_same (k_low c a) ya (Z.of_nat (S k0)) A pow junk (k_pc c a)) as [X1 [X2 X3]].
        assert (TX : y_txs ya = []).
        { fold cp in PC. match goal with T : txs_of ya T0 D (know s) |- _ => destruct T as [[T _]|[_ [_ T]]]; [exact T|lia] end. }
        eapply (Ph5 _ _ _ _ _ _ _ _ t1 x d j); eauto; try lia.
        -- eapply txs_same; eauto.
        -- apply rx_first; auto.
        -- reflexivity.
        -- reflexivity.
        -- rewrite E1. reflexivity.
      * match goal with E : _ = [_] |- _ => destruct (filter_hit _ _ _ _ _ N R E) as [E1 E2] end. discriminate E1.
      * destruct (filter_none _ _ _ _ N R); congruence.
    + (* another one *)
      assert (R' := R). unfold rel in R'. cbn [snd] in R'. apply orb_false_iff in R'. destruct R' as [RA' RB'].
      unfold phy_start, Phs in *. cbn [with_chan with_phy k_net k_phy k_chan k_sends k_frames].
      change (know _) with (know s). rewrite (Z.eqb_sym a), (Z.eqb_sym b), RA', RB'.
      cbn [h c_pend h0]. rewrite filter_app. cbn [filter]. change (c_now h0) with (know s).
      assert (R' : rel (know s + n_dur ne, ERecvDone j ne) = false) by exact R. rewrite R', app_nil_r.
      rewrite (filter_out _ _ _ _ N R). exact P.
  - destruct PO as [PO KK]. replace (nth_error (c_devs h0) j) with (Some (n_phy ne)) by (cbn [h0 c_devs]; rewrite C3; auto).
    cbn [fst snd fold_left react ev_dur].
    match goal with |- context [with_chan ?z s] => set (h := z) end.
    assert (HP : forall e, In e (c_pend h) -> pend_ok e).
    { intros e I. cbn [h c_pend h0] in I. apply in_app_or in I. destruct I as [I|[<-|[]]]; auto. exact Logic.I. }
    destruct (rel (know s, ERecvDone j ne)) eqn:R.
    + (* one of the two *)
      unfold Phs in P. remember (filter rel (c_pend (k_chan s))) as rl eqn:Heqrl. symmetry in Heqrl. destruct P; subst rl.
      * destruct (filter_none _ _ _ _ N R); congruence.
      * match goal with E : _ = [_] |- _ => destruct (filter_hit _ _ _ _ _ N R E) as [E1 E2] end. discriminate E1.
      * (* the data packet at the receiver *)
        assert (PC' : 0 < p_pulse cp /\ 4 * p_pulse cp <= p_ts cp) by exact PC.
        assert (EA' : 0 <= T0 /\ 0 <= dmax /\ T0 + D + dmax + 2 * p_ts cp <= 2 ^ 52) by exact EARLY.
        match goal with E : _ = [_] |- _ => destruct (filter_hit _ _ _ _ _ N R E) as [E1 E2] end.
        injection E1 as E1 <- ->. cbn [n_phy n_k n_dur] in *.
        unfold phy_end. cbn [with_chan k_phy k_frames].
        rewrite H5. cbn [find]. rewrite H6, Z.eqb_refl. rewrite H11. rewrite nth_error_app2, Nat.sub_diag by auto.
        cbn [nth_error]. rewrite H7. cbn [negb].
        destruct (got_data (know s)) as [GD1 GD2].
        assert (NB : k_net s b = (set_now (know s) Sb, OB)) by auto.
        unfold mac_event. cbn [with_chan k_net]. rewrite NB. cbn [fst]. fold cb. rewrite GD1. cbn [snd phy_sends].
        unfold phy_send. cbn [with_net with_chan k_phy]. rewrite (C2 b), H3, H5.
        destruct (ack_slot (know s) r) as [x [PX WX]]; [lia|lia|rewrite H8; lia|].
        fold cp. rewrite PX. unfold send. rewrite (C2 b), H3, H5, PX. cbn [fst app].
        fold cb. change (f_size ack) with (hdr_size T_ACK). fold A.
        cbn [k_phy with_sends with_phy with_net with_chan]. rewrite Z.eqb_refl, H4. cbn [app].
        unfold rx_end. cbn [y_rxs find]. rewrite H6, Z.eqb_refl. cbn [fst y_now y_txs y_rxs y_dels erase_first]. rewrite H6, Z.eqb_refl.
        split.
        -- constructor; cbn [k_net k_phy k_chan k_frames k_bad with_sends with_phy with_net with_chan]; auto.
           ++ intros y YA YB. rewrite net_other by auto. apply Z.eqb_neq in YB. rewrite YB. apply C1; auto. apply Z.eqb_neq; auto.
           ++ intros y. destruct (y =? b); [reflexivity|]. apply C2.
        -- unfold Phs. cbn [k_net k_phy k_chan k_frames k_bad k_sends with_sends with_phy with_net with_chan].
           change (know _) with (know s). rewrite net_same, net_other by auto. rewrite NB. cbn [fst snd]. fold cb. rewrite GD1.
           rewrite Z.eqb_refl. replace (a =? b) with false by (symmetry; apply Z.eqb_neq; auto).
           cbn [h c_pend h0]. rewrite filter_app, E2. rewrite H9. cbn [filter rel snd app fst].
           eapply (Ph3 _ _ _ _ _ _ _ _ (know s) x); eauto; try lia.
           right. cbn [y_txs y_dels]. repeat split. lia.
      * destruct (filter_none _ _ _ _ N R); congruence.
      * match goal with E : _ = [_] |- _ => destruct (filter_hit _ _ _ _ _ N R E) as [E1 E2] end. discriminate E1.
      * (* the acknowledgement at the sender *)
        match goal with E : _ = [_] |- _ => destruct (filter_hit _ _ _ _ _ N R E) as [E1 E2] end.
        injection E1 as E1 <- ->. cbn [n_phy n_k n_dur] in *.
        unfold phy_end. cbn [with_chan k_phy k_frames].
        rewrite H3. cbn [find]. rewrite H4, Z.eqb_refl.
        assert (NF : nth_error (k_frames s) (S k0) = Some ack).
        { match goal with E : k_frames s = _ |- _ => rewrite E end.
          rewrite nth_error_app2 by (unfold k0, fr0; lia). replace (S k0 - length fr0)%nat with 1%nat by (unfold k0, fr0; lia). reflexivity. }
        rewrite NF. rewrite H5. cbn [negb].
        destruct (got_ack (know s)) as [GA1 GA2].
        assert (NA : k_net s a = (set_now (know s) SA, OA)) by auto.
        unfold mac_event. cbn [with_chan k_net]. rewrite NA. cbn [fst]. fold ca. rewrite GA1. cbn [snd phy_sends].
        cbn [k_phy with_net with_chan].
        destruct (end_same (k_phy s a) (Z.of_nat (S k0))) as [X1 [X2 X3]].
        split.
        -- constructor; cbn [k_net k_phy k_chan k_frames k_bad with_sends with_phy with_net with_chan]; auto.
           ++ intros y YA YB. rewrite net_other by auto. destruct (Z.eqb_spec y a); [contradiction|]. apply C1; auto.
           ++ intros y. change (know _) with (know s). destruct (Z.eqb_spec y a) as [->|Y]; [rewrite X3|]; apply C2.
        -- unfold Phs. cbn [k_net k_phy k_chan k_frames k_bad k_sends with_sends with_phy with_net with_chan].
           change (know _) with (know s). rewrite net_same, net_other by auto. rewrite NA. cbn [fst snd]. fold ca. rewrite GA1.
           rewrite Z.eqb_refl. replace (b =? a) with false by (symmetry; apply Z.eqb_neq; auto).
           cbn [h c_pend h0]. rewrite filter_app, E2. cbn [filter rel snd app fst].
           eapply (Ph6 _ _ _ _ _ _ _ _ x); eauto. eapply txs_same; eauto.
      * destruct (filter_none _ _ _ _ N R); congruence.
    + (* another one *)
      assert (R' := R). unfold rel in R'. cbn [snd] in R'. apply orb_false_iff in R'. destruct R' as [RA' RB'].
      assert (XA : n_phy ne <> a) by (apply Z.eqb_neq; auto). assert (XB : n_phy ne <> b) by (apply Z.eqb_neq; auto).
      assert (FR : filter rel (c_pend h) = filter rel (c_pend (k_chan s))).
      { cbn [h c_pend h0]. rewrite filter_app. cbn [filter rel snd]. rewrite app_nil_r. eapply filter_out; eauto. }
      destruct (step_quiet_chan s h C P eq_refl C3 C5 HP FR) as [CC PP].
      unfold phy_end. destruct (find _ _) as [r|]; [|auto]. destruct (nth_error (k_frames (with_chan h s)) (n_k ne)) as [g|] eqn:G; [|auto].
      pose proof (Ph_frames _ _ _ _ _ _ _ _ _ _ P KK G) as GF.
      unfold mac_event. rewrite (bystander (n_phy ne) g _ _ (nth_error_In _ _ PO) GF XA XB). cbn [snd phy_sends].
      destruct (end_same (k_phy s (n_phy ne)) (Z.of_nat (n_k ne))) as [X1 [X2 X3]].
      destruct CC as [D1 D2 D3 D4 D5 D6].
      split.
      * constructor; cbn [k_net k_phy k_chan k_frames k_bad with_sends with_phy with_net with_chan]; auto.
        -- intros y YA YB. split.
           ++ destruct (Z.eq_dec y (n_phy ne)) as [->|Y]; [|rewrite net_other by auto; apply D1; auto].
              rewrite net_same, (bystander (n_phy ne) g _ _ (nth_error_In _ _ PO) GF XA XB). cbn [fst]. apply D1; auto.
           ++ destruct (Z.eqb_spec y (n_phy ne)) as [->|Y]; [rewrite X2|]; apply D1; auto.
        -- intros y. change (know _) with (know (with_chan h s)). destruct (Z.eqb_spec y (n_phy ne)) as [->|Y]; [rewrite X3|]; apply D2.
      * unfold Phs in *. cbn [k_net k_phy k_chan k_frames k_bad k_sends with_sends with_phy with_net].
        match goal with |- Ph (know ?z) _ _ _ _ _ _ _ => change (know z) with (know (with_chan h s)) end.
        rewrite !net_other by auto. rewrite (Z.eqb_sym a), (Z.eqb_sym b), RA', RB'. exact PP.
  - cbn [fst snd fold_left react]. apply step_quiet_chan; auto. cbn [c_pend]. eapply filter_out; eauto.
Qed.

Lemma step_any s e : Com s -> Phs s -> internal c dmax e -> ktimely c s e = true -> Com (kstep c s e) /\ Phs (kstep c s e).
Proof.
  intros C P I K. destruct e as [x e|i delay|x i|i pow junk|t].
  - destruct e; try destruct I. destruct (step_timer s x i draw C P K).
  - apply step_send; auto.
  - apply step_del; auto.
  - apply step_chan; auto.
  - apply step_tick; auto.
Qed.

Lemma exchange l : forall s, Com s -> Phs s -> Forall (internal c dmax) l -> ktimely_run c s l = true ->
  Com (krun c s l) /\ Phs (krun c s l).
Proof.
  induction l as [|e l IH]; intros s C P F K; [auto|]. cbn in *. apply andb_true_iff in K. destruct K as [K1 K2].
  inversion F as [|y z F1 F2]; subst. destruct (step_any s e C P F1 K1). apply IH; auto.
Qed.

Lemma exchange_done l : Forall (internal c dmax) l -> ktimely_run c s1 l = true ->
  s_timers (fst (k_net (krun c s1 l) a)) = [] \/ T0 + TO <= know (krun c s1 l) ->
  snd (k_net (krun c s1 l) a) = OA' /\ snd (k_net (krun c s1 l) b) = OB' /\ k_bad (krun c s1 l) = false.
Proof.
  intros F K L. destruct Com_start as [C P]. destruct (exchange l s1 C P F K) as [C' P'].
  pose proof (Ph_timers _ _ _ _ _ _ _ _ P') as [T _]. destruct enq as [_ [TA _]].
  split; [|split; [|apply (m_bad _ C')]].
  - destruct P'; auto; exfalso;
      (match goal with E : k_net _ a = _ |- _ => rewrite E in T, L end; cbn [fst s_timers set_now] in T, L; rewrite TA in T, L;
       destruct L as [L|L]; [discriminate L|specialize (T _ (or_introl eq_refl)); cbn [tm_due] in T; lia]).
  - destruct P'; auto; exfalso;
      (match goal with E : k_net _ a = _ |- _ => rewrite E in T, L end; cbn [fst s_timers set_now] in T, L; rewrite TA in T, L;
       destruct L as [L|L]; [discriminate L|specialize (T _ (or_introl eq_refl)); cbn [tm_due] in T; lia]).
Qed.
End Exchange.
