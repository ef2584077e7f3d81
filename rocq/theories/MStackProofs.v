(** The stack of macro nodes: MAC and PHY agree on who transmits, nothing undefined happens in the channel, and a
    MAC layer gets without error only what another one sent. *)
From Coq Require Import ZArith List Lia Bool.
From Verif Require Import Base EnergyModel NanoModel MacroPhyModel ChannelModel MStackModel.
Import ListNotations.
Open Scope Z_scope.

Definition num {A} (p : A -> bool) (l : list A) : nat := length (filter p l).
Lemma num_app {A} (p : A -> bool) l l' : num p (l ++ l') = (num p l + num p l')%nat.
Proof. unfold num. rewrite filter_app, app_length. reflexivity. Qed.
Lemma num_cons {A} (p : A -> bool) x l : num p (x :: l) = ((if p x then 1 else 0) + num p l)%nat.
Proof. unfold num. cbn. destruct (p x); reflexivity. Qed.
Lemma num_remove {A} (p : A -> bool) (l : list A) : forall i x, nth_error l i = Some x ->
  (num p (remove_nth i l) + (if p x then 1 else 0) = num p l)%nat.
Proof.
  induction l as [|y l IH]; intros [|i] x H; cbn in H; try discriminate H.
  - injection H as ->. cbn [remove_nth]. rewrite num_cons. lia.
  - cbn [remove_nth]. rewrite !num_cons. rewrite <- (IH i x H). lia.
Qed.
Lemma in_remove_nth {A} (l : list A) : forall i x, In x (remove_nth i l) -> In x l.
Proof. induction l as [|y l IH]; intros [|i] x H; cbn in *; auto. destruct H as [->|H]; eauto. Qed.
Lemma num_zero {A} (p : A -> bool) l : (forall x, In x l -> p x = false) -> num p l = 0%nat.
Proof. induction l as [|x l IH]; intros H; [reflexivity|]. rewrite num_cons, (H x (or_introl eq_refl)), IH; auto. intros; apply H; right; auto. Qed.

Lemma sig_at_some k l : forall i g, sig_at k l = Some (i, g) -> nth_error l i = Some g /\ g_id g = k.
Proof.
  induction l as [|x l IH]; intros i g H; cbn in H; [discriminate H|].
  destruct (Z.eqb_spec (g_id x) k) as [E|E]; [injection H as <- <-; auto|].
  destruct (sig_at k l) as [[j h]|]; [|discriminate H]. injection H as <- <-. apply IH. reflexivity.
Qed.
Lemma sig_at_none k l : sig_at k l = None -> num (fun g => g_id g =? k) l = 0%nat.
Proof.
  induction l as [|x l IH]; intros H; cbn in H; [reflexivity|]. rewrite num_cons.
  destruct (g_id x =? k); [discriminate H|]. destruct (sig_at k l) as [[j h]|]; [discriminate H|]. rewrite IH; auto.
Qed.

Section Generic.
Context {Net Ow Fr Dr : Type} (c : mconf Net Ow Fr Dr).
(** [R]: executions of the MAC layers. [sent n a f]: node [a] has handed [f] to its PHY. [air n a]: it waits for
    SendPacketDone. *)
Context (R : Net -> Prop) (sent : Net -> addr -> Fr -> Prop) (air : Net -> addr -> bool).
Definition air0 (n : Net) (a : addr) (e : nev Ow Fr) : bool := match e with NTxDone => false | _ => air n a end.
Definition fits (n : Net) (a : addr) (e : nev Ow Fr) : Prop :=
  match e with
  | NTxDone => air n a = true
  | NRxStart => air n a = false
  | NRxEnd f ok _ => air n a = false /\ (ok = true -> exists b, b <> a /\ In b (q_nodes c) /\ sent n b f)
  | _ => True
  end.
Context (H_step : forall n a o i e, R n -> In a (q_nodes c) -> fits n a e -> R (fst (q_step c n a o i e))).
Context (H_mono : forall n a o i e b f, sent n b f -> sent (fst (q_step c n a o i e)) b f).
Context (H_sent : forall n a o i e x, R n -> In a (q_nodes c) -> fits n a e -> In x (snd (q_step c n a o i e)) -> sent (fst (q_step c n a o i e)) a (fst x)).
Context (H_other : forall n a o i e b, b <> a -> air (fst (q_step c n a o i e)) b = air n b).
Context (H_air : forall n a o i e, R n -> In a (q_nodes c) -> fits n a e ->
  snd (q_step c n a o i e) = [] /\ air (fst (q_step c n a o i e)) a = air0 n a e \/
  (exists x, snd (q_step c n a o i e) = [x]) /\ air0 n a e = false /\ air (fst (q_step c n a o i e)) a = true).
Context (H_fail : forall n a o i f pow, R n -> In a (q_nodes c) -> fits n a (NRxEnd f false pow) -> snd (q_step c n a o i (NRxEnd f false pow)) = []).

Definition is_done (a : addr) (e : Z * cev) : bool := match snd e with ESendDone _ b => b =? a | _ => false end.
Definition is_end (a : addr) (k : Z) (e : Z * cev) : bool :=
  match snd e with ERecvDone j ne => (Z.of_nat (n_k ne) =? k) && match nth_error (q_nodes c) j with Some d => d =? a | None => false end | _ => false end.

Definition pend_ok (log : list txrec) (e : Z * cev) : Prop :=
  match snd e with
  | ERecv j ne | ERecvDone j ne => exists d r, nth_error (q_nodes c) j = Some d /\ nth_error log (n_k ne) = Some r /\ d <> t_phy r
  | ESendDone _ a => In a (q_nodes c)
  | EDelete _ => True
  end.

(** All but [air]; [q]: pending events of the channel. *)
Record Inv (s : mstack Net Fr) : Prop := {
  i_net : R (q_net s);
  i_devs : c_devs (q_chan s) = q_nodes c;
  i_len : length (q_frames s) = length (c_log (q_chan s));
  i_sent : forall k f r, nth_error (q_frames s) k = Some f -> nth_error (c_log (q_chan s)) k = Some r ->
             In (t_phy r) (q_nodes c) /\ sent (q_net s) (t_phy r) f;
  i_pend : forall e, In e (c_pend (q_chan s)) -> pend_ok (c_log (q_chan s)) e;
  i_tx : forall a, length (k_txs (q_phy s a)) = num (is_done a) (c_pend (q_chan s));
  i_rx : forall a k, num (fun g => g_id g =? k) (k_rxs (q_phy s a)) = num (is_end a k) (c_pend (q_chan s));
  i_phy : forall a, k_state (q_phy s a) = KTx /\ length (k_txs (q_phy s a)) = 1%nat \/ k_state (q_phy s a) <> KTx /\ k_txs (q_phy s a) = [];
  i_bad : q_bad s = false }.
Definition agree (s : mstack Net Fr) (a : addr) : Prop := air (q_net s) a = true <-> k_state (q_phy s a) = KTx.

Lemma pend_ok_app log r e : pend_ok log e -> pend_ok (log ++ [r]) e.
Proof.
  unfold pend_ok. destruct (snd e); auto; intros (d & x & A & B & C); exists d, x; (split; [auto|split; [|auto]]);
    (rewrite nth_error_app1; auto; apply nth_error_Some; congruence).
Qed.

(** What THzChannel::SendPacket schedules. *)
Lemma announce_done now k phy dur delay a l : forall j, num (is_done a) (announce now k phy dur delay j l) = 0%nat.
Proof. induction l as [|d l IH]; intros j; [reflexivity|]. cbn [announce]. rewrite num_app, IH. destruct (phy =? d); reflexivity. Qed.
Lemma announce_end now k phy dur delay a q l : forall j, num (is_end a q) (announce now k phy dur delay j l) = 0%nat.
Proof. induction l as [|d l IH]; intros j; [reflexivity|]. cbn [announce]. rewrite num_app, IH. destruct (phy =? d); reflexivity. Qed.
Lemma announce_in now k phy dur delay l : forall j e, In e (announce now k phy dur delay j l) ->
  exists i d, snd e = ERecv (j + i) (NEntry k (j + i) d dur) /\ nth_error l i = Some d /\ d <> phy.
Proof.
  induction l as [|d l IH]; intros j e I; [destruct I|]. cbn [announce] in I. apply in_app_or in I. destruct I as [I|I].
  - destruct (Z.eqb_spec phy d) as [E|E]; [destruct I|]. destruct I as [<-|[]]. exists 0%nat, d. rewrite Nat.add_0_r. cbn. auto.
  - destruct (IH _ _ I) as (i & d' & A & B & C). exists (S i), d'. rewrite Nat.add_succ_r. auto.
Qed.

(** ** A frame is handed to the PHY *)
Lemma send_ok s a delay x : Inv s -> In a (q_nodes c) -> k_state (q_phy s a) <> KTx -> sent (q_net s) a (fst x) ->
  Inv (one_send c a delay s x) /\ q_net (one_send c a delay s x) = q_net s /\
  (forall b, b <> a -> q_phy (one_send c a delay s x) b = q_phy s b) /\ k_state (q_phy (one_send c a delay s x) a) = KTx.
Proof.
  intros [N D L S P TX RX PH B] IA K SE. unfold one_send.
  assert (T : k_txs (q_phy s a) = []). { destruct (PH a) as [[E _]|[_ E]]; [contradiction|auto]. }
  assert (EX : existsb (Z.eqb a) (c_devs (q_chan s)) = true). { rewrite D. apply existsb_exists. exists a. split; auto. apply Z.eqb_refl. }
  assert (G : forall st, st <> KTx -> Inv (MStack (q_net s) (fun b => if b =? a then KPhy (k_now (q_phy s a)) KTx (k_busy (q_phy s a)) (k_end (q_phy s a)) (k_rx (q_phy s a)) (k_list (q_phy s a)) (k_txs (q_phy s a) ++ [k_now (q_phy s a) + snd x]) (k_rxs (q_phy s a)) (k_next (q_phy s a)) else q_phy s b)
     (fst (chan_step (q_chan s) (CSend a (snd x) delay))) (q_frames s ++ [fst x]) (q_bad s)) /\ snd (chan_step (q_chan s) (CSend a (snd x) delay)) = []).
  { intros _ _. cbn [chan_step]. unfold chan_send. rewrite EX. cbn [negb andb fst snd]. split; auto. constructor; cbn [q_net q_phy q_chan q_frames q_bad c_devs c_log c_pend]; auto.
    - rewrite !app_length. cbn. rewrite L. reflexivity.
    - intros k f r A1 A2. destruct (Nat.lt_ge_cases k (length (q_frames s))) as [LT|GE].
      + rewrite nth_error_app1 in A1 by auto. rewrite nth_error_app1 in A2 by (rewrite <- L; auto). eapply S; eauto.
      + rewrite nth_error_app2 in A1 by auto. rewrite nth_error_app2 in A2 by (rewrite <- L; auto). rewrite <- L in A2.
        destruct (k - length (q_frames s))%nat as [|m]; cbn in A1, A2; [|destruct m; discriminate A1]. injection A1 as <-. injection A2 as <-. cbn. auto.
    - intros e I. apply in_app_or in I. destruct I as [I|[<-|I]]; [apply pend_ok_app; auto|exact IA|].
      apply announce_in in I. destruct I as (i & d & A & B' & C). unfold pend_ok. rewrite A. cbn [n_k]. exists d, (TxRec a (snd x) (c_now (q_chan s)) (c_devs (q_chan s)) delay).
      rewrite D in B'. split; auto. split; auto. rewrite nth_error_app2 by auto. rewrite Nat.sub_diag. reflexivity.
    - intros b. rewrite num_app, num_cons, announce_done. unfold is_done at 2. cbn [snd]. rewrite (Z.eqb_sym a b). destruct (Z.eqb_spec b a) as [->|NE].
      + cbn [k_txs]. rewrite app_length, TX. cbn. lia.
      + rewrite TX. lia.
    - intros b k. rewrite num_app, num_cons, announce_end. unfold is_end at 2. cbn [snd]. rewrite <- !plus_n_O. rewrite <- RX. destruct (Z.eqb_spec b a) as [->|NE]; reflexivity.
    - intros b. destruct (Z.eqb_spec b a) as [->|NE]; auto. left. cbn. rewrite T. auto. }
  destruct (G KIdle ltac:(discriminate)) as [G1 G2].
  assert (Q : kstep (q_sense c a) (q_good c a) (q_phy s a) (KSend (snd x)) =
    (KPhy (k_now (q_phy s a)) KTx (k_busy (q_phy s a)) (k_end (q_phy s a)) (k_rx (q_phy s a)) (k_list (q_phy s a)) (k_txs (q_phy s a) ++ [k_now (q_phy s a) + snd x]) (k_rxs (q_phy s a)) (k_next (q_phy s a)), [KOwn (k_now (q_phy s a)) (snd x)])).
  { cbn [kstep]. unfold k_send. destruct (k_state (q_phy s a)); auto. exfalso. apply K. reflexivity. }
  rewrite Q. cbv zeta. rewrite G2. split; [exact G1|]. cbn [q_net q_phy]. split; auto. split.
  - intros b NE. apply Z.eqb_neq in NE. rewrite NE. reflexivity.
  - rewrite Z.eqb_refl. reflexivity.
Qed.

(** ** A MAC processes an event *)
Lemma mac_ok s a o delay e : Inv s -> In a (q_nodes c) -> fits (q_net s) a e ->
  (forall b, b <> a -> agree s b) -> (air0 (q_net s) a e = true <-> k_state (q_phy s a) = KTx) ->
  Inv (mac_ev c a o delay e s) /\ (forall b, agree (mac_ev c a o delay e s) b) /\
  (snd (q_step c (q_net s) a o (is_idle (q_phy s a)) e) = [] -> q_phy (mac_ev c a o delay e s) = q_phy s /\ q_frames (mac_ev c a o delay e s) = q_frames s /\ q_chan (mac_ev c a o delay e s) = q_chan s).
Proof.
  intros V IA FT AG AA. unfold mac_ev. set (r := q_step c (q_net s) a o (is_idle (q_phy s a)) e).
  assert (V1 : Inv (set_net (fst r) s)).
  { destruct V as [N D L S P TX RX PH B]. constructor; cbn; auto; [apply H_step; auto|]. intros k f t A1 A2. destruct (S k f t A1 A2). split; auto. apply H_mono; auto. }
  pose proof (i_net _ V) as N. destruct (H_air (q_net s) a o (is_idle (q_phy s a)) e N IA FT) as [[E A]|[[x E] [A1 A2]]]; fold r in E; rewrite E; cbn [fold_left].
  - split; [exact V1|]. split; [|intros _; auto]. intros b. unfold agree. cbn [set_net q_net q_phy]. destruct (Z.eq_dec b a) as [->|NE].
    + unfold r. rewrite A. exact AA.
    + unfold r. rewrite H_other by auto. apply AG; auto.
  - assert (K : k_state (q_phy (set_net (fst r) s) a) <> KTx) by (cbn; rewrite <- AA, A1; discriminate).
    destruct (send_ok _ a delay x V1 IA K) as (G1 & G2 & G3 & G4).
    { cbn [set_net q_net]. apply H_sent; auto. unfold r in E. rewrite E. left. reflexivity. }
    split; auto. split; [|discriminate]. intros b. unfold agree. rewrite G2. cbn [set_net q_net]. destruct (Z.eq_dec b a) as [->|NE].
    + rewrite G4. unfold r. rewrite A2. tauto.
    + rewrite G3 by auto. cbn [set_net q_phy]. unfold r. rewrite H_other by auto. apply AG; auto.
Qed.

(** ** The PHY and the channel change together *)
Definition upd (a : addr) (p : kphy) (f : addr -> kphy) (b : addr) : kphy := if b =? a then p else f b.
Lemma upd_same a p f : upd a p f a = p.
Proof. unfold upd. rewrite Z.eqb_refl. reflexivity. Qed.
Lemma upd_other a p f b : b <> a -> upd a p f b = f b.
Proof. intros H. unfold upd. apply Z.eqb_neq in H. rewrite H. reflexivity. Qed.

Lemma Inv_phy s a p h : Inv s -> c_devs h = c_devs (q_chan s) -> c_log h = c_log (q_chan s) ->
  (forall e, In e (c_pend h) -> pend_ok (c_log (q_chan s)) e) ->
  (forall b, length (k_txs (upd a p (q_phy s) b)) = num (is_done b) (c_pend h)) ->
  (forall b k, num (fun g => g_id g =? k) (k_rxs (upd a p (q_phy s) b)) = num (is_end b k) (c_pend h)) ->
  (k_state p = KTx /\ length (k_txs p) = 1%nat \/ k_state p <> KTx /\ k_txs p = []) ->
  Inv (set_phy a p (set_chan h s)).
Proof.
  intros [N D L S P TX RX PH B] A1 A2 A3 A4 A5 A6. constructor; cbn [set_phy set_chan q_net q_phy q_chan q_frames q_bad]; auto; try congruence.
  - rewrite A2. auto.
  - rewrite A2. auto.
  - intros b. destruct (b =? a); auto.
Qed.

Lemma num_pos {A} (p : A -> bool) (l : list A) i x : nth_error l i = Some x -> p x = true -> (1 <= num p l)%nat.
Proof. intros H E. pose proof (num_remove p l i x H) as X. rewrite E in X. lia. Qed.

Section OneEvent.
Variables (s : mstack Net Fr) (i : nat) (t : Z) (ce : cev) (o : Dr) (delay : nat -> Z) (pow : Z).
Hypothesis V : Inv s.
Hypothesis AG : forall b, agree s b.
Hypothesis PE : nth_error (c_pend (q_chan s)) i = Some (t, ce).
Let h0 := Chan (c_now (q_chan s)) (c_devs (q_chan s)) (c_noise (q_chan s)) (remove_nth i (c_pend (q_chan s))) (c_log (q_chan s)).

Lemma pe_ok : pend_ok (c_log (q_chan s)) (t, ce).
Proof. apply (i_pend _ V). eapply nth_error_In. exact PE. Qed.
Lemma rest_ok e : In e (remove_nth i (c_pend (q_chan s))) -> pend_ok (c_log (q_chan s)) e.
Proof. intros I. apply (i_pend _ V). eapply in_remove_nth; eauto. Qed.
Lemma rest_done a : (num (is_done a) (remove_nth i (c_pend (q_chan s))) + (if is_done a (t, ce) then 1 else 0) = length (k_txs (q_phy s a)))%nat.
Proof. rewrite (i_tx _ V). apply num_remove. exact PE. Qed.
Lemma rest_end a k : (num (is_end a k) (remove_nth i (c_pend (q_chan s))) + (if is_end a k (t, ce) then 1 else 0) = num (fun g => (g_id g =? k)%Z) (k_rxs (q_phy s a)))%nat.
Proof. rewrite (i_rx _ V). apply num_remove. exact PE. Qed.

(** SendPacketDone. *)
Lemma sent_ok k a : ce = ESendDone k a ->
  Inv (chan_out c o delay (cev_dur ce) pow (set_chan h0 s) (CSent k a (c_now (q_chan s)))) /\
  forall b, agree (chan_out c o delay (cev_dur ce) pow (set_chan h0 s) (CSent k a (c_now (q_chan s)))) b.
Proof.
  intros E. pose proof pe_ok as PO. rewrite E in PO. unfold pend_ok in PO. cbn [snd] in PO.
  pose proof (rest_done a) as RD. rewrite E in RD. unfold is_done at 2 in RD. cbn [snd] in RD. rewrite Z.eqb_refl in RD.
  assert (ST : k_state (q_phy s a) = KTx /\ length (k_txs (q_phy s a)) = 1%nat). { destruct (i_phy _ V a) as [X|[_ X]]; auto. rewrite X in RD. cbn in RD. lia. }
  destruct ST as [ST LN]. cbn [chan_out set_chan q_phy]. destruct (k_txs (q_phy s a)) as [|x [|]] eqn:TX; try discriminate LN.
  unfold phy_ev. cbn [kstep]. rewrite TX. cbn [nth_error remove_nth]. unfold k_send_done.
  cbn [k_now k_state k_busy k_end k_rx k_list k_txs k_rxs k_next fst snd fold_left phy_out].
  set (p := KPhy _ _ _ _ _ _ _ _ _).
  assert (V2 : Inv (set_phy a p (set_chan h0 s))).
  { apply Inv_phy; auto.
    - apply rest_ok.
    - intros b. unfold upd. destruct (Z.eqb_spec b a) as [->|NE]; cbn [p h0 c_pend k_txs length] in *; [lia|].
      pose proof (rest_done b) as Y. rewrite E in Y. unfold is_done at 2 in Y. cbn [snd] in Y. apply Z.eqb_neq in NE. rewrite Z.eqb_sym, NE in Y. cbn. lia.
    - intros b q. pose proof (rest_end b q) as Y. rewrite E in Y. unfold is_end at 2 in Y. cbn [snd] in Y. unfold upd. destruct (Z.eqb_spec b a) as [->|NE]; cbn [p h0 c_pend k_rxs]; lia.
    - right. split; [discriminate|reflexivity]. }
  destruct (mac_ok _ a o delay NTxDone V2 PO) as (M1 & M2 & _); auto.
  - cbn [fits set_phy set_chan q_net]. apply AG. exact ST.
  - intros b NE. unfold agree. cbn [set_phy set_chan q_net q_phy]. apply Z.eqb_neq in NE. rewrite NE. apply AG.
  - cbn [air0 set_phy q_phy]. rewrite Z.eqb_refl. cbn. split; discriminate.
Qed.

(** ReceivePacket. *)
Lemma start_ok j ne d : ce = ERecv j ne -> nth_error (q_nodes c) j = Some d ->
  let h := Chan (c_now h0) (c_devs h0) (c_noise h0 ++ [ne]) (c_pend h0 ++ [(c_now h0 + n_dur ne, ERecvDone j ne)]) (c_log h0) in
  let s' := chan_out c o delay (cev_dur ce) pow (set_chan h s) (CStart (n_k ne) (n_j ne) d (c_now h0)) in
  Inv s' /\ forall b, agree s' b.
Proof.
  intros E ND h. cbv zeta. pose proof pe_ok as PO. rewrite E in PO. unfold pend_ok in PO. cbn [snd] in PO. destruct PO as (d' & r & P1 & P2 & P3).
  assert (d' = d) as -> by congruence. clear P1. cbn [chan_out]. unfold phy_ev. cbn [kstep].
  set (r0 := k_receive (q_sense c d) (cev_dur ce) pow (with_next (Z.of_nat (n_k ne)) (q_phy (set_chan h s) d))).
  assert (F1 : k_txs (fst r0) = k_txs (q_phy s d) /\ (exists g, k_rxs (fst r0) = k_rxs (q_phy s d) ++ [g] /\ g_id g = Z.of_nat (n_k ne)) /\
    (k_state (fst r0) = KTx <-> k_state (q_phy s d) = KTx) /\
    exists g id, snd r0 = [KHeard g] \/ snd r0 = [KHeard g; KStart id (k_now (q_phy s d))] /\ k_state (q_phy s d) <> KTx).
  { unfold r0, k_receive. cbn [set_chan q_phy with_next k_now k_state k_busy k_end k_rx k_list k_txs k_rxs k_next]. destruct (k_state (q_phy s d)) eqn:ST; [destruct (_ && _); [destruct (k_busy _)|]| |destruct (_ && _); [destruct (k_busy _)|]];
      cbn [fst snd k_txs k_rxs k_state g_id]; (split; [reflexivity|split; [eexists; split; reflexivity|split; [split; congruence|eexists; exists (Z.of_nat (n_k ne)); (left; reflexivity) || (right; split; [reflexivity|discriminate])]]]). }
  clearbody r0. destruct r0 as [p ou]. cbn [fst snd] in *. destruct F1 as (F1 & (g0 & F2 & F2') & F3 & g & id & F4).
  assert (V2 : Inv (set_phy d p (set_chan h s))).
  { apply Inv_phy; auto.
    - intros e I. cbn [h h0 c_pend] in I. apply in_app_or in I. destruct I as [I|[<-|[]]]; [apply rest_ok; auto|]. unfold pend_ok. cbn [snd]. exists d, r. auto.
    - intros b. cbn [h h0 c_pend]. rewrite num_app, num_cons. cbn [is_done snd]. pose proof (rest_done b) as Y. rewrite E in Y. unfold is_done at 2 in Y. cbn [snd] in Y.
      unfold upd. destruct (Z.eqb_spec b d) as [->|NE]; [rewrite F1|]; cbn; lia.
    - intros b q. cbn [h h0 c_pend]. rewrite num_app, num_cons. unfold is_end at 2. cbn [snd]. rewrite ND. pose proof (rest_end b q) as Y. rewrite E in Y. unfold is_end at 2 in Y. cbn [snd] in Y.
      unfold upd. rewrite (Z.eqb_sym d b). destruct (Z.eqb_spec b d) as [->|NE].
      + rewrite F2, num_app, num_cons. rewrite F2'. rewrite andb_true_r. change (num (fun g1 => g_id g1 =? q) []) with 0%nat. change (num (is_end d q) []) with 0%nat. lia.
      + rewrite andb_false_r. change (num (is_end b q) []) with 0%nat. lia.
    - rewrite F1. destruct (i_phy _ V d) as [[X Y]|[X Y]]; [left; split; auto; apply F3; auto|right; split; auto; rewrite F3; auto]. }
  assert (AG2 : forall b, agree (set_phy d p (set_chan h s)) b).
  { intros b. unfold agree. cbn [set_phy set_chan q_net q_phy]. destruct (Z.eqb_spec b d) as [->|NE]; [rewrite F3|]; apply AG. }
  destruct F4 as [->|[-> NT]]; cbn [fold_left phy_out]; [auto|].
  destruct (mac_ok _ d o delay NRxStart V2) as (M1 & M2 & _); auto.
  - eapply nth_error_In; eauto.
  - cbn [fits set_phy set_chan q_net]. specialize (AG d). unfold agree in AG. destruct (air (q_net s) d); auto. exfalso. apply NT. apply AG. reflexivity.
  - apply (AG2 d).
Qed.

(** ReceivePacketDone. *)
Lemma end_ok j ne d : ce = ERecvDone j ne -> nth_error (q_nodes c) j = Some d ->
  let h := Chan (c_now h0) (c_devs h0) (c_noise h0) (c_pend h0 ++ [(c_now h0, EDelete ne)]) (c_log h0) in
  let s' := chan_out c o delay (cev_dur ce) pow (set_chan h s) (CEnd (n_k ne) (n_j ne) d (c_now h0)) in
  Inv s' /\ forall b, agree s' b.
Proof.
  intros E ND h. cbv zeta. pose proof pe_ok as PO. rewrite E in PO. unfold pend_ok in PO. cbn [snd] in PO. destruct PO as (d' & r & P1 & P2 & P3).
  assert (d' = d) as -> by congruence. clear P1. cbn [chan_out set_chan q_phy].
  assert (IE : is_end d (Z.of_nat (n_k ne)) (t, ce) = true) by (rewrite E; unfold is_end; cbn [snd]; rewrite ND, !Z.eqb_refl; reflexivity).
  pose proof (rest_end d (Z.of_nat (n_k ne))) as RE. rewrite IE in RE.
  destruct (sig_at (Z.of_nat (n_k ne)) (k_rxs (q_phy s d))) as [[m g]|] eqn:SA; [|apply sig_at_none in SA; lia].
  destruct (sig_at_some _ _ _ _ SA) as [NM GI]. unfold phy_ev. cbn [kstep]. rewrite NM.
  set (p0 := KPhy (k_now (q_phy s d)) _ _ _ _ _ _ _ _).
  assert (F1 : k_txs (fst (k_receive_done (q_good c d) g p0)) = k_txs (q_phy s d) /\ k_rxs (fst (k_receive_done (q_good c d) g p0)) = remove_nth m (k_rxs (q_phy s d)) /\
    (k_state (fst (k_receive_done (q_good c d) g p0)) = KTx <-> k_state (q_phy s d) = KTx) /\
    (snd (k_receive_done (q_good c d) g p0) = [] \/ k_state (q_phy s d) = KRx /\ exists tt, (exists b, snd (k_receive_done (q_good c d) g p0) = [KDone (g_id g) b tt]) \/ snd (k_receive_done (q_good c d) g p0) = [KDone (g_id g) false tt; KDone (g_id g) false tt])).
  { unfold k_receive_done, p0. cbn [k_now k_state k_busy k_end k_rx k_list k_txs k_rxs k_next]. destruct (k_state (q_phy s d)) eqn:ST.
    - cbn. split; auto. split; auto. split; [split; discriminate|auto].
    - cbn. split; auto. split; auto. split; [tauto|auto].
    - generalize (if k_end (q_phy s d) <=? k_now (q_phy s d) + ns then false else k_busy (q_phy s d)). intros busy.
      destruct (k_rx (q_phy s d)) as [id|]; [destruct (g_id g =? id); [destruct (q_good c d _ _)|]|]; try destruct busy; cbn;
        (split; [reflexivity|split; [reflexivity|split; [split; discriminate|eauto 8]]]). }
  destruct (k_receive_done (q_good c d) g p0) as [p ou]. cbn [fst snd] in *. destruct F1 as (F1 & F2 & F3 & F4). clear p0.
  assert (V2 : Inv (set_phy d p (set_chan h s))).
  { apply Inv_phy; auto.
    - intros e I. cbn [h h0 c_pend] in I. apply in_app_or in I. destruct I as [I|[<-|[]]]; [apply rest_ok; auto|exact I].
    - intros b. cbn [h h0 c_pend]. rewrite num_app, num_cons. cbn [is_done snd]. pose proof (rest_done b) as Y. rewrite E in Y. unfold is_done at 2 in Y. cbn [snd] in Y.
      unfold upd. destruct (Z.eqb_spec b d) as [->|NE]; [rewrite F1|]; cbn; lia.
    - intros b q. cbn [h h0 c_pend]. rewrite num_app, num_cons. unfold is_end at 2. cbn [snd]. change (num (is_end b q) []) with 0%nat. pose proof (rest_end b q) as Y. rewrite E in Y. unfold is_end at 2 in Y. cbn [snd] in Y. rewrite ND in Y.
      unfold upd. rewrite (Z.eqb_sym d b) in Y. destruct (Z.eqb_spec b d) as [->|NE].
      + rewrite F2. pose proof (num_remove (fun x => g_id x =? q) _ _ _ NM) as W. cbn beta in W. rewrite GI in W. rewrite andb_true_r in Y. lia.
      + rewrite andb_false_r in Y. lia.
    - rewrite F1. destruct (i_phy _ V d) as [[X Y]|[X Y]]; [left; split; auto; apply F3; auto|right; split; auto; rewrite F3; auto]. }
  assert (AG2 : forall b, agree (set_phy d p (set_chan h s)) b).
  { intros b. unfold agree. cbn [set_phy set_chan q_net q_phy]. destruct (Z.eqb_spec b d) as [->|NE]; [rewrite F3|]; apply AG. }
  change (MStack (q_net s) (q_phy s) h (q_frames s) (q_bad s)) with (set_chan h s).
  destruct F4 as [->|[ST (tt & F4)]]; cbn [fold_left]; [auto|].
  assert (IA : In d (q_nodes c)) by (eapply nth_error_In; eauto).
  assert (NA : air (q_net s) d = false). { specialize (AG d). unfold agree in AG. destruct (air (q_net s) d); auto. rewrite ST in AG. destruct AG as [X _]. discriminate (X eq_refl). }
  assert (LF : (n_k ne < length (q_frames s))%nat). { rewrite (i_len _ V). apply nth_error_Some. congruence. }
  destruct (nth_error (q_frames s) (n_k ne)) as [f|] eqn:NF; [|apply nth_error_None in NF; lia].
  assert (FT : forall ok, fits (q_net s) d (NRxEnd f ok (g_pow g))).
  { intros ok. cbn [fits]. split; auto. intros _. exists (t_phy r). destruct (i_sent _ V _ _ _ NF P2) as [S1 S2]. auto. }
  assert (NF' : nth_error (q_frames s) (Z.to_nat (g_id g)) = Some f) by (rewrite GI, Nat2Z.id; exact NF).
  destruct F4 as [[b ->]| ->]; cbn [fold_left].
  - unfold phy_out. cbn [set_phy set_chan q_frames]. rewrite NF'. destruct (mac_ok _ d o delay (NRxEnd f b (g_pow g)) V2) as (M1 & M2 & _); auto. apply (AG2 d).
  - assert (P01 : phy_out c d o delay (g_pow g) (set_phy d p (set_chan h s)) (KDone (g_id g) false tt) = mac_ev c d o delay (NRxEnd f false (g_pow g)) (set_phy d p (set_chan h s))).
    { unfold phy_out. cbn [set_phy set_chan q_frames]. rewrite NF'. reflexivity. }
    rewrite P01. destruct (mac_ok _ d o delay (NRxEnd f false (g_pow g)) V2) as (M1 & M2 & M3); auto; [apply (AG2 d)|].
    destruct M3 as (M3 & M4 & M5); [apply H_fail; auto; apply (i_net _ V)|].
    set (s3 := mac_ev c d o delay _ _) in *.
    assert (P02 : phy_out c d o delay (g_pow g) s3 (KDone (g_id g) false tt) = mac_ev c d o delay (NRxEnd f false (g_pow g)) s3).
    { unfold phy_out. rewrite M4. cbn [set_phy set_chan q_frames]. rewrite NF'. reflexivity. }
    rewrite P02.
    destruct (i_sent _ M1 (n_k ne) f r) as [S1 S2]; [rewrite M4; exact NF|rewrite M5; exact P2|].
    destruct (mac_ok s3 d o delay (NRxEnd f false (g_pow g)) M1) as (Q1 & Q2 & _); auto.
    + cbn [fits]. split; [|discriminate]. specialize (M2 d). unfold agree in M2. rewrite M3 in M2. destruct (air (q_net s3) d); auto. exfalso.
      assert (X : k_state p = KTx). { cbn [set_phy q_phy] in M2. rewrite Z.eqb_refl in M2. apply M2. reflexivity. } apply F3 in X. rewrite ST in X. discriminate X.
    + apply (M2 d).
Qed.

Lemma delete_ok : (exists ne, ce = EDelete ne) -> forall n,
  let h := Chan (c_now h0) (c_devs h0) n (c_pend h0) (c_log h0) in Inv (set_chan h s) /\ forall b, agree (set_chan h s) b.
Proof.
  intros [ne E] n h. split; [|exact AG]. destruct V as [N D L S P TX RX PH B]. constructor; cbn [set_chan q_net q_phy q_chan q_frames q_bad h h0 c_devs c_log c_pend]; auto.
  - apply rest_ok.
  - intros b. pose proof (rest_done b) as Y. rewrite E in Y. unfold is_done at 2 in Y. cbn [snd] in Y. lia.
  - intros b q. pose proof (rest_end b q) as Y. rewrite E in Y. unfold is_end at 2 in Y. cbn [snd] in Y. lia.
Qed.
End OneEvent.

(** ** All executions *)
Lemma tick_fold t o : forall l s, (forall a, In a l -> In a (q_nodes c)) -> Inv s -> (forall b, agree s b) ->
  let s' := fold_left (fun s a => mac_ev c a o (fun _ => 0) (NTick t) s) l s in Inv s' /\ forall b, agree s' b.
Proof.
  induction l as [|a l IH]; intros s SU V AG; cbn [fold_left]; [auto|].
  destruct (mac_ok s a o (fun _ => 0) (NTick t) V) as (M1 & M2 & _); auto.
  - apply SU. left. reflexivity.
  - exact I.
  - apply AG.
  - apply IH; auto. intros; apply SU; right; auto.
Qed.

Lemma step_ok o0 s e : Inv s -> (forall b, agree s b) -> Inv (qstep c o0 s e) /\ forall b, agree (qstep c o0 s e) b.
Proof.
  intros V AG. destruct e as [a o delay x|i o delay pow|t]; cbn [qstep].
  - destruct (existsb _ _) eqn:EX; auto. apply existsb_exists in EX. destruct EX as (b & IB & EB). apply Z.eqb_eq in EB. subst b.
    destruct (mac_ok s a o delay (NOwn x) V) as (M1 & M2 & _); auto; [exact I|apply AG].
  - destruct (nth_error _ _) as [[t ce]|] eqn:PE; auto. pose proof (i_pend _ V _ (nth_error_In _ _ PE)) as PO. unfold pend_ok in PO. cbn [snd] in PO.
    assert (CE : chan_step (q_chan s) (CFire i) = chan_run ce (Chan (c_now (q_chan s)) (c_devs (q_chan s)) (c_noise (q_chan s)) (remove_nth i (c_pend (q_chan s))) (c_log (q_chan s)))).
    { cbn [chan_step]. rewrite PE. reflexivity. }
    rewrite CE. clear CE. destruct ce as [k a|j ne|j ne|ne]; unfold chan_run; cbn [c_devs c_now c_noise c_pend c_log cev_dur].
    + cbn [fst snd fold_left]. eapply sent_ok; eauto.
    + destruct PO as (d & r & P1 & _). assert (P2 : nth_error (c_devs (q_chan s)) j = Some d) by (rewrite (i_devs _ V); exact P1). rewrite P2. cbn [fst snd fold_left]. exact (start_ok s i t (ERecv j ne) o delay pow V AG PE j ne d eq_refl P1).
    + destruct PO as (d & r & P1 & _). assert (P2 : nth_error (c_devs (q_chan s)) j = Some d) by (rewrite (i_devs _ V); exact P1). rewrite P2. cbn [fst snd fold_left]. exact (end_ok s i t (ERecvDone j ne) o delay pow V AG PE j ne d eq_refl P1).
    + cbn [fst snd fold_left]. apply (delete_ok s i t (EDelete ne)); eauto.
  - destruct (tick_fold t o0 (q_nodes c) s (fun _ H => H) V AG) as [[N D L S P TX RX PH B] M2].
    split; [constructor|]; cbn [q_net q_phy q_chan q_frames q_bad chan_step kstep fst c_devs c_log c_pend k_txs k_rxs k_state]; auto.
Qed.

Lemma run_ok o0 n l : R n -> (forall b, air n b = false) -> Inv (qrun c o0 (qinit c n) l) /\ forall b, agree (qrun c o0 (qinit c n) l) b.
Proof.
  intros R0 A0. assert (X : Inv (qinit c n) /\ forall b, agree (qinit c n) b).
  { split.
    - constructor; cbn [qinit q_net q_phy q_chan q_frames q_bad c_devs c_log c_pend]; auto.
      + intros k f r H. destruct k; discriminate H.
      + intros e [].
      + intros b. right. split; [discriminate|reflexivity].
    - intros b. unfold agree. cbn. rewrite A0. split; discriminate. }
  generalize (qinit c n) X. clear X. induction l as [|e l IH]; intros s [V AG]; cbn [qrun]; auto. apply IH. apply step_ok; auto.
Qed.
End Generic.
