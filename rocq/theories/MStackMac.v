(** The macro stack with nodes that run THzMacMacro (MacModel). *)
From Coq Require Import ZArith List Lia Bool.
From Verif Require Import Base HeaderModel SeqModel EnergyModel MacModel MacSpec MacProofs MacAcct MacSteps MacNet
  MacroPhyModel ChannelModel MStackModel MStackProofs.
Import ListNotations.
Open Scope Z_scope.

(** Events of the MAC that do not come from its PHY. *)
Inductive yev := YTimer (i : nat) | YEnqueue (size : Z) (dst : addr) (junk : Z).
(** Draws; the duration that the receiver of an RTS reads (uninitialised, see MacNet.as_read). *)
Record yenv := Yenv { ye_draw : Z -> Z; ye_junk : Z }.

Definition read_frame (u : Z) (g : mframe) : mframe :=
  if mf_type g =? T_RTS then Mframe (mf_type g) (mf_src g) (mf_dst g) (mf_seq g) u (mf_size g) (mf_id g) else g.
Definition mac_event (o : yenv) (e : nev yev mframe) : mevent :=
  match e with
  | NOwn (YTimer i) => ETimer i
  | NOwn (YEnqueue size dst junk) => EEnq size dst junk
  | NTxDone => ETxDone
  | NRxStart => ERxStart
  | NRxEnd f ok _ => ERxEnd (read_frame (ye_junk o) f) ok
  | NTick t => ETick t
  end.
(** [dur f] is the duration of a frame (CalTxDuration, thz-phy-macro.cc:252-259). *)
Definition mac_sends (dur : mframe -> Z) (o : list mout) : list (mframe * Z) := map (fun f => (f, dur f)) (snd_of o).
Definition mac_step (cfg : addr -> mcfg) (dur : mframe -> Z) (N : addr -> mnode) (a : addr) (o : yenv) (idle : bool) (x : nev yev mframe) : (addr -> mnode) * list (mframe * Z) :=
  let n := N a in
  let r := mstep (cfg a) (Menv idle (ye_draw o)) (n_st n) (mac_event o x) in
  let n' := Mnode (n_hist n ++ [mac_event o x]) (fst r) (n_out n ++ snd r) in
  (mput N a n', mac_sends dur (snd r)).
Definition mac_conf (cfg : addr -> mcfg) (dur : mframe -> Z) (sense : addr -> Z -> bool) (good : addr -> Z -> Z -> bool) (nodes : list addr) : mconf (addr -> mnode) yev mframe yenv :=
  MConf (mac_step cfg dur) sense good nodes.
Definition macs0 (q0 : addr -> Z) : addr -> mnode := fun a => Mnode [] (minit (q0 a)) [].

(** Real time for the pending events of the MAC layers. *)
Definition macs_due (nodes : list addr) (N : addr -> mnode) : list Z := flat_map (fun a => map mt_due (m_timers (n_st (N a)))) nodes.
Definition macs_own (N : addr -> mnode) (a : addr) (x : yev) : bool :=
  match x with YTimer i => mtimely (n_st (N a)) (ETimer i) | YEnqueue _ _ _ => true end.

(** ** One step of a MAC layer *)
Definition on_air (s : mst) : bool := match m_air s with Some _ => true | None => false end.
(** Nothing is sent. *)
Definition mute (a : mact) : Prop := forall s, snd_of (snd (a s)) = [] /\ m_air (fst (a s)) = m_air s.
(** At most one frame is sent, and only while nothing is. *)
Definition single (a : mact) : Prop := forall s, snd_of (snd (a s)) = [] /\ m_air (fst (a s)) = m_air s \/
  exists f, snd_of (snd (a s)) = [f] /\ m_air s = None /\ m_air (fst (a s)) = Some f.

Lemma mute_mild c a : mild c a -> mute a.
Proof. intros H s. destruct (H s) as [T Q]. split; [apply (hush_facts _ _ Q)|apply T]. Qed.
Lemma mute_seq a b : mute a -> mute b -> mute (a ;; b).
Proof.
  intros A B s. rewrite mseq_eq. cbn [fst snd]. destruct (A s) as [A1 A2], (B (fst (a s))) as [B1 B2]. split; [|congruence].
  unfold snd_of in *. rewrite flat_map_app, A1, B1. reflexivity.
Qed.
Lemma mute_lift f : (forall s, m_air (f s) = m_air s) -> mute (mlift f).
Proof. intros F s. split; [reflexivity|apply F]. Qed.
Lemma mute_single a : mute a -> single a.
Proof. intros A s. left. apply A. Qed.
Lemma mute_pre f a : (forall s, m_air (f s) = m_air s) -> mute a -> mute (fun s => a (f s)).
Proof. intros F A s. destruct (A (f s)) as [A1 A2]. split; auto. rewrite A2. apply F. Qed.
Lemma single_pre f a : (forall s, m_air (f s) = m_air s) -> single a -> single (fun s => a (f s)).
Proof. intros F A s. destruct (A (f s)) as [[A1 A2]|(g & A1 & A2 & A3)]; [left; rewrite F in A2|right; exists g; rewrite F in A2]; auto. Qed.
Lemma single_seq a b : mute a -> single b -> single (a ;; b).
Proof.
  intros A B s. rewrite mseq_eq. cbn [fst snd]. destruct (A s) as [A1 A2]. unfold snd_of in *. destruct (B (fst (a s))) as [[B1 B2]|(g & B1 & B2 & B3)].
  - left. unfold snd_of in B1. rewrite flat_map_app, A1, B1. split; [auto|congruence].
  - right. exists g. unfold snd_of in B1. rewrite flat_map_app, A1, B1. split; auto. split; [congruence|auto].
Qed.

Lemma mute_cca c e : mute (cca c e). Proof. eapply mute_mild, mild_cca. Qed.
Lemma mute_nav c d : mute (update_nav c d). Proof. eapply mute_mild, mild_nav. Qed.
Lemma mute_lnav c d : mute (update_lnav c d). Proof. eapply mute_mild, mild_lnav. Qed.
Lemma mute_over c e : mute (start_over c e). Proof. eapply mute_mild, mild_over. Qed.
Lemma mute_skip : mute mskip. Proof. intros s. split; reflexivity. Qed.
Lemma mute_busy c e : mute (becomes_busy c e).
Proof.
  apply mute_seq; [|apply mute_cca]. intros s. destruct (m_bo s); [|split; reflexivity]. destruct (mrunning _ _); [|split; reflexivity].
  cbv zeta. match goal with |- context [if ?b then _ else _] => destruct b end; [destruct (round_off _ _)|]; split; reflexivity.
Qed.
Lemma mute_forward f : mute (forward_new f).
Proof. intros s. unfold forward_new. destruct (is_new _ _ _) as [b l]. split; [destruct b|]; reflexivity. Qed.
Lemma single_packet f k : mute (k true) -> mute (k false) -> single (send_packet f k).
Proof.
  intros KT KF s. unfold send_packet. destruct (_ || _); [|left; apply KF]. destruct (m_air s) as [g|] eqn:A.
  - left. destruct (KF (set_state MIdle s)) as [K1 K2]. split; auto. rewrite K2. auto.
  - right. exists f. rewrite mseq_eq. cbn [fst snd]. set (s1 := set_tx _ _). destruct (KT s1) as [K1 K2]. unfold snd_of in *. cbn [flat_map app].
    rewrite K1. split; [reflexivity|]. split; [reflexivity|exact K2].
Qed.
Lemma times_air n d k : forall s, m_air (times n (msched d k) s) = m_air s.
Proof. induction n as [|n IH]; intros s; cbn [times]; auto. rewrite IH. reflexivity. Qed.
Lemma mute_done ok sq : mute (send_data_done ok sq).
Proof.
  intros s. unfold send_data_done. destruct (done_loop _ _ _ _) as [[[[[l q] d] k] em] ub]. destruct (k =? 0); [split; reflexivity|]. cbn [fst snd]. split.
  - unfold snd_of. rewrite flat_map_app. assert (E : forall d, flat_map (fun x => match x with OSnd f => [f] | _ => [] end) (map (ORep ok) d) = []) by (induction d0; auto).
    rewrite E. destruct ub; reflexivity.
  - set (s1 := times _ _ _). assert (E : m_air s1 = m_air s) by (unfold s1; apply times_air). destruct ok, (_ =? 0); exact E.
Qed.
Lemma bump_air e sq l : forall s, m_air (snd (bump e sq l s)) = m_air s.
Proof.
  induction l as [|r l IH]; intros s; cbn [bump]; auto. destruct (_ =? sq).
  - cbv zeta. set (s1 := if 5 <=? _ then _ else _). assert (E : m_air s1 = m_air s) by (unfold s1; destruct (5 <=? _); reflexivity).
    specialize (IH s1). destruct (bump e sq l s1). cbn [snd] in *. congruence.
  - specialize (IH s). destruct (bump e sq l s). exact IH.
Qed.
Lemma mute_timeout e sq : mute (timeout e sq).
Proof. intros s. unfold timeout. pose proof (bump_air e sq (m_rec s) (set_state MIdle s)) as B. destruct (bump _ _ _ _) as [l s1]. split; [reflexivity|exact B]. Qed.
Lemma mute_rx c e f ok : mute (rx_end c e f ok).
Proof.
  unfold rx_end. apply mute_seq; [apply mute_lift; reflexivity|]. destruct ok; cbn [negb]; [|apply mute_skip].
  destruct (_ =? _).
  { unfold receive_rts. destruct (negb _).
    - apply mute_seq; [apply mute_nav|]. apply mute_seq; [apply mute_lift; reflexivity|apply mute_cca].
    - intros s. destruct (_ >? _); [apply mute_cca|]. revert s. apply mute_seq; [apply mute_lnav|apply mute_lift; reflexivity]. }
  destruct (_ =? _).
  { unfold receive_cts. destruct (negb _).
    - apply mute_seq; [apply mute_nav|]. apply mute_seq; [apply mute_lift; reflexivity|apply mute_cca].
    - apply mute_seq; [apply mute_lift; reflexivity|]. apply mute_seq; [apply mute_lnav|]. intros s. destruct (find _ _) as [[q u]|]; [|split; reflexivity].
      destruct (m_data s); split; reflexivity. }
  destruct (_ =? _).
  { unfold receive_data. destruct (_ =? bcast).
    - apply mute_seq; [apply mute_lift; reflexivity|]. apply mute_seq; [apply mute_forward|apply mute_cca].
    - destruct (negb _).
      + apply mute_seq; [apply mute_nav|]. apply mute_seq; [apply mute_lift; reflexivity|apply mute_cca].
      + apply mute_seq; [apply mute_lnav|]. apply mute_seq; [apply mute_lift; reflexivity|apply mute_forward]. }
  destruct (_ =? _); [|apply mute_cca].
  intros s. unfold receive_ack. destruct (if mf_dst f =? mc_addr c then _ else _) as [[q u]|]; [split; reflexivity|].
  destruct (mute_cca c e (set_state MIdle s)) as [A B]. split; auto.
Qed.
Lemma single_data c e p : single (send_data c e p).
Proof.
  intros s. unfold send_data. destruct (m_queue s); [left; split; reflexivity|]. revert s.
  apply (single_pre (MacModel.set_data (Some p)) (send_packet p _)); [reflexivity|].
  apply single_packet; [|apply mute_over]. destruct (_ =? bcast); [apply mute_lnav|]. apply mute_seq; [apply mute_lnav|apply mute_lift; reflexivity].
Qed.
Lemma single_rts c e p : single (send_rts c e p).
Proof.
  intros s. unfold send_rts. cbv zeta. match goal with |- context [send_packet ?f ?k] => assert (H : single (send_packet f k)) end.
  { apply single_packet; [apply mute_seq; [apply mute_lnav|apply mute_lift; reflexivity]|apply mute_over]. }
  apply (single_pre (set_ids (m_ids s + 1)) _ (fun _ => eq_refl) H s).
Qed.
Lemma single_fire c e k : single (mfire c e k).
Proof.
  destruct k; cbn [mfire]; try (apply mute_single; (apply mute_cca || apply mute_done || (apply mute_seq; [apply mute_lift; reflexivity|apply mute_timeout]))).
  - apply mute_single. intros s. unfold backoff_start. cbv zeta. destruct (_ =? 0), (_ || _); split; reflexivity.
  - intros s. unfold granted. destruct (m_queue s) as [|p q] eqn:Q; [left; split; reflexivity|].
    destruct (_ && _); [apply (single_pre (fun s => set_state MWaitTx (MacModel.set_data (Some p) (set_borem 0 (set_bostart 0 s)))) _ (fun _ => eq_refl) (single_rts c e p) s)
                       |apply (single_pre (fun s => set_state MWaitTx (MacModel.set_data (Some p) (set_borem 0 (set_bostart 0 s)))) _ (fun _ => eq_refl) (single_data c e p) s)].
  - intros s. unfold send_cts. cbv zeta. match goal with |- context [send_packet ?f ?k] => assert (H : single (send_packet f k)) by (apply single_packet; [apply mute_lnav|apply mute_skip]) end.
    apply (single_pre (set_ids (m_ids s + 1)) _ (fun _ => eq_refl) H s).
  - intros s. unfold send_ack. cbv zeta. match goal with |- context [mseq ?f ?k] => assert (H : single (mseq f k)) by (apply single_seq; [apply mute_lnav|apply single_packet; apply mute_skip]) end.
    apply (single_pre (set_ids (m_ids s + 1)) _ (fun _ => eq_refl) H s).
  - apply single_data.
  - apply mute_single. intros s. unfold results. destruct (m_res s); split; reflexivity.
  - apply mute_single. intros s. split; reflexivity.
Qed.

Definition air_before (s : mst) (ev : mevent) : bool := match ev with ETxDone => false | _ => on_air s end.
Lemma mac_one c e s ev : (ev = ETxDone -> on_air s = true) ->
  snd_of (snd (mstep c e s ev)) = [] /\ on_air (fst (mstep c e s ev)) = air_before s ev \/
  exists f, snd_of (snd (mstep c e s ev)) = [f] /\ air_before s ev = false /\ on_air (fst (mstep c e s ev)) = true.
Proof.
  assert (SG : forall a s0, single a -> m_air s0 = m_air s -> snd_of (snd (a s0)) = [] /\ on_air (fst (a s0)) = on_air s \/
    exists f, snd_of (snd (a s0)) = [f] /\ on_air s = false /\ on_air (fst (a s0)) = true).
  { intros a s0 H E. unfold on_air. destruct (H s0) as [[A B]|(f & A & B & D)]; [left; rewrite B, E; auto|right; exists f; rewrite D, <- E, B; auto]. }
  intros V. destruct ev as [size dst junk| | |f ok|i|t]; cbn [mstep air_before].
  - left. unfold menqueue. destruct (_ <? _); [split; reflexivity|]. split; [reflexivity|]. unfold on_air. cbn. destruct (m_rot s); reflexivity.
  - left. specialize (V eq_refl). unfold on_air in V. unfold tx_done. destruct (m_air s) as [f|]; [|discriminate V].
    assert (M : forall a s0, mute a -> m_air s0 = None -> snd_of (snd (a s0)) = [] /\ on_air (fst (a s0)) = false).
    { intros a s0 H E. destruct (H s0) as [A B]. unfold on_air. rewrite B, E. auto. }
    destruct (_ && _); [|split; reflexivity]. destruct (_ || _); [split; reflexivity|]. destruct (_ =? _).
    + destruct (_ =? bcast); [|split; reflexivity]. apply M; [|reflexivity]. apply mute_seq; [apply mute_done|apply mute_cca].
    + apply M; [apply mute_cca|reflexivity].
  - unfold when_silent. destruct (m_air s) eqn:A; [left; split; reflexivity|]. apply SG; auto. apply mute_single. unfold rx_start.
    apply mute_seq; [apply mute_busy|apply mute_lift]. intros s0. destruct (is_state _ _); reflexivity.
  - unfold when_silent. destruct (m_air s) eqn:A; [left; split; reflexivity|]. apply SG; auto. apply mute_single, mute_rx.
  - destruct (nth_error _ _); [|left; split; reflexivity]. apply SG; [apply single_fire|reflexivity].
  - left. split; reflexivity.
Qed.

(** ** The stack *)
Section Macs.
Context (cfg : addr -> mcfg) (q0 : addr -> Z) (dur : mframe -> Z) (sense : addr -> Z -> bool) (good : addr -> Z -> Z -> bool) (nodes : list addr).
Let K := mac_conf cfg dur sense good nodes.
Definition macs_sent (N : addr -> mnode) (a : addr) (f : mframe) : Prop := In f (snd_of (n_out (N a))).
Definition macs_air (N : addr -> mnode) (a : addr) : bool := on_air (n_st (N a)).

Lemma macs_run o0 l : let s := qrun K o0 (qinit K (macs0 q0)) l in
  Inv K (nreach cfg q0) macs_sent s /\ forall a, agree macs_air s a.
Proof.
  apply run_ok.
  - intros n a o i e R _ F. cbn [K q_step mac_conf mac_step fst]. apply NR1; auto.
    intros f E. destruct e as [[?|? ? ?]| | |g ok pw|]; cbn in E; try discriminate E. injection E as E1 ->. destruct F as [_ F]. destruct (F eq_refl) as (b & _ & _ & B).
    exists b, g. split; auto. subst f. unfold read_frame, as_read. destruct (Z.eqb_spec (mf_type g) T_RTS); eauto.
  - intros n a o i e b f. cbn [K q_step mac_conf mac_step fst]. unfold macs_sent, mput. destruct (Z.eqb_spec b a) as [->|]; auto. cbn [n_out]. rewrite snd_app. intros H. apply in_or_app. auto.
  - intros n a o i e x R _ F. cbn [K q_step mac_conf mac_step fst snd]. unfold macs_sent, mput, mac_sends. rewrite Z.eqb_refl. cbn [n_out]. rewrite snd_app. intros H. apply in_map_iff in H.
    destruct H as (f & <- & H). apply in_or_app. auto.
  - intros n a o i e b NE. cbn [K q_step mac_conf mac_step fst]. unfold macs_air, mput. apply Z.eqb_neq in NE. rewrite NE. reflexivity.
  - intros n a o i e R _ F. cbn [K q_step mac_conf mac_step fst snd]. unfold macs_air, mput, air0, mac_sends. rewrite Z.eqb_refl. cbn [n_st].
    assert (V : mac_event o e = ETxDone -> on_air (n_st (n a)) = true). { destruct e as [[?|? ? ?]| | | |]; cbn; intros E; try discriminate E. exact F. }
    assert (Y : match e with NTxDone => false | _ => on_air (n_st (n a)) end = air_before (n_st (n a)) (mac_event o e)) by (destruct e as [[?|? ? ?]| | | |]; reflexivity).
    rewrite Y. destruct (mac_one (cfg a) (Menv i (ye_draw o)) _ _ V) as [[A B]|(f & A & B & C)].
    + left. rewrite A. auto.
    + right. rewrite A. split; [exists (f, dur f); reflexivity|auto].
  - intros n a o i f pow R _ F. cbn [K q_step mac_conf mac_step fst snd mac_event mstep]. unfold when_silent, mac_sends. destruct (m_air _); reflexivity.
  - apply NR0.
  - intros b. reflexivity.
Qed.
End Macs.
