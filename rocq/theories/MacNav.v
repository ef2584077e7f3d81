(** Virtual carrier sense of the macro MAC. *)
From Coq Require Import ZArith List Lia Bool.
From Verif Require Import Base HeaderModel SeqModel EnergyModel MacModel MacSpec MacProofs MacAcct MacSteps MacInv.
Import ListNotations.
Open Scope Z_scope.

Lemma round_ge c t v : nsec <= mc_slot c -> 0 <= t -> round_off c t = Some v -> t - mc_slot c < v.
Proof.
  intros S T. unfold round_off. set (rt := Z.quot t nsec). set (st := Z.quot (mc_slot c) nsec).
  assert (ST : 1 <= st /\ st * nsec <= mc_slot c).
  { unfold st. change nsec with 1000000 in *. pose proof (Z.quot_rem' (mc_slot c) 1000000). pose proof (Z.rem_bound_pos (mc_slot c) 1000000 ltac:(lia) ltac:(lia)). nia. }
  assert (RT : 0 <= rt /\ t < (rt + 1) * nsec).
  { unfold rt. change nsec with 1000000 in *. pose proof (Z.quot_rem' t 1000000). pose proof (Z.rem_bound_pos t 1000000 ltac:(lia) ltac:(lia)). nia. }
  clearbody rt st. destruct (Z.eqb_spec st 0); [discriminate|].
  pose proof (Z.quot_rem' rt st). pose proof (Z.rem_bound_pos rt st ltac:(lia) ltac:(lia)).
  pose proof (Z.quot_rem' st 2). pose proof (Z.rem_bound_pos st 2 ltac:(lia) ltac:(lia)).
  set (q := Z.quot rt st) in *. set (r := Z.rem rt st) in *. set (hf := Z.quot st 2) in *. clearbody q r hf.
  change nsec with 1000000 in *.
  destruct (Z.leb_spec hf r); intros E; injection E as <-; nia.
Qed.

Definition contends (k : mkind) : bool := match k with MKBo | MKGrant => true | _ => false end.
Definition answers (k : mkind) : bool := match k with MKSendData _ => true | _ => false end.
(** Until [n] the channel is reserved, no contention is under way; with [b] no CTS is awaited either. *)
Definition quiet (c : mcfg) (n : Z) (b : bool) (s : mst) : Prop :=
  n <= m_nav s /\ m_now s + mc_slot c < n /\ (forall t, In t (m_timers s) -> contends (mt_kind t) = false) /\
  (b = true -> m_cts s = [] /\ forall t, In t (m_timers s) -> answers (mt_kind t) = false).
Definition calmo (b : bool) (o : list mout) : Prop := forall f, In (OSnd f) o -> mf_type f <> T_RTS /\ (b = true -> mf_type f <> T_DATA).
Definition holds (c : mcfg) (n : Z) (b : bool) (a : mact) : Prop := forall s, quiet c n b s -> quiet c n b (fst (a s)) /\ calmo b (snd (a s)).

Lemma calmo_nil b : calmo b []. Proof. intros f []. Qed.
Lemma calmo_app b x y : calmo b x -> calmo b y -> calmo b (x ++ y).
Proof. intros X Y f F. apply in_app_or in F. destruct F; eauto. Qed.
Lemma calmo_ub b : calmo b [OUb]. Proof. intros f [F|[]]. discriminate F. Qed.

Lemma quiet_sub c n b s s' : quiet c n b s -> m_nav s <= m_nav s' -> m_now s' = m_now s -> (m_cts s = [] -> m_cts s' = []) ->
  (forall t, In t (m_timers s') -> In t (m_timers s) \/ (contends (mt_kind t) = false /\ answers (mt_kind t) = false)) -> quiet c n b s'.
Proof.
  intros [Q1 [Q2 [Q3 Q4]]] N T C M. split; [lia|]. split; [lia|]. split.
  - intros t X. destruct (M t X) as [Y|Y]; [auto|apply Y].
  - intros B. destruct (Q4 B) as [Q5 Q6]. split; auto. intros t X. destruct (M t X) as [Y|Y]; [auto|apply Y].
Qed.
Ltac qsub H := apply (quiet_sub _ _ _ _ _ H); ss; auto; try lia.

Lemma quiet_sched c n b d k s : contends k = false -> answers k = false -> quiet c n b s -> quiet c n b (msched d k s).
Proof. intros K A Q. qsub Q. intros t X. apply in_app_or in X. destruct X as [X|[<-|[]]]; auto. Qed.
Lemma quiet_sent c n b d p s : m_cts s <> [] -> quiet c n b s -> quiet c n b (msched d (MKSendData p) s).
Proof.
  intros N [Q1 [Q2 [Q3 Q4]]]. split; [exact Q1|]. split; [exact Q2|]. split.
  - ss. intros t X. apply in_app_or in X. destruct X as [X|[<-|[]]]; auto.
  - intros B. exfalso. apply N, (Q4 B).
Qed.
Lemma quiet_cancel c n b u s : quiet c n b s -> quiet c n b (mcancel u s).
Proof. intros Q. qsub Q. intros t X. apply filter_In in X. left. apply X. Qed.

Lemma holds_seq c n b x y : holds c n b x -> holds c n b y -> holds c n b (x ;; y).
Proof.
  intros X Y s Q. rewrite mseq_eq. cbn [fst snd]. destruct (X s Q) as [X1 X2]. destruct (Y _ X1) as [Y1 Y2]. split; auto using calmo_app.
Qed.
Lemma holds_lift c n b f : (forall s, quiet c n b s -> quiet c n b (f s)) -> holds c n b (mlift f).
Proof. intros F s Q. split; [apply F; auto|apply calmo_nil]. Qed.
Lemma holds_skip c n b : holds c n b mskip.
Proof. intros s Q. split; auto. apply calmo_nil. Qed.

Lemma holds_nav c n b d : holds c n b (update_nav c d).
Proof.
  intros s Q. unfold update_nav. destruct (round_off _ _) as [v|]; cbn [fst snd]; [|split; auto using calmo_ub].
  split; [|apply calmo_nil]. destruct (Z.gtb_spec v (m_nav s)); auto. qsub Q.
Qed.
Lemma holds_lnav c n b d : holds c n b (update_lnav c d).
Proof.
  intros s Q. unfold update_lnav. destruct (round_off _ _) as [v|]; cbn [fst snd]; [|split; auto using calmo_ub].
  split; [|apply calmo_nil]. qsub Q.
Qed.
Lemma holds_cca c n b e : holds c n b (cca c e).
Proof.
  intros s Q. unfold cca. destruct (m_queue s); [split; [auto|apply calmo_nil]|]. destruct (mrunning _ _); [split; [auto|apply calmo_nil]|].
  destruct (Z.gtb_spec (Z.max (m_nav s) (m_lnav s)) (m_now s + mc_slot c)) as [G|G].
  - split; [|apply calmo_nil]. cbn [fst]. apply quiet_sched; auto.
  - exfalso. destruct Q as [Q1 [Q2 _]]. lia.
Qed.
Lemma holds_over c n b e : holds c n b (start_over c e).
Proof. apply holds_seq; [apply holds_lift|apply holds_cca]. intros s Q. qsub Q. Qed.
Lemma holds_packet c n b f k : mf_type f <> T_RTS -> (b = true -> mf_type f <> T_DATA) -> (forall x, holds c n b (k x)) -> holds c n b (send_packet f k).
Proof.
  intros F1 F2 K s Q. unfold send_packet. destruct (_ || _); [|apply K; auto]. destruct (m_air s).
  - apply K. qsub Q.
  - apply (holds_seq c n b (fun s => (s, [OSnd f])) (k true)); auto.
    intros x X. split; auto. intros g [G|[]]. injection G as <-. auto.
Qed.
Lemma holds_idle c n b st : holds c n b (mlift (set_state st)).
Proof. apply holds_lift. intros s Q. qsub Q. Qed.
Lemma holds_fwd c n b f : holds c n b (forward_new f).
Proof.
  intros s Q. destruct (forward_out f s) as [-> ->]. split; [qsub Q|]. destruct (fst _); [|apply calmo_nil]. intros g [G|[]]. discriminate G.
Qed.

Lemma holds_sdd c n b ok sq : holds c n b (send_data_done ok sq).
Proof.
  intros s Q. split; [|intros f F; exfalso; eapply sdd_no; eauto].
  unfold send_data_done. destruct (done_loop _ _ _ _) as [[[[[l q] d] k] em] ub].
  assert (T : forall m x, quiet c n b x -> quiet c n b (times m (msched 0 MKResult) x)).
  { induction m as [|m IH]; cbn [times]; auto. intros x X. apply IH, quiet_sched; auto. }
  destruct (k =? 0); cbn [fst]; auto. specialize (T (Z.to_nat k) s Q). set (x := times _ _ _) in *. clearbody x.
  destruct (_ =? 0), ok; qsub T.
Qed.
Lemma holds_tmo c n b e sq : holds c n b (timeout e sq).
Proof.
  intros s Q. assert (B : forall l x, quiet c n b x -> quiet c n b (snd (bump e sq l x))).
  { induction l as [|r l IH]; cbn [bump]; auto. intros x X. destruct (_ =? sq).
    - cbv zeta. set (y := if 5 <=? _ then _ else _). specialize (IH y). destruct (bump e sq l y). apply IH. unfold y.
      destruct (5 <=? _); apply quiet_sched; auto; qsub X.
    - specialize (IH x X). destruct (bump e sq l x). auto. }
  unfold timeout. specialize (B (m_rec s) (set_state MIdle s)). destruct (bump _ _ _ _) as [l x]. cbn [fst snd] in *.
  split; [|intros f [F|[]]; discriminate F]. assert (X : quiet c n b x) by (apply B; qsub Q). qsub X.
Qed.

Lemma erase1_nil {A} (q : A -> bool) l : l = [] -> erase1 q l = []. Proof. intros ->. auto. Qed.

Lemma holds_rx c n b e f ok : holds c n b (rx_end c e f ok).
Proof.
  unfold rx_end. apply holds_seq; [apply holds_idle|]. destruct ok; cbn [negb]; [|apply holds_skip].
  destruct (mf_type f =? T_RTS); [|destruct (mf_type f =? T_CTS); [|destruct (mf_type f =? T_DATA); [|destruct (mf_type f =? T_ACK); [|apply holds_cca]]]].
  - unfold receive_rts. destruct (negb _).
    + apply holds_seq; [apply holds_nav|]. apply holds_seq; [apply holds_idle|apply holds_cca].
    + intros s Q. destruct (_ >? _); [apply holds_cca; auto|].
      apply (holds_seq c n b (update_lnav c (mf_dur f * nsec)) (mlift _)); auto; [apply holds_lnav|]. apply holds_lift. intros x X. apply quiet_sched; auto.
  - unfold receive_cts. destruct (negb _).
    + apply holds_seq; [apply holds_nav|]. apply holds_seq; [apply holds_idle|apply holds_cca].
    + apply holds_seq; [apply holds_lift; intros s Q; qsub Q|]. apply holds_seq; [apply holds_lnav|].
      intros s Q. destruct (find _ (m_cts s)) as [[a u]|] eqn:F; [|split; [auto|apply calmo_nil]].
      assert (N : m_cts s <> []) by (intros X; rewrite X in F; discriminate F).
      assert (X : b = false) by (destruct b; auto; destruct Q as [_ [_ [_ Q]]]; destruct (Q eq_refl); contradiction). subst b.
      assert (Y : quiet c n false (set_cts (erase1 (fun x => fst x =? mf_seq f) (m_cts s)) (set_state MWaitTx (mcancel u s)))).
      { apply (quiet_cancel _ _ _ u) in Q. apply (quiet_sub _ _ _ _ _ Q); ss; auto; try lia. intros X. contradiction. }
      destruct (m_data s); (split; [|apply calmo_nil || apply calmo_ub]); cbn [fst]; auto.
      destruct Y as [Y1 [Y2 [Y3 _]]]. split; [exact Y1|]. split; [exact Y2|]. split; [|discriminate].
      intros t X. revert X. unfold msched at 1. cbn [m_timers set_uid set_timers]. intros X. apply in_app_or in X. destruct X as [X|[<-|[]]]; auto.
  - unfold receive_data. destruct (_ =? bcast); [|destruct (negb _)].
    + apply holds_seq; [apply holds_idle|]. apply holds_seq; [apply holds_fwd|apply holds_cca].
    + apply holds_seq; [apply holds_nav|]. apply holds_seq; [apply holds_idle|apply holds_cca].
    + apply holds_seq; [apply holds_lnav|]. apply holds_seq; [|apply holds_fwd]. apply holds_lift. intros x X. apply quiet_sched; auto.
  - intros s Q. unfold receive_ack. cbv zeta. destruct (if mf_dst f =? mc_addr c then _ else _) as [[a u]|].
    + split; [|apply calmo_nil]. cbn [fst].
      assert (Y : quiet c n b (msched psec (MKDone true (mf_seq f)) (mcancel u (set_state MIdle s)))) by (apply quiet_sched; auto; apply quiet_cancel; qsub Q).
      qsub Y.
    + apply holds_cca. qsub Q.
Qed.

Lemma quiet_step c n b e s ev : quiet c n b s -> (forall t, ev <> ETick t) -> (forall t p, In t (m_timers s) -> mt_kind t = MKSendData p -> mf_type p = T_DATA) ->
  quiet c n b (fst (mstep c e s ev)) /\ calmo b (snd (mstep c e s ev)).
Proof.
  intros Q NT DT. destruct ev as [size dst junk| | |f ok|i|t]; cbn [mstep].
  - unfold menqueue. destruct (_ <? _); [split; [auto|intros f [F|[]]; discriminate F]|]. cbv zeta.
    split; [|intros f [F|[F|[]]]; discriminate F]. cbn [fst]. apply quiet_sched; auto.
    destruct (m_rot s); [qsub Q; intros t X; apply filter_In in X; left; apply X|qsub Q].
  - unfold tx_done. destruct (m_air s); [|split; [auto|apply calmo_nil]]. cbv zeta.
    assert (Q1 : quiet c n b (set_air None s)) by qsub Q. assert (Q2 : quiet c n b (set_state MIdle (set_air None s))) by qsub Q.
    destruct (_ && _); [|split; [auto|apply calmo_nil]]. destruct (_ || _); [split; [auto|apply calmo_nil]|].
    destruct (_ =? T_DATA); [|apply holds_cca; auto]. destruct (_ =? bcast); [|split; [auto|apply calmo_nil]].
    apply (holds_seq c n b (send_data_done true (mf_seq m)) (cca c e)); auto using holds_sdd, holds_cca.
  - unfold when_silent. destruct (m_air s); [split; [auto|apply calmo_nil]|]. clear DT. revert s Q. apply holds_seq; [|apply holds_lift; intros s Q; destruct (is_state _ _); auto; qsub Q].
    apply holds_seq; [|apply holds_cca]. intros s Q. destruct (m_bo s) as [u|]; [|split; [auto|apply calmo_nil]].
    destruct (mrunning _ _); [|split; [auto|apply calmo_nil]]. cbv zeta. pose proof (quiet_cancel _ _ _ u _ Q) as Q1.
    destruct (_ <? _); [|split; [auto|apply calmo_nil]]. destruct (round_off _ _); [|split; auto using calmo_ub].
    split; [|apply calmo_nil]. cbn [fst]. qsub Q1.
  - unfold when_silent. destruct (m_air s); [split; [auto|apply calmo_nil]|]. apply holds_rx; auto.
  - destruct (nth_error (m_timers s) i) as [t|] eqn:N; [|split; [auto|apply calmo_nil]].
    assert (Q1 : quiet c n b (set_timers (remove_nth i (m_timers s)) s)) by (qsub Q; intros x X; left; eapply in_remove; eauto).
    apply nth_in in N. specialize (DT t). pose proof Q as [_ [_ [Q3 Q4]]]. specialize (Q3 t N).
    assert (Q5 : b = true -> answers (mt_kind t) = false) by (intros B; apply (Q4 B); auto). clear Q4.
    revert Q1. generalize (set_timers (remove_nth i (m_timers s)) s). clear Q. 
    destruct (mt_kind t); cbn [mfire] in *; try discriminate Q3.
    + apply holds_cca.
    + apply holds_seq; [|apply holds_tmo]. apply holds_lift. intros x X. qsub X. apply erase1_nil.
    + apply holds_seq; [|apply holds_tmo]. apply holds_lift. intros x X. qsub X.
    + intros x X. unfold send_cts. apply holds_packet; [discriminate|discriminate| |qsub X]. intros []; [apply holds_lnav|apply holds_skip].
    + intros x X. unfold send_ack. apply (holds_seq c n b (update_lnav c _) (send_packet _ _)); [apply holds_lnav| |qsub X].
      apply holds_packet; [discriminate|discriminate|]. intros []; apply holds_skip.
    + destruct b; [discriminate (Q5 eq_refl)|]. intros x X. unfold send_data. destruct (m_queue x); [split; [qsub X|apply calmo_nil]|].
      specialize (DT p N eq_refl). apply holds_packet; [rewrite DT; discriminate|discriminate| |qsub X]. intros [].
      * destruct (_ =? bcast); [apply holds_lnav|]. apply holds_seq; [apply holds_lnav|]. apply holds_lift. intros y Y. apply quiet_sched; auto.
      * apply holds_over.
    + apply holds_sdd.
    + intros x X. split; auto. cbn [results snd]. destruct (m_res x); [apply calmo_nil|apply calmo_ub].
    + intros x X. split; [|apply calmo_nil]. cbn [rotate fst]. apply quiet_sched; auto.
  - exfalso. eapply NT; eauto.
Qed.

(** Continuations of an execution up to time [d]. *)
Inductive runs_by (c : mcfg) (d : Z) : mst -> list mout -> Prop :=
| RB0 s : runs_by c d s []
| RB1 s e ev o : m_now (fst (mstep c e s ev)) <= d -> runs_by c d (fst (mstep c e s ev)) o -> runs_by c d s (snd (mstep c e s ev) ++ o).

Lemma quiet_runs c n b d q0 s o' : u16 q0 -> d + mc_slot c < n -> runs_by c d s o' -> quiet c n b s -> forall h o, mreach c q0 h s o -> calmo b o'.
Proof.
  intros U D R. induction R as [s|s e ev o' T R IH]; intros Q h o RE; [apply calmo_nil|].
  assert (DT : forall t p, In t (m_timers s) -> mt_kind t = MKSendData p -> mf_type p = T_DATA).
  { intros t p X Y. apply (ac_data _ _ _ _ (acct_reach _ _ _ _ _ U RE)). eapply g_sdata; eauto. eapply gen_reach; eauto. }
  assert (X : quiet c n b (fst (mstep c e s ev)) /\ calmo b (snd (mstep c e s ev))).
  { assert (Y : (exists t, ev = ETick t) \/ forall t, ev <> ETick t) by (destruct ev; eauto; right; intros; discriminate).
    destruct Y as [[t ->]|Y]; [|apply quiet_step; auto]. cbn [mstep fst snd] in *. split; [|apply calmo_nil].
    destruct Q as [Q1 [Q2 [Q3 Q4]]]. split; [exact Q1|]. split; [|split; [exact Q3|exact Q4]]. revert T. ss. lia. }
  destruct X as [X1 X2]. apply calmo_app; auto. eapply IH; eauto. constructor. exact RE.
Qed.

Lemma nav_reach c q0 h s o e f d o' : u16 q0 -> mreach c q0 h s o -> nsec <= mc_slot c -> 0 <= m_now s -> 0 <= mf_dur f -> m_air s = None ->
  In (mf_type f) [T_RTS; T_CTS; T_DATA] -> mf_dst f <> mc_addr c -> mf_dst f <> bcast ->
  (forall t, In t (m_timers s) -> mt_kind t <> MKBo /\ mt_kind t <> MKGrant) ->
  m_now s <= d -> d + 2 * mc_slot c <= m_now s + mf_dur f * nsec ->
  runs_by c d (fst (mstep c e s (ERxEnd f true))) o' ->
  snd (mstep c e s (ERxEnd f true)) = [] /\
  (forall g, In (OSnd g) o' -> mf_type g <> T_RTS) /\
  (m_cts s = [] -> (forall t p, In t (m_timers s) -> mt_kind t <> MKSendData p) -> forall g, In (OSnd g) o' -> mf_type g <> T_DATA).
Proof.
  intros U R SL NW DU A TY DA DB NT D1 D2 RB.
  destruct (round_off c (m_now s + mf_dur f * nsec)) as [n|] eqn:RO; [|exfalso; eapply round_some; eauto].
  pose proof (round_ge c (m_now s + mf_dur f * nsec) n SL ltac:(assert (0 <= nsec) by (unfold nsec; lia); nia) RO) as RG.
  set (x := if n >? m_nav s then set_nav n (set_state MIdle s) else set_state MIdle s).
  assert (E : mstep c e s (ERxEnd f true) = cca c e (set_state MIdle x)).
  { cbn [mstep]. unfold when_silent. rewrite A. unfold rx_end. rewrite mseq_eq. cbn [negb mlift fst snd app].
    assert (N1 : (mf_dst f =? mc_addr c) = false) by (apply Z.eqb_neq; auto). assert (N2 : (mf_dst f =? bcast) = false) by (apply Z.eqb_neq; auto).
    rewrite <- surjective_pairing.
    assert (X : (update_nav c (mf_dur f * nsec) ;; mlift (set_state MIdle) ;; cca c e) (set_state MIdle s) = cca c e (set_state MIdle x)).
    { rewrite !mseq_eq. unfold update_nav. cbn [m_now set_state m_nav]. rewrite RO. cbn [fst snd mlift app]. symmetry. apply surjective_pairing. }
    unfold receive_rts, receive_cts, receive_data. rewrite N1, N2. cbn [negb].
    destruct TY as [<-|[<-|[<-|[]]]]; exact X. }
  assert (Q : forall b, (b = true -> m_cts s = [] /\ forall t, In t (m_timers s) -> answers (mt_kind t) = false) -> quiet c n b (set_state MIdle x)).
  { intros b B. assert (X : n <= m_nav x /\ m_now x = m_now s /\ m_timers x = m_timers s /\ m_cts x = m_cts s).
    { unfold x. destruct (Z.gtb_spec n (m_nav s)); ss; repeat split; auto; lia. }
    destruct X as [X1 [X2 [X3 X4]]]. split; [exact X1|]. ss. rewrite X2, X3, X4. split; [lia|]. split; [|exact B].
    intros t T. destruct (NT t T). destruct (mt_kind t); auto; contradiction. }
  assert (O0 : snd (mstep c e s (ERxEnd f true)) = []).
  { rewrite E. destruct (mild_cca c e (set_state MIdle x)) as [_ [_ X]]. apply X. auto. }
  assert (RE : mreach c q0 (h ++ [ERxEnd f true]) (fst (mstep c e s (ERxEnd f true))) (o ++ [])) by (rewrite <- O0; constructor; auto).
  split; [exact O0|]. rewrite E in *. split.
  - intros g G. refine (proj1 (quiet_runs c n false d q0 _ o' U _ RB _ _ _ RE g G)); [lia|]. apply holds_cca, Q. discriminate.
  - intros C0 S0 g G. refine (proj2 (quiet_runs c n true d q0 _ o' U _ RB _ _ _ RE g G) eq_refl); [lia|]. apply holds_cca, Q. intros _. split; auto.
    intros t T. specialize (S0 t). destruct (mt_kind t); auto. exfalso. apply (S0 p T). auto.
Qed.
