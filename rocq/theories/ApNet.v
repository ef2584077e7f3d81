(** One access point and any number of clients. *)
From Coq Require Import ZArith List Lia Bool Permutation.
From Verif Require Import Base HeaderModel SeqModel EnergyModel MacModel ApModel ApSpec ApProofs ApInv ApLive ApMore ApWhite ApSlots ApGrant
  ClientModel ClientSpec ClientCase ClientAcct ClientInv ClientFifo ClientOrder ClientCount.
Import ListNotations.
Open Scope Z_scope.

(** A client: draws and events so far, state, effects so far. The network: the same for the access point, and the clients by address. *)
Record lnode := Lnode { ln_hist : list (lenv * levent); ln_st : lst; ln_out : list lout }.
Record anet := Anet { an_hist : list pevent; an_st : pst; an_out : list pout; an_cl : addr -> lnode }.
Definition lput (N : addr -> lnode) (a : addr) (n : lnode) : addr -> lnode := fun x => if x =? a then n else N x.

(** Executions. Client [a] has the configuration [cfg a], its counter starts at [q0 a]. Frames are received without error only
    if they were sent: by the access point what a client has sent, by a client what the access point or any client has sent. They
    may be lost, arrive late and more than once. [P], [Q]: restrictions of the steps of the access point and of the clients. *)
Inductive anreach (P : pst -> pevent -> Prop) (Q : lst -> levent -> Prop) (c : acfg) (cfg : addr -> lcfg) (q0 : addr -> Z) : anet -> Prop :=
| AN0 : anreach P Q c cfg q0 (Anet [] (pinit c) [] (fun a => Lnode [] (linit (q0 a)) []))
| ANap N ev : anreach P Q c cfg q0 N -> pvalid (an_st N) ev = true -> P (an_st N) ev ->
    (forall f pw, ev = AERxEnd f true pw -> exists b, In f (lsnd_of (ln_out (an_cl N b)))) ->
    anreach P Q c cfg q0 (Anet (an_hist N ++ [ev]) (fst (pstep c (an_st N) ev)) (an_out N ++ snd (pstep c (an_st N) ev)) (an_cl N))
| ANcl N a e ev : anreach P Q c cfg q0 N -> lvalid (ln_st (an_cl N a)) ev = true -> Q (ln_st (an_cl N a)) ev ->
    (forall f, ev = LERxEnd f true -> In f (ksnd_of (an_out N)) \/ exists b, In f (lsnd_of (ln_out (an_cl N b)))) ->
    anreach P Q c cfg q0 (Anet (an_hist N) (an_st N) (an_out N)
      (lput (an_cl N) a (Lnode (ln_hist (an_cl N a) ++ [(e, ev)]) (fst (lstep (cfg a) e (ln_st (an_cl N a)) ev))
                               (ln_out (an_cl N a) ++ snd (lstep (cfg a) e (ln_st (an_cl N a)) ev))))).

(** ** Parts of an execution *)
Lemma an_ap P Q c cfg q0 N : anreach P Q c cfg q0 N -> areach P c (an_hist N) (an_st N) (an_out N).
Proof. induction 1; cbn [an_hist an_st an_out]; auto; constructor; auto. Qed.
Lemma an_client P Q c cfg q0 N a : anreach P Q c cfg q0 N -> lreach Q (cfg a) (q0 a) (ln_hist (an_cl N a)) (ln_st (an_cl N a)) (ln_out (an_cl N a)).
Proof.
  induction 1; cbn [an_cl]; auto; [constructor|]. unfold lput. destruct (Z.eqb_spec a a0) as [->|]; auto. cbn [ln_hist ln_st ln_out]. constructor; auto.
Qed.
Lemma an_heard P Q c cfg q0 N f : anreach P Q c cfg q0 N -> In f (krcv_of (an_hist N)) -> exists b, In f (lsnd_of (ln_out (an_cl N b))).
Proof.
  induction 1 as [|N ev R IH V HP H|N a e ev R IH V HP H]; cbn [an_hist an_cl]; [contradiction| |].
  - rewrite krcv_app. intros I. apply in_app_or in I. destruct I as [I|I]; auto. destruct ev as [| |g [|] pw| |]; cbn in I; try contradiction. destruct I as [<-|[]]. eauto.
  - intros I. destruct (IH I) as [b B]. exists b. unfold lput. destruct (Z.eqb_spec b a) as [->|]; auto. cbn [ln_out]. rewrite lsnd_app. apply in_or_app. auto.
Qed.
Lemma cl_heard P Q c cfg q0 N a f : anreach P Q c cfg q0 N -> In f (lrcv_of (ln_hist (an_cl N a))) ->
  In f (ksnd_of (an_out N)) \/ exists b, In f (lsnd_of (ln_out (an_cl N b))).
Proof.
  induction 1 as [|N ev R IH V HP H|N a0 e ev R IH V HP H]; cbn [an_hist an_cl an_out]; [contradiction| |].
  - intros I. destruct (IH I) as [X|X]; auto. left. rewrite ksnd_app. apply in_or_app. auto.
  - intros I. assert (X : In f (ksnd_of (an_out N)) \/ exists b, In f (lsnd_of (ln_out (an_cl N b)))).
    { revert I. unfold lput. destruct (a =? a0) eqn:E; [|exact IH]. apply Z.eqb_eq in E. subst a0. cbn [ln_hist]. rewrite lrcv_app. intros I. apply in_app_or in I. destruct I as [I|I]; auto.
      destruct ev as [| | |g [|]| |]; cbn in I; try contradiction. destruct I as [<-|[]]. auto. }
    destruct X as [X|[b B]]; auto. right. exists b. unfold lput. destruct (Z.eqb_spec b a0) as [->|]; auto. cbn [ln_out]. rewrite lsnd_app. apply in_or_app. auto.
Qed.

(** ** Who sends what *)
Section net.
Context (P : pst -> pevent -> Prop) (Q : lst -> levent -> Prop) (c : acfg) (cfg : addr -> lcfg) (q0 : addr -> Z).
Context (AD : forall x, lc_addr (cfg x) = x) (U : forall x, 0 <= q0 x < 65536).

Lemma cl_frame N b f : anreach P Q c cfg q0 N -> In f (lsnd_of (ln_out (an_cl N b))) -> frame_ok (cfg b) (ln_out (an_cl N b)) f.
Proof. intros R. eapply frames_reach; [apply U|apply (an_client _ _ _ _ _ _ b R)]. Qed.
Lemma heard_data N d : anreach P Q c cfg q0 N -> In d (krcv_of (an_hist N)) -> kf_type d = T_DATA ->
  In d (lacc_of (ln_out (an_cl N (kf_src d)))) /\ In d (lsnd_of (ln_out (an_cl N (kf_src d)))).
Proof.
  intros R I T. destruct (an_heard _ _ _ _ _ _ _ R I) as [b B]. destruct (cl_frame _ _ _ R B) as [(_ & A & _)|[(X & _)|(X & _)]]; try (rewrite X in T; discriminate T).
  destruct (la_form _ _ _ _ (lacct_reach _ _ _ _ _ _ (U b) (an_client _ _ _ _ _ _ b R)) d A) as [_ S]. rewrite AD in S. rewrite S. auto.
Qed.
Lemma from_ap N a f ty : anreach P Q c cfg q0 N -> In f (lrcv_of (ln_hist (an_cl N a))) -> kf_type f = ty -> ty <> T_DATA -> ty <> T_RTS -> In f (ksnd_of (an_out N)).
Proof.
  intros R I T D1 D2. destruct (cl_heard _ _ _ _ _ _ _ _ R I) as [X|[b B]]; auto. exfalso.
  destruct (cl_frame _ _ _ R B) as [(X & _)|[(X & _)|(X & _)]]; congruence.
Qed.

(** ** Without UseWhiteList there are no dummy frames *)
Lemma nodummy_step s ev s' o : pcase c s ev s' o -> inv0 s -> p_record s = false -> forall f, In f (ksnd_of o) -> kf_type f = T_CTA -> kf_flags f <> 1.
Proof.
  intros C I R f F T. pose proof I as (_ & _ & I3 & _). destruct C; try (cbn in F; contradiction).
  - unfold upif in F. destruct (fst _); cbn in F; contradiction.
  - exfalso. cbn [ksnd_of flat_map app] in F. fold (ksnd_of (upif f0 s)) in F. destruct (snd_upif f0 s) as [E _]. rewrite E in F. destruct F as [<-|[]].
    assert (X : In g (p_acks s ++ [newack c f0 s])) by (rewrite H2; left; auto). apply in_app_or in X. destruct X as [X|[<-|[]]]; [|discriminate T]. rewrite (proj2 (I3 _ X)) in T. discriminate T.
  - change (ksnd_of (PTurn (p_angle (pturn c s0)) :: sndif (pcta c s0) (pturn c s0))) with (ksnd_of (sndif (pcta c s0) (pturn c s0))) in F.
    apply in_sndif in F. subst f. destruct (toturn_proj _ _ _ _ H0) as (_ & _ & _ & _ & _ & _ & _ & _ & _ & _ & E & _). unfold pcta.
    change (p_record (pset_timers (remove_nth i (p_timers s)) s)) with (p_record s) in E. rewrite E, R. destruct (ac_ways c =? 3); cbn; discriminate.
  - exfalso. destruct F as [<-|[]]. rewrite (proj2 (I3 g ltac:(rewrite H1; left; auto))) in T. discriminate T.
  - apply in_sndif in F. subst f. discriminate T.
  - apply in_sndif in F. subst f. cbn. discriminate.
Qed.
Lemma nodummy_reach h s o : ac_wl c = false -> areach P c h s o -> forall f, In f (ksnd_of o) -> kf_type f = T_CTA -> kf_flags f <> 1.
Proof.
  intros W R. induction R as [|h s o ev R IH V HP]; [contradiction|]. intros f F. rewrite ksnd_app in F. apply in_app_or in F. destruct F as [F|F]; auto.
  pose proof (inv0_reach _ _ _ _ _ R) as I. eapply nodummy_step; eauto. { eapply step_case; eauto. } eapply norecord_reach; eauto.
Qed.
Lemma lcount_none (p : kframe -> bool) l : (forall f, In f l -> p f = false) -> lcount p l = 0%nat.
Proof. unfold lcount. induction l as [|f l IH]; intros H; auto. cbn. rewrite (H f (or_introl eq_refl)). apply IH. intros; apply H; right; auto. Qed.
Lemma lcount_some (p : kframe -> bool) l : (1 <= lcount p l)%nat <-> exists f, In f l /\ p f = true.
Proof.
  unfold lcount. induction l as [|f l IH]; cbn; [split; [lia|intros (? & [] & _)]|]. destruct (p f) eqn:E; cbn [length].
  - split; [|lia]. intros _. exists f. auto.
  - rewrite IH. split; intros (g & G1 & G2); exists g; split; auto. destruct G1 as [->|]; auto. congruence.
Qed.
Lemma no_dummies N b f : ac_wl c = false -> anreach P Q c cfg q0 N -> In f (lsnd_of (ln_out (an_cl N b))) -> kf_type f = T_RTS -> kf_flags f <> 1.
Proof.
  intros W R F T E. pose proof (an_client _ _ _ _ _ _ b R) as RB. destruct (rts_reach _ _ _ _ _ _ (U b) RB) as [_ X].
  assert (Z : lcount (is_cta true) (lrcv_of (ln_hist (an_cl N b))) = 0%nat).
  { apply lcount_none. intros g G. unfold is_cta. destruct (Z.eqb_spec (kf_type g) T_CTA) as [TG|]; auto. cbn [andb].
    assert (GA : In g (ksnd_of (an_out N))) by (eapply from_ap; eauto; discriminate).
    pose proof (nodummy_reach _ _ _ W (an_ap _ _ _ _ _ _ R) g GA TG) as Y. apply Z.eqb_neq in Y. rewrite Y. reflexivity. }
  assert (Y : (1 <= lcount (is_rts 1) (lsnd_of (ln_out (an_cl N b))))%nat).
  { apply lcount_some. exists f. split; auto. unfold is_rts. rewrite T, E. reflexivity. }
  lia.
Qed.

(** The answers to CTA with flags 1 do not carry numbers of packets of their client. *)
Definition dummies_differ (N : anet) : Prop := forall a f p, In f (lsnd_of (ln_out (an_cl N a))) -> kf_type f = T_RTS -> kf_flags f = 1 ->
  In p (lacc_of (ln_out (an_cl N a))) -> kf_seq p <> kf_seq f.
Lemma differ_before N a e ev : dummies_differ (Anet (an_hist N) (an_st N) (an_out N)
    (lput (an_cl N) a (Lnode (ln_hist (an_cl N a) ++ [(e, ev)]) (fst (lstep (cfg a) e (ln_st (an_cl N a)) ev)) (ln_out (an_cl N a) ++ snd (lstep (cfg a) e (ln_st (an_cl N a)) ev))))) -> dummies_differ N.
Proof.
  intros H b f p F T E I. apply (H b f p); auto; cbn [an_cl]; unfold lput; destruct (b =? a) eqn:B; auto; apply Z.eqb_eq in B; subst b; cbn [ln_out].
  - rewrite lsnd_app. apply in_or_app. auto.
  - rewrite lacc_app. apply in_or_app. auto.
Qed.
Lemma no_white N : ac_wl c = false -> anreach P Q c cfg q0 N -> dummies_differ N.
Proof. intros W R a f p F T E. destruct (no_dummies _ _ _ W R F T E). Qed.

(** ** Every CTS answers an RTS of the client *)
Lemma n_some (p : kframe -> bool) l : (1 <= length (filter p l))%nat -> exists f, In f l /\ p f = true.
Proof. apply lcount_some. Qed.
Lemma some_n (p : kframe -> bool) l f : In f l -> p f = true -> (1 <= length (filter p l))%nat.
Proof. intros. apply lcount_some. eauto. Qed.
Lemma cts_answers N a f : dummies_differ N -> anreach P Q c cfg q0 N -> In f (ksnd_of (an_out N)) -> kf_type f = T_CTS -> kf_dst f = a ->
  forall p, In p (lacc_of (ln_out (an_cl N a))) -> kf_seq p = kf_seq f ->
  exists g, In g (lsnd_of (ln_out (an_cl N a))) /\ kf_type g = T_RTS /\ kf_flags g = 0 /\ kf_seq g = kf_seq f.
Proof.
  intros W R F T D p PA PS. pose proof (cts_reach _ _ _ _ _ a (kf_seq f) (an_ap _ _ _ _ _ _ R)) as B.
  assert (X : (1 <= n_cts a (kf_seq f) (ksnd_of (an_out N)))%nat). { unfold n_cts. apply (some_n _ _ f); auto. rewrite T, D, !Z.eqb_refl. reflexivity. }
  assert (Y : (1 <= n_rts a (kf_seq f) (krcv_of (an_hist N)))%nat) by lia. unfold n_rts in Y. apply n_some in Y. destruct Y as (g & G1 & G2).
  apply andb_true_iff in G2. destruct G2 as [G2 G3]. apply andb_true_iff in G2. destruct G2 as [G2 G4]. apply Z.eqb_eq in G2, G3, G4.
  destruct (an_heard _ _ _ _ _ _ _ R G1) as [b B'].
  destruct (cl_frame _ _ _ R B') as [(Z & _)|[(_ & Z1 & Z2 & _)|(_ & Z)]]; [rewrite Z in G2; discriminate G2| |].
  2: { exfalso. pose proof (proj2 (dummy_src _ _ _ _ _ _ (U b) (an_client _ _ _ _ _ _ b R)) g B' G2) as SB. rewrite AD in SB. assert (b = a) as -> by congruence.
       apply (W a g p B' G2 Z PA). congruence. }
  rewrite AD in Z2. assert (b = a) as -> by congruence. exists g. auto.
Qed.
Lemma own_reach N a : dummies_differ N -> anreach P Q c cfg q0 N -> cts_own (cfg a) (q0 a) (ln_hist (an_cl N a)).
Proof.
  intros W R. revert W. induction R as [|N ev R IH V HP H|N a0 e ev R IH V HP H]; intros W; cbn [an_cl]; auto.
  - intros h1 e f h2 E. destruct h1; discriminate E.
  - pose proof (differ_before _ _ _ _ W) as W0. specialize (IH W0). unfold lput. destruct (Z.eqb_spec a a0) as [->|]; auto. cbn [ln_hist].
    intros h1 e1 f h2 E T D p. destruct h2 as [|x h2 _] using rev_ind.
    + apply app_inj_tail in E. destruct E as [<- E]. injection E as -> ->.
      rewrite (lreach_run _ _ _ _ _ _ (an_client _ _ _ _ _ _ a0 R)). cbn [snd]. rewrite AD in D. destruct (H f eq_refl) as [F|[b B]].
      * intros PA PS. eapply (cts_answers N a0 f); eauto.
      * intros _ _. exfalso. destruct (cl_frame _ _ _ R B) as [(X & _)|[(X & _)|(X & _)]]; rewrite X in T; discriminate T.
    + change (h1 ++ (e1, LERxEnd f true) :: h2 ++ [x]) with (h1 ++ ((e1, LERxEnd f true) :: h2) ++ [x]) in E. rewrite app_assoc in E. apply app_inj_tail in E. destruct E as [E _]. eapply IH; eauto.
Qed.

(** ** Success means reception *)
Definition enough (N : anet) (a : addr) : Prop := Z.of_nat (length (lacc_of (ln_out (an_cl N a)))) <= 65536.
Lemma success_heard N a p : anreach P Q c cfg q0 N -> enough N a -> In p (lrep_of true (ln_out (an_cl N a))) -> In p (krcv_of (an_hist N)).
Proof.
  intros R L I. pose proof (an_client _ _ _ _ _ _ a R) as RA. pose proof (lacct_reach _ _ _ _ _ _ (U a) RA) as A.
  destruct (ClientFifo.acks_reach _ _ _ _ _ _ (U a) RA) as (_ & _ & _ & X). destruct (X p I) as (h1 & e & f & h2 & E & T & D & S & _).
  assert (F : In f (lrcv_of (ln_hist (an_cl N a)))). { rewrite E, lrcv_app. apply in_or_app. right. left. auto. }
  assert (FA : In f (ksnd_of (an_out N))) by (eapply from_ap; eauto; discriminate).
  pose proof (ApInv.acks_reach _ _ _ _ _ a (kf_seq f) (an_ap _ _ _ _ _ _ R)) as B. rewrite AD in D.
  assert (Y : (1 <= n_ack a (kf_seq f) (ksnd_of (an_out N)))%nat). { unfold n_ack. apply (some_n _ _ f); auto. rewrite T, D, !Z.eqb_refl. reflexivity. }
  assert (Z : (1 <= n_data a (kf_seq f) (krcv_of (an_hist N)))%nat) by lia. unfold n_data in Z. apply n_some in Z. destruct Z as (d & G1 & G2).
  apply andb_true_iff in G2. destruct G2 as [G2 G3]. apply andb_true_iff in G2. destruct G2 as [G2 G4]. apply Z.eqb_eq in G2, G3, G4.
  destruct (heard_data _ _ R G1 G2) as [AC _]. rewrite G4 in AC.
  assert (PA : In p (lacc_of (ln_out (an_cl N a)))). { eapply Permutation_in; [apply Permutation_sym, (la_perm _ _ _ _ A)|]. apply in_or_app. auto. }
  assert (d = p) as <- by (eapply (lunique _ _ _ _ d p A); eauto; congruence). auto.
Qed.

(** ** Data that arrive: everything before it is settled *)
Lemma settled N a d p i j : dummies_differ N -> anreach P Q c cfg q0 N -> enough N a -> In d (krcv_of (an_hist N)) -> kf_type d = T_DATA -> kf_src d = a ->
  nth_error (lacc_of (ln_out (an_cl N a))) i = Some p -> nth_error (lacc_of (ln_out (an_cl N a))) j = Some d -> (i < j)%nat ->
  In p (lrep_all (ln_out (an_cl N a))).
Proof.
  intros W R L I T S NI NJ IJ. pose proof (an_client _ _ _ _ _ _ a R) as RA. pose proof (lacct_reach _ _ _ _ _ _ (U a) RA) as A.
  destruct (order_reach _ _ _ _ _ _ (U a) RA L (own_reach _ a W R)) as (_ & _ & O3 & O4).
  destruct (heard_data _ _ R I T) as [_ DS]. rewrite S in DS. destruct (O3 d DS T) as [_ F].
  rewrite <- O4 in NI, NJ. set (rp := lrep_all (ln_out (an_cl N a))) in *.
  destruct (Nat.lt_ge_cases i (length rp)) as [LI|LI].
  { rewrite nth_error_app1 in NI by auto. eapply nth_error_In; eauto. }
  exfalso. rewrite nth_error_app2 in NJ by lia. destruct (map lr_pkt (l_rec (ln_st (an_cl N a)))) as [|x l]; [destruct (j - length rp)%nat; discriminate NJ|].
  destruct (j - length rp)%nat as [|k] eqn:K; [lia|]. cbn [nth_error] in NJ. apply (F d); auto. cbn. eapply nth_error_In; eauto.
Qed.

(** ** Delivery *)
Lemma fresh_snoc l : forall seen d, fresh seen (l ++ [d]) = fresh seen l ++
  if forallb (fun g => negb (kf_src g =? kf_src d) || (kf_seq g <? kf_seq d)) (seen ++ l) then [d] else [].
Proof.
  induction l as [|x l IH]; intros seen d; cbn [app fresh].
  - rewrite !app_nil_r. reflexivity.
  - rewrite IH, <- !app_assoc. cbn [app]. reflexivity.
Qed.
Lemma kframe_dec (x y : kframe) : {x = y} + {x <> y}.
Proof. repeat decide equality. Qed.

Definition nowrap (N : anet) : Prop := forall a, q0 a + Z.of_nat (length (lacc_of (ln_out (an_cl N a)))) < 65536.
Lemma nowrap_enough N a : nowrap N -> enough N a.
Proof. intros H. specialize (H a). specialize (U a). unfold enough. lia. Qed.
Lemma nowrap_num N a i p : anreach P Q c cfg q0 N -> nowrap N -> nth_error (lacc_of (ln_out (an_cl N a))) i = Some p -> kf_seq p = q0 a + 1 + Z.of_nat i.
Proof.
  intros R W E. pose proof (lacct_reach _ _ _ _ _ _ (U a) (an_client _ _ _ _ _ _ a R)) as A. rewrite (la_num _ _ _ _ A _ _ E).
  specialize (W a). specialize (U a). assert (i < length (lacc_of (ln_out (an_cl N a))))%nat by (apply nth_error_Some; congruence). apply Z.mod_small. lia.
Qed.
Lemma rep_split b o (p : kframe) : In p (lrep_of b o) -> In p (lrep_all o).
Proof. unfold lrep_of, lrep_all. rewrite !in_flat_map. intros (x & X1 & X2). exists x. split; auto. destruct x; auto; destruct (Bool.eqb b ok); auto; contradiction. Qed.
Lemma rep_which o (p : kframe) : In p (lrep_all o) -> In p (lrep_of true o) \/ In p (lrep_of false o).
Proof.
  unfold lrep_of, lrep_all. rewrite !in_flat_map. intros (x & X1 & X2). destruct x; try contradiction. destruct ok; [left|right]; eexists; (split; [exact X1|]); exact X2.
Qed.
Lemma nowrap_before_ap N ev : nowrap (Anet (an_hist N ++ [ev]) (fst (pstep c (an_st N) ev)) (an_out N ++ snd (pstep c (an_st N) ev)) (an_cl N)) -> nowrap N.
Proof. intros H a. apply H. Qed.
Lemma delivered N a p : dummies_differ N -> anreach P Q c cfg q0 N -> nowrap N -> In p (krcv_of (an_hist N)) -> kf_type p = T_DATA -> kf_src p = a ->
  ~ In p (lrep_of false (ln_out (an_cl N a))) -> In p (kup_of (an_out N)).
Proof.
  intros W R. revert a p W. induction R as [|N ev R IH V HP H|N a0 e ev R IH V HP H]; intros a p W NW; cbn [an_hist an_out an_cl]; [contradiction| |].
  - pose proof (an_ap _ _ _ _ _ _ R) as RA. pose proof (deliver_reach _ _ _ _ _ RA) as D0. pose proof (deliver_reach _ _ _ _ _ (AR1 P c _ _ _ ev RA V HP)) as D1.
    intros I T S F. destruct (in_dec kframe_dec p (krcv_of (an_hist N))) as [I'|I'].
    { rewrite kup_app. apply in_or_app. left. apply (IH a p); auto. }
    rewrite krcv_app in I, D1. apply in_app_or in I. destruct I as [I|I]; [contradiction|]. destruct ev as [| |g [|] pw| |]; cbn in I; try contradiction. destruct I as [->|[]].
    change (krcv_of [AERxEnd p true pw]) with [p] in D1. rewrite filter_app in D1. cbn [filter] in D1. rewrite T in D1. change (T_DATA =? T_DATA) with true in D1. cbv iota in D1.
    rewrite fresh_snoc in D1. rewrite D1. apply in_or_app. right.
    assert (X : forallb (fun g => negb (kf_src g =? kf_src p) || (kf_seq g <? kf_seq p)) ([] ++ filter (fun f => kf_type f =? T_DATA) (krcv_of (an_hist N))) = true).
    { apply forallb_forall. intros g G. cbn [app] in G. apply filter_In in G. destruct G as [G1 G2]. apply Z.eqb_eq in G2.
      destruct (Z.eqb_spec (kf_src g) (kf_src p)) as [E|]; auto. cbn [negb orb]. apply Z.ltb_lt.
      destruct (H p pw eq_refl) as [b B]. destruct (cl_frame _ _ _ R B) as [(_ & PA & _)|[(X & _)|(X & _)]]; try (rewrite X in T; discriminate T).
      destruct (la_form _ _ _ _ (lacct_reach _ _ _ _ _ _ (U b) (an_client _ _ _ _ _ _ b R)) p PA) as [_ SP]. rewrite AD in SP. assert (b = a) as -> by congruence. clear SP.
      destruct (heard_data _ _ R G1 G2) as [GA _]. rewrite E, S in GA.
      apply In_nth_error in PA, GA. destruct PA as [i PI], GA as [j GJ]. pose proof (nowrap_num _ _ _ _ R NW PI) as N1. pose proof (nowrap_num _ _ _ _ R NW GJ) as N2.
      destruct (Nat.lt_trichotomy i j) as [LT|[->|LT]]; [| |lia].
      - exfalso. pose proof (settled N a g p i j W R (nowrap_enough _ _ NW) G1 G2 ltac:(congruence) PI GJ LT) as RP.
        destruct (rep_which _ _ RP) as [RT|RF]; [|contradiction]. apply I'. eapply success_heard; eauto. apply nowrap_enough. auto.
      - exfalso. apply I'. congruence. }
    rewrite X. left. auto.
  - intros I T S F. apply (IH a p); auto.
    + apply (differ_before _ _ _ _ W).
    + intros x. specialize (NW x). cbn [an_cl] in NW. unfold lput in NW. destruct (x =? a0) eqn:E; auto. apply Z.eqb_eq in E. rewrite E in *. cbn [ln_out] in NW. rewrite lacc_app, app_length in NW. lia.
    + intros X. apply F. unfold lput. destruct (Z.eqb_spec a a0) as [->|]; auto. cbn [ln_out]. rewrite lrep_app. apply in_or_app. auto.
Qed.
Lemma not_both s o (a : addr) p : lacct (cfg a) (q0 a) s o -> In p (lrep_of true o) -> ~ In p (lrep_of false o).
Proof.
  intros A I J. pose proof (la_ids _ _ _ _ A) as N. apply (Permutation_NoDup (Permutation_map kf_id (la_perm _ _ _ _ A))) in N. rewrite map_app in N.
  assert (X : forall l l' : list Z, NoDup (l ++ l') -> forall z, In z l -> In z l' -> False).
  { clear. induction l as [|y l IH]; intros l' N z I J; [contradiction|]. cbn in N. inversion N; subst. destruct I as [->|I]; [apply H1; apply in_or_app; auto|eauto]. }
  apply (X _ _ N (kf_id p)); [apply in_map; auto|]. rewrite map_app. apply in_or_app. left. apply in_map. auto.
Qed.
Lemma net_delivered N a p : dummies_differ N -> anreach P Q c cfg q0 N -> nowrap N -> In p (lrep_of true (ln_out (an_cl N a))) -> In p (kup_of (an_out N)).
Proof.
  intros W R NW I. pose proof (lacct_reach _ _ _ _ _ _ (U a) (an_client _ _ _ _ _ _ a R)) as A.
  assert (PA : In p (lacc_of (ln_out (an_cl N a)))). { eapply Permutation_in; [apply Permutation_sym, (la_perm _ _ _ _ A)|]. apply in_or_app. auto. }
  destruct (la_form _ _ _ _ A p PA) as [T S]. rewrite AD in S.
  apply (delivered N a p W R NW); auto; [eapply success_heard; eauto; apply nowrap_enough; auto|]. eapply not_both; eauto.
Qed.

(** ** What is handed up *)
Lemma fresh_in l : forall seen f, In f (fresh seen l) -> In f l.
Proof. induction l as [|x l IH]; intros seen f; cbn [fresh]; [auto|]. intros I. apply in_app_or in I. destruct I as [I|I]; [destruct (forallb _ seen); [destruct I as [<-|[]]; left; auto|contradiction]|right; eauto]. Qed.
Lemma fresh_above l : forall seen f g, In f (fresh seen l) -> In g seen -> kf_src g = kf_src f -> kf_seq g < kf_seq f.
Proof.
  induction l as [|x l IH]; intros seen f g; cbn [fresh]; [contradiction|]. intros I G S. apply in_app_or in I. destruct I as [I|I].
  - destruct (forallb _ seen) eqn:E; [|contradiction]. destruct I as [<-|[]]. rewrite forallb_forall in E. specialize (E g G). rewrite S, Z.eqb_refl in E. apply Z.ltb_lt. exact E.
  - eapply IH; eauto. apply in_or_app. auto.
Qed.
Lemma fresh_sorted l : forall seen i j f g, nth_error (fresh seen l) i = Some f -> nth_error (fresh seen l) j = Some g -> (i < j)%nat -> kf_src f = kf_src g -> kf_seq f < kf_seq g.
Proof.
  induction l as [|x l IH]; intros seen i j f g; cbn [fresh]; [destruct i; discriminate|]. destruct (forallb _ seen); cbn [app]; [|apply IH].
  destruct i as [|i], j as [|j]; cbn [nth_error]; intros A B L S; try lia.
  - injection A as <-. eapply fresh_above; [eapply nth_error_In; eauto| |auto]. apply in_or_app. right. left. auto.
  - eapply IH; eauto. lia.
Qed.
Lemma up_genuine N f : anreach P Q c cfg q0 N -> In f (kup_of (an_out N)) -> In f (krcv_of (an_hist N)) /\ In f (lacc_of (ln_out (an_cl N (kf_src f)))).
Proof.
  intros R I. rewrite (deliver_reach _ _ _ _ _ (an_ap _ _ _ _ _ _ R)) in I. apply fresh_in in I. apply filter_In in I. destruct I as [I T]. apply Z.eqb_eq in T.
  split; auto. apply (heard_data _ _ R I T).
Qed.
Lemma up_sorted N i j f g : anreach P Q c cfg q0 N -> nth_error (kup_of (an_out N)) i = Some f -> nth_error (kup_of (an_out N)) j = Some g -> (i < j)%nat -> kf_src f = kf_src g -> kf_seq f < kf_seq g.
Proof. intros R. rewrite (deliver_reach _ _ _ _ _ (an_ap _ _ _ _ _ _ R)). apply fresh_sorted. Qed.
End net.
