(** CTS of the access point: which RTS they answer, what they announce. *)
From Coq Require Import ZArith List Lia Bool.
From Verif Require Import Base HeaderModel SeqModel EnergyModel MacModel ApModel ApSpec ApProofs ApInv ApLive ApWhite ApSlots.
Import ListNotations.
Open Scope Z_scope.

(** Number of RTS from node [a] with number [q]; of CTS to it. *)
Definition n_rts (a q : Z) (l : list kframe) : nat :=
  length (filter (fun f => (kf_type f =? T_RTS) && (kf_src f =? a) && (kf_seq f =? q)) l).
Definition n_cts (a q : Z) (l : list kframe) : nat :=
  length (filter (fun f => (kf_type f =? T_CTS) && (kf_dst f =? a) && (kf_seq f =? q)) l).
(** CTS still to be sent. *)
Definition cts_to (a q : Z) (t : ptimer) : bool := match pt_kind t with PKCts d k _ _ => (d =? a) && (k =? q) | _ => false end.
(** Every event of a CTS finds the access point able to send. *)
Definition cts_able (s : pst) (ev : pevent) : Prop :=
  match ev with AETimer i => forall t, nth_error (p_timers s) i = Some t -> is_cts t -> p_state s = PIdle \/ p_state s = PWaitTx | _ => True end.

Lemma n_rts_app a q l l' : n_rts a q (l ++ l') = (n_rts a q l + n_rts a q l')%nat.
Proof. unfold n_rts. rewrite filter_app, app_length. reflexivity. Qed.
Lemma n_cts_app a q l l' : n_cts a q (l ++ l') = (n_cts a q l + n_cts a q l')%nat.
Proof. unfold n_cts. rewrite filter_app, app_length. reflexivity. Qed.
Lemma n_rts_other a q f : kf_type f <> T_RTS -> n_rts a q [f] = 0%nat.
Proof. intros H. unfold n_rts. cbn [filter]. apply Z.eqb_neq in H. rewrite H. reflexivity. Qed.
Lemma n_cts_other a q f : kf_type f <> T_CTS -> n_cts a q [f] = 0%nat.
Proof. intros H. unfold n_cts. cbn [filter]. apply Z.eqb_neq in H. rewrite H. reflexivity. Qed.
Lemma n_cts_snd a q o : (forall f, In f (ksnd_of o) -> kf_type f <> T_CTS) -> n_cts a q (ksnd_of o) = 0%nat.
Proof.
  intros H. induction (ksnd_of o) as [|f l IH]; auto. change (f :: l) with ([f] ++ l). rewrite n_cts_app, n_cts_other, IH; auto; intros; apply H; cbn; auto.
Qed.
Lemma in_sndif f s x : In x (ksnd_of (sndif f s)) -> x = f.
Proof. unfold sndif. destruct (cansend s); cbn; intuition. Qed.

Lemma cancel_sec_num P s : tids s -> (forall t, pt_kind t = PKSec -> P t = false) -> num P (p_timers (pcancel (p_sec s) s)) = num P (p_timers s).
Proof.
  intros (_ & _ & _ & T & _) D. destruct (p_sec s) as [u|] eqn:E; [|reflexivity]. cbn [pcancel]. change (p_timers (pset_timers ?x s)) with x.
  revert T. generalize (p_timers s). induction l as [|t l IH]; intros T; cbn [filter]; auto.
  assert (T' : forall t, In t l -> Some u = Some (pt_id t) -> pt_kind t = PKSec) by (intros x X; apply T; right; auto).
  destruct (Z.eqb_spec (pt_id t) u) as [Q|Q]; cbn [negb]; rewrite ?num_cons, IH by auto; auto.
  rewrite (D t) by (apply T; [left; auto|congruence]). reflexivity.
Qed.
Lemma cancel_dto_num P s : tids s -> (forall t, pt_kind t = PKData -> P t = false) -> num P (p_timers (pcancel (p_dto s) s)) = num P (p_timers s).
Proof.
  intros (_ & _ & T & _) D. destruct (p_dto s) as [u|] eqn:E; [|reflexivity]. cbn [pcancel]. change (p_timers (pset_timers ?x s)) with x.
  revert T. generalize (p_timers s). induction l as [|t l IH]; intros T; cbn [filter]; auto.
  assert (T' : forall t, In t l -> Some u = Some (pt_id t) -> pt_kind t = PKData) by (intros x X; apply T; right; auto).
  destruct (Z.eqb_spec (pt_id t) u) as [Q|Q]; cbn [negb]; rewrite ?num_cons, IH by auto; auto.
  rewrite (D t) by (apply T; [left; auto|congruence]). reflexivity.
Qed.
Lemma gtimers_num c now a q l : forall i w u, (forall x, In x l -> kf_type (fst x) = T_RTS) ->
  num (cts_to a q) (gtimers c now i w u l) = n_rts a q (map fst l).
Proof.
  induction l as [|[f pw] r IH]; intros i w u H; [reflexivity|]. cbn [gtimers map fst]. rewrite num_cons, IH by (intros x X; apply H; right; auto).
  change (f :: map fst r) with ([f] ++ map fst r). rewrite n_rts_app. f_equal. unfold cts_to, n_rts. cbn [pt_kind filter].
  pose proof (H _ (or_introl eq_refl)) as T. cbn [fst] in T. rewrite T, Z.eqb_refl. cbn [andb]. destruct ((kf_src f =? a) && (kf_seq f =? q)); reflexivity.
Qed.

Lemma sent_other (s : pst) c s' o ev f : pcase c s ev s' o -> inv0 s -> In f (ksnd_of o) ->
  kf_type f <> T_CTS \/ exists i t dst sq dur flag, ev = AETimer i /\ nth_error (p_timers s) i = Some t /\ pt_kind t = PKCts dst sq dur flag /\ cansend s = true /\
     f = pctrl c T_CTS dst sq (wrap16 (Z.quot dur nsec)) flag 0 s.
Proof.
  intros C I F. pose proof I as (_ & _ & I3 & _). destruct C; try (cbn in F; contradiction).
  - unfold upif in F. destruct (fst _); cbn in F; contradiction.
  - left. cbn [ksnd_of flat_map app] in F. fold (ksnd_of (upif f0 s)) in F. destruct (snd_upif f0 s) as [E _]. rewrite E in F. destruct F as [<-|[]].
    assert (X : In g (p_acks s ++ [newack c f0 s])) by (rewrite H2; left; auto). apply in_app_or in X. destruct X as [X|[<-|[]]]; [|discriminate]. rewrite (proj2 (I3 _ X)). discriminate.
  - left. change (ksnd_of (PTurn (p_angle (pturn c s0)) :: sndif (pcta c s0) (pturn c s0))) with (ksnd_of (sndif (pcta c s0) (pturn c s0))) in F.
    apply in_sndif in F. subst f. rewrite pcta_type. discriminate.
  - left. destruct F as [<-|[]]. rewrite (proj2 (I3 g ltac:(rewrite H1; left; auto))). discriminate.
  - right. pose proof (in_sndif _ _ _ F) as ->. exists i, t, dst, sq, dur, flag. repeat split; auto.
    unfold sndif in F. destruct (cansend s1) eqn:X; [|contradiction]. exact X.
  - left. apply in_sndif in F. subst f. discriminate.
Qed.

Ltac none a q := repeat match goal with
  | |- context [ksnd_of []] => change (ksnd_of []) with (@nil kframe)
  | |- context [krcv_of [?x]] => change (krcv_of [x]) with (@nil kframe)
  | |- context [n_cts a q []] => change (n_cts a q []) with 0%nat
  | |- context [n_rts a q []] => change (n_rts a q []) with 0%nat
  | |- context [num (cts_to a q) [?t]] => change (num (cts_to a q) [t]) with 0%nat
  | |- context [map fst []] => change (map fst (@nil (kframe * Z))) with (@nil kframe)
  | |- context [p_rts (pset_state ?v ?x)] => change (p_rts (pset_state v x)) with (p_rts x)
  | |- context [p_rts (pset_air ?v ?x)] => change (p_rts (pset_air v x)) with (p_rts x)
  | |- context [p_rts (pset_acks ?v ?x)] => change (p_rts (pset_acks v x)) with (p_rts x)
  | |- context [p_rts (pset_ids ?v ?x)] => change (p_rts (pset_ids v x)) with (p_rts x)
  | |- context [p_rts (pset_filter ?v ?x)] => change (p_rts (pset_filter v x)) with (p_rts x)
  | |- context [p_rts (sent ?v ?x)] => change (p_rts (sent v x)) with (p_rts x)
  | |- context [p_rts (gotdata ?v ?w ?x)] => change (p_rts (gotdata v w x)) with (p_rts x)
  | |- context [p_rts (pset_now ?v ?x)] => change (p_rts (pset_now v x)) with (p_rts x)
  | |- context [p_rts (psched ?v ?w ?x)] => change (p_rts (psched v w x)) with (p_rts x)
  | |- context [p_rts (pset_timers ?v ?x)] => change (p_rts (pset_timers v x)) with (p_rts x)
  | |- context [p_timers (pset_state ?v ?x)] => change (p_timers (pset_state v x)) with (p_timers x)
  | |- context [p_timers (pset_air ?v ?x)] => change (p_timers (pset_air v x)) with (p_timers x)
  | |- context [p_timers (pset_acks ?v ?x)] => change (p_timers (pset_acks v x)) with (p_timers x)
  | |- context [p_timers (pset_ids ?v ?x)] => change (p_timers (pset_ids v x)) with (p_timers x)
  | |- context [p_timers (pset_filter ?v ?x)] => change (p_timers (pset_filter v x)) with (p_timers x)
  | |- context [p_timers (sent ?v ?x)] => change (p_timers (sent v x)) with (p_timers x)
  | |- context [p_timers (gotdata ?v ?w ?x)] => change (p_timers (gotdata v w x)) with (p_timers x)
  | |- context [p_timers (pset_now ?v ?x)] => change (p_timers (pset_now v x)) with (p_timers x)
  | |- context [p_timers (pset_rts ?v ?x)] => change (p_timers (pset_rts v x)) with (p_timers x)
  end.

Definition rts_typed (s : pst) : Prop := forall x, In x (p_rts s) -> kf_type (fst x) = T_RTS.

Lemma cts_step c s ev s' o a q : pcase c s ev s' o -> inv0 s -> tids s -> rts_typed s ->
  exists d, (n_cts a q (ksnd_of o) + num (cts_to a q) (p_timers s') + n_rts a q (map fst (p_rts s')) + d =
    num (cts_to a q) (p_timers s) + n_rts a q (map fst (p_rts s)) + n_rts a q (krcv_of [ev]))%nat /\
    (p_record s = false -> cts_able s ev -> d = 0%nat).
Proof.
  intros C I T RT. pose proof (sent_other s c s' o ev) as SO.
  assert (N0 : (forall f, In f (ksnd_of o) -> kf_type f <> T_CTS) -> n_cts a q (ksnd_of o) = 0%nat) by apply n_cts_snd.
  assert (RM : forall i t, nth_error (p_timers s) i = Some t -> cts_to a q t = false -> num (cts_to a q) (remove_nth i (p_timers s)) = num (cts_to a q) (p_timers s)).
  { intros i t E Z. pose proof (num_remove (cts_to a q) _ _ _ E) as X. rewrite Z in X. lia. }
  destruct C.
  - exists 0%nat. cbn. auto.
  - exists 0%nat. cbn. auto.
  - exists 0%nat. cbn. auto.
  - exists 0%nat. split; auto. change (p_timers (psched nsec PKTurn ?x)) with (p_timers s ++ [Ptimer (p_uid s) (p_now s + nsec) PKTurn]). rewrite num_app. none a q. lia.
  - exists 0%nat. split; auto. change (p_timers (psched psec PKAck ?x)) with (p_timers s ++ [Ptimer (p_uid s) (p_now s + psec) PKAck]). rewrite num_app. none a q. lia.
  - exists 0%nat. split; auto. change (p_timers (pset_state PRx ?x)) with (p_timers x). change (p_rts (pset_state PRx ?x)) with (p_rts x).
    rewrite cancel_dto_num; auto; [|intros t K; unfold cts_to; rewrite K; auto]. destruct (cancel_proj (p_dto s) s) as (_ & _ & _ & _ & _ & _ & _ & _ & -> & _). none a q. lia.
  - exists 0%nat. split; auto. destruct ok; [|none a q; change (p_timers (pset_state PIdle s)) with (p_timers s); change (p_rts (pset_state PIdle s)) with (p_rts s); lia]. change (krcv_of [AERxEnd f true pw]) with [f]. rewrite n_rts_other by (apply H0; auto). none a q. lia.
  - exists 0%nat. split; auto. change (krcv_of [AERxEnd f true pw]) with [f]. change (p_rts (pset_rts ?x _)) with x. rewrite map_app, n_rts_app. change (map fst [(f, pw)]) with [f]. none a q. lia.
  - exists 0%nat. split; auto. change (krcv_of [AERxEnd f true pw]) with [f]. rewrite n_rts_other by (rewrite H0; discriminate). destruct (snd_upif f s) as [-> _]. none a q. lia.
  - exists 0%nat. split; auto. change (krcv_of [AERxEnd f true pw]) with [f]. rewrite n_rts_other by (rewrite H0; discriminate). rewrite N0.
    + change (p_timers (gotdata c f (pset_acks r (sent g (pcancel (p_sec s) s))))) with (p_timers (pcancel (p_sec s) s)).
      change (p_rts (gotdata c f (pset_acks r (sent g (pcancel (p_sec s) s))))) with (p_rts (pcancel (p_sec s) s)).
      rewrite cancel_sec_num; auto; [|intros t K; unfold cts_to; rewrite K; auto]. destruct (cancel_proj (p_sec s) s) as (_ & _ & _ & _ & _ & _ & _ & _ & -> & _). lia.
    + intros x X. destruct (SO x (PC_dataack c s f pw g r H H0 H1 H2) I X) as [Y|(i & t & ? & ? & ? & ? & Y & _)]; auto. discriminate Y.
  - assert (N : n_cts a q (ksnd_of (PTurn (p_angle (pturn c s0)) :: sndif (pcta c s0) (pturn c s0))) = 0%nat).
    { apply N0. intros x X. change (ksnd_of (PTurn (p_angle (pturn c s0)) :: sndif (pcta c s0) (pturn c s0))) with (ksnd_of (sndif (pcta c s0) (pturn c s0))) in X.
      apply in_sndif in X. subst x. rewrite pcta_type. discriminate. }
    rewrite N. destruct (trysend_proj (pcta c s0) (pturn c s0)) as (_ & _ & _ & _ & _ & -> & _ & _ & _ & _ & _ & _ & _ & ->).
    destruct (pturn_proj c s0) as (_ & _ & _ & _ & _ & _ & -> & _). destruct (pturn_new c s0) as (l & -> & L2). rewrite num_app.
    assert (L0 : num (cts_to a q) l = 0%nat). { apply num_zero. intros x X. unfold cts_to. destruct (L2 x X) as [K|[K|K]]; rewrite K; auto. }
    rewrite L0. change (krcv_of [AETimer i]) with (@nil kframe). change (n_rts a q []) with 0%nat.
    assert (CT : pt_kind t = PKTurn \/ pt_kind t = PKWait \/ pt_kind t = PKSec \/ pt_kind t = PKData) by (destruct H0; auto).
    assert (Z : cts_to a q t = false) by (unfold cts_to; destruct CT as [K|[K|[K|K]]]; rewrite K; auto).
    specialize (RM _ _ H Z). inversion H0; subst s0.
    + exists 0%nat. split; auto. change (p_timers (pset_timers ?x s)) with x. change (p_rts (pset_timers ?x s)) with (p_rts s). lia.
    + exists 0%nat. split; auto. change (p_timers (pset_timers ?x s)) with x. change (p_rts (pset_timers ?x s)) with (p_rts s). lia.
    + exists (n_rts a q (map fst (p_rts s))). split.
      * change (p_timers (pset_rts _ (pset_map _ (pset_timers ?x s)))) with x. change (p_rts (pset_rts ?x _)) with x. cbn [map]. change (n_rts a q []) with 0%nat. lia.
      * intros X. change (p_record s = true) in H3. congruence.
    + exists 0%nat. split; auto. change (p_timers (pset_timers ?x s)) with x. change (p_rts (pset_timers ?x s)) with (p_rts s). lia.
    + exists 0%nat. split; auto. pose proof (tids_fire s i T) as T'. rewrite (cancel_sec_num _ _ T'); [|intros y K; unfold cts_to; rewrite K; auto].
      destruct (cancel_proj (p_sec (pset_timers (remove_nth i (p_timers s)) s)) (pset_timers (remove_nth i (p_timers s)) s)) as (_ & _ & _ & _ & _ & _ & _ & _ & -> & _).
      change (p_timers (pset_timers ?x s)) with x. change (p_rts (pset_timers ?x s)) with (p_rts s). lia.
  - exists (n_rts a q (map fst (p_rts s))). split; [|intros X; congruence].
    change (p_timers (pset_white _ (pset_uid _ (pset_timers ?x _)))) with x. change (p_rts (pset_white _ (pset_uid _ (pset_timers _ (pset_record _ (pset_rts ?x _)))))) with x.
    rewrite num_app. rewrite (RM _ _ H) by (unfold cts_to; rewrite H0; auto).
    rewrite (num_zero _ (atimers c (p_now s) 0 (p_uid s) (node_map m))). { none a q. lia. }
    intros x X. destruct (atimers_ids c (p_now s) (node_map m) 0 (p_uid s)) as (B & _). unfold cts_to. destruct (B x X) as [_ [E|(b & d & E)]]; rewrite E; auto.
  - exists 0%nat. split; auto.
    change (p_timers (pset_rts _ (pset_sec _ (pset_uid _ (pset_expect _ (pset_timers ?x _)))))) with x. change (p_rts (pset_rts ?x _)) with x.
    rewrite !num_app, gtimers_num by exact RT. rewrite (RM _ _ H) by (unfold cts_to; rewrite H0; auto). none a q. lia.
  - exists 0%nat. split; auto. rewrite N0.
    + change (p_timers (pset_acks r (sent g (pset_timers ?x s)))) with x. change (p_rts (pset_acks r (sent g (pset_timers _ s)))) with (p_rts s).
      rewrite (RM _ _ H) by (unfold cts_to; destruct H0 as [K|K]; rewrite K; auto). none a q. lia.
    + intros x X. destruct (SO x (PC_ack c s i t g r H H0 H1 H2) I X) as [Y|(i' & t' & d' & ? & ? & ? & Y & Y1 & Y2 & _)]; auto. exfalso. injection Y as <-. rewrite H in Y1. injection Y1 as <-. destruct H0; congruence.
  - exists 0%nat. split; auto. change (p_timers (pset_acks r (pset_timers ?x s))) with x. change (p_rts (pset_acks r (pset_timers _ s))) with (p_rts s).
    rewrite (RM _ _ H) by (unfold cts_to; destruct H0 as [K|K]; rewrite K; auto). change (ksnd_of [PLost g]) with (@nil kframe). none a q. lia.
  - exists 0%nat. split; auto. change (p_timers (pset_timers ?x s)) with x. change (p_rts (pset_timers _ s)) with (p_rts s).
    rewrite (RM _ _ H) by (unfold cts_to; rewrite H0; auto). change (ksnd_of [PUb]) with (@nil kframe). none a q. lia.
  - destruct (trysend_proj f s1) as (_ & _ & _ & _ & _ & -> & _ & _ & _ & _ & _ & _ & _ & ->).
    change (p_timers s1) with (remove_nth i (p_timers s)). change (p_rts s1) with (p_rts s). pose proof (num_remove (cts_to a q) _ _ _ H) as X.
    assert (CS : cansend s1 = cansend s) by reflexivity. unfold sndif. rewrite CS. change (krcv_of [AETimer i]) with (@nil kframe). change (n_rts a q []) with 0%nat.
    assert (E : (if cts_to a q t then 1%nat else 0%nat) = n_cts a q [f]).
    { unfold cts_to, n_cts. rewrite H0. unfold f, pctrl. cbn [filter kf_type kf_dst kf_seq]. rewrite Z.eqb_refl. cbn [andb]. destruct ((dst =? a) && (sq =? q)); reflexivity. }
    destruct (cansend s) eqn:CA.
    + exists 0%nat. split; auto. change (ksnd_of [PSnd f]) with [f]. lia.
    + exists (n_cts a q [f]). split; [change (ksnd_of []) with (@nil kframe); change (n_cts a q []) with 0%nat; lia|]. intros _ AB. exfalso.
      specialize (AB t H). unfold is_cts in AB. rewrite H0 in AB. specialize (AB Coq.Init.Logic.I). destruct I as (I1 & I2 & _). unfold cansend in CA.
      destruct (p_air s) as [g|] eqn:A; [destruct (I1 g eq_refl) as [Y _]; destruct AB; congruence|]. destruct AB as [Y|Y]; rewrite Y in CA; discriminate CA.
  - exists 0%nat. split; auto. rewrite N0; [|intros x X; apply in_sndif in X; subst x; discriminate].
    destruct (trysend_proj f s1) as (_ & _ & _ & _ & _ & -> & _ & _ & _ & _ & _ & _ & _ & ->).
    change (p_timers s1) with (remove_nth i (p_timers s)). change (p_rts s1) with (p_rts s). rewrite (RM _ _ H) by (unfold cts_to; rewrite H0; auto). none a q. lia.
Qed.

Lemma rts_typed_reach P c h s o : areach P c h s o -> rts_typed s /\ forall x, In x (p_rts s) -> In (fst x) (krcv_of h).
Proof.
  intros R. pose proof (ApWhite.wl_reach _ _ _ _ _ R) as W. split; intros [f pw] X; destruct (ApWhite.w_rts _ _ _ W f pw X) as [A B]; auto.
  unfold krcv_of. apply in_flat_map. exists (AERxEnd f true pw). split; auto. left. auto.
Qed.
Lemma cts_reach P c h s o a q : areach P c h s o ->
  (n_cts a q (ksnd_of o) + num (cts_to a q) (p_timers s) + n_rts a q (map fst (p_rts s)) <= n_rts a q (krcv_of h))%nat.
Proof.
  induction 1 as [|h s o ev R IH V HP]; [cbn; lia|]. pose proof (inv0_reach _ _ _ _ _ R) as I.
  destruct (cts_step c s ev _ _ a q (step_case c s ev I V) I (tids_reach _ _ _ _ _ R) (proj1 (rts_typed_reach _ _ _ _ _ R))) as (d & E & _).
  rewrite ksnd_app, krcv_app, n_cts_app, n_rts_app. lia.
Qed.
Lemma norecord_step c s ev s' o : pcase c s ev s' o -> p_record s = false -> p_record s' = false.
Proof.
  intros C R. destruct C; auto; try congruence.
  - destruct (cancel_proj (p_dto s) s) as (_ & _ & _ & _ & _ & _ & _ & E & _). change (p_record (pcancel (p_dto s) s) = false). congruence.
  - destruct (cancel_proj (p_sec s) s) as (_ & _ & _ & _ & _ & _ & _ & E & _). change (p_record (pcancel (p_sec s) s) = false). congruence.
  - destruct (trysend_proj (pcta c s0) (pturn c s0)) as (_ & _ & _ & _ & -> & _). destruct (pturn_proj c s0) as (_ & _ & _ & _ & _ & -> & _).
    destruct (toturn_proj _ _ _ _ H0) as (_ & _ & _ & _ & _ & _ & _ & _ & _ & _ & -> & _). exact R.
  - destruct (trysend_proj f s1) as (_ & _ & _ & _ & -> & _). exact R.
  - destruct (trysend_proj f s1) as (_ & _ & _ & _ & -> & _). exact R.
Qed.
Lemma norecord_reach P c h s o : ac_wl c = false -> areach P c h s o -> p_record s = false.
Proof.
  intros W. induction 1 as [|h s o ev R IH V HP]; [exact W|]. pose proof (inv0_reach _ _ _ _ _ R) as I. eapply norecord_step; [eapply step_case; eauto|auto].
Qed.
Lemma cts_all (P : pst -> pevent -> Prop) c h s o a q : (forall s ev, P s ev -> cts_able s ev) -> ac_wl c = false -> areach P c h s o ->
  (n_cts a q (ksnd_of o) + num (cts_to a q) (p_timers s) + n_rts a q (map fst (p_rts s)) = n_rts a q (krcv_of h))%nat.
Proof.
  intros AB W. induction 1 as [|h s o ev R IH V HP]; [reflexivity|]. pose proof (inv0_reach _ _ _ _ _ R) as I.
  destruct (cts_step c s ev _ _ a q (step_case c s ev I V) I (tids_reach _ _ _ _ _ R) (proj1 (rts_typed_reach _ _ _ _ _ R))) as (d & E & D).
  specialize (D (norecord_reach _ _ _ _ _ W R) (AB _ _ HP)). rewrite ksnd_app, krcv_app, n_cts_app, n_rts_app. lia.
Qed.

(** ** What a CTS announces *)

(** At the end of the history [h1] the event WaitTimeExpired ran, with the RTS of [dst], number [sq], in the list. *)
Definition granted (P : pst -> pevent -> Prop) (c : acfg) (h : list pevent) (dst sq dur flag : Z) : Prop :=
  exists h1 h2 s1 o1 l g pw r, h = h1 ++ h2 /\ areach P c h1 s1 o1 /\ p_rts s1 = l ++ (g, pw) :: r /\ p_record s1 = false /\
    dst = kf_src g /\ sq = kf_seq g /\ flag = flag_of c (g, pw) /\
    dur = Z.of_nat (length (p_rts s1)) * ac_ctrl c T_CTS + wait_sum c l.
Lemma granted_more P c h ev dst sq dur flag : granted P c h dst sq dur flag -> granted P c (h ++ [ev]) dst sq dur flag.
Proof.
  intros (h1 & h2 & s1 & o1 & l & g & pw & r & -> & X). exists h1, (h2 ++ [ev]), s1, o1, l, g, pw, r. split; [symmetry; apply app_assoc|auto].
Qed.
Lemma timers_step c s ev s' o t : pcase c s ev s' o -> In t (p_timers s') -> is_cts t -> In t (p_timers s) \/
  p_record s = false /\ In t (gtimers c (p_now s) 0 (Z.of_nat (length (p_rts s)) * ac_ctrl c T_CTS) (p_uid s) (p_rts s)).
Proof.
  intros C S1 K. assert (OLD : forall i0, In t (remove_nth i0 (p_timers s)) -> In t (p_timers s)) by (intros i0; apply in_remove).
  destruct C; auto; try (left; eapply OLD; exact S1); try (left; exact S1).
  - apply in_app_or in S1. destruct S1 as [S1|[<-|[]]]; [left; exact S1|destruct K].
  - apply in_app_or in S1. destruct S1 as [S1|[<-|[]]]; [left; exact S1|destruct K].
  - left. change (In t (p_timers (pcancel (p_dto s) s))) in S1. destruct (p_dto s); [|exact S1]. apply filter_In in S1. apply S1.
  - left. change (In t (p_timers (pcancel (p_sec s) s))) in S1. destruct (p_sec s); [|exact S1]. apply filter_In in S1. apply S1.
  - left. destruct (trysend_proj (pcta c s0) (pturn c s0)) as (_ & _ & _ & _ & _ & _ & _ & _ & _ & _ & _ & _ & _ & E). rewrite E in S1.
    destruct (pturn_new c s0) as (l & L1 & L2). rewrite L1 in S1. apply in_app_or in S1. destruct S1 as [S1|S1].
    + destruct H0; try (eapply OLD; exact S1). change (p_sec (pset_timers ?x s)) with (p_sec s) in S1. destruct (p_sec s); [|eapply OLD; exact S1]. apply filter_In in S1. destruct S1 as [S1 _]. eapply OLD. exact S1.
    + exfalso. unfold is_cts in K. destruct (L2 t S1) as [X|[X|X]]; rewrite X in K; exact K.
  - left. apply in_app_or in S1. destruct S1 as [S1|S1]; [eapply OLD; exact S1|]. exfalso.
    destruct (atimers_ids c (p_now s) (node_map m) 0 (p_uid s)) as (B & _). unfold is_cts in K. destruct (B t S1) as [_ [E|(b & d & E)]]; rewrite E in K; exact K.
  - change (In t (remove_nth i (p_timers s) ++ gtimers c (p_now s) 0 (n * ac_ctrl c T_CTS) (p_uid s) (p_rts s) ++ [Ptimer (p_uid s + n) (p_now s + sector_time c n) PKSec])) in S1.
    apply in_app_or in S1. destruct S1 as [S1|S1]; [left; eapply OLD; exact S1|]. apply in_app_or in S1. destruct S1 as [S1|[<-|[]]]; [right; auto|destruct K].
  - left. destruct (trysend_proj f s1) as (_ & _ & _ & _ & _ & _ & _ & _ & _ & _ & _ & _ & _ & E). rewrite E in S1. eapply OLD. exact S1.
  - left. destruct (trysend_proj f s1) as (_ & _ & _ & _ & _ & _ & _ & _ & _ & _ & _ & _ & _ & E). rewrite E in S1. eapply OLD. exact S1.
Qed.
Lemma granted_reach P c h s o : areach P c h s o ->
  (forall t dst sq dur flag, In t (p_timers s) -> pt_kind t = PKCts dst sq dur flag -> granted P c h dst sq dur flag) /\
  (forall f, In f (ksnd_of o) -> kf_type f = T_CTS ->
     exists dur, granted P c h (kf_dst f) (kf_seq f) dur (kf_flags f) /\ kf_dur f = wrap16 (Z.quot dur nsec) /\ kf_src f = ac_addr c).
Proof.
  induction 1 as [|h s o ev R IH V HP].
  { split; [|contradiction]. intros t dst sq dur flag [<-|[]] K. discriminate K. }
  destruct IH as [I1 I2]. pose proof (inv0_reach _ _ _ _ _ R) as I. pose proof (step_case c s ev I V) as C. split.
  - intros t dst sq dur flag T K. destruct (timers_step _ _ _ _ _ _ C T) as [X|[X1 X2]].
    + unfold is_cts. rewrite K. exact Coq.Init.Logic.I.
    + apply granted_more. eapply I1; eauto.
    + apply granted_more. destruct (gtimers_in _ _ _ _ _ _ _ X2) as (a & [g pw] & b & E & ->). cbn [pt_kind] in K. injection K as <- <- <- <-.
      exists h, [], s, o, a, g, pw, b. rewrite app_nil_r. repeat split; auto.
  - intros f F TY. rewrite ksnd_app in F. apply in_app_or in F. destruct F as [F|F].
    + destruct (I2 f F TY) as (dur & G & D). exists dur. split; auto. apply granted_more. auto.
    + destruct (sent_other _ _ _ _ _ _ C I F) as [X|(i & t & dst & sq & dur & flag & -> & N & K & _ & ->)]; [contradiction|].
      exists dur. cbn [kf_dst kf_seq kf_flags kf_dur pctrl]. split; [|auto]. apply granted_more. eapply I1; eauto. eapply nth_error_In; eauto.
Qed.
