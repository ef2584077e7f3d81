(** Invariants of the executions of the access point. *)
From Coq Require Import ZArith List Lia Bool.
From Verif Require Import Base HeaderModel SeqModel SeqProofs EnergyModel MacModel ApModel ApSpec ApProofs.
Import ListNotations.
Open Scope Z_scope.

(** Projections of the states that occur in [pcase]. *)
Ltac pproj := cbn [pset_now pset_state pset_angle pset_cycles pset_record pset_rts pset_acks pset_expect pset_map pset_white pset_sec pset_dto pset_filter pset_tx pset_air pset_timers pset_uid pset_ids p_now p_state p_angle p_cycles p_record p_rts p_acks p_expect p_map p_white p_sec p_dto p_filter p_tx p_air p_timers p_uid p_ids psched gotdata sent] in *.

Lemma cancel_proj u s : p_state (pcancel u s) = p_state s /\ p_air (pcancel u s) = p_air s /\ p_tx (pcancel u s) = p_tx s /\
  p_ids (pcancel u s) = p_ids s /\ p_acks (pcancel u s) = p_acks s /\ p_angle (pcancel u s) = p_angle s /\ p_cycles (pcancel u s) = p_cycles s /\
  p_record (pcancel u s) = p_record s /\ p_rts (pcancel u s) = p_rts s /\ p_map (pcancel u s) = p_map s /\ p_white (pcancel u s) = p_white s /\
  p_filter (pcancel u s) = p_filter s /\ p_expect (pcancel u s) = p_expect s /\ p_sec (pcancel u s) = p_sec s /\ p_uid (pcancel u s) = p_uid s /\
  p_now (pcancel u s) = p_now s.
Proof. destruct u; destruct s; cbn; repeat split. Qed.

(** The fields TurnRxAntenna leaves alone, up to the CTA. *)
Lemma pturn_proj c s : p_state (pturn c s) = p_state s /\ p_air (pturn c s) = p_air s /\ p_tx (pturn c s) = p_tx s /\
  p_ids (pturn c s) = p_ids s + 1 /\ p_acks (pturn c s) = p_acks s /\
  p_record (pturn c s) = p_record s /\ p_rts (pturn c s) = p_rts s /\ p_map (pturn c s) = p_map s /\ p_white (pturn c s) = p_white s /\
  p_filter (pturn c s) = p_filter s /\ p_expect (pturn c s) = p_expect s /\ p_now (pturn c s) = p_now s /\
  (p_angle (pturn c s), p_cycles (pturn c s) - p_cycles s) = norm_angle (p_angle s + ac_bw c).
Proof.
  unfold pturn. destruct (norm_angle (p_angle s + ac_bw c)) as [a k].
  ds s. destruct (ac_ways c =? 3); cbn; repeat split; f_equal; lia.
Qed.
Lemma trysend_proj f s : p_ids (trysend f s) = p_ids s /\ p_acks (trysend f s) = p_acks s /\ p_angle (trysend f s) = p_angle s /\ p_cycles (trysend f s) = p_cycles s /\
  p_record (trysend f s) = p_record s /\ p_rts (trysend f s) = p_rts s /\ p_map (trysend f s) = p_map s /\ p_white (trysend f s) = p_white s /\
  p_filter (trysend f s) = p_filter s /\ p_expect (trysend f s) = p_expect s /\ p_sec (trysend f s) = p_sec s /\ p_uid (trysend f s) = p_uid s /\
  p_now (trysend f s) = p_now s /\ p_timers (trysend f s) = p_timers s.
Proof. unfold trysend. destruct (cansend s); destruct s; cbn; repeat split. Qed.
Lemma toturn_proj c s k s0 : toturn c s k s0 -> p_state s0 = p_state s /\ p_air s0 = p_air s /\ p_tx s0 = p_tx s /\
  p_ids s0 = p_ids s /\ p_acks s0 = p_acks s /\ p_filter s0 = p_filter s /\ p_expect s0 = p_expect s /\ p_now s0 = p_now s /\
  p_angle s0 = p_angle s /\ p_cycles s0 = p_cycles s /\ p_record s0 = p_record s /\ p_white s0 = p_white s /\ p_uid s0 = p_uid s.
Proof.
  intros T. destruct T; try (repeat split; fail); destruct s; cbn; try (repeat split; fail).
  destruct p_sec; cbn; repeat split.
Qed.

Lemma cansend_air s : cansend s = true -> p_air s = None /\ p_state s <> PTx.
Proof. unfold cansend. destruct (p_state s), (p_air s); intros H; split; auto; discriminate. Qed.

(** ** Basic invariant *)
Lemma inv0_trysend f s : inv0 s -> kf_id f < p_ids s -> inv0 (trysend f s).
Proof.
  intros (I1 & I2 & I3 & I4) L. unfold trysend. destruct (cansend s) eqn:C; [|split; [|split; [|split]]; auto].
  ds s. unfold inv0. cbn in *. split; [|split; [|split]]; auto.
  - intros g E. injection E as <-. auto.
  - discriminate.
Qed.
Lemma inv0_more s : inv0 s -> inv0 (pset_ids (p_ids s + 1) s).
Proof.
  intros (I1 & I2 & I3 & I4). ds s. unfold inv0. cbn in *. split; [|split; [|split]]; auto.
  - intros f E. apply I1 in E. intuition lia.
  - intros f E. apply I3 in E. intuition lia.
Qed.
Lemma inv0_same s s' : inv0 s -> p_state s' = p_state s -> p_air s' = p_air s -> p_tx s' = p_tx s -> p_ids s <= p_ids s' -> p_acks s' = p_acks s -> inv0 s'.
Proof.
  intros (I1 & I2 & I3 & I4) E1 E2 E3 E4 E5. unfold inv0. rewrite E1, E2, E3, E5. split; [|split; [|split]]; auto.
  - intros f E. apply I1 in E. intuition lia.
  - intros f E. apply I3 in E. intuition lia.
Qed.

Lemma inv0_step c s ev s' o : pcase c s ev s' o -> inv0 s -> inv0 s'.
Proof.
  intros C I.
  destruct C.
  - eapply inv0_same; eauto; destruct s; cbn; auto; lia.
  - auto.
  - destruct I as (I1 & I2 & I3 & I4). ds s. unfold inv0. pproj. split; [|split; [|split]]; auto; intros; discriminate.
  - destruct I as (I1 & I2 & I3 & I4). ds s. unfold inv0. pproj. split; [|split; [|split]]; auto; intros; discriminate.
  - destruct I as (I1 & I2 & I3 & I4). ds s. unfold inv0. pproj. split; [|split; [|split]]; auto; intros; discriminate.
  - destruct I as (I1 & I2 & I3 & I4). unfold inv0. ds s. destruct s_dto; pproj; cbn [pcancel]; pproj; (split; [|split; [|split]]; auto; intros; congruence).
  - destruct I as (I1 & I2 & I3 & I4). ds s. unfold inv0. pproj. split; [|split; [|split]]; auto; intros; congruence.
  - destruct I as (I1 & I2 & I3 & I4). ds s. unfold inv0. pproj. split; [|split; [|split]]; auto; intros; congruence.
  - destruct I as (I1 & I2 & I3 & I4). ds s. unfold inv0. pproj. split; [|split; [|split]]; auto; try (intros; congruence).
    + intros g G. apply in_app_or in G. destruct G as [G|[<-|[]]]; [apply I3 in G; intuition lia|]. cbn. split; [lia|reflexivity].
    + apply nodup_snoc; auto. intros g G. apply I3 in G. cbn. intuition lia.
  - destruct I as (I1 & I2 & I3 & I4).
    assert (N : NoDup (map kf_id (g :: r))).
    { rewrite <- H2. apply nodup_snoc; auto. intros x G. apply I3 in G. cbn. intuition lia. }
    assert (L : forall x, In x (g :: r) -> kf_id x < p_ids s + 1 /\ kf_type x = T_ACK).
    { rewrite <- H2. intros x G. apply in_app_or in G. destruct G as [G|[<-|[]]]; [apply I3 in G; intuition lia|]. cbn. split; [lia|reflexivity]. }
    clear H2. ds s. unfold inv0. destruct s_sec; pproj; cbn [pcancel]; pproj; (split; [|split; [|split]]).
    all: try (intros ? E; injection E as <-; pose proof (L g (or_introl eq_refl)) as [? _]; auto).
    all: try (intros; discriminate).
    all: try (intros x X; apply L; right; auto).
    all: inversion N; auto.
  - destruct (toturn_proj _ _ _ _ H0) as (E1 & E2 & E3 & E4 & E5 & _).
    apply inv0_trysend.
    + destruct (pturn_proj c s0) as (F1 & F2 & F3 & F4 & F5 & _). eapply (inv0_same s); eauto.
      * rewrite F1, E1. destruct s; reflexivity.
      * rewrite F2, E2. destruct s; reflexivity.
      * rewrite F3, E3. destruct s; reflexivity.
      * rewrite F4, E4. destruct s; cbn; lia.
      * rewrite F5, E5. destruct s; reflexivity.
    + destruct (pturn_proj c s0) as (F1 & F2 & F3 & F4 & F5 & _). rewrite F4. unfold pcta. destruct (ac_ways c =? 3); cbn; lia.
  - eapply inv0_same; eauto; destruct s; cbn; auto; lia.
  - eapply inv0_same; eauto; destruct s; cbn; auto; lia.
  - destruct (cansend_air _ H2) as [A S]. destruct I as (I1 & I2 & I3 & I4). ds s. unfold inv0. pproj. subst s_acks. split; [|split; [|split]]; auto.
    + intros x E. injection E as <-. pose proof (I3 g (or_introl eq_refl)). intuition.
    + intros; discriminate.
    + intros x X. apply I3. right; auto.
    + inversion I4; auto.
  - destruct I as (I1 & I2 & I3 & I4). ds s. unfold inv0. pproj. subst s_acks. split; [|split; [|split]]; auto.
    + intros x X. apply I3. right; auto.
    + inversion I4; auto.
  - eapply inv0_same; eauto; destruct s; cbn; auto; lia.
  - apply inv0_trysend; [|destruct s; cbn; lia]. eapply (inv0_same s); auto; destruct s; cbn; auto; lia.
  - apply inv0_trysend; [|destruct s; cbn; lia]. eapply (inv0_same s); auto; destruct s; cbn; auto; lia.
Qed.

Lemma inv0_init c : inv0 (pinit c).
Proof. unfold inv0. cbn. split; [|split; [|split]]; [intros; discriminate|intros; discriminate|intros _ []|constructor]. Qed.
Lemma inv0_reach P c h s o : areach P c h s o -> inv0 s.
Proof.
  induction 1 as [|h s o ev R IH V HP]; [apply inv0_init|]. eapply inv0_step; [apply step_case; eauto|auto].
Qed.

(** ** Acknowledgements *)
Lemma n_ack_app a q l l' : n_ack a q (l ++ l') = (n_ack a q l + n_ack a q l')%nat.
Proof. unfold n_ack. rewrite filter_app, app_length. reflexivity. Qed.
Lemma n_data_app a q l l' : n_data a q (l ++ l') = (n_data a q l + n_data a q l')%nat.
Proof. unfold n_data. rewrite filter_app, app_length. reflexivity. Qed.
Lemma n_ack_cons a q f l : n_ack a q (f :: l) = (n_ack a q [f] + n_ack a q l)%nat.
Proof. apply (n_ack_app a q [f] l). Qed.
Lemma n_ack_other a q f : kf_type f <> T_ACK -> n_ack a q [f] = 0%nat.
Proof. intros H. unfold n_ack. cbn [filter]. apply Z.eqb_neq in H. rewrite H. reflexivity. Qed.
Lemma n_data_other a q f : kf_type f <> T_DATA -> n_data a q [f] = 0%nat.
Proof. intros H. unfold n_data. cbn [filter]. apply Z.eqb_neq in H. rewrite H. reflexivity. Qed.
Lemma n_ack_new a q c f s : n_ack a q [newack c f s] = if (kf_src f =? a) && (kf_seq f =? q) then 1%nat else 0%nat.
Proof. unfold n_ack, newack, pctrl. cbn [filter kf_type kf_dst kf_seq]. rewrite Z.eqb_refl. cbn [andb]. destruct ((kf_src f =? a) && (kf_seq f =? q)); reflexivity. Qed.
Lemma n_data_one a q f : kf_type f = T_DATA -> n_data a q [f] = if (kf_src f =? a) && (kf_seq f =? q) then 1%nat else 0%nat.
Proof. intros E. unfold n_data. cbn [filter]. rewrite E, Z.eqb_refl. cbn [andb]. destruct ((kf_src f =? a) && (kf_seq f =? q)); reflexivity. Qed.
Lemma snd_upif f s : ksnd_of (upif f s) = [] /\ klost_of (upif f s) = [].
Proof. unfold upif. destruct (fst _); split; reflexivity. Qed.
Lemma sndif_other a q f s : kf_type f <> T_ACK -> n_ack a q (ksnd_of (sndif f s)) = 0%nat /\ klost_of (sndif f s) = [].
Proof. intros H. unfold sndif. destruct (cansend s); cbn; split; auto. apply n_ack_other; auto. Qed.
Lemma pcta_type c s : kf_type (pcta c s) = T_CTA.
Proof. unfold pcta. destruct (ac_ways c =? 3); reflexivity. Qed.

Lemma acks_step c s ev s' o a q : pcase c s ev s' o -> inv0 s ->
  (n_ack a q (ksnd_of o) + n_ack a q (klost_of o) + n_ack a q (p_acks s') = n_ack a q (p_acks s) + n_data a q (krcv_of [ev]))%nat.
Proof.
  intros C I. destruct C.
  1-6: destruct s; try (destruct p_dto); cbn; lia.
  - destruct ok; [|destruct s; cbn; lia]. change (krcv_of [AERxEnd f true pw]) with [f].
    rewrite n_data_other by (apply H0; auto). destruct s; cbn; lia.
  - change (krcv_of [AERxEnd f true pw]) with [f]. rewrite n_data_other by (rewrite H0; discriminate). destruct s; cbn; lia.
  - destruct (snd_upif f s) as [-> ->]. cbn [krcv_of flat_map app]. rewrite n_data_one by auto.
    replace (p_acks (gotdata c f (pset_acks (p_acks s ++ [newack c f s]) (pset_state PIdle s)))) with (p_acks s ++ [newack c f s]) by (destruct s; reflexivity).
    rewrite n_ack_app, n_ack_new. cbn. lia.
  - cbn [ksnd_of klost_of flat_map app]. fold (ksnd_of (upif f s)) (klost_of (upif f s)). destruct (snd_upif f s) as [-> ->]. cbn [krcv_of flat_map app]. rewrite n_data_one by auto.
    replace (p_acks (gotdata c f (pset_acks r (sent g (pcancel (p_sec s) s))))) with r by (destruct s; reflexivity).
    pose proof (n_ack_new a q c f s) as E. assert (E2 : n_ack a q (p_acks s ++ [newack c f s]) = n_ack a q (g :: r)) by (rewrite H2; auto).
    rewrite n_ack_app, n_ack_new, n_ack_cons in E2. cbn. cbn in E2. lia.
  - assert (T : kf_type (pcta c s0) <> T_ACK) by (rewrite pcta_type; discriminate).
    destruct (sndif_other a q _ (pturn c s0) T) as [E1 E2].
    change (ksnd_of (PTurn (p_angle (pturn c s0)) :: sndif (pcta c s0) (pturn c s0))) with (ksnd_of (sndif (pcta c s0) (pturn c s0))).
    change (klost_of (PTurn (p_angle (pturn c s0)) :: sndif (pcta c s0) (pturn c s0))) with (klost_of (sndif (pcta c s0) (pturn c s0))).
    rewrite E1, E2. destruct (trysend_proj (pcta c s0) (pturn c s0)) as (_ & -> & _).
    destruct (pturn_proj c s0) as (_ & _ & _ & _ & -> & _). destruct (toturn_proj _ _ _ _ H0) as (_ & _ & _ & _ & -> & _). destruct s; cbn; lia.
  - destruct s; cbn; lia.
  - destruct s; cbn; lia.
  - cbn [ksnd_of klost_of flat_map app krcv_of]. rewrite H1, (n_ack_cons a q g r).
    change (n_ack a q []) with 0%nat. change (n_data a q []) with 0%nat. destruct s; pproj. lia.
  - cbn [ksnd_of klost_of flat_map app krcv_of]. rewrite H1, (n_ack_cons a q g r).
    change (n_ack a q []) with 0%nat. change (n_data a q []) with 0%nat. destruct s; pproj. lia.
  - destruct s; cbn; lia.
  - assert (T : kf_type f <> T_ACK) by discriminate. destruct (sndif_other a q _ s1 T) as [-> ->].
    destruct (trysend_proj f s1) as (_ & -> & _). subst s1. destruct s; cbn; lia.
  - assert (T : kf_type f <> T_ACK) by discriminate. destruct (sndif_other a q _ s1 T) as [-> ->].
    destruct (trysend_proj f s1) as (_ & -> & _). subst s1. destruct s; cbn; lia.
Qed.

Lemma ksnd_app o o' : ksnd_of (o ++ o') = ksnd_of o ++ ksnd_of o'. Proof. apply flat_map_app. Qed.
Lemma klost_app o o' : klost_of (o ++ o') = klost_of o ++ klost_of o'. Proof. apply flat_map_app. Qed.
Lemma kup_app o o' : kup_of (o ++ o') = kup_of o ++ kup_of o'. Proof. apply flat_map_app. Qed.
Lemma turns_app o o' : turns_of (o ++ o') = turns_of o ++ turns_of o'. Proof. apply flat_map_app. Qed.
Lemma krcv_app o o' : krcv_of (o ++ o') = krcv_of o ++ krcv_of o'. Proof. apply flat_map_app. Qed.

Lemma acks_reach P c h s o a q : areach P c h s o ->
  (n_ack a q (ksnd_of o) + n_ack a q (klost_of o) + n_ack a q (p_acks s) = n_data a q (krcv_of h))%nat.
Proof.
  induction 1 as [|h s o ev R IH V HP]; [reflexivity|].
  pose proof (inv0_reach _ _ _ _ _ R) as I. pose proof (acks_step c s ev _ _ a q (step_case c s ev I V) I) as S.
  rewrite ksnd_app, klost_app, krcv_app, !n_ack_app, n_data_app. lia.
Qed.

(** An acknowledgement is lost only while the MAC is in state RX or TX. *)
Lemma lost_busy P c h s o ev f : areach P c h s o -> pvalid s ev = true -> In (PLost f) (snd (pstep c s ev)) ->
  p_state s = PRx \/ p_state s = PTx.
Proof.
  intros R V L. pose proof (inv0_reach _ _ _ _ _ R) as I.
  assert (N : forall x t, ~ In (PLost f) (sndif x t)) by (intros x t; unfold sndif; destruct (cansend t); cbn; intuition discriminate).
  assert (N2 : forall x t, ~ In (PLost f) (upif x t)) by (intros x t; unfold upif; destruct (fst _); cbn; intuition discriminate).
  revert L. destruct (step_case c s ev I V); cbn [In]; try (intros L; exfalso; first [exact L|exact (N _ _ L)|exact (N2 _ _ L)|destruct L as [L|L]; [discriminate L|first [exact L|exact (N _ _ L)|exact (N2 _ _ L)]]]; fail).
  intros _. unfold cansend in H2. destruct I as (I1 & _). destruct (p_state s) eqn:S; auto; (destruct (p_air s) as [g'|] eqn:A; [destruct (I1 g' eq_refl) as (? & _); congruence|discriminate H2]).
Qed.

(** ** Delivery *)
Fixpoint keep (ds : list bool) (l : list kframe) : list kframe :=
  match ds, l with
  | d :: ds', f :: l' => if d then f :: keep ds' l' else keep ds' l'
  | _, _ => []
  end.
Definition kcall (f : kframe) : addr * Z := (kf_src f, kf_seq f).
Definition datas (h : list pevent) : list kframe := filter (fun f => kf_type f =? T_DATA) (krcv_of h).

Lemma run_snoc h : forall l a q, run_seq l (h ++ [(a, q)]) =
  (fst (run_seq l h) ++ [fst (is_new (snd (run_seq l h)) a q)], snd (is_new (snd (run_seq l h)) a q)).
Proof.
  induction h as [|[b x] r IH]; intros l a q; cbn [app run_seq fst snd].
  - destruct (is_new l a q); reflexivity.
  - destruct (is_new l b x) as [d l']. rewrite IH. destruct (run_seq l' r) as [ds l'']. reflexivity.
Qed.
Lemma keep_snoc ds : forall l d f, length ds = length l -> keep (ds ++ [d]) (l ++ [f]) = keep ds l ++ if d then [f] else [].
Proof.
  induction ds as [|x ds IH]; intros [|y l] d f L; try discriminate L; cbn [app keep].
  - reflexivity.
  - rewrite IH by (cbn in L; lia). destruct x; reflexivity.
Qed.

Lemma filt_step c s ev s' o : pcase c s ev s' o ->
  (datas [ev] = [] /\ p_filter s' = p_filter s /\ kup_of o = []) \/
  (exists f, datas [ev] = [f] /\ kup_of o = (if fst (is_new (p_filter s) (kf_src f) (kf_seq f)) then [f] else []) /\
     p_filter s' = snd (is_new (p_filter s) (kf_src f) (kf_seq f))).
Proof.
  intros C.
  assert (N : forall x t, kup_of (sndif x t) = []) by (intros x t; unfold sndif; destruct (cansend t); reflexivity).
  assert (N2 : forall x t, kup_of (upif x t) = if fst (is_new (p_filter t) (kf_src x) (kf_seq x)) then [x] else []) by (intros x t; unfold upif; destruct (fst _); reflexivity).
  destruct C; try (left; destruct s; try (destruct p_dto); repeat split; reflexivity).
  - left. destruct ok; unfold datas; cbn; [|destruct s; repeat split; reflexivity]. destruct (H0 eq_refl) as [_ T]. apply Z.eqb_neq in T. rewrite T. destruct s; repeat split; reflexivity.
  - left. unfold datas; cbn. rewrite H0. destruct s; repeat split; reflexivity.
  - right. exists f. unfold datas; cbn [krcv_of flat_map app filter]. rewrite H0, Z.eqb_refl. split; [reflexivity|split; [apply N2|destruct s; reflexivity]].
  - right. exists f. unfold datas; cbn [krcv_of flat_map app filter]. rewrite H0, Z.eqb_refl. split; [reflexivity|split].
    + change (kup_of (PSnd g :: upif f s)) with (kup_of (upif f s)). apply N2.
    + unfold gotdata. destruct (cancel_proj (p_sec s) s) as (_ & _ & _ & _ & _ & _ & _ & _ & _ & _ & _ & E & _).
      unfold sent. destruct (pcancel (p_sec s) s). cbn in *. rewrite E. reflexivity.
  - left. split; auto. destruct (trysend_proj (pcta c s0) (pturn c s0)) as (_ & _ & _ & _ & _ & _ & _ & _ & -> & _).
    destruct (pturn_proj c s0) as (_ & _ & _ & _ & _ & _ & _ & _ & _ & -> & _). destruct (toturn_proj _ _ _ _ H0) as (_ & _ & _ & _ & _ & -> & _).
    split; [destruct s; reflexivity|]. apply N.
  - left. split; auto. destruct (trysend_proj f s1) as (_ & _ & _ & _ & _ & _ & _ & _ & -> & _). split; [destruct s; reflexivity|apply N].
  - left. split; auto. destruct (trysend_proj f s1) as (_ & _ & _ & _ & _ & _ & _ & _ & -> & _). split; [destruct s; reflexivity|apply N].
Qed.

Lemma filt_reach P c h s o : areach P c h s o ->
  p_filter s = snd (run_seq [] (map kcall (datas h))) /\ kup_of o = keep (decisions (map kcall (datas h))) (datas h).
Proof.
  induction 1 as [|h s o ev R [IH1 IH2] V HP]; [split; reflexivity|].
  pose proof (inv0_reach _ _ _ _ _ R) as I.
  assert (D : datas (h ++ [ev]) = datas h ++ datas [ev]) by (unfold datas; rewrite krcv_app, filter_app; reflexivity).
  destruct (filt_step c s ev _ _ (step_case c s ev I V)) as [(E1 & E2 & E3)|(f & E1 & E2 & E3)].
  - rewrite D, E1, app_nil_r, E2, kup_app, E3, app_nil_r. auto.
  - rewrite D, E1, E3, kup_app, E2, map_app. unfold decisions. cbn [map]. unfold kcall at 2 4. rewrite run_snoc. cbn [fst snd].
    rewrite <- IH1. split; auto. rewrite keep_snoc by (rewrite run_length, map_length; reflexivity). rewrite IH2. reflexivity.
Qed.
