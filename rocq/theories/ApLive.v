(** The events that keep the access point going: some is always pending unless an acknowledgement was
    lost, and exactly one if every data frame arrives in time. *)
From Coq Require Import ZArith List Lia Bool.
From Verif Require Import Base HeaderModel SeqModel EnergyModel MacModel ApModel ApSpec ApProofs ApInv.
Import ListNotations.
Open Scope Z_scope.

(** ** Lists *)
Lemma in_remove {A} (l : list A) : forall i x, In x (remove_nth i l) -> In x l.
Proof. induction l as [|y l IH]; intros [|i] x; cbn; auto. intros [->|H]; auto. right. eauto. Qed.
Lemma in_removed {A} (l : list A) : forall i x t, nth_error l i = Some t -> In x l -> x = t \/ In x (remove_nth i l).
Proof.
  induction l as [|y l IH]; intros [|i] x t E I; cbn in *; try discriminate; auto.
  - injection E as ->. destruct I; auto.
  - destruct I as [->|I]; [right; left; auto|]. destruct (IH i x t E I); auto.
Qed.
Definition num (P : ptimer -> bool) (l : list ptimer) : nat := length (filter P l).
Lemma num_app P l l' : num P (l ++ l') = (num P l + num P l')%nat.
Proof. unfold num. rewrite filter_app, app_length. reflexivity. Qed.
Lemma num_cons P t l : num P (t :: l) = ((if P t then 1 else 0) + num P l)%nat.
Proof. unfold num. cbn [filter]. destruct (P t); reflexivity. Qed.
Lemma num_remove P (l : list ptimer) : forall i t, nth_error l i = Some t -> (num P (remove_nth i l) + (if P t then 1 else 0) = num P l)%nat.
Proof.
  induction l as [|y l IH]; intros [|i] t E; cbn [nth_error remove_nth] in *; try discriminate.
  - injection E as ->. rewrite num_cons. lia.
  - rewrite !num_cons. specialize (IH i t E). lia.
Qed.
Lemma num_filter P Q l : (num P (filter Q l) <= num P l)%nat.
Proof. induction l as [|y l IH]; cbn [filter]; auto. destruct (Q y); rewrite !num_cons; lia. Qed.
Lemma num_zero P l : (forall t, In t l -> P t = false) -> num P l = 0%nat.
Proof. induction l as [|y l IH]; intros H; auto. rewrite num_cons, (H y (or_introl eq_refl)), IH; auto. intros t T; apply H; right; auto. Qed.
Lemma num_pos P l t : In t l -> P t = true -> (1 <= num P l)%nat.
Proof. induction l as [|y l IH]; intros I E; [destruct I|]. rewrite num_cons. destruct I as [->|I]; [rewrite E; lia|]. specialize (IH I E). lia. Qed.

(** ** Identities of the pending events *)
Definition tids (s : pst) : Prop :=
  (forall t, In t (p_timers s) -> pt_id t < p_uid s) /\ NoDup (map pt_id (p_timers s)) /\
  (forall t, In t (p_timers s) -> p_dto s = Some (pt_id t) -> pt_kind t = PKData) /\
  (forall t, In t (p_timers s) -> p_sec s = Some (pt_id t) -> pt_kind t = PKSec) /\
  (forall u, p_dto s = Some u -> u < p_uid s) /\ (forall u, p_sec s = Some u -> u < p_uid s).

Lemma nodup_app_below (l l' : list ptimer) u : (forall t, In t l -> pt_id t < u) -> (forall t, In t l' -> u <= pt_id t) ->
  NoDup (map pt_id l) -> NoDup (map pt_id l') -> NoDup (map pt_id (l ++ l')).
Proof.
  intros H H'. induction l as [|t l IH]; cbn [app map]; auto. intros N N'. inversion N as [|? ? N1 N2]; subst. constructor.
  - rewrite map_app. intros I. apply in_app_or in I. destruct I as [I|I]; [contradiction|].
    apply in_map_iff in I. destruct I as (x & E & I). apply H' in I. specialize (H t (or_introl eq_refl)). lia.
  - apply IH; auto. intros x X; apply H; right; auto.
Qed.
Lemma nodup_remove {A} (f : A -> Z) (l : list A) : forall i, NoDup (map f l) -> NoDup (map f (remove_nth i l)).
Proof.
  induction l as [|t l IH]; intros [|i] N; cbn [remove_nth map] in *; auto; inversion N as [|? ? N1 N2]; subst; auto.
  constructor; auto. intros I. apply N1. apply in_map_iff in I. destruct I as (x & E & I). apply in_map_iff. exists x. split; auto. eapply in_remove; eauto.
Qed.
Lemma nodup_filter {A} (f : A -> Z) (q : A -> bool) (l : list A) : NoDup (map f l) -> NoDup (map f (filter q l)).
Proof.
  induction l as [|t l IH]; intros N; cbn [filter map] in *; auto; inversion N as [|? ? N1 N2]; subst; auto.
  destruct (q t); auto. cbn [map]. constructor; auto. intros I. apply N1. apply in_map_iff in I. destruct I as (x & E & I). apply in_map_iff. exists x. split; auto.
  apply filter_In in I. apply I.
Qed.

Lemma gtimers_ids c now l : forall i w uid,
  (forall t, In t (gtimers c now i w uid l) -> uid <= pt_id t < uid + Z.of_nat (length l) /\ exists d q dur fl, pt_kind t = PKCts d q dur fl) /\
  NoDup (map pt_id (gtimers c now i w uid l)).
Proof.
  induction l as [|[f pw] r IH]; intros i w uid; cbn [gtimers map length]; [split; [intros t []|constructor]|].
  cbv zeta. destruct (IH (i + 1) (w + ac_data c (ac_size c) (if ac_adapt c then select_mcs c pw else 0) + ac_maxbo c) (uid + 1)) as [B N]. split.
  - intros t [<-|T]; cbn [pt_id pt_kind]; [split; [lia|eauto 6]|]. apply B in T. destruct T as [T1 T2]. split; [lia|auto].
  - constructor; auto. intros X. apply in_map_iff in X. destruct X as (x & E & X). apply B in X. cbn [pt_id] in E. lia.
Qed.
Lemma atimers_ids c now l : forall i uid,
  (forall t, In t (atimers c now i uid l) -> uid <= pt_id t < uid + Z.of_nat (length l) + 1 /\ (pt_kind t = PKTurn \/ exists a d, pt_kind t = PKFeed a d)) /\
  NoDup (map pt_id (atimers c now i uid l)) /\ num (fun t => match pt_kind t with PKTurn => true | _ => false end) (atimers c now i uid l) = 1%nat.
Proof.
  induction l as [|[f pw] r IH]; intros i uid; cbn [atimers map length].
  - split; [intros t [<-|[]]; cbn [pt_id pt_kind]; split; [lia|auto]|]. split; [repeat constructor; intros []|reflexivity].
  - destruct (IH (i + 1) (uid + 1)) as (B & N & C). split; [|split].
    + intros t [<-|T]; cbn [pt_id pt_kind]; [split; [lia|eauto]|]. apply B in T. destruct T as [T1 T2]. split; [lia|auto].
    + constructor; auto. intros X. apply in_map_iff in X. destruct X as (x & E & X). apply B in X. cbn [pt_id] in E. lia.
    + rewrite num_cons. cbn [pt_kind]. rewrite C. reflexivity.
Qed.

Lemma tids_same s s' : tids s -> p_timers s' = p_timers s -> p_uid s' = p_uid s -> p_dto s' = p_dto s -> p_sec s' = p_sec s -> tids s'.
Proof. unfold tids. intros T -> -> -> ->. exact T. Qed.
Lemma tids_sub s s' : tids s -> (forall t, In t (p_timers s') -> In t (p_timers s)) -> NoDup (map pt_id (p_timers s')) ->
  p_uid s' = p_uid s -> p_dto s' = p_dto s -> p_sec s' = p_sec s -> tids s'.
Proof.
  intros (T1 & T2 & T3 & T4 & T5 & T6) Hs N E1 E2 E3. unfold tids. rewrite E1, E2, E3. repeat split; auto.
Qed.
(** Events [l] are added, with fresh ids; the handles may point to one of them. *)
Lemma tids_add s s' l n : tids s -> p_timers s' = p_timers s ++ l -> p_uid s' = p_uid s + n ->
  (forall t, In t l -> p_uid s <= pt_id t < p_uid s + n) -> NoDup (map pt_id l) -> 0 <= n ->
  (p_dto s' = p_dto s \/ exists t, In t l /\ p_dto s' = Some (pt_id t) /\ pt_kind t = PKData) ->
  (p_sec s' = p_sec s \/ exists t, In t l /\ p_sec s' = Some (pt_id t) /\ pt_kind t = PKSec) -> tids s'.
Proof.
  intros (T1 & T2 & T3 & T4 & T5 & T6) E1 E2 B N L D S. unfold tids. rewrite E1, E2.
  assert (NN : NoDup (map pt_id (p_timers s ++ l))) by (eapply nodup_app_below with (u := p_uid s); auto; intros t T; apply B in T; lia).
  assert (U : forall t t', In t (p_timers s ++ l) -> In t' (p_timers s ++ l) -> pt_id t = pt_id t' -> t = t').
  { revert NN. generalize (p_timers s ++ l). induction l0 as [|x l0 IH]; intros NN t t' I I' E; [destruct I|].
    inversion NN as [|? ? X1 X2]; subst. destruct I as [->|I], I' as [->|I']; auto.
    - exfalso. apply X1. rewrite E. apply in_map; auto.
    - exfalso. apply X1. rewrite <- E. apply in_map; auto. }
  split; [|split; [|split; [|split; [|split]]]]; auto.
  - intros t I. apply in_app_or in I. destruct I as [I|I]; [apply T1 in I; lia|apply B in I; lia].
  - intros t I E. destruct D as [D|(t' & I' & D & K)].
    + rewrite D in E. apply in_app_or in I. destruct I as [I|I]; [auto|]. apply B in I. apply T5 in E. lia.
    + rewrite D in E. injection E as E. assert (t = t') as -> by (apply U; auto; apply in_or_app; auto). auto.
  - intros t I E. destruct S as [S|(t' & I' & S & K)].
    + rewrite S in E. apply in_app_or in I. destruct I as [I|I]; [auto|]. apply B in I. apply T6 in E. lia.
    + rewrite S in E. injection E as E. assert (t = t') as -> by (apply U; auto; apply in_or_app; auto). auto.
  - intros u E. destruct D as [D|(t' & I' & D & K)]; rewrite D in E; [apply T5 in E; lia|]. injection E as <-. apply B in I'. lia.
  - intros u E. destruct S as [S|(t' & I' & S & K)]; rewrite S in E; [apply T6 in E; lia|]. injection E as <-. apply B in I'. lia.
Qed.

Lemma tids_cancel s u : tids s -> tids (pcancel u s).
Proof.
  intros T. destruct u as [u|]; [|exact T]. eapply tids_sub; eauto; destruct s; cbn; auto.
  - intros t I. apply filter_In in I. apply I.
  - apply nodup_filter. apply T.
Qed.
Lemma tids_fire s i : tids s -> tids (pset_timers (remove_nth i (p_timers s)) s).
Proof.
  intros T. eapply tids_sub; eauto; destruct s; cbn; auto.
  - intros t. apply in_remove.
  - apply nodup_remove. apply T.
Qed.
Lemma tids_sched s d k : tids s -> tids (psched d k s).
Proof.
  intros T. eapply (tids_add s) with (l := [Ptimer (p_uid s) (p_now s + d) k]) (n := 1); eauto; try (destruct s; cbn; auto; fail).
  - intros t [<-|[]]; cbn; lia.
  - repeat constructor; intros [].
  - lia.
Qed.
Lemma tids_trysend f s : tids s -> tids (trysend f s).
Proof. intros T. unfold trysend. destruct (cansend s); exact T. Qed.

Lemma tids_turn c s : tids s -> tids (pturn c s).
Proof.
  intros T. unfold pturn. destruct (norm_angle (p_angle s + ac_bw c)) as [a k]. cbv zeta.
  assert (T' : tids (pset_angle a (pset_cycles (p_cycles s + k) s))) by (eapply tids_same; eauto; destruct s; reflexivity).
  revert T'. generalize (pset_angle a (pset_cycles (p_cycles s + k) s)). intros s1 T1. destruct (ac_ways c =? 3).
  - apply tids_sched. eapply tids_same; eauto; destruct s1; reflexivity.
  - eapply (tids_add s1) with (n := 2) (l := [Ptimer (p_uid s1) (p_now s1 + t_sector c) PKSec; Ptimer (p_uid s1 + 1) (p_now s1 + t_data_timeout c) PKData]); eauto.
    + destruct s1; cbn. rewrite <- app_assoc. reflexivity.
    + destruct s1; cbn. lia.
    + intros t [<-|[<-|[]]]; cbn; lia.
    + repeat constructor; cbn; intuition lia.
    + lia.
    + right. eexists. split; [right; left; reflexivity|]. destruct s1; split; reflexivity.
    + right. eexists. split; [left; reflexivity|]. destruct s1; split; reflexivity.
Qed.

Lemma tids_step c s ev s' o : pcase c s ev s' o -> tids s -> tids s'.
Proof.
  intros C T. destruct C.
  - eapply tids_same; eauto; destruct s; reflexivity.
  - auto.
  - eapply tids_same; eauto; destruct s; reflexivity.
  - apply tids_sched. eapply tids_same; eauto; destruct s; reflexivity.
  - apply tids_sched. eapply tids_same; eauto; destruct s; reflexivity.
  - eapply tids_same; [apply (tids_cancel s (p_dto s) T)|..]; destruct (pcancel (p_dto s) s); reflexivity.
  - eapply tids_same; eauto; destruct s; reflexivity.
  - eapply tids_same; eauto; destruct s; reflexivity.
  - eapply tids_same; eauto; destruct s; reflexivity.
  - eapply tids_same; [apply (tids_cancel s (p_sec s) T)|..]; unfold gotdata, sent; destruct (pcancel (p_sec s) s); reflexivity.
  - apply tids_trysend, tids_turn. pose proof (tids_fire s i T) as F. destruct H0; try exact F. apply tids_cancel; exact F.
  - destruct (atimers_ids c (p_now s) (node_map m) 0 (p_uid s)) as (B & N & _).
    eapply (tids_add (pset_timers (remove_nth i (p_timers s)) s)) with (n := Z.of_nat (length (node_map m)) + 1) (l := atimers c (p_now s) 0 (p_uid s) (node_map m)).
    + apply tids_fire; auto.
    + destruct s; reflexivity.
    + destruct s; cbn; lia.
    + intros t' I. apply B in I. destruct s; cbn in *; lia.
    + auto.
    + lia.
    + left; destruct s; reflexivity.
    + left; destruct s; reflexivity.
  - destruct (gtimers_ids c (p_now s) (p_rts s) 0 (n * ac_ctrl c T_CTS) (p_uid s)) as (B & N).
    eapply (tids_add (pset_timers (remove_nth i (p_timers s)) s)) with (n := n + 1)
      (l := gtimers c (p_now s) 0 (n * ac_ctrl c T_CTS) (p_uid s) (p_rts s) ++ [Ptimer (p_uid s + n) (p_now s + sector_time c n) PKSec]).
    + apply tids_fire; auto.
    + destruct s; reflexivity.
    + destruct s; cbn. lia.
    + intros t' I. apply in_app_or in I. replace (p_uid (pset_timers (remove_nth i (p_timers s)) s)) with (p_uid s) by (destruct s; reflexivity).
      destruct I as [I|[<-|[]]]; [apply B in I; subst n; lia|]. cbn. subst n. lia.
    + eapply nodup_app_below with (u := p_uid s + n); auto.
      * intros t' I. apply B in I. subst n. lia.
      * intros t' [<-|[]]. cbn. lia.
      * repeat constructor; intros [].
    + subst n. lia.
    + left; destruct s; reflexivity.
    + right. eexists. split; [apply in_or_app; right; left; reflexivity|]. destruct s; split; reflexivity.
  - eapply tids_same; [apply (tids_fire s i T)|..]; destruct s; reflexivity.
  - eapply tids_same; [apply (tids_fire s i T)|..]; destruct s; reflexivity.
  - apply tids_fire; auto.
  - apply tids_trysend. eapply tids_same; [apply (tids_fire s i T)|..]; destruct s; reflexivity.
  - apply tids_trysend. eapply tids_same; [apply (tids_fire s i T)|..]; destruct s; reflexivity.
Qed.
Lemma tids_reach P c h s o : areach P c h s o -> tids s.
Proof.
  induction 1 as [|h s o ev R IH V HP].
  - unfold tids. cbn. repeat split; try (intros; discriminate); try (intros t [<-|[]]; cbn; (lia || discriminate)). repeat constructor; intros [].
  - eapply tids_step; [apply step_case; auto; eapply inv0_reach; eauto|auto].
Qed.

(** ** Something is pending *)
Lemma drivers_num s : drivers s = (num driver (p_timers s) + match p_air s with Some f => if (kf_type f =? T_ACK)%Z then 1 else 0 | None => 0 end)%nat.
Proof. reflexivity. Qed.

Lemma pturn_timers c s : exists l, p_timers (pturn c s) = p_timers s ++ l /\ num driver l = 1%nat /\
  (ac_ways c = 3 -> l = [Ptimer (p_uid s) (p_now s + t_wait c) PKWait] /\ p_sec (pturn c s) = p_sec s /\ p_dto (pturn c s) = p_dto s).
Proof.
  unfold pturn. destruct (norm_angle (p_angle s + ac_bw c)) as [a k]. cbv zeta. destruct (ac_ways c =? 3) eqn:W.
  - eexists. split; [reflexivity|]. split; [reflexivity|]. intros _. repeat split.
  - exists ([Ptimer (p_uid s) (p_now s + t_sector c) PKSec] ++ [Ptimer (p_uid s + 1) (p_now s + t_data_timeout c) PKData]). split; [|split].
    + destruct s; cbn. rewrite <- app_assoc. reflexivity.
    + reflexivity.
    + intros X. apply Z.eqb_neq in W. contradiction.
Qed.

Lemma cancel_dto s : tids s -> num driver (p_timers (pcancel (p_dto s) s)) = num driver (p_timers s).
Proof.
  intros (_ & _ & T & _). destruct (p_dto s) as [u|] eqn:E; [|reflexivity]. cbn [pcancel]. change (p_timers (pset_timers ?x s)) with x.
  revert T. generalize (p_timers s). induction l as [|t l IH]; intros T; cbn [filter]; auto.
  assert (T' : forall t, In t l -> Some u = Some (pt_id t) -> pt_kind t = PKData) by (intros x X; apply T; right; auto).
  destruct (Z.eqb_spec (pt_id t) u) as [Q|Q]; cbn [negb]; rewrite ?num_cons, IH by auto; auto.
  unfold driver at 2. rewrite (T t (or_introl eq_refl)) by congruence. reflexivity.
Qed.

Definition air_ack (s : pst) : nat := match p_air s with Some f => if kf_type f =? T_ACK then 1%nat else 0%nat | None => 0%nat end.
Lemma drivers_eq s : drivers s = (num driver (p_timers s) + air_ack s)%nat. Proof. reflexivity. Qed.
Lemma air_trysend f s : kf_type f <> T_ACK -> air_ack (trysend f s) = air_ack s.
Proof.
  intros T. unfold trysend. destruct (cansend s) eqn:C; auto. destruct (cansend_air _ C) as [A _]. unfold air_ack. rewrite A. cbn.
  apply Z.eqb_neq in T. rewrite T. reflexivity.
Qed.

Lemma drivers_step c s ev s' o : pcase c s ev s' o -> inv0 s -> tids s -> (1 <= drivers s)%nat -> (1 <= drivers s')%nat \/ klost_of o <> [] \/ In PUb o.
Proof.
  intros C I T D. rewrite drivers_eq in *. destruct C; try (left; exact D).
  - left. unfold air_ack in D. rewrite H in D. apply Z.eqb_neq in H0. rewrite H0 in D. unfold air_ack. cbn [psched p_timers pset_air pset_state p_air]. lia.
  - left. cbn [psched p_timers pset_timers pset_uid]. rewrite num_app. cbn. lia.
  - left. cbn [psched p_timers pset_timers pset_uid]. rewrite num_app. cbn. lia.
  - left. change (p_timers (pset_state PRx ?x)) with (p_timers x). rewrite cancel_dto by auto. unfold air_ack in *.
    change (p_air (pset_state PRx ?x)) with (p_air x). destruct (cancel_proj (p_dto s) s) as (_ & -> & _). exact D.
  - left. unfold air_ack. cbn [gotdata sent pset_filter pset_ids pset_acks pset_tx pset_state pset_air p_air].
    assert (G : kf_type g = T_ACK).
    { destruct I as (_ & _ & I3 & _). assert (X : In g (p_acks s ++ [newack c f s])) by (rewrite H2; left; auto).
      apply in_app_or in X. destruct X as [X|[<-|[]]]; [apply I3; auto|reflexivity]. }
    rewrite G. cbn. lia.
  - left. destruct (trysend_proj (pcta c s0) (pturn c s0)) as (_ & _ & _ & _ & _ & _ & _ & _ & _ & _ & _ & _ & _ & ->).
    destruct (pturn_timers c s0) as (l & -> & L & _). rewrite num_app. lia.
  - left. cbn [p_timers pset_white pset_uid pset_timers]. rewrite num_app. destruct (atimers_ids c (p_now s) (node_map m) 0 (p_uid s)) as (_ & _ & N).
    assert (num driver (atimers c (p_now s) 0 (p_uid s) (node_map m)) >= 1)%nat; [|lia].
    revert N. generalize (atimers c (p_now s) 0 (p_uid s) (node_map m)). induction l as [|x l IH]; [discriminate|]. rewrite !num_cons. unfold driver at 1. destruct (pt_kind x); intros; try (specialize (IH H3)); lia.
  - left. cbn [p_timers pset_rts pset_sec pset_expect pset_white pset_uid pset_timers]. rewrite !num_app. cbn. lia.
  - left. unfold air_ack. cbn [sent pset_acks pset_tx pset_state pset_air p_air]. destruct I as (_ & _ & I3 & _).
    rewrite H1 in I3. destruct (I3 g (or_introl eq_refl)) as [_ ->]. cbn. lia.
  - right. left. cbn. discriminate.
  - right. right. left. auto.
  - left. destruct (trysend_proj f s1) as (_ & _ & _ & _ & _ & _ & _ & _ & _ & _ & _ & _ & _ & ->). rewrite air_trysend by discriminate.
    change (p_timers s1) with (remove_nth i (p_timers s)). change (air_ack s1) with (air_ack s).
    pose proof (num_remove driver _ _ _ H) as N. unfold driver in N at 2. rewrite H0 in N. lia.
  - left. destruct (trysend_proj f s1) as (_ & _ & _ & _ & _ & _ & _ & _ & _ & _ & _ & _ & _ & ->). rewrite air_trysend by discriminate.
    change (p_timers s1) with (remove_nth i (p_timers s)). change (air_ack s1) with (air_ack s).
    pose proof (num_remove driver _ _ _ H) as N. unfold driver in N at 2. rewrite H0 in N. lia.
Qed.
Lemma drivers_reach P c h s o : areach P c h s o -> (1 <= drivers s)%nat \/ klost_of o <> [] \/ In PUb o.
Proof.
  induction 1 as [|h s o ev R IH V HP]; [left; cbn; lia|].
  pose proof (inv0_reach _ _ _ _ _ R) as I. pose proof (tids_reach _ _ _ _ _ R) as T.
  rewrite klost_app. destruct IH as [IH|[IH|IH]].
  - destruct (drivers_step c s ev _ _ (step_case c s ev I V) I T IH) as [D|[D|D]]; auto.
    + right; left. intros X. apply app_eq_nil in X. tauto.
    + right; right. apply in_or_app; auto.
  - right; left. intros X. apply app_eq_nil in X. tauto.
  - right; right. apply in_or_app; auto.
Qed.

(** ** Exactly one *)
Definition token (s : pst) : Prop :=
  (drivers s <= 1)%nat /\
  (forall t, In t (p_timers s) -> pt_kind t = PKSec -> p_sec s = Some (pt_id t)) /\
  (forall t, In t (p_timers s) -> pt_kind t = PKAck -> p_acks s <> []) /\
  (forall t, In t (p_timers s) -> pt_kind t <> PKData).

Lemma token_same s s' : token s -> p_timers s' = p_timers s -> p_air s' = p_air s -> p_sec s' = p_sec s -> (p_acks s' = [] -> p_acks s = []) -> token s'.
Proof.
  intros (T1 & T2 & T3 & T4) E1 E2 E3 E4. unfold token. unfold drivers. rewrite E1, E2, E3. repeat split; auto.
  intros t I K X. eapply T3; eauto.
Qed.
(** No driver remains among the events if one of them is taken away. *)
Lemma one_gone s i t : (drivers s <= 1)%nat -> nth_error (p_timers s) i = Some t -> driver t = true ->
  num driver (remove_nth i (p_timers s)) = 0%nat /\ air_ack s = 0%nat.
Proof. intros D E K. pose proof (num_remove driver _ _ _ E) as N. rewrite K in N. rewrite drivers_eq in D. lia. Qed.
Lemma none_driver l t : num driver l = 0%nat -> In t l -> driver t = false.
Proof. intros N I. destruct (driver t) eqn:K; auto. pose proof (num_pos _ _ _ I K). lia. Qed.

Lemma token_send f s : kf_type f <> T_ACK -> token s -> token (trysend f s).
Proof.
  intros F (T1 & T2 & T3 & T4). unfold token. rewrite drivers_eq, air_trysend by auto.
  destruct (trysend_proj f s) as (_ & -> & _ & _ & _ & _ & _ & _ & _ & _ & -> & _ & _ & ->). repeat split; auto.
Qed.

Lemma token_step c s ev s' o : ac_ways c = 3 -> pcase c s ev s' o -> prompt s ev -> inv0 s -> tids s -> token s -> token s' /\ ~ In PUb o.
Proof.
  intros W C PR I T K. destruct K as (K1 & K2 & K3 & K4). pose proof K1 as K1'. rewrite drivers_eq in K1'.
  assert (K : token s) by (split; [|split; [|split]]; auto).
  assert (N1 : forall x t, ~ In PUb (sndif x t)) by (intros x t; unfold sndif; destruct (cansend t); cbn; intuition discriminate).
  assert (N2 : forall x t, ~ In PUb (upif x t)) by (intros x t; unfold upif; destruct (fst _); cbn; intuition discriminate).
  assert (FI : forall i t, nth_error (p_timers s) i = Some t -> driver t = true -> forall x, In x (remove_nth i (p_timers s)) -> driver x = false).
  { intros i t E D x X. destruct (one_gone s i t K1 E D) as [Z0 _]. eapply none_driver; eauto. }
  destruct C.
  - split; [exact K|intros []].
  - split; [exact K|intros []].
  - split; [|intros []]. repeat split; auto. rewrite drivers_eq. unfold air_ack. cbn [p_timers p_air pset_state pset_air]. lia.
  - split; [|intros []]. unfold air_ack in K1'. rewrite H, H0 in K1'. change (T_ACK =? T_ACK) with true in K1'. cbn iota in K1'.
    assert (Z0 : num driver (p_timers s) = 0%nat) by lia. unfold token. rewrite drivers_eq. unfold air_ack.
    cbn [p_timers p_air p_sec p_acks p_uid p_now pset_state pset_air psched pset_timers pset_uid]. rewrite num_app, Z0. split; [cbn; lia|].
    split; [|split]; intros t X Y; apply in_app_or in X; destruct X as [X|[<-|[]]]; try discriminate Y; eauto.
    eapply K4; eauto.
  - split; [|intros []]. unfold air_ack in K1'. rewrite H, H0 in K1'. change (T_ACK =? T_ACK) with true in K1'. cbn iota in K1'.
    assert (Z0 : num driver (p_timers s) = 0%nat) by lia. unfold token. rewrite drivers_eq. unfold air_ack.
    cbn [p_timers p_air p_sec p_acks p_uid p_now pset_state pset_air psched pset_timers pset_uid]. rewrite num_app, Z0. split; [cbn; lia|].
    split; [|split]; intros t X Y; apply in_app_or in X; destruct X as [X|[<-|[]]]; try discriminate Y; eauto.
    eapply K4; eauto.
  - split; [|intros []]. unfold token. rewrite drivers_eq. unfold air_ack.
    cbn [p_timers p_air p_sec p_acks pset_state]. destruct (cancel_proj (p_dto s) s) as (_ & -> & _ & _ & -> & _ & _ & _ & _ & _ & _ & _ & _ & -> & _).
    rewrite cancel_dto by auto. split; [exact K1'|].
    assert (S : forall t, In t (p_timers (pcancel (p_dto s) s)) -> In t (p_timers s)).
    { destruct (p_dto s); cbn [pcancel]; auto. intros t X. apply filter_In in X. apply X. }
    repeat split; eauto.
  - split; [exact K|intros []].
  - split; [exact K|intros []].
  - split; [|apply N2]. eapply token_same; eauto. cbn [p_acks gotdata pset_filter pset_ids pset_acks]. intros X. apply app_eq_nil in X. destruct X as [_ X]; discriminate X.
  - split; [|intros [X|X]; [discriminate X|exact (N2 _ _ X)]].
    destruct (PR H0) as (t & T1 & T2). specialize (K2 t T1 T2).
    assert (Z0 : num driver (p_timers (pcancel (p_sec s) s)) = 0%nat).
    { rewrite K2. cbn [pcancel]. change (p_timers (pset_timers ?x s)) with x. apply num_zero. intros x X. apply filter_In in X. destruct X as [X1 X2].
      destruct (driver x) eqn:D; auto. exfalso. assert (pt_id x <> pt_id t) by (apply negb_true_iff, Z.eqb_neq in X2; auto).
      assert (DT : driver t = true) by (unfold driver; rewrite T2; auto).
      assert (2 <= num driver (p_timers s))%nat; [|lia]. clear - T1 X1 D DT H3. revert T1 X1. generalize (p_timers s).
      induction l as [|y l IH]; intros I1 I2; [destruct I1|]. rewrite num_cons. destruct I1 as [->|I1], I2 as [->|I2].
      - congruence. - rewrite DT. pose proof (num_pos _ _ _ I2 D). lia. - rewrite D. pose proof (num_pos _ _ _ I1 DT). lia. - specialize (IH I1 I2). lia. }
    unfold token. rewrite drivers_eq. cbn [p_timers p_sec p_acks gotdata sent pset_filter pset_ids pset_acks pset_tx pset_state pset_air].
    unfold air_ack. cbn [p_air gotdata sent pset_filter pset_ids pset_acks pset_tx pset_state pset_air]. rewrite Z0. split; [destruct (kf_type g =? T_ACK); lia|].
    split; [|split].
    + intros x X Y. pose proof (none_driver _ _ Z0 X) as N. unfold driver in N. rewrite Y in N. discriminate N.
    + intros x X Y. pose proof (none_driver _ _ Z0 X) as N. unfold driver in N. rewrite Y in N. discriminate N.
    + intros x X. apply K4. rewrite K2 in X. cbn [pcancel] in X. apply filter_In in X. apply X.
  - split; [|intros [X|X]; [discriminate X|exact (N1 _ _ X)]].
    apply token_send; [rewrite pcta_type; discriminate|].
    assert (D : driver t = true). { pose proof (K4 t (nth_error_In _ _ H)) as K4'. unfold driver. inversion H0; auto; congruence. }
    destruct (one_gone s i t K1 H D) as [Z0 A0].
    assert (S : p_timers s0 = remove_nth i (p_timers s) /\ p_sec s0 = p_sec s).
    { inversion H0; subst; try (split; reflexivity). exfalso. eapply K4; [eapply nth_error_In; exact H|]. congruence. }
    destruct S as [S1 S2]. destruct (pturn_timers c s0) as (l & L1 & _ & L2). destruct (L2 W) as (-> & L3 & L4).
    unfold token. rewrite drivers_eq. destruct (pturn_proj c s0) as (_ & F2 & _ & _ & F5 & _). unfold air_ack. rewrite F2, F5, L1, L3, S1, S2, num_app, Z0.
    destruct (toturn_proj _ _ _ _ H0) as (_ & E2 & _ & _ & E5 & _). rewrite E2, E5. change (p_air (pset_timers ?x s)) with (p_air s). change (p_acks (pset_timers ?x s)) with (p_acks s).
    unfold air_ack in A0. rewrite A0. split; [cbn; lia|]. split; [|split].
    + intros x X Y. apply in_app_or in X. destruct X as [X|[<-|[]]]; [|discriminate Y]. pose proof (none_driver _ _ Z0 X) as N. unfold driver in N. rewrite Y in N. discriminate N.
    + intros x X Y. apply in_app_or in X. destruct X as [X|[<-|[]]]; [|discriminate Y]. pose proof (none_driver _ _ Z0 X) as N. unfold driver in N. rewrite Y in N. discriminate N.
    + intros x X. apply in_app_or in X. destruct X as [X|[<-|[]]]; [|discriminate]. apply K4. eapply in_remove; eauto.
  - split; [|intros []]. assert (D : driver t = true) by (unfold driver; rewrite H0; auto). destruct (one_gone s i t K1 H D) as [Z0 A0].
    destruct (atimers_ids c (p_now s) (node_map m) 0 (p_uid s)) as (B & _ & N).
    assert (ND : num driver (atimers c (p_now s) 0 (p_uid s) (node_map m)) = 1%nat).
    { rewrite <- N. assert (B' : forall t, In t (atimers c (p_now s) 0 (p_uid s) (node_map m)) -> driver t = match pt_kind t with PKTurn => true | _ => false end).
      { intros x X. destruct (B x X) as [_ [Y|(a & d & Y)]]; unfold driver; rewrite Y; auto. }
      revert B'. generalize (atimers c (p_now s) 0 (p_uid s) (node_map m)). induction l as [|x l IH]; intros B'; auto. rewrite !num_cons, (B' x (or_introl eq_refl)), IH; auto. intros y Y; apply B'; right; auto. }
    unfold token. rewrite drivers_eq. change (air_ack _) with (air_ack s). cbn [p_timers p_sec p_acks pset_white pset_uid pset_timers pset_record pset_rts pset_map]. rewrite num_app, Z0, ND, A0.
    split; [lia|]. split; [|split].
    + intros x X Y. apply in_app_or in X. destruct X as [X|X]; [|destruct (B x X) as [_ [E|(a & d & E)]]; congruence]. pose proof (none_driver _ _ Z0 X) as M. unfold driver in M. rewrite Y in M. discriminate M.
    + intros x X Y. apply in_app_or in X. destruct X as [X|X]; [|destruct (B x X) as [_ [E|(a & d & E)]]; congruence]. pose proof (none_driver _ _ Z0 X) as M. unfold driver in M. rewrite Y in M. discriminate M.
    + intros x X. apply in_app_or in X. destruct X as [X|X]; [|destruct (B x X) as [_ [E|(a & d & E)]]; congruence]. apply K4. eapply in_remove; eauto.
  - split; [|intros []]. assert (D : driver t = true) by (unfold driver; rewrite H0; auto). destruct (one_gone s i t K1 H D) as [Z0 A0].
    destruct (gtimers_ids c (p_now s) (p_rts s) 0 (n * ac_ctrl c T_CTS) (p_uid s)) as (B & _).
    assert (ND : num driver (gtimers c (p_now s) 0 (n * ac_ctrl c T_CTS) (p_uid s) (p_rts s)) = 0%nat).
    { apply num_zero. intros x X. destruct (B x X) as (_ & d & q & dur & fl & Y). unfold driver. rewrite Y. auto. }
    unfold token. rewrite drivers_eq. change (air_ack _) with (air_ack s). cbn [p_timers p_sec p_acks pset_sec pset_expect pset_uid pset_timers pset_record pset_rts pset_map]. rewrite !num_app, Z0, ND, A0.
    split; [cbn; lia|]. split; [|split].
    + intros x X Y. apply in_app_or in X. destruct X as [X|X]; [pose proof (none_driver _ _ Z0 X) as M; unfold driver in M; rewrite Y in M; discriminate M|].
      apply in_app_or in X. destruct X as [X|[<-|[]]]; [destruct (B x X) as (_ & d & q & dur & fl & E); congruence|]. reflexivity.
    + intros x X Y. apply in_app_or in X. destruct X as [X|X]; [pose proof (none_driver _ _ Z0 X) as M; unfold driver in M; rewrite Y in M; discriminate M|].
      apply in_app_or in X. destruct X as [X|[<-|[]]]; [destruct (B x X) as (_ & d & q & dur & fl & E); congruence|]. discriminate Y.
    + intros x X. apply in_app_or in X. destruct X as [X|X]; [apply K4; eapply in_remove; eauto|].
      apply in_app_or in X. destruct X as [X|[<-|[]]]; [destruct (B x X) as (_ & d & q & dur & fl & E); congruence|]. discriminate.
  - split; [|intros [X|[]]; discriminate X]. assert (D : driver t = true) by (unfold driver; destruct H0 as [->| ->]; auto). destruct (one_gone s i t K1 H D) as [Z0 A0].
    unfold token. rewrite drivers_eq. cbn [p_timers p_sec p_acks sent pset_acks pset_tx pset_state pset_air pset_timers]. rewrite Z0.
    split; [unfold air_ack; cbn [p_air sent pset_acks pset_tx pset_state pset_air]; destruct (kf_type g =? T_ACK); lia|].
    split; [|split]; intros x X; try (apply K4; eapply in_remove; eauto; fail); intros Y; pose proof (none_driver _ _ Z0 X) as M; unfold driver in M; rewrite Y in M; discriminate M.
  - split; [|intros [X|[]]; discriminate X]. assert (D : driver t = true) by (unfold driver; destruct H0 as [->| ->]; auto). destruct (one_gone s i t K1 H D) as [Z0 A0].
    unfold token. rewrite drivers_eq. change (air_ack _) with (air_ack s). cbn [p_timers p_sec p_acks pset_acks pset_timers]. rewrite Z0, A0.
    split; [lia|].
    split; [|split]; intros x X; try (apply K4; eapply in_remove; eauto; fail); intros Y; pose proof (none_driver _ _ Z0 X) as M; unfold driver in M; rewrite Y in M; discriminate M.
  - exfalso. eapply K3; eauto. eapply nth_error_In; eauto.
  - split; [|apply N1]. apply token_send; [discriminate|]. subst s1. unfold token. rewrite drivers_eq. change (air_ack _) with (air_ack s). cbn [p_timers p_sec p_acks pset_ids pset_timers].
    pose proof (num_remove driver _ _ _ H). split; [lia|]. repeat split; intros x X; try intros Y; [eapply K2|eapply K3|eapply K4]; eauto; eapply in_remove; eauto.
  - split; [|apply N1]. apply token_send; [discriminate|]. subst s1. unfold token. rewrite drivers_eq. change (air_ack _) with (air_ack s). cbn [p_timers p_sec p_acks pset_ids pset_timers].
    pose proof (num_remove driver _ _ _ H). split; [lia|]. repeat split; intros x X; try intros Y; [eapply K2|eapply K3|eapply K4]; eauto; eapply in_remove; eauto.
Qed.
Lemma token_reach c h s o : ac_ways c = 3 -> areach prompt c h s o -> token s /\ ~ In PUb o.
Proof.
  intros W R. induction R as [|h s o ev R [K U] V HP].
  - split; [|intros []]. unfold token. cbn. split; [lia|]. repeat split; intros t [<-|[]]; discriminate.
  - pose proof (inv0_reach _ _ _ _ _ R) as I. pose proof (tids_reach _ _ _ _ _ R) as T.
    destruct (token_step c s ev _ _ W (step_case c s ev I V) HP I T K) as [K' U']. split; auto.
    intros X. apply in_app_or in X. tauto.
Qed.
