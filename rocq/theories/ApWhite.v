(** The assignment of sectors to nodes. *)
From Coq Require Import ZArith List Lia Bool Permutation Sorting.Sorted.
From Verif Require Import Base HeaderModel SeqModel EnergyModel MacModel ApModel ApSpec ApProofs ApInv ApLive ApMore.
Import ListNotations.
Open Scope Z_scope.

(** ** Maps from keys to vectors *)
Definition members {V} (m : list (Z * list V)) : list (Z * V) := flat_map (fun x => map (pair (fst x)) (snd x)) m.
Lemma members_in {V} (m : list (Z * list V)) k v : In (k, v) (members m) <-> exists l, In (k, l) m /\ In v l.
Proof.
  unfold members. rewrite in_flat_map. split.
  - intros [[k' l] [X Y]]. apply in_map_iff in Y. destruct Y as [v' [Y Z]]. injection Y as <- <-. eauto.
  - intros [l [X Y]]. exists (k, l). split; auto. apply in_map; auto.
Qed.
Lemma push_members {V} k (v : V) m : Permutation (members (push k v m)) ((k, v) :: members m).
Proof.
  induction m as [|[k' l] r IH]; [reflexivity|]. cbn [push]. destruct (Z.eqb_spec k k') as [->|N].
  - unfold members. cbn [flat_map fst snd]. rewrite map_app, <- app_assoc. cbn [map app]. symmetry. apply Permutation_middle.
  - destruct (k <? k'); [reflexivity|]. change (members ((k', l) :: push k v r)) with (map (pair k') l ++ members (push k v r)).
    change (members ((k', l) :: r)) with (map (pair k') l ++ members r). rewrite IH. symmetry. apply Permutation_middle.
Qed.
Lemma push_in {V} k (v : V) m x : In x (members (push k v m)) <-> x = (k, v) \/ In x (members m).
Proof.
  split; intros H.
  - apply (Permutation_in _ (push_members k v m)) in H. destruct H; auto.
  - apply (Permutation_in _ (Permutation_sym (push_members k v m))). destruct H; [left|right]; auto.
Qed.
Lemma push_keys {V} k (v : V) m x : In x (map fst (push k v m)) -> x = k \/ In x (map fst m).
Proof.
  induction m as [|[k' l] r IH]; cbn [push map fst]; [intros [->|[]]; auto|].
  destruct (k =? k'); cbn [map fst In]; [intros [->|H]; auto|]. destruct (k <? k'); cbn [map fst In]; [intuition|]. intros [->|H]; auto. apply IH in H. tauto.
Qed.
Lemma push_sorted {V} k (v : V) m : StronglySorted Z.lt (map fst m) -> StronglySorted Z.lt (map fst (push k v m)).
Proof.
  induction m as [|[k' l] r IH]; cbn [push map fst]; intros S; [constructor; constructor|].
  inversion S as [|? ? S1 S2]; subst. destruct (Z.eqb_spec k k'); [exact S|]. destruct (Z.ltb_spec k k'); cbn [map fst].
  - constructor; auto. constructor; auto. rewrite Forall_forall in *. intros x X. specialize (S2 x X). lia.
  - constructor; auto. rewrite Forall_forall in *. intros x X. apply push_keys in X. destruct X as [->|X]; [lia|auto].
Qed.
(** A key with an empty vector never occurs. *)
Definition full {V} (m : list (Z * list V)) : Prop := forall k, ~ In (k, []) m.
Lemma push_full {V} k (v : V) m : full m -> full (push k v m).
Proof.
  induction m as [|[k' l] r IH]; cbn [push]; intros F x X; [destruct X as [X|[]]; discriminate X|].
  assert (F' : full r) by (intros y Y; apply (F y); right; auto).
  destruct (k =? k'); [destruct X as [X|X]; [injection X as _ X; destruct l; discriminate X|apply (F' x X)]|].
  destruct (k <? k'); [destruct X as [X|X]; [discriminate X|apply (F x X)]|].
  destruct X as [X|X]; [apply (F x); left; auto|apply (IH F' x X)].
Qed.

Lemma entry_sub {V} k (m : list (Z * list V)) v : In v (entry k m) -> In (k, v) (members m).
Proof.
  unfold entry. destruct (find _ m) as [[k' l]|] eqn:F; [|intros []]. apply find_some in F. destruct F as [F1 F2]. cbn in F2. apply Z.eqb_eq in F2. subst.
  intros X. apply members_in. eauto.
Qed.

(** ** Building the maps *)
Lemma record1_in a m x y : In y (members (record1 a m x)) -> In y (members m) \/ y = (a, (kf_src (fst x), snd x)).
Proof.
  unfold record1. destruct (existsb _ _); auto. rewrite push_in. tauto.
Qed.
Lemma record_in a l : forall m y, In y (members (fold_left (record1 a) l m)) ->
  In y (members m) \/ exists x, In x l /\ y = (a, (kf_src (fst x), snd x)).
Proof.
  induction l as [|x l IH]; intros m y; cbn [fold_left]; auto. intros H. apply IH in H. destruct H as [H|(z & Z1 & Z2)]; [|right; exists z; split; auto; right; auto].
  apply record1_in in H. destruct H as [H|H]; auto. right. exists x. split; auto. left; auto.
Qed.

Definition nadd (b : Z) (n : list (Z * list (Z * Z))) (l : list (addr * Z)) := fold_left (fun n y => push (fst y) (b, snd y) n) l n.
Lemma nadd_in b l : forall n a x, In (a, x) (members (nadd b n l)) <-> In (a, x) (members n) \/ (fst x = b /\ In (a, snd x) l).
Proof.
  induction l as [|[a' p] l IH]; intros n a x; cbn [nadd fold_left].
  - cbn. tauto.
  - change (fold_left _ l ?n0) with (nadd b n0 l). rewrite IH, push_in. cbn [fst snd In]. destruct x as [xb xp]. cbn [fst snd]. split.
    + intros [[H|H]|H]; auto; [injection H as -> -> ->; right; split; auto; left; auto|destruct H; right; split; auto; right; auto].
    + intros [H|[-> [H|H]]]; auto. left; left. congruence.
Qed.
Lemma nadd_keys b l : forall n, StronglySorted Z.lt (map fst n) /\ full n -> StronglySorted Z.lt (map fst (nadd b n l)) /\ full (nadd b n l).
Proof.
  induction l as [|y l IH]; intros n H; cbn [nadd fold_left]; auto. apply IH. destruct H. split; [apply push_sorted; auto|apply push_full; auto].
Qed.
Lemma node_map_gen m : forall n a b p, In (a, (b, p)) (members (fold_left (fun n x => nadd (fst x) n (snd x)) m n)) <->
  In (a, (b, p)) (members n) \/ In (b, (a, p)) (members m).
Proof.
  induction m as [|[b' l] m IH]; intros n a b p; cbn [fold_left]; [cbn; tauto|].
  rewrite IH, nadd_in. cbn [fst snd]. unfold members at 4. cbn [flat_map fst snd]. change (flat_map _ m) with (members m). rewrite in_app_iff, in_map_iff.
  split.
  - intros [[H|[-> H]]|H]; auto. right; left. exists (a, p). auto.
  - intros [H|[[x [X Y]]|H]]; auto. injection X as -> ->. left; right; auto.
Qed.
Lemma node_map_in m a b p : In (a, (b, p)) (members (node_map m)) <-> In (b, (a, p)) (members m).
Proof. unfold node_map. change (fun n x => fold_left _ (snd x) n) with (fun (n : list (Z * list (Z * Z))) (x : Z * list (addr * Z)) => nadd (fst x) n (snd x)). rewrite node_map_gen. cbn. tauto. Qed.
Lemma node_map_keys m : StronglySorted Z.lt (map fst (node_map m)) /\ full (node_map m).
Proof.
  unfold node_map. change (fun n x => fold_left _ (snd x) n) with (fun (n : list (Z * list (Z * Z))) (x : Z * list (addr * Z)) => nadd (fst x) n (snd x)).
  assert (G : forall m n, StronglySorted Z.lt (map fst n) /\ full n ->
    StronglySorted Z.lt (map fst (fold_left (fun n x => nadd (fst x) n (snd x)) m n)) /\ full (fold_left (fun (n : list (Z * list (Z * Z))) (x : Z * list (addr * Z)) => nadd (fst x) n (snd x)) m n)).
  { induction m0 as [|x m0 IH]; intros n H; cbn [fold_left]; auto. apply IH. apply nadd_keys. auto. }
  apply G. split; [constructor|intros k []].
Qed.

Lemma awhite_members l : forall w, Permutation (members (awhite l w)) (map (fun x => (best_sector (snd x), fst x)) l ++ members w).
Proof.
  induction l as [|x l IH]; intros w; [reflexivity|]. unfold awhite. cbn [fold_left map app]. change (fold_left _ l ?w0) with (awhite l w0).
  rewrite IH, push_members. symmetry. apply Permutation_middle.
Qed.

Lemma best_gen l : forall b0 : Z * Z, let r := fold_left (fun b x => if snd x >? snd b then x else b) l b0 in
  (r = b0 \/ In r l) /\ snd b0 <= snd r /\ (forall x, In x l -> snd x <= snd r).
Proof.
  induction l as [|x l IH]; intros b0; cbn [fold_left].
  - repeat split; auto; try lia. intros x [].
  - cbv zeta in *. destruct (Z.gtb_spec (snd x) (snd b0)) as [G|G].
    + destruct (IH x) as (A & B & C). split; [destruct A as [->|A]; right; [left|right]; auto|]. split; [lia|]. intros y [<-|Y]; auto.
    + destruct (IH b0) as (A & B & C). split; [destruct A as [A|A]; auto; right; right; auto|]. split; [lia|]. intros y [<-|Y]; auto. lia.
Qed.
Lemma best_sector_ok l : (exists x, In x l /\ -200000 < snd x) ->
  exists p, In (best_sector l, p) l /\ forall x, In x l -> snd x <= p.
Proof.
  intros [x [X Y]]. unfold best_sector. destruct (best_gen l (0, -200000)) as (A & B & C). cbv zeta in *.
  destruct (fold_left _ l (0, -200000)) as [b p] eqn:E. cbn [fst snd] in *. exists p. destruct A as [A|A]; [|auto].
  injection A as -> ->. specialize (C x X). lia.
Qed.

(** What the map says about the nodes. *)
Lemma keyed {V} (m : list (Z * list V)) k l l' : NoDup (map fst m) -> In (k, l) m -> In (k, l') m -> l = l'.
Proof.
  induction m as [|[k0 l0] r IH]; intros N A B; [destruct A|]. inversion N as [|? ? N1 N2]; subst.
  destruct A as [A|A], B as [B|B]; auto; try congruence; exfalso; apply N1; [injection A as -> ->|injection B as -> ->]; [apply (in_map fst _ _ B)|apply (in_map fst _ _ A)].
Qed.
Lemma sorted_nodupz l : StronglySorted Z.lt l -> NoDup l.
Proof. induction 1 as [|x l S IH F]; constructor; auto. intros X. rewrite Forall_forall in F. specialize (F x X). lia. Qed.

Definition good_white (m : list (Z * list (addr * Z))) (w : list (Z * list addr)) : Prop :=
  (forall n, (exists b, In (b, n) (members w)) <-> (exists b pw, In (b, (n, pw)) (members m))) /\
  NoDup (map snd (members w)) /\
  (forall n b, In (b, n) (members w) -> (exists b' pw', In (b', (n, pw')) (members m) /\ -200000 < pw') ->
     exists pw, In (b, (n, pw)) (members m) /\ forall b' pw', In (b', (n, pw')) (members m) -> pw' <= pw).
Lemma white_ok m : good_white m (awhite (node_map m) []).
Proof.
  pose proof (awhite_members (node_map m) []) as P. cbn [members flat_map] in P. rewrite app_nil_r in P.
  destruct (node_map_keys m) as [S F]. apply sorted_nodupz in S.
  assert (W : forall b n, In (b, n) (members (awhite (node_map m) [])) <-> exists v, In (n, v) (node_map m) /\ b = best_sector v).
  { intros b n. split; intros H.
    - apply (Permutation_in _ P) in H. apply in_map_iff in H. destruct H as [[n' v] [H1 H2]]. cbn in H1. injection H1 as <- <-. eauto.
    - destruct H as [v [H1 ->]]. apply (Permutation_in _ (Permutation_sym P)). apply in_map_iff. exists (n, v). auto. }
  assert (M : forall n v b p, In (n, v) (node_map m) -> (In (b, p) v <-> In (b, (n, p)) (members m))).
  { intros n v b p H. rewrite <- node_map_in, members_in. split; [eauto|]. intros [l [L1 L2]]. rewrite (keyed _ _ _ _ S H L1). auto. }
  split; [|split].
  - intros n. split.
    + intros [b H]. apply W in H. destruct H as [v [H ->]]. destruct v as [|[b p] v]; [exfalso; apply (F n H)|]. exists b, p. apply (M n _ b p H). left; auto.
    + intros [b [p H]]. apply node_map_in, members_in in H. destruct H as [v [H1 H2]]. exists (best_sector v). apply W. eauto.
  - apply (Permutation_NoDup (Permutation_sym (Permutation_map snd P))). rewrite map_map. cbn [snd]. exact S.
  - intros n b H [b' [p' [E1 E2]]]. apply W in H. destruct H as [v [H ->]].
    destruct (best_sector_ok v) as [p [B1 B2]]. { exists (b', p'). split; auto. apply (M _ _ _ _ H). auto. }
    exists p. split; [apply (M _ _ _ _ H); auto|]. intros b0 p0 X. apply (M _ _ _ _ H) in X. apply (B2 _ X).
Qed.

(** ** Invariant *)
Record wl_inv (h : list pevent) (s : pst) (o : list pout) : Prop := {
  w_rts : forall f pw, In (f, pw) (p_rts s) -> In (AERxEnd f true pw) h /\ kf_type f = T_RTS;
  w_map : forall b n pw, In (b, (n, pw)) (members (p_map s)) -> In b (turns_of o) /\ exists f, In (AERxEnd f true pw) h /\ kf_type f = T_RTS /\ kf_src f = n;
  w_angle : In (p_angle s) (turns_of o) \/ (forall t, In t (p_timers s) -> pt_kind t <> PKWait);
  w_white : if p_record s then p_white s = [] else good_white (p_map s) (p_white s);
  w_feed : forall t b n, In t (p_timers s) -> pt_kind t = PKFeed b n -> In (b, n) (members (p_white s));
  w_sent : forall f, In f (ksnd_of o) -> kf_type f = T_CTA -> kf_flags f = 2 -> exists b, In (b, kf_dst f) (members (p_white s)) /\ kf_sector f = wrap16 b }.

Lemma pcta_flags c s : kf_flags (pcta c s) <> 2.
Proof. unfold pcta. destruct (ac_ways c =? 3); [destruct (p_record _)|]; cbn; discriminate. Qed.

Lemma pturn_fields c s : p_rts (pturn c s) = p_rts s /\ p_map (pturn c s) = p_map s /\ p_white (pturn c s) = p_white s /\ p_record (pturn c s) = p_record s.
Proof. unfold pturn. destruct (norm_angle (p_angle s + ac_bw c)) as [a k]. cbv zeta. destruct (ac_ways c =? 3); repeat split. Qed.
Lemma trysend_fields f s : p_rts (trysend f s) = p_rts s /\ p_map (trysend f s) = p_map s /\ p_white (trysend f s) = p_white s /\ p_record (trysend f s) = p_record s /\ p_timers (trysend f s) = p_timers s.
Proof. unfold trysend. destruct (cansend s); repeat split. Qed.
Lemma cancel_fields u s : p_rts (pcancel u s) = p_rts s /\ p_map (pcancel u s) = p_map s /\ p_white (pcancel u s) = p_white s /\ p_record (pcancel u s) = p_record s /\ p_angle (pcancel u s) = p_angle s /\
  (forall t, In t (p_timers (pcancel u s)) -> In t (p_timers s)).
Proof. destruct u; cbn [pcancel]; repeat split; auto. intros t X. apply filter_In in X. apply X. Qed.

Lemma pturn_nofeed c s : exists l, p_timers (pturn c s) = p_timers s ++ l /\ (forall x, In x l -> forall b n, pt_kind x <> PKFeed b n).
Proof.
  unfold pturn. destruct (norm_angle (p_angle s + ac_bw c)) as [a k]. cbv zeta. destruct (ac_ways c =? 3).
  - eexists. split; [reflexivity|]. intros x [<-|[]] b n; discriminate.
  - exists ([Ptimer (p_uid s) (p_now s + t_sector c) PKSec] ++ [Ptimer (p_uid s + 1) (p_now s + t_data_timeout c) PKData]). split.
    + destruct s; cbn. rewrite <- app_assoc. reflexivity.
    + intros x [<-|[<-|[]]] b n; discriminate.
Qed.
(** Steps that leave the relevant fields alone, schedule nothing relevant and send no feedback. *)
Lemma wl_same h s o ev s' o' : wl_inv h s o -> p_rts s' = p_rts s -> p_map s' = p_map s -> p_white s' = p_white s -> p_record s' = p_record s ->
  p_angle s' = p_angle s ->
  (forall t, In t (p_timers s') -> In t (p_timers s) \/ (pt_kind t <> PKWait /\ forall b n, pt_kind t <> PKFeed b n)) ->
  (forall f, In f (ksnd_of o') -> kf_type f = T_CTA -> kf_flags f = 2 -> exists b, In (b, kf_dst f) (members (p_white s)) /\ kf_sector f = wrap16 b) ->
  wl_inv (h ++ [ev]) s' (o ++ o').
Proof.
  intros [I1 I2 I3 I4 I5 I6] E1 E2 E3 E4 E5 T S. constructor; rewrite ?E1, ?E2, ?E3, ?E4, ?E5, ?turns_app, ?ksnd_app.
  - intros f pw X. destruct (I1 f pw X). split; auto. apply in_or_app; auto.
  - intros b n pw X. destruct (I2 b n pw X) as [A (f & B & C)]. split; [apply in_or_app; auto|]. exists f. split; auto. apply in_or_app; auto.
  - destruct I3 as [I3|I3]; [left; apply in_or_app; auto|right]. intros t X. destruct (T t X) as [Y|[Y _]]; auto.
  - exact I4.
  - intros t b n X Y. destruct (T t X) as [Z|[_ Z]]; [eauto|exfalso; eapply Z; eauto].
  - intros f X. apply in_app_or in X. destruct X; auto.
Qed.

Lemma ksnd_sndif f s : forall x, In x (ksnd_of (sndif f s)) -> x = f.
Proof. unfold sndif. destruct (cansend s); cbn; intros x X; [destruct X as [X|[]]; auto|destruct X]. Qed.
Lemma ksnd_upif f s : ksnd_of (upif f s) = [].
Proof. unfold upif. destruct (fst _); reflexivity. Qed.

Lemma wl_step c h s o ev s' o' : inv0 s -> pcase c s ev s' o' -> wl_inv h s o -> wl_inv (h ++ [ev]) s' (o ++ o').
Proof.
  intros I0 C I. pose proof I as [I1 I2 I3 I4 I5 I6]. pose proof I0 as (_ & _ & AK & _).
  assert (RT : forall i t0, In t0 (remove_nth i (p_timers s)) -> In t0 (p_timers s)) by (intros i t0 X; eapply in_remove; eauto).
  destruct C; try (eapply wl_same; [exact I|reflexivity|reflexivity|reflexivity|reflexivity|reflexivity| |];
    [ cbn [p_timers psched pset_timers pset_uid pset_air pset_state pset_acks pset_now sent pset_tx]; intros t0 X; try (apply in_app_or in X; destruct X as [X|[<-|[]]]; [|right; split; [|intros ? ?]; discriminate]); left; eauto
    | cbn [ksnd_of flat_map app]; intros g' X; try (exfalso; exact X) ]; fail).
  - (* rxstart *) destruct (cancel_fields (p_dto s) s) as (E1 & E2 & E3 & E4 & E5 & E6). eapply wl_same; [exact I|exact E1|exact E2|exact E3|exact E4|exact E5| |]. { intros x X. left. apply E6. exact X. } intros g [].
  - (* rts *) constructor; cbn [p_rts p_map p_white p_record p_angle p_timers pset_rts pset_state]; rewrite ?turns_app, ?ksnd_app.
    + intros g q X. apply in_app_or in X. destruct X as [X|[X|[]]]; [destruct (I1 g q X); split; auto; apply in_or_app; auto|]. injection X as <- <-. split; auto. apply in_or_app; right; left; auto.
    + intros b n q X. destruct (I2 b n q X) as [A (g & B & D)]. split; [apply in_or_app; auto|]. exists g. split; auto. apply in_or_app; auto.
    + destruct I3 as [I3|I3]; [left; apply in_or_app; auto|right; auto].
    + exact I4.
    + exact I5.
    + intros g X. apply in_app_or in X. destruct X as [X|[]]; auto.
  - (* data *) eapply wl_same; [exact I|reflexivity|reflexivity|reflexivity|reflexivity|reflexivity| |]. { intros x X. left. exact X. } rewrite ksnd_upif. intros g [].
  - (* data, ack *) destruct (cancel_fields (p_sec s) s) as (E1 & E2 & E3 & E4 & E5 & E6). eapply wl_same; [exact I|exact E1|exact E2|exact E3|exact E4|exact E5| |].
    { intros x X. left. apply E6. exact X. }
    cbn [ksnd_of flat_map app]. change (flat_map _ (upif f s)) with (ksnd_of (upif f s)). rewrite ksnd_upif. intros x [<-|[]] T. exfalso.
    assert (X : In g (p_acks s ++ [newack c f s])) by (rewrite H2; left; auto). apply in_app_or in X. destruct X as [X|[<-|[]]]; [|discriminate T].
    destruct (AK g X) as [_ K]. rewrite K in T. discriminate T.
  - (* turn *) destruct (trysend_fields (pcta c s0) (pturn c s0)) as (A1 & A2 & A3 & A4 & A5). destruct (pturn_fields c s0) as (B1 & B2 & B3 & B4).
    destruct (pturn_nofeed c s0) as (l & L1 & FT).
    assert (TT : forall x, In x (p_timers s0) -> In x (p_timers s)).
    { intros x X. destruct H0; try exact (RT i x X). apply cancel_fields in X. exact (RT i x X). }
    assert (W : p_white s0 = p_white s /\ p_record s0 = p_record s).
    { destruct H0; try (split; reflexivity). destruct (cancel_fields (p_sec (pset_timers (remove_nth i (p_timers s)) s)) (pset_timers (remove_nth i (p_timers s)) s)) as (_ & _ & -> & -> & _). split; reflexivity. }
    destruct W as [W1 W2].
    assert (HH : (forall f pw, In (f, pw) (p_rts s0) -> In (f, pw) (p_rts s)) /\
      (forall b n pw, In (b, (n, pw)) (members (p_map s0)) -> In (b, (n, pw)) (members (p_map s)) \/ (b = p_angle s /\ pt_kind t = PKWait /\ exists f, In (f, pw) (p_rts s) /\ kf_src f = n)) /\
      (p_record s = false -> p_map s0 = p_map s)).
    { remember (pt_kind t) as kk eqn:KK. destruct H0; try (split; [|split]; auto; fail).
      - split; [intros ? ? []|]. split.
        + intros b n pw X. apply record_in in X. destruct X as [X|([g q] & X1 & X2)]; [left; exact X|]. injection X2 as -> -> ->. right. split; [reflexivity|]. split; auto. exists g. split; auto.
        + intros Y. change (p_record s = true) in H1. congruence.
      - destruct (cancel_fields (p_sec (pset_timers (remove_nth i (p_timers s)) s)) (pset_timers (remove_nth i (p_timers s)) s)) as (-> & -> & _). split; [|split]; auto. }
    destruct HH as (H1 & H2 & H3).
    constructor; rewrite ?A1, ?A2, ?A3, ?A4, ?A5, ?B1, ?B2, ?B3, ?B4, ?W1, ?W2, ?turns_app, ?ksnd_app.
    + intros f pw X. destruct (I1 f pw (H1 _ _ X)). split; auto. apply in_or_app; auto.
    + intros b n pw X. destruct (H2 _ _ _ X) as [Y|(-> & K & f & Y1 & Y2)].
      * destruct (I2 b n pw Y) as [P1 (f & P2 & P3)]. split; [apply in_or_app; auto|]. exists f. split; auto. apply in_or_app; auto.
      * destruct (I1 f pw Y1) as [P1 P2]. split; [|exists f; repeat split; auto; apply in_or_app; auto]. apply in_or_app. left. destruct I3 as [I3|I3]; auto. exfalso. eapply I3; eauto. eapply nth_error_In; eauto.
    + left. apply in_or_app. right. rewrite trysend_angle. left. reflexivity.
    + destruct (p_record s); auto. rewrite H3 by auto. exact I4.
    + intros x b n X Y. rewrite L1 in X. apply in_app_or in X. destruct X as [X|X]; [eapply I5; eauto|exfalso; eapply FT; eauto].
    + intros f X Y Z. apply in_app_or in X. destruct X as [X|X]; [eauto|]. cbn [ksnd_of flat_map app] in X. apply ksnd_sndif in X. subst f. exfalso. eapply pcta_flags; eauto.
  - (* map *) rewrite H2 in I4. constructor; cbn [p_rts p_map p_white p_record p_angle p_timers pset_white pset_uid pset_timers pset_record pset_rts pset_map]; rewrite ?turns_app, ?ksnd_app.
    + intros ? ? [].
    + intros b n pw X. apply record_in in X. destruct X as [X|([g q] & X1 & X2)].
      * destruct (I2 b n pw X) as [P1 (f & P2 & P3)]. split; [apply in_or_app; auto|]. exists f. split; auto. apply in_or_app; auto.
      * injection X2 as -> -> ->. destruct (I1 _ _ X1) as [P1 P2]. split; [|exists g; repeat split; auto; apply in_or_app; auto]. apply in_or_app. left. destruct I3 as [I3|I3]; auto. exfalso. eapply I3; eauto. eapply nth_error_In; eauto.
    + left. apply in_or_app. left. destruct I3 as [I3|I3]; auto. exfalso. eapply I3; eauto. eapply nth_error_In; eauto.
    + rewrite I4. apply white_ok.
    + rewrite I4. intros x b n X Y. apply in_app_or in X. destruct X as [X|X].
      * exfalso. pose proof (I5 x b n (RT _ _ X) Y) as Z. rewrite I4 in Z. destruct Z.
      * assert (G : forall l i u, In x (atimers c (p_now s) i u l) -> In (b, n) (map (fun x => (best_sector (snd x), fst x)) l)).
        { induction l as [|[n0 v] l IH]; intros j u Z; cbn [atimers] in Z.
          - destruct Z as [<-|[]]. discriminate Y.
          - destruct Z as [<-|Z]; [cbn [pt_kind] in Y; injection Y as <- <-; left; auto|right; eapply IH; eauto]. }
        apply G in X. apply (Permutation_in _ (Permutation_sym (awhite_members (node_map m) []))). apply in_or_app; left; exact X.
    + intros f X Y Z. apply in_app_or in X. destruct X as [X|[]]. exfalso. destruct (I6 f X Y Z) as [b [B _]]. rewrite I4 in B. destruct B.
  - (* grant *) constructor; cbn [p_rts p_map p_white p_record p_angle p_timers pset_sec pset_expect pset_uid pset_timers pset_rts]; rewrite ?turns_app, ?ksnd_app.
    + intros ? ? [].
    + intros b n0 pw X. destruct (I2 b n0 pw X) as [P1 (f & P2 & P3)]. split; [apply in_or_app; auto|]. exists f. split; auto. apply in_or_app; auto.
    + left. apply in_or_app. left. destruct I3 as [I3|I3]; auto. exfalso. eapply I3; eauto. eapply nth_error_In; eauto.
    + exact I4.
    + intros x b n0 X Y. apply in_app_or in X. destruct X as [X|X]; [eauto|]. apply in_app_or in X. destruct X as [X|[<-|[]]]; [|discriminate Y].
      exfalso. destruct (gtimers_ids c (p_now s) (p_rts s) 0 (n * ac_ctrl c T_CTS) (p_uid s)) as (B & _). destruct (B x X) as (_ & d & q & dur & fl & E). congruence.
    + intros f X. apply in_app_or in X. destruct X as [X|[]]. auto.
  - (* ack *) eapply wl_same; [exact I|reflexivity|reflexivity|reflexivity|reflexivity|reflexivity| |]. { intros x X. left. exact (RT i x X). }
    cbn. intros x [<-|[]] T. exfalso. destruct (AK g) as [_ K]; [rewrite H1; left; auto|]. rewrite K in T. discriminate T.
  - (* cts *) destruct (trysend_fields f s1) as (A1 & A2 & A3 & A4 & A5). eapply wl_same; [exact I|exact A1|exact A2|exact A3|exact A4|exact (trysend_angle f s1)| |].
    { intros x X. left. apply (RT i). rewrite A5 in X. exact X. } intros x X. apply ksnd_sndif in X. subst x. intros T. discriminate T.
  - (* feed *) destruct (trysend_fields f s1) as (A1 & A2 & A3 & A4 & A5). eapply wl_same; [exact I|exact A1|exact A2|exact A3|exact A4|exact (trysend_angle f s1)| |].
    { intros x X. left. apply (RT i). rewrite A5 in X. exact X. } intros x X. apply ksnd_sndif in X. subst x. intros _ _. exists a. split; [|reflexivity]. eapply I5; eauto. eapply nth_error_In; eauto.
Qed.
Lemma wl_reach P c h s o : areach P c h s o -> wl_inv h s o.
Proof.
  induction 1 as [|h s o ev R IH V HP].
  - constructor; cbn.
    + intros ? ? [].
    + intros ? ? ? [].
    + right. intros t [<-|[]]. discriminate.
    + destruct (ac_wl c); auto. apply (white_ok []).
    + intros t b n [<-|[]]. discriminate.
    + intros f [].
  - eapply wl_step; eauto. { eapply inv0_reach; eauto. } apply step_case; auto. eapply inv0_reach; eauto.
Qed.
