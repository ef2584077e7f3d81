(** Further invariants of the access point: delivery, silence, sectors, assignment of sectors. *)
From Coq Require Import ZArith List Lia Bool Permutation Sorting.Sorted.
From Verif Require Import Base HeaderModel SeqModel SeqProofs EnergyModel MacModel ApModel ApSpec ApProofs ApInv ApLive.
Import ListNotations.
Open Scope Z_scope.

(** ** Delivery *)
Lemma fresh_ok r : forall l seen,
  (forall a q, below (lookup l a) q <-> (forall g, In g seen -> kf_src g = a -> kf_seq g < q)) ->
  keep (fst (run_seq l (map kcall r))) r = fresh seen r.
Proof.
  induction r as [|f r IH]; intros l seen H; [reflexivity|].
  cbn [map]. unfold kcall at 1. rewrite run_cons. cbn [keep fresh].
  rewrite is_new_fst. rewrite (IH _ (seen ++ [f])).
  - assert (E : match lookup l (kf_src f) with None => true | Some s' => kf_seq f >? s' end =
                forallb (fun g => negb (kf_src g =? kf_src f) || (kf_seq g <? kf_seq f)) seen).
    { apply eq_true_iff_eq. rewrite forallb_forall.
      transitivity (below (lookup l (kf_src f)) (kf_seq f)).
      - unfold below. destruct (lookup l (kf_src f)); [rewrite Z.gtb_lt; lia|tauto].
      - rewrite H. split; intros X g G.
        + destruct (Z.eqb_spec (kf_src g) (kf_src f)); cbn; auto. apply Z.ltb_lt; auto.
        + intros S. specialize (X g G). rewrite S, Z.eqb_refl in X. apply Z.ltb_lt. exact X. }
    rewrite E. destruct (forallb _ seen); reflexivity.
  - intros a q. rewrite is_new_lookup. destruct (Z.eqb_spec (kf_src f) a) as [Q|Q].
    + cbn [below]. rewrite <- Q. specialize (H (kf_src f)). destruct (lookup l (kf_src f)) as [m|] eqn:L; cbn [below] in H.
      * split.
        -- intros X g G S. apply in_app_or in G. destruct G as [G|[<-|[]]]; [|lia]. apply (proj1 (H q)); auto. lia.
        -- intros X. assert (kf_seq f < q) by (apply X; auto; apply in_or_app; right; left; auto).
           assert (m < q) by (apply H; intros; apply X; auto; apply in_or_app; auto). lia.
      * split.
        -- intros X g G S. apply in_app_or in G. destruct G as [G|[<-|[]]]; [|lia]. apply (proj1 (H q)); auto.
        -- intros X. apply X; auto. apply in_or_app; right; left; auto.
    + rewrite H. split; intros X g G S.
      * apply in_app_or in G. destruct G as [G|[<-|[]]]; [auto|congruence].
      * apply X; auto. apply in_or_app; auto.
Qed.
Lemma deliver_reach P c h s o : areach P c h s o -> kup_of o = fresh [] (filter (fun f => kf_type f =? T_DATA) (krcv_of h)).
Proof.
  intros R. destruct (filt_reach _ _ _ _ _ R) as [_ ->]. unfold decisions. apply fresh_ok.
  intros a q. cbn. split; auto. intros _ g [].
Qed.

(** ** Silence *)
Lemma mute_step c s ev : inv0 s -> pvalid s ev = true -> p_state s = PRx -> match ev with AERxEnd _ _ _ => False | _ => True end ->
  p_state (fst (pstep c s ev)) = PRx /\ ksnd_of (snd (pstep c s ev)) = [].
Proof.
  intros I V S E. pose proof I as (I1 & _).
  assert (A : p_air s = None) by (destruct (p_air s) eqn:A; auto; destruct (I1 _ eq_refl) as [X _]; congruence).
  assert (N : forall f t, p_state t = PRx -> p_state (trysend f t) = PRx /\ ksnd_of (sndif f t) = []).
  { intros f t T. unfold trysend, sndif, cansend. rewrite T. split; auto. }
  destruct (step_case c s ev I V); try (exfalso; exact E); try congruence; try (split; [exact S|reflexivity]).
  - split; reflexivity.
  - assert (T : p_state (pturn c s0) = PRx).
    { destruct (pturn_proj c s0) as (-> & _). destruct (toturn_proj _ _ _ _ H0) as (-> & _). exact S. }
    destruct (N (pcta c s0) (pturn c s0) T) as [-> N2]. split; auto.
  - unfold cansend in H2. rewrite S in H2. discriminate H2.
  - apply N. exact S.
  - apply N. exact S.
Qed.
Lemma mute_run c l : forall s, inv0 s -> p_state s = PRx -> pvalid_run c s l = true ->
  (forall f ok pw, ~ In (AERxEnd f ok pw) l) -> ksnd_of (snd (prun c s l)) = [].
Proof.
  induction l as [|ev l IH]; intros s I S V N; [reflexivity|]. cbn [pvalid_run] in V. apply andb_true_iff in V. destruct V as [V1 V2].
  destruct (mute_step c s ev I V1 S) as [M1 M2]. { destruct ev; auto. apply (N f ok pw). left; auto. }
  cbn [prun]. destruct (pstep c s ev) as [s1 o1] eqn:E1. cbn [fst snd] in *.
  assert (I' : inv0 s1). { replace s1 with (fst (pstep c s ev)) by (rewrite E1; auto). eapply inv0_step; eauto. apply step_case; auto. }
  specialize (IH s1 I' M1 V2). destruct (prun c s1 l) as [s2 o2]. cbn [snd] in *. rewrite ksnd_app, M2, IH; auto. intros f ok pw X. eapply N; right; eauto.
Qed.

(** A turn is announced if the AP is idle. *)
Lemma turn_said c s ev a : inv0 s -> pvalid s ev = true -> In (PTurn a) (snd (pstep c s ev)) -> p_state s = PIdle ->
  exists f, ksnd_of (snd (pstep c s ev)) = [f] /\ kf_type f = T_CTA /\ kf_dst f = bcast /\ (ac_ways c = 3 -> kf_sector f = wrap16 a).
Proof.
  intros I V T S. pose proof I as (I1 & _).
  assert (A : p_air s = None) by (destruct (p_air s) eqn:A; auto; destruct (I1 _ eq_refl) as [X _]; congruence).
  assert (N1 : forall f t, ~ In (PTurn a) (sndif f t)) by (intros f t; unfold sndif; destruct (cansend t); cbn; intuition discriminate).
  assert (N2 : forall f t, ~ In (PTurn a) (upif f t)) by (intros f t; unfold upif; destruct (fst _); cbn; intuition discriminate).
  revert T. destruct (step_case c s ev I V); cbn [In]; try (intros L; exfalso; first [exact L|exact (N1 _ _ L)|exact (N2 _ _ L)|destruct L as [L|L]; [discriminate L|first [exact L|exact (N1 _ _ L)|exact (N2 _ _ L)]]]; fail).
  intros [T|T]; [|exfalso; exact (N1 _ _ T)]. injection T as T.
  assert (C : cansend (pturn c s0) = true).
  { unfold cansend. destruct (pturn_proj c s0) as (-> & -> & _). destruct (toturn_proj _ _ _ _ H0) as (-> & -> & _).
    change (p_state (pset_timers ?x s)) with (p_state s). change (p_air (pset_timers ?x s)) with (p_air s). rewrite S, A. reflexivity. }
  unfold sndif. rewrite C. exists (pcta c s0). split; [reflexivity|]. split; [apply pcta_type|].
  unfold pcta, pturn in *. destruct (norm_angle (p_angle s0 + ac_bw c)) as [b k]. cbv zeta in *. destruct (ac_ways c =? 3) eqn:W.
  - split; [reflexivity|]. intros _. rewrite <- T. reflexivity.
  - split; [reflexivity|]. intros X. apply Z.eqb_neq in W. contradiction.
Qed.

(** ** Sectors *)
Lemma norm_ok a bw m : 0 < bw <= 360 -> 0 <= a <= 360 -> a mod 360 = (m * bw) mod 360 ->
  fst (norm_angle (a + bw)) = ((m + 1) * bw - 1) mod 360 + 1.
Proof.
  intros B A E. replace ((m + 1) * bw - 1) with (m * bw + (bw - 1)) by ring. rewrite Zplus_mod, <- E, <- Zplus_mod.
  unfold norm_angle. replace (a + bw <=? -360) with false by (symmetry; apply Z.leb_gt; lia).
  destruct (Z.gtb_spec (a + bw) 360); cbn [fst].
  - replace ((a + bw - 1) / 360) with 1 by (apply (Z.div_unique _ 360 1 (a + bw - 361)); lia).
    replace ((a + (bw - 1)) mod 360) with (a + bw - 361); [lia|]. apply (Z.mod_unique _ 360 1 (a + bw - 361)); lia.
  - rewrite Z.mod_small; lia.
Qed.
Lemma turns_app o o' : turns_of (o ++ o') = turns_of o ++ turns_of o'. Proof. apply flat_map_app. Qed.
Lemma pturn_angle c s : p_angle (pturn c s) = fst (norm_angle (p_angle s + ac_bw c)).
Proof. unfold pturn. destruct (norm_angle (p_angle s + ac_bw c)) as [a k]. cbv zeta. destruct (ac_ways c =? 3); reflexivity. Qed.
Lemma toturn_angle c s k s0 : toturn c s k s0 -> p_angle s0 = p_angle s.
Proof. intros T; destruct T; auto. destruct (p_sec s); reflexivity. Qed.
Lemma trysend_angle f s : p_angle (trysend f s) = p_angle s.
Proof. unfold trysend. destruct (cansend s); reflexivity. Qed.
Lemma angle_step c s ev s' o : pcase c s ev s' o ->
  (turns_of o = [] /\ p_angle s' = p_angle s) \/
  (turns_of o = [p_angle s'] /\ p_angle s' = fst (norm_angle (p_angle s + ac_bw c))).
Proof.
  intros C.
  assert (N : forall x t, turns_of (sndif x t) = []) by (intros x t; unfold sndif; destruct (cansend t); reflexivity).
  assert (N2 : forall x t, turns_of (upif x t) = []) by (intros x t; unfold upif; destruct (fst _); reflexivity).
  destruct C; try (left; split; reflexivity).
  - left. split; auto. destruct (p_dto s); reflexivity.
  - left. split; [apply N2|reflexivity].
  - left. split; [cbn; apply N2|]. destruct (p_sec s); reflexivity.
  - right. cbn [turns_of flat_map app]. change (flat_map _ (sndif (pcta c s0) (pturn c s0))) with (turns_of (sndif (pcta c s0) (pturn c s0))).
    rewrite N, trysend_angle, pturn_angle, (toturn_angle _ _ _ _ H0). split; reflexivity.
  - left. split; [apply N|]. rewrite trysend_angle. reflexivity.
  - left. split; [apply N|]. rewrite trysend_angle. reflexivity.
Qed.
Lemma angle_reach P c h s o : 0 < ac_bw c <= 360 -> areach P c h s o ->
  (0 <= p_angle s <= 360 /\ p_angle s mod 360 = (Z.of_nat (length (turns_of o)) * ac_bw c) mod 360) /\
  (forall k a, nth_error (turns_of o) k = Some a -> a = ((Z.of_nat k + 1) * ac_bw c - 1) mod 360 + 1).
Proof.
  intros B R. induction R as [|h s o ev R [[IH1 IH2] IH3] V HP].
  - cbn [turns_of flat_map length pinit p_angle]. split; [split; [lia|reflexivity]|]. intros [|k] a X; discriminate X.
  - pose proof (step_case c s ev (inv0_reach _ _ _ _ _ R) V) as C. apply angle_step in C. rewrite turns_app. destruct C as [[-> ->]|[-> E]].
    + rewrite app_nil_r. auto.
    + rewrite (norm_ok _ _ (Z.of_nat (length (turns_of o)))) in E by auto. rewrite E. clear E.
      split; [split|].
      * pose proof (Z.mod_pos_bound ((Z.of_nat (length (turns_of o)) + 1) * ac_bw c - 1) 360). lia.
      * rewrite app_length. cbn [length]. rewrite Nat2Z.inj_add. change (Z.of_nat 1) with 1. rewrite Zplus_mod_idemp_l. f_equal. lia.
      * intros k a X. destruct (Nat.lt_ge_cases k (length (turns_of o))).
        -- rewrite nth_error_app1 in X by auto. eauto.
        -- rewrite nth_error_app2 in X by auto. destruct (k - length (turns_of o))%nat as [|j] eqn:J; [|destruct j; discriminate X].
           injection X as <-. replace (Z.of_nat (length (turns_of o))) with (Z.of_nat k) by lia. reflexivity.
Qed.
