(** The order in which a client settles its packets. *)
From Coq Require Import ZArith List Lia Bool Permutation.
From Verif Require Import Base HeaderModel SeqModel EnergyModel MacModel MacSpec MacAcct MacResp ApModel ClientModel ClientSpec ClientCase ClientAcct ClientInv ClientFifo.
Import ListNotations.
Open Scope Z_scope.

(** Packets reported, in this order. *)
Definition lrep_all (o : list lout) : list kframe := flat_map (fun x => match x with LRep _ p => [p] | _ => [] end) o.
(** Every CTS received for the client with the number of a packet it took has the number of an RTS it has sent before. *)
Definition cts_own (c : lcfg) (q0 : Z) (h : list (lenv * levent)) : Prop :=
  forall h1 e f h2, h = h1 ++ (e, LERxEnd f true) :: h2 -> kf_type f = T_CTS -> kf_dst f = lc_addr c ->
  forall p, In p (lacc_of (snd (lrun c (linit q0) h1))) -> kf_seq p = kf_seq f ->
  exists g, In g (lsnd_of (snd (lrun c (linit q0) h1))) /\ kf_type g = T_RTS /\ kf_flags g = 0 /\ kf_seq g = kf_seq f.

Lemma lrepall_app a b : lrep_all (a ++ b) = lrep_all a ++ lrep_all b.
Proof. apply flat_map_app. Qed.
Lemma nodup_seqs c q0 s o : lacct c q0 s o -> Z.of_nat (length (lacc_of o)) <= 65536 -> NoDup (map kf_seq (lacc_of o)).
Proof.
  intros A L. apply NoDup_nth_error. intros i j I E. rewrite map_length in I. rewrite !nth_error_map in E.
  destruct (nth_error (lacc_of o) i) as [p|] eqn:P; [|apply nth_error_None in P; lia].
  destruct (nth_error (lacc_of o) j) as [p'|] eqn:P'; [|discriminate]. cbn in E. injection E as E.
  assert (J : (j < length (lacc_of o))%nat) by (apply nth_error_Some; congruence).
  pose proof (la_num _ _ _ _ A i p P). pose proof (la_num _ _ _ _ A j p' P').
  assert (Z.of_nat i = Z.of_nat j) by (apply (wrap16_inj (q0 + 1)); try lia; unfold wrap16; change (2 ^ 16) with 65536; congruence).
  lia.
Qed.
Lemma sub_nodup {A} (l l' : list A) : sublist l l' -> NoDup l' -> NoDup l.
Proof.
  induction 1 as [l|x l l' S IH|x l l' S IH]; intros N; [constructor| |]; inversion N; subst; auto.
  constructor; auto. intros I. apply H1. eapply sub_in; eauto.
Qed.
Lemma sub_tl {A} (l l' : list A) : sublist l l' -> forall x, In x (tl l) -> In x (tl l').
Proof.
  induction 1 as [l|x l l' S IH|x l l' S IH]; intros y Y; [contradiction| |]; cbn in *; [eapply sub_in; eauto|].
  eapply sub_in; eauto. destruct l; [contradiction|right; auto].
Qed.
Lemma nodup_rec c q0 s o : lacct c q0 s o -> Z.of_nat (length (lacc_of o)) <= 65536 -> NoDup (map kf_seq (map lr_pkt (l_rec s))).
Proof. intros A L. eapply sub_nodup; [apply sub_map; apply (la_sub _ _ _ _ A)|]. eapply nodup_seqs; eauto. Qed.

Lemma ldone_head ok sq qu l l' q' d k em ub : (forall r, In r (tl l) -> kf_seq (lr_pkt r) <> sq) ->
  ldone_loop ok sq qu l = (l', q', d, k, em, ub) -> d ++ map lr_pkt l' = map lr_pkt l.
Proof.
  assert (NF : forall qu l l' q' d k em ub, (forall r, In r l -> kf_seq (lr_pkt r) <> sq) -> ldone_loop ok sq qu l = (l', q', d, k, em, ub) -> d = [] /\ l' = l).
  { intros qu0 l0 l0' q0' d0 k0 em0 ub0 F E.
    destruct (ldone_spec ok sq (length l0) _ _ _ _ _ _ _ _ (le_n _) E) as (_ & _ & _ & _ & B5 & B6 & _ & _ & B9).
    assert (k0 = 0). { destruct (Z.eq_dec k0 0); auto. apply B9 in n. destruct n as [r [R1 R2]]. exfalso. eapply F; eauto. }
    destruct (B6 H) as (-> & _ & ->). auto. }
  intros T E. destruct l as [|r t]. { cbn in E. injection E as <- <- <- <- <- <-. auto. }
  cbn [tl] in T. cbn [ldone_loop] in E. destruct (kf_seq (lr_pkt r) =? sq).
  - assert (C : (ok = true /\ qu = []) \/ match ok, qu with true, [] => False | _, _ => True end) by (destruct ok, qu; auto).
    destruct C as [[-> ->]|C].
    { injection E as <- <- <- <- <- <-. auto. }
    set (q1 := if ok then kremove (lr_pkt r) qu else qu) in *.
    assert (E' : match t with [] => ([], q1, [lr_pkt r], 1, false, true)
      | n0 :: t' => let '(l'0, q2, d0, k0, em0, ub0) := ldone_loop ok sq q1 t' in (n0 :: l'0, q2, lr_pkt r :: d0, k0 + 1, em0, ub0) end
      = (l', q', d, k, em, ub)) by (unfold q1; destruct ok, qu; try contradiction; exact E).
    clear E. destruct t as [|n0 t'].
    { injection E' as <- <- <- <- <- <-. auto. }
    destruct (ldone_loop ok sq q1 t') as [[[[[l0 q2] d0] k0] em0] ub0] eqn:D. injection E' as <- <- <- <- <- <-.
    destruct (NF _ _ _ _ _ _ _ _ (fun r R => T r (or_intror R)) D) as [-> ->]. auto.
  - destruct (ldone_loop ok sq qu t) as [[[[[l0 q2] d0] k0] em0] ub0] eqn:D. injection E as <- <- <- <- <- <-.
    destruct (NF _ _ _ _ _ _ _ _ T D) as [-> ->]. auto.
Qed.

(** A number of an accepted packet that is not behind another one. *)
Definition first (o : list lout) (s : lst) (q : Z) : Prop := numbered o q /\ forall p, In p (tl (map lr_pkt (l_rec s))) -> kf_seq p <> q.
Lemma tl_map {A B} (f : A -> B) l : tl (map f l) = map f (tl l).
Proof. destruct l; auto. Qed.

Lemma first_step c q0 s o s' o' q : lacct c q0 s o -> lacct c q0 s' (o ++ o') -> Z.of_nat (length (lacc_of (o ++ o'))) <= 65536 ->
  lview c s s' o' -> first o s q -> first (o ++ o') s' q.
Proof.
  intros A A' L V [N F]. split; [apply numbered_app; auto|]. destruct V.
  - rewrite H0. auto.
  - assert (R : l_rec s' = l_rec s ++ [Lrec (the_data c size dst s) 0 0]) by (subst s'; dl s; reflexivity).
    assert (O : lacc_of (o ++ o') = lacc_of o ++ [the_data c size dst s]) by (rewrite lacc_app; subst o'; reflexivity).
    intros p P. rewrite R, map_app in P. cbn [map lr_pkt] in P.
    assert (X : In p (tl (map lr_pkt (l_rec s))) \/ p = the_data c size dst s).
    { destruct (map lr_pkt (l_rec s)) as [|x y]; [contradiction|]. cbn in P. apply in_app_or in P. destruct P as [P|[P|[]]]; auto. }
    destruct X as [X| ->]; auto. intros E. destruct N as [p' [N1 N2]].
    assert (Y : the_data c size dst s = p').
    { eapply lunique; eauto; try (rewrite O; apply in_or_app; auto; right; left; auto). congruence. }
    apply (la_bound _ _ _ _ A) in N1. rewrite <- Y in N1. cbn in N1. lia.
  - pose proof (ldone_sub ok sq (length (l_rec s)) _ _ _ _ _ _ _ _ (le_n _) H1) as S.
    intros p P. apply F. eapply sub_tl; [|exact P]. rewrite H3. apply sub_map. auto.
Qed.

Lemma order_reach P c q0 h s o : 0 <= q0 < 65536 -> lreach P c q0 h s o -> Z.of_nat (length (lacc_of o)) <= 65536 -> cts_own c q0 h ->
  inplay (first o s) s /\
  (forall g, In g (lsnd_of o) -> kf_type g = T_RTS -> kf_flags g = 0 -> first o s (kf_seq g)) /\
  (forall g, In g (lsnd_of o) -> kf_type g = T_DATA -> first o s (kf_seq g)) /\
  lrep_all o ++ map lr_pkt (l_rec s) = lacc_of o.
Proof.
  intros U R. induction R as [|h s o e ev R IH V HP]; intros L W.
  { split; [apply inplay_init|]. split; [intros g []|]. split; [intros g []|reflexivity]. }
  pose proof (lacct_reach _ _ _ _ _ _ U R) as A. pose proof (lacct_reach _ _ _ _ _ _ U (LR1 _ _ _ _ _ _ e ev R V HP)) as A'.
  pose proof (step_lcase c e s ev V) as C. set (s' := fst (lstep c e s ev)) in *. set (o' := snd (lstep c e s ev)) in *. clearbody s' o'.
  assert (L0 : Z.of_nat (length (lacc_of o)) <= 65536) by (rewrite lacc_app, app_length in L; lia).
  destruct IH as (I1 & I2 & I2' & I3); auto.
  { intros h1 e1 f h2 E. apply (W h1 e1 f (h2 ++ [(e, ev)])). rewrite E, <- app_assoc. reflexivity. }
  pose proof (step_view _ _ _ _ _ _ C) as VW.
  assert (M : forall q, first o s q -> first (o ++ o') s' q) by (intros; eapply first_step; eauto).
  assert (HD : forall r t, l_rec s = r :: t -> first o s (kf_seq (lr_pkt r))).
  { intros r t E. pose proof (nodup_rec _ _ _ _ A L0) as N. rewrite E in N. cbn in N. inversion N; subst. split.
    - exists (lr_pkt r). split; auto. eapply rec_acc; eauto. rewrite E. left. auto.
    - rewrite E. cbn. intros p PP X. apply H1. rewrite <- X. apply in_map. auto. }
  assert (I1' : inplay (first o s) s').
  { eapply inplay_step; eauto. intros f r -> T D R1 R2. destruct (W h e f [] eq_refl T D (lr_pkt r)) as (g & G1 & G2 & G3 & G4); auto.
    { rewrite (lreach_run _ _ _ _ _ _ R). cbn [snd]. eapply rec_acc; eauto. }
    rewrite (lreach_run _ _ _ _ _ _ R) in G1. rewrite <- G4. auto. }
  split; [|split; [|split]].
  - eapply inplay_mono; [|exact I1']. auto.
  - intros g G T F. rewrite lsnd_app in G. apply in_app_or in G. destruct G as [G|G]; auto.
    apply M. apply in_lsnd in G. destruct G as [m G].
    destruct (step_snd _ _ _ _ _ _ _ _ C G) as (i & t & E1 & E2 & _ & _ & [[K _]|[[p [K [K2 _]]]|[K K2]]]); apply nth_error_In in E2.
    + destruct (pkts_reach _ _ _ _ _ _ U R) as (_ & _ & J3). destruct (J3 _ _ E2 K). congruence.
    + subst g. cbn. pose proof (ip_timers _ _ I1 _ E2) as X. rewrite K in X. exact X.
    + destruct (pkts_reach _ _ _ _ _ _ U R) as (_ & J2 & _). pose proof (la_form _ _ _ _ A _ (J2 _ _ _ E2 K)) as [X _]. rewrite X in T. discriminate.
  - intros g G T. rewrite lsnd_app in G. apply in_app_or in G. destruct G as [G|G]; auto.
    apply M. apply in_lsnd in G. destruct G as [m G].
    destruct (step_snd _ _ _ _ _ _ _ _ C G) as (i & t & E1 & E2 & _ & _ & [[K _]|[[p [K [K2 _]]]|[K K2]]]); apply nth_error_In in E2.
    + destruct (pkts_reach _ _ _ _ _ _ U R) as (_ & _ & J3). destruct (J3 _ _ E2 K) as [X _]. rewrite X in T. discriminate.
    + subst g. discriminate.
    + pose proof (ip_timers _ _ I1 _ E2) as X. rewrite K in X. exact X.
  - rewrite lrepall_app, lacc_app. destruct VW.
    + destruct H as (S1 & S2 & S3). assert (X : lrep_all o' = []).
      { clear - S2 S3. induction o' as [|x o' IHo]; auto. cbn. cbn in S2, S3. destruct x as [| | |[|] p| | |]; cbn in *; try discriminate; apply IHo; auto. }
      rewrite X, S1, !app_nil_r, H0. auto.
    + subst o' s'. cbn [lrep_all flat_map lacc_of app]. rewrite app_nil_r.
      replace (l_rec (lset_ids _ _)) with (l_rec s ++ [Lrec (the_data c size dst s) 0 0]) by (dl s; reflexivity).
      rewrite map_app. cbn [map lr_pkt]. rewrite app_assoc, I3. reflexivity.
    + assert (Q : first o s sq). { apply nth_error_In in H. pose proof (ip_timers _ _ I1 _ H) as X. rewrite H0 in X. exact X. }
      assert (D : d ++ map lr_pkt l = map lr_pkt (l_rec s)).
      { eapply ldone_head; [|exact H1]. destruct Q as [_ Q]. intros r R1. apply Q. rewrite tl_map. apply in_map. auto. }
      assert (X : lrep_all o' = d /\ lacc_of o' = []).
      { subst o'. rewrite lrepall_app, lacc_app. split.
        - assert (Y : lrep_all (if ub then [LUb] else []) = []) by (destruct ub; auto). rewrite Y, app_nil_r. clear. induction d; auto. cbn. f_equal. auto.
        - assert (Y : lacc_of (if ub then [LUb] else []) = []) by (destruct ub; auto). rewrite Y, app_nil_r. clear. induction d; auto. }
      destruct X as [-> ->]. rewrite app_nil_r, H3, <- app_assoc, D. auto.
Qed.

(** Answers to CTA with flags 1 carry the address of the client. *)
Lemma dummy_src P c q0 h s o : 0 <= q0 < 65536 -> lreach P c q0 h s o ->
  (forall t f, In t (l_timers s) -> lt_kind t = LKDummy f -> kf_src f = lc_addr c) /\
  (forall f, In f (lsnd_of o) -> kf_type f = T_RTS -> kf_src f = lc_addr c).
Proof.
  intros U R. induction R as [|h s o e ev R IH V HP]; [split; [intros t f []|intros f []]|].
  pose proof (step_lcase c e s ev V) as C. set (s' := fst (lstep c e s ev)) in *. set (o' := snd (lstep c e s ev)) in *. clearbody s' o'.
  destruct (step_track _ _ _ _ _ _ C) as (K & N & E & KP & NW). destruct IH as [I1 I2]. rewrite E.
  assert (G : forall t, In t (K ++ N) -> In t (l_timers s) \/ In t N) by (intros t T; apply in_app_or in T; destruct T; auto; left; eapply kept_in; eauto).
  split.
  - intros t f H H0. apply G in H. destruct H as [H|H]; [eauto|].
    inversion NW; subst; cbn in H.
    + contradiction.
    + destruct H as [<-|[]]. cbn [lt_kind] in H0. congruence || (injection H0 as <-; reflexivity).
    + apply in_app_or in H. destruct H as [H|H].
      * destruct H5 as [->|(u & r & -> & _)]; [contradiction|]. destruct H as [<-|[]]. discriminate.
      * destruct H6 as [->|(u & r & y & -> & A1 & _)]; [contradiction|]. destruct H as [<-|[]]. discriminate.
    + destruct H as [<-|[]]. cbn [lt_kind] in H0. congruence || (injection H0 as <-; reflexivity).
    + apply cts_in in H. destruct H as [r [_ [_ [R3 _]]]]. congruence.
    + destruct H as [<-|[]]. discriminate.
    + destruct H as [<-|[]]. discriminate.
    + destruct H as [<-|[]]. discriminate.
    + rewrite (H3 _ H) in H0. discriminate.
  - intros f F T. rewrite lsnd_app in F. apply in_app_or in F. destruct F as [F|F]; auto. apply in_lsnd in F. destruct F as [m F].
    destruct (step_snd _ _ _ _ _ _ _ _ C F) as (i & t & E1 & E2 & _ & _ & [[KK _]|[[p [KK [K2 _]]]|[KK K2]]]); apply nth_error_In in E2.
    + eauto.
    + subst f. reflexivity.
    + destruct (pkts_reach _ _ _ _ _ _ U R) as (_ & J2 & _). pose proof (la_form _ _ _ _ (lacct_reach _ _ _ _ _ _ U R) _ (J2 _ _ _ E2 KK)) as [X _]. rewrite X in T. discriminate.
Qed.
