(** Numbers a client has to do with; origins of frames and reports; order of the reports. *)
From Coq Require Import ZArith List Lia Bool Permutation.
From Verif Require Import Base HeaderModel SeqModel EnergyModel MacModel MacSpec MacAcct MacResp ApModel ClientModel ClientSpec ClientCase ClientAcct ClientInv.
Import ListNotations.
Open Scope Z_scope.

(** [Q]: what is true of every packet for which an RTS or DATA is pending, and of every number for which a timeout,
    an acknowledgement or a report is pending. *)
Definition kind_ok (Q : Z -> Prop) (k : lkind) : Prop :=
  match k with
  | LKDummy _ | LKResult => True
  | LKRts p => Q (kf_seq p)
  | LKData p _ => Q (kf_seq p)
  | LKAck q => Q q
  | LKDone _ q => Q q
  end.
Record inplay (Q : Z -> Prop) (s : lst) : Prop := Inplay {
  ip_timers : forall t, In t (l_timers s) -> kind_ok Q (lt_kind t);
  ip_acks : forall x, In x (l_acks s) -> Q (fst x);
  ip_last : l_answered s = false -> Q (l_last s)
}.
Lemma inplay_mono (Q Q' : Z -> Prop) s : (forall q, Q q -> Q' q) -> inplay Q s -> inplay Q' s.
Proof.
  intros M [A B C]. split; auto. intros t T. specialize (A t T). destruct (lt_kind t); cbn in *; auto.
Qed.
(** It is enough that [Q] holds of the head of the records and of the numbers in CTS. *)
Lemma inplay_step Q c e s ev s' o : lcase c e s ev s' o -> inplay Q s ->
  (forall r t, l_rec s = r :: t -> Q (kf_seq (lr_pkt r))) ->
  (forall f r, ev = LERxEnd f true -> kf_type f = T_CTS -> kf_dst f = lc_addr c -> In r (l_rec s) -> kf_seq (lr_pkt r) = kf_seq f -> Q (kf_seq f)) ->
  inplay Q s'.
Proof.
  intros C [A B L] HD CT. split.
  - destruct (step_track _ _ _ _ _ _ C) as (K & N & E & KP & NW). rewrite E. intros t T. apply in_app_or in T. destruct T as [T|T].
    { apply A. eapply kept_in; eauto. }
    inversion NW; subst; cbn in T.
    + contradiction.
    + destruct T as [<-|[]]. cbn. auto.
    + apply in_app_or in T. destruct T as [T|T].
      * destruct H3 as [->|(u & r & -> & A1 & A2 & A3)]; [contradiction|]. destruct T as [<-|[]]. cbn. auto.
      * destruct H4 as [->|(u & r & y & -> & A1 & A2 & A3)]; [contradiction|]. destruct T as [<-|[]]. cbn. eauto.
    + destruct T as [<-|[]]. cbn. eauto.
    + apply cts_in in T. destruct T as [r [R1 [R2 [R3 _]]]]. rewrite R3. cbn. rewrite R2. eapply CT; eauto.
    + destruct T as [<-|[]]. cbn. apply (B _ H1).
    + destruct T as [<-|[]]. cbn. apply nth_error_In in H. specialize (A _ H). rewrite H0 in A. exact A.
    + destruct T as [<-|[]]. cbn. apply nth_error_In in H. specialize (A _ H). rewrite H0 in A. exact A.
    + rewrite (H1 _ T). cbn. auto.
  - intros x X. destruct (step_acks _ _ _ _ _ _ C x X) as [X'|(i & t & p & m & E1 & E2 & E3 & _ & ->)]; auto.
    apply nth_error_In in E2. specialize (A _ E2). rewrite E3 in A. exact A.
  - intros X. destruct (step_last _ _ _ _ _ _ C) as [[E1 E2]|(f & r & t & E1 & E2 & E3)]; [rewrite E1; auto|]. rewrite E3. eauto.
Qed.
Lemma inplay_init Q q0 : inplay Q (linit q0).
Proof. split; cbn; try (intros _ []). discriminate. Qed.

(** ** All numbers are those of accepted packets *)
Definition numbered (o : list lout) (q : Z) : Prop := exists p, In p (lacc_of o) /\ kf_seq p = q.
Lemma numbered_app o o' q : numbered o q -> numbered (o ++ o') q.
Proof. intros [p [P1 P2]]. exists p. split; auto. rewrite lacc_app. apply in_or_app. auto. Qed.
Lemma rec_acc c q0 s o r : lacct c q0 s o -> In r (l_rec s) -> In (lr_pkt r) (lacc_of o).
Proof. intros A R. eapply sub_in; [apply (la_sub _ _ _ _ A)|]. apply in_map. auto. Qed.

Lemma inplay_reach P c q0 h s o : 0 <= q0 < 65536 -> lreach P c q0 h s o -> inplay (numbered o) s.
Proof.
  intros U R. induction R as [|h s o e ev R IH V HP]; [apply inplay_init|].
  pose proof (lacct_reach _ _ _ _ _ _ U R) as A. pose proof (step_lcase c e s ev V) as C. set (s' := fst (lstep c e s ev)) in *. set (o' := snd (lstep c e s ev)) in *. clearbody s' o'.
  apply inplay_mono with (Q := numbered o); [intros; apply numbered_app; auto|].
  eapply inplay_step; eauto.
  - intros r t E. exists (lr_pkt r). split; auto. eapply rec_acc; eauto. rewrite E. left. auto.
  - intros f r _ _ _ R1 R2. exists (lr_pkt r). split; auto. eapply rec_acc; eauto.
Qed.

(** ** Packets pending are accepted packets *)
Definition pkts_ok (o : list lout) (s : lst) : Prop :=
  (forall t p, In t (l_timers s) -> lt_kind t = LKRts p -> In p (lacc_of o)) /\
  (forall t p m, In t (l_timers s) -> lt_kind t = LKData p m -> In p (lacc_of o)) /\
  (forall t f, In t (l_timers s) -> lt_kind t = LKDummy f -> kf_type f = T_RTS /\ kf_flags f = 1).
Lemma pkts_reach P c q0 h s o : 0 <= q0 < 65536 -> lreach P c q0 h s o -> pkts_ok o s.
Proof.
  intros U R. induction R as [|h s o e ev R IH V HP]; [repeat split; contradiction|].
  pose proof (lacct_reach _ _ _ _ _ _ U R) as A. pose proof (step_lcase c e s ev V) as C. set (s' := fst (lstep c e s ev)) in *. set (o' := snd (lstep c e s ev)) in *. clearbody s' o'.
  assert (RA : forall r, In r (l_rec s) -> In (lr_pkt r) (lacc_of (o ++ o'))).
  { intros r X. rewrite lacc_app. apply in_or_app. left. eapply rec_acc; eauto. }
  destruct (step_track _ _ _ _ _ _ C) as (K & N & E & KP & NW).
  destruct IH as (I1 & I2 & I3). unfold pkts_ok. rewrite E.
  assert (G : forall t, In t (K ++ N) -> In t (l_timers s) \/ In t N) by (intros t T; apply in_app_or in T; destruct T; auto; left; eapply kept_in; eauto).
  repeat split; intros.
  - apply G in H. destruct H as [H|H]; [rewrite lacc_app; apply in_or_app; left; eauto|].
    inversion NW; subst; cbn in H.
    + contradiction.
    + destruct H as [<-|[]]. discriminate.
    + apply in_app_or in H. destruct H as [H|H].
      * destruct H5 as [->|(u & r & -> & _)]; [contradiction|]. destruct H as [<-|[]]. discriminate.
      * destruct H6 as [->|(u & r & y & -> & A1 & _)]; [contradiction|]. destruct H as [<-|[]]. injection H0 as <-. apply RA. rewrite A1. left. auto.
    + destruct H as [<-|[]]. discriminate.
    + apply cts_in in H. destruct H as [r [_ [_ [R3 _]]]]. congruence.
    + destruct H as [<-|[]]. discriminate.
    + destruct H as [<-|[]]. discriminate.
    + destruct H as [<-|[]]. discriminate.
    + rewrite (H3 _ H) in H0. discriminate.
  - apply G in H. destruct H as [H|H]; [rewrite lacc_app; apply in_or_app; left; eauto|].
    inversion NW; subst; cbn in H.
    + contradiction.
    + destruct H as [<-|[]]. discriminate.
    + apply in_app_or in H. destruct H as [H|H].
      * destruct H5 as [->|(u & r & -> & _)]; [contradiction|]. destruct H as [<-|[]]. discriminate.
      * destruct H6 as [->|(u & r & y & -> & A1 & _)]; [contradiction|]. destruct H as [<-|[]]. discriminate.
    + destruct H as [<-|[]]. injection H0 as <- <-. apply RA. rewrite H3. left. auto.
    + apply cts_in in H. destruct H as [r [R1 [_ [R3 _]]]]. assert (p = lr_pkt r) as -> by congruence. auto.
    + destruct H as [<-|[]]. discriminate.
    + destruct H as [<-|[]]. discriminate.
    + destruct H as [<-|[]]. discriminate.
    + rewrite (H3 _ H) in H0. discriminate.
  - apply G in H. destruct H as [H|H]; [eapply I3; eauto|].
    inversion NW; subst; cbn in H.
    + contradiction.
    + destruct H as [<-|[]]. injection H0 as <-. auto.
    + apply in_app_or in H. destruct H as [H|H].
      * destruct H5 as [->|(u & r & -> & _)]; [contradiction|]. destruct H as [<-|[]]. discriminate.
      * destruct H6 as [->|(u & r & y & -> & A1 & _)]; [contradiction|]. destruct H as [<-|[]]. discriminate.
    + destruct H as [<-|[]]. discriminate.
    + apply cts_in in H. destruct H as [r [R1 [_ [R3 _]]]]. congruence.
    + destruct H as [<-|[]]. discriminate.
    + destruct H as [<-|[]]. discriminate.
    + destruct H as [<-|[]]. discriminate.
    + rewrite (H3 _ H) in H0. discriminate.
  - apply G in H. destruct H as [H|H]; [eapply I3; eauto|].
    inversion NW; subst; cbn in H.
    + contradiction.
    + destruct H as [<-|[]]. injection H0 as <-. auto.
    + apply in_app_or in H. destruct H as [H|H].
      * destruct H5 as [->|(u & r & -> & _)]; [contradiction|]. destruct H as [<-|[]]. discriminate.
      * destruct H6 as [->|(u & r & y & -> & A1 & _)]; [contradiction|]. destruct H as [<-|[]]. discriminate.
    + destruct H as [<-|[]]. discriminate.
    + apply cts_in in H. destruct H as [r [R1 [_ [R3 _]]]]. congruence.
    + destruct H as [<-|[]]. discriminate.
    + destruct H as [<-|[]]. discriminate.
    + destruct H as [<-|[]]. discriminate.
    + rewrite (H3 _ H) in H0. discriminate.
Qed.

(** Every frame sent is an accepted packet, an RTS for one, or an answer to a dummy CTA. *)
Definition frame_ok (c : lcfg) (o : list lout) (f : kframe) : Prop :=
  kf_type f = T_DATA /\ In f (lacc_of o) /\ kf_dst f <> bcast \/
  kf_type f = T_RTS /\ kf_flags f = 0 /\ kf_src f = lc_addr c /\ (exists p, In p (lacc_of o) /\ kf_seq f = kf_seq p /\ kf_dst f = kf_dst p) \/
  kf_type f = T_RTS /\ kf_flags f = 1.
Lemma frame_ok_app c o o' f : frame_ok c o f -> frame_ok c (o ++ o') f.
Proof.
  unfold frame_ok. rewrite lacc_app. intros [(A & B & C)|[(A & B & C & p & D & E)|A]]; auto.
  - left. repeat split; auto. apply in_or_app; auto.
  - right. left. repeat split; auto. exists p. split; auto. apply in_or_app; auto.
Qed.
Lemma frames_reach P c q0 h s o : 0 <= q0 < 65536 -> lreach P c q0 h s o -> forall f, In f (lsnd_of o) -> frame_ok c o f.
Proof.
  intros U R. induction R as [|h s o e ev R IH V HP]; [intros f []|].
  intros f F. rewrite lsnd_app in F. apply in_app_or in F. destruct F as [F|F]; [apply frame_ok_app; auto|].
  apply frame_ok_app. pose proof (step_lcase c e s ev V) as C. apply in_lsnd in F. destruct F as [m F].
  destruct (pkts_reach _ _ _ _ _ _ U R) as (I1 & I2 & I3). pose proof (lacct_reach _ _ _ _ _ _ U R) as A.
  destruct (step_snd _ _ _ _ _ _ _ _ C F) as (i & t & E1 & E2 & _ & _ & [[K _]|[[p [K [K2 _]]]|[K K2]]]); apply nth_error_In in E2.
  - right. right. eapply I3; eauto.
  - right. left. subst f. cbn. repeat split; auto. exists p. repeat split; auto. eapply I1; eauto.
  - left. specialize (I2 _ _ _ E2 K). repeat split; auto. apply (la_form _ _ _ _ A _ I2).
Qed.

(** ** Acknowledged packets *)
(** DATA with number [q] was sent, and then an acknowledgement of it for this node received. *)
Definition was_acked (c : lcfg) (q0 : Z) (h : list (lenv * levent)) (q : Z) : Prop :=
  exists h1 e f h2, h = h1 ++ (e, LERxEnd f true) :: h2 /\ kf_type f = T_ACK /\ kf_dst f = lc_addr c /\ kf_seq f = q /\
    exists p, In p (lsnd_of (snd (lrun c (linit q0) h1))) /\ kf_type p = T_DATA /\ kf_seq p = q.
Lemma lrun_app c : forall h1 s h2, lrun c s (h1 ++ h2) =
  let '(s1, o1) := lrun c s h1 in let '(s2, o2) := lrun c s1 h2 in (s2, o1 ++ o2).
Proof.
  induction h1 as [|[e ev] h1 IH]; intros s h2; cbn.
  - destruct (lrun c s h2); auto.
  - destruct (lstep c e s ev) as [s1 o1]. rewrite IH. destruct (lrun c s1 h1) as [s2 o2]. destruct (lrun c s2 h2) as [s3 o3]. rewrite app_assoc. auto.
Qed.
Lemma lreach_run P c q0 h s o : lreach P c q0 h s o -> lrun c (linit q0) h = (s, o).
Proof.
  induction 1 as [|h s o e ev R IH V HP]; auto. rewrite lrun_app, IH. cbn. destruct (lstep c e s ev) as [s1 o1]. cbn. rewrite app_nil_r. auto.
Qed.
Definition data_out (o : list lout) (q : Z) : Prop := exists p, In p (lsnd_of o) /\ kf_type p = T_DATA /\ kf_seq p = q.
Lemma data_out_app o o' q : data_out o q -> data_out (o ++ o') q.
Proof. intros (p & A & B). exists p. rewrite lsnd_app. split; auto. apply in_or_app. auto. Qed.
Lemma acked_snoc c q0 h x q : was_acked c q0 h q -> was_acked c q0 (h ++ [x]) q.
Proof. intros (h1 & e & f & h2 & E & F). exists h1, e, f, (h2 ++ [x]). rewrite E, <- app_assoc. auto. Qed.
Lemma acks_reach P c q0 h s o : 0 <= q0 < 65536 -> lreach P c q0 h s o ->
  (forall x, In x (l_acks s) -> data_out o (fst x)) /\
  (forall t q, In t (l_timers s) -> lt_kind t = LKAck q -> data_out o q) /\
  (forall t q, In t (l_timers s) -> lt_kind t = LKDone true q -> was_acked c q0 h q) /\
  (forall p, In p (lrep_of true o) -> was_acked c q0 h (kf_seq p)).
Proof.
  intros U R. induction R as [|h s o e ev R IH V HP]; [repeat split; contradiction|].
  destruct IH as (I1 & I2 & I3 & I4). pose proof (step_lcase c e s ev V) as C. set (s' := fst (lstep c e s ev)) in *. set (o' := snd (lstep c e s ev)) in *. clearbody s' o'.
  destruct (pkts_reach _ _ _ _ _ _ U R) as (J1 & J2 & J3). pose proof (lacct_reach _ _ _ _ _ _ U R) as A.
  destruct (step_track _ _ _ _ _ _ C) as (K & N & E & KP & NW). rewrite E.
  assert (G : forall t, In t (K ++ N) -> In t (l_timers s) \/ In t N) by (intros t T; apply in_app_or in T; destruct T; auto; left; eapply kept_in; eauto).
  repeat split.
  - intros x X. destruct (step_acks _ _ _ _ _ _ C x X) as [X'|(i & t & p & m & E1 & E2 & E3 & E4 & ->)]; [apply data_out_app; auto|].
    exists p. rewrite lsnd_app. split; [apply in_or_app; right; apply in_lsnd; eauto|]. split; auto.
    apply (la_form _ _ _ _ A p). eapply J2; eauto. eapply nth_error_In; eauto.
  - intros t q T KQ. apply G in T. destruct T as [T|T]; [apply data_out_app; eauto|].
    inversion NW; subst; cbn in T.
    + contradiction.
    + destruct T as [<-|[]]. discriminate.
    + apply in_app_or in T. destruct T as [T|T].
      * destruct H3 as [->|(u & r & -> & _)]; [contradiction|]. destruct T as [<-|[]]. discriminate.
      * destruct H4 as [->|(u & r & y & -> & A1 & _)]; [contradiction|]. destruct T as [<-|[]]. discriminate.
    + destruct T as [<-|[]]. discriminate.
    + apply cts_in in T. destruct T as [r [R1 [_ [R3 _]]]]. congruence.
    + destruct T as [<-|[]]. discriminate.
    + destruct T as [<-|[]]. injection KQ as <-. exists p. rewrite lsnd_app. split; [apply in_or_app; right; left; auto|]. split; auto.
      apply (la_form _ _ _ _ A p). eapply J2; eauto. eapply nth_error_In; eauto.
    + destruct T as [<-|[]]. discriminate.
    + rewrite (H1 _ T) in KQ. discriminate.
  - intros t q T KQ. apply G in T. destruct T as [T|T]; [apply acked_snoc; eauto|].
    inversion NW; subst; cbn in T.
    + contradiction.
    + destruct T as [<-|[]]. discriminate.
    + apply in_app_or in T. destruct T as [T|T].
      * destruct H3 as [->|(u & r & -> & _)]; [contradiction|]. destruct T as [<-|[]]. discriminate.
      * destruct H4 as [->|(u & r & y & -> & A1 & _)]; [contradiction|]. destruct T as [<-|[]]. discriminate.
    + destruct T as [<-|[]]. discriminate.
    + apply cts_in in T. destruct T as [r [R1 [_ [R3 _]]]]. congruence.
    + destruct T as [<-|[]]. injection KQ as <-. exists h, e, f, []. repeat split; auto.
      rewrite (lreach_run _ _ _ _ _ _ R). cbn [snd]. apply (I1 _ H1).
    + destruct T as [<-|[]]. discriminate.
    + destruct T as [<-|[]]. discriminate.
    + rewrite (H1 _ T) in KQ. discriminate.
  - intros p X. rewrite lrep_app in X. apply in_app_or in X. destruct X as [X|X]; [apply acked_snoc; auto|].
    apply in_lrep in X. destruct (step_rep _ _ _ _ _ _ _ _ C X) as (i & t & E2 & E3 & _). apply acked_snoc.
    eapply I3; eauto. eapply nth_error_In; eauto.
Qed.
