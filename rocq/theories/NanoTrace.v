(** Facts about whole traces of one nano MAC (C15, C18, C22-C26). *)
From Coq Require Import ZArith List Lia Bool Sorting.Sorted Sorting.Permutation.
From Verif Require Import Base HeaderModel SeqModel EnergyModel NanoModel NanoProofs NanoSpec NanoOut
  NanoRetry NanoOrder.
Import ListNotations.
Open Scope Z_scope.

(** ** Splitting runs *)

Lemma run_app c l1 : forall s l2,
  run c s (l1 ++ l2) = (fst (run c (fst (run c s l1)) l2),
                        snd (run c s l1) ++ snd (run c (fst (run c s l1)) l2)).
Proof.
  induction l1 as [|e l1 IH]; intros s l2.
  - cbn. destruct (run c s l2); reflexivity.
  - cbn [app]. rewrite !run_cons, IH. cbn [fst snd]. rewrite app_assoc. reflexivity.
Qed.

Lemma app_split {A} (a b : list A) : forall x o y, a ++ b = x ++ o :: y ->
  (exists r, a = x ++ o :: r /\ y = r ++ b) \/ (exists r, x = a ++ r /\ b = r ++ o :: y).
Proof.
  induction a as [|z a IH]; intros x o y H; cbn in H.
  - right. exists x. auto.
  - destruct x as [|w x]; cbn in H; injection H as -> H.
    + left. exists a. auto.
    + destruct (IH x o y H) as [[r [-> ->]]|[r [-> ->]]]; [left|right]; exists r; auto.
Qed.

Lemma run_split c l : forall s x o y, snd (run c s l) = x ++ o :: y ->
  exists l1 e l2 u v, l = l1 ++ e :: l2 /\ x = snd (run c s l1) ++ u /\
    snd (step c (fst (run c s l1)) e) = u ++ o :: v /\
    y = v ++ snd (run c (fst (step c (fst (run c s l1)) e)) l2).
Proof.
  induction l as [|e l IH]; intros s x o y H.
  - destruct x; discriminate.
  - rewrite run_cons in H. cbn [snd] in H. apply app_split in H. destruct H as [[r [H ->]]|[r [-> H]]].
    + exists [], e, l, x, r. repeat split; auto.
    + destruct (IH _ _ _ _ H) as [l1 [e' [l2 [u [v [-> [-> [S ->]]]]]]]].
      exists (e :: l1), e', l2, u, v. rewrite !run_cons. cbn [fst snd]. rewrite app_assoc. auto.
Qed.

Lemma genuine_app c l1 : forall s tr l2, genuine c s tr (l1 ++ l2) <->
  genuine c s tr l1 /\ genuine c (fst (run c s l1)) (tr ++ snd (run c s l1)) l2.
Proof.
  induction l1 as [|e l1 IH]; intros s tr l2.
  - cbn. rewrite app_nil_r. tauto.
  - cbn [app genuine]. rewrite IH, run_cons. cbn [fst snd]. rewrite app_assoc. tauto.
Qed.

Lemma answered_honest c s tr e : K c s tr -> answered c tr e -> honest c tr e.
Proof.
  intros H A. destruct e; auto. destruct ok; auto. cbn in *. intros T D.
  destruct (A T D) as [g [G [GT [GS [GD GQ]]]]].
  destruct (k_sent _ _ _ _ _ (proj2 (proj2 H)) _ G) as [_ X].
  destruct (X GT) as [p [E _]]. rewrite E in *. cbn in GD, GQ. rewrite <- GD, <- GQ. auto.
Qed.

Lemma K_run c l : forall s tr, config_ok c -> K c s tr -> genuine c s tr l ->
  s_ids (fst (run c s l)) <= 65535 -> K c (fst (run c s l)) (tr ++ snd (run c s l)).
Proof.
  induction l as [|e l IH]; intros s tr C H G B.
  - cbn. rewrite app_nil_r. exact H.
  - rewrite run_cons in *. cbn [fst snd genuine] in *. destruct G as [G1 G2]. rewrite app_assoc.
    apply IH; auto. apply K_step; auto.
    + eapply answered_honest; eauto.
    + pose proof (ids_mono c l (fst (step c s e))). lia.
Qed.

(** ** Accounting *)

Lemma accepted_in p tr : In p (accepted_pkts tr) <-> acc p tr.
Proof.
  unfold accepted_pkts, acc. rewrite in_flat_map. split.
  - intros [o [O P]]. destruct o; cbn in P; try tauto. destruct P as [->|[]]. auto.
  - intros H. exists (OAccept p). split; auto. left; auto.
Qed.

Lemma accepted_app a b : accepted_pkts (a ++ b) = accepted_pkts a ++ accepted_pkts b.
Proof. apply flat_map_app. Qed.

Lemma accepted_bodies tr : map f_body (accepted_pkts tr) = acc_bodies tr.
Proof.
  unfold accepted_pkts, acc_bodies. induction tr as [|o tr IH]; [reflexivity|].
  cbn. rewrite map_app, IH. destruct o; reflexivity.
Qed.

Lemma accepted_count tr : Z.of_nat (length (accepted_pkts tr)) = count is_accept tr.
Proof.
  unfold accepted_pkts, count. induction tr as [|o tr IH]; [reflexivity|].
  cbn. rewrite app_length. destruct o; cbn; lia.
Qed.

Lemma reported_in ok p tr : In p (reported ok tr) <-> In (ODone ok p) tr.
Proof.
  unfold reported. rewrite in_flat_map. split.
  - intros [o [O P]]. destruct o; cbn in P; try tauto.
    destruct (Bool.eqb ok0 ok) eqn:E; [|destruct P]. destruct P as [->|[]].
    apply Bool.eqb_prop in E. subst. auto.
  - intros H. exists (ODone ok p). split; auto. rewrite Bool.eqb_reflx. left; auto.
Qed.

Lemma reported_count ok tr : Z.of_nat (length (reported ok tr)) = count (is_done ok) tr.
Proof.
  unfold reported, count. induction tr as [|o tr IH]; [reflexivity|].
  cbn. rewrite app_length. destruct o; cbn; try lia. destruct (Bool.eqb ok0 ok); cbn; lia.
Qed.

Lemma reported_bodies tr :
  Permutation (map f_body (reported true tr ++ reported false tr)) (done_bodies tr).
Proof.
  unfold reported, done_bodies. induction tr as [|o tr IH]; [constructor|]. cbn.
  destruct o; auto. destruct ok; cbn.
  - constructor. exact IH.
  - rewrite map_app in *. cbn. etransitivity; [symmetry; apply Permutation_middle|]. constructor. exact IH.
Qed.

Lemma NoDup_map_inv' {A B} (f : A -> B) l : NoDup (map f l) -> NoDup l.
Proof. apply NoDup_map_inv. Qed.

Lemma account c s tr : W c s tr ->
  Permutation (accepted_pkts tr) (reported true tr ++ reported false tr ++ s_queue s) /\
  NoDup (accepted_pkts tr) /\ NoDup (map f_body (accepted_pkts tr)).
Proof.
  intros H.
  assert (N1 : NoDup (map f_body (accepted_pkts tr))).
  { rewrite accepted_bodies. apply sorted_NoDup, (w_acc1 _ _ _ _ _ _ _ _ _ _ H). }
  pose proof (NoDup_map_inv _ _ N1) as N2.
  split; auto. apply NoDup_Permutation; auto.
  - apply (NoDup_map_inv f_body). rewrite app_assoc, map_app. apply NoDup_app.
    + eapply Permutation_NoDup; [symmetry; apply reported_bodies|].
      apply (w_done1 _ _ _ _ _ _ _ _ _ _ H).
    + rewrite (w_queue _ _ _ _ _ _ _ _ _ _ H), map_map. apply sorted_NoDup, (w_sorted _ _ _ _ _ _ _ _ _ _ H).
    + intros b X Y. rewrite (w_queue _ _ _ _ _ _ _ _ _ _ H), map_map in Y. apply in_map_iff in Y.
      destruct Y as [t [E T]]. apply in_map_iff in X. destruct X as [p [E' P]].
      assert (exists ok, In (ODone ok p) tr) as [ok D].
      { apply in_app_or in P. destruct P as [P|P]; apply reported_in in P; eauto. }
      destruct (w_done _ _ _ _ _ _ _ _ _ _ H ok p D) as [_ X]. apply (X t T). congruence.
  - intros p. rewrite accepted_in, !in_app_iff, !reported_in. split.
    + intros A. destruct (w_all _ _ _ _ _ _ _ _ _ _ H p A) as [I|[ok D]].
      * right. right. rewrite (w_queue _ _ _ _ _ _ _ _ _ _ H). exact I.
      * destruct ok; auto.
    + intros [D|[D|Q]]; try (apply (w_done _ _ _ _ _ _ _ _ _ _ H) in D; tauto).
      rewrite (w_queue _ _ _ _ _ _ _ _ _ _ H), in_map_iff in Q. destruct Q as [t [<- T]].
      apply (w_tx _ _ _ _ _ _ _ _ _ _ H); auto.
Qed.

(** ** Order (C18) *)

Lemma backoff_no_send c p k d s f : ~ In (OSend f) (snd (backoff c p k d s)).
Proof. unfold backoff. destruct (_ <? _); cbn; intros [|[]]; discriminate. Qed.

Lemma retry_no_send c n arg draw s f : ~ In (OSend f) (snd (retry_or_discard c n arg draw s)).
Proof.
  unfold retry_or_discard. destruct (bump _ _) as [[t l]|]; [|auto].
  destruct (_ <=? _); [|apply backoff_no_send].
  rewrite done_out. intros H. apply in_map_iff in H. destruct H as [x [E _]]. discriminate.
Qed.

Lemma send_no_done c s e f ok p : In (OSend f) (snd (step c s e)) -> ~ In (ODone ok p) (snd (step c s e)).
Proof.
  destruct (classify c s e).
  - subst e. cbn [step]. intros _.
    destruct (enqueue_cases c size dst s) as [[_ E]|[[_ [_ E]]|[_ [Q E]]]]; rewrite E; cbn [snd].
    1,2: cbn; intros [|[]]; discriminate.
    destruct (behind _ _ _); cbn [snd]; [cbn; intros [|[|[]]]; discriminate|].
    intros [X|X]; [discriminate|]. apply in_app_or in X. destruct X as [X|[X|[]]]; [|discriminate].
    eapply calm_no_done; eauto. apply tx_first_calm.
  - rewrite H6. cbn [snd]. intros [X|[X|X]]; try discriminate. exfalso. eapply retry_no_send, X.
  - rewrite H1. destruct (receive_ack_cases c f0 s) as [[_ [n [u [q [F [T [I O]]]]]]]|E].
    + rewrite O. intros X. apply in_map_iff in X. destruct X as [x [E _]]. discriminate.
    + rewrite E. intros [].
  - intros _. eapply calm_no_done; eauto.
Qed.

Lemma sorted_app_lt a b x y : StronglySorted Z.lt (a ++ b) -> In x a -> In y b -> x < y.
Proof.
  induction a as [|z a IH]; intros S X Y; cbn in *; [tauto|]. inversion S; subst.
  destruct X as [->|X]; [|auto]. rewrite Forall_forall in H2. apply H2, in_or_app. auto.
Qed.

(** Packets accepted earlier have smaller identities. *)
Lemma accepted_earlier c s tr a b p q : W c s tr -> tr = a ++ OAccept q :: b -> acc p b ->
  f_body q < f_body p.
Proof.
  intros H E P. pose proof (w_acc1 _ _ _ _ _ _ _ _ _ _ H) as S.
  rewrite E in S.
  assert (acc_bodies (a ++ OAccept q :: b) = (acc_bodies a ++ [f_body q]) ++ acc_bodies b) as E2.
  { rewrite acc_bodies_app. cbn. rewrite <- app_assoc. reflexivity. }
  rewrite E2 in S. eapply sorted_app_lt; [exact S|apply in_or_app; right; left; auto|].
  rewrite <- accepted_bodies. apply in_map. apply accepted_in. exact P.
Qed.

Lemma concerns_eq c s tr p f : K c s tr -> acc p tr -> In (OSend f) tr -> concerns p f ->
  ord p (s_tx s) /\ (f_dst p = bcast -> ord_all p (s_tx s)) /\ f_type p = T_DATA.
Proof.
  intros H A S D. pose proof (k_sent _ _ _ _ _ (proj2 (proj2 H)) f S) as [X Y].
  assert (f_type p = T_DATA) as PD by (apply (w_hist _ _ _ _ _ _ _ _ _ _ (proj1 H)) in A; tauto).
  destruct D as [->|[T [E1 [E2 E3]]]].
  - destruct (X PD) as [_ [? ?]]. auto.
  - destruct (Y T) as [q [E [QA [QD QO]]]]. rewrite E in E2, E3. cbn in E2, E3.
    assert (p = q) as <- by (apply (seq_inj c s tr); auto).
    split; auto. split; auto. tauto.
Qed.

Lemma in_order c e0 l : config_ok c -> genuine c (init e0) [] l ->
  s_ids (fst (run c (init e0) l)) <= 65535 ->
  forall a q b p d f r, snd (run c (init e0) l) = a ++ OAccept q :: b ++ OAccept p :: d ++ OSend f :: r ->
  concerns p f -> f_dst q = f_dst p -> exists ok, In (ODone ok q) (b ++ OAccept p :: d).
Proof.
  intros C G B a q b p d f r E CN DQ.
  assert (E' : snd (run c (init e0) l) = (a ++ OAccept q :: b ++ OAccept p :: d) ++ OSend f :: r).
  { rewrite E. repeat (rewrite <- app_assoc; cbn [app]). reflexivity. }
  destruct (run_split _ _ _ _ _ _ E') as [l1 [e [l2 [u [v [L [X [S _]]]]]]]].
  set (s1 := fst (run c (init e0) l1)) in *. set (tr1 := snd (run c (init e0) l1)) in *.
  assert (B2 : s_ids (fst (step c s1 e)) <= 65535).
  { rewrite L, run_app, run_cons in B. cbn [fst] in B. fold s1 in B.
    pose proof (ids_mono c l2 (fst (step c s1 e))). lia. }
  assert (K1 : K c s1 tr1).
  { apply (K_run c l1 (init e0) []); auto using K_init.
    - rewrite L in G. apply genuine_app in G. tauto.
    - fold s1. pose proof (ids_mono_step c s1 e). lia. }
  assert (K2 : K c (fst (step c s1 e)) (tr1 ++ snd (step c s1 e))).
  { apply K_step; auto. eapply answered_honest; eauto.
    rewrite L in G. apply genuine_app in G. destruct G as [_ G]. cbn [app genuine] in G. tauto. }
  rewrite S in K2. rewrite app_assoc, <- X in K2.
  set (pre := a ++ OAccept q :: b ++ OAccept p :: d) in *.
  assert (AP : acc p (pre ++ OSend f :: v)).
  { apply acc_app. unfold pre. apply in_or_app. right. right. apply in_or_app. right. left. auto. }
  assert (AQ : acc q (pre ++ OSend f :: v)).
  { apply acc_app. unfold pre. apply in_or_app. right. left. auto. }
  destruct (concerns_eq _ _ _ p f K2 AP ltac:(apply in_or_app; right; left; auto) CN) as [O _].
  assert (LT : f_body q < f_body p).
  { eapply (accepted_earlier c _ _ a (b ++ OAccept p :: d ++ OSend f :: v) p q (proj1 K2)).
    - unfold pre. repeat (rewrite <- app_assoc; cbn [app]). reflexivity.
    - apply in_or_app. right. left. auto. }
  destruct (w_all _ _ _ _ _ _ _ _ _ _ (proj1 K2) q AQ) as [I|[ok D]].
  { apply in_map_iff in I. destruct I as [t [T1 T2]]. specialize (O t T2 ltac:(congruence)).
    rewrite T1 in O. lia. }
  exists ok. unfold pre in D. apply in_app_or in D. destruct D as [D|D].
  - apply in_app_or in D. destruct D as [D|[D|D]]; [|discriminate|exact D].
    (* reported before it was accepted: impossible *)
    exfalso.
    assert (exists l0 s0 tr0, snd (run c (init e0) l0) = tr0 /\ W c s0 tr0 /\ In (ODone ok q) tr0 /\ ~ acc q tr0) as [_ [s0 [tr0 [_ [W0 [D0 N0]]]]]].
    { destruct (run_split _ _ _ _ _ _ E) as [m1 [e' [m2 [u' [v' [M [X' [S' _]]]]]]]].
      exists m1, (fst (run c (init e0) m1)), (snd (run c (init e0) m1)).
      split; auto. split; [apply W_reach; auto|].
      rewrite X' in D. apply in_app_or in D.
      assert (ND : ~ In (ODone ok q) u').
      { intros U. assert (In (ODone ok q) (snd (step c (fst (run c (init e0) m1)) e'))) as U1
          by (rewrite S'; apply in_or_app; auto).
        assert (In (OAccept q) (snd (step c (fst (run c (init e0) m1)) e'))) as U2
          by (rewrite S'; apply in_or_app; right; left; auto).
        revert U1 U2. generalize (fst (run c (init e0) m1)). intros s0 U1 U2.
        destruct (classify c s0 e').
        - subst e'. cbn [step] in U1.
          destruct (enqueue_cases c size dst s0) as [[_ Q]|[[_ [_ Q]]|[_ [_ Q]]]]; rewrite Q in U1; cbn [snd] in U1.
          1,2: destruct U1 as [|[]]; discriminate.
          destruct (behind _ _ _); cbn [snd] in U1; [destruct U1 as [|[|[]]]; discriminate|].
          destruct U1 as [|U1]; [discriminate|]. apply in_app_or in U1.
          destruct U1 as [U1|[U1|[]]]; [|discriminate]. eapply calm_no_done; eauto. apply tx_first_calm.
        - rewrite H6 in U2. cbn [snd] in U2. destruct U2 as [U2|[U2|U2]]; try discriminate.
          unfold retry_or_discard in U2. destruct (bump _ _) as [[t' l']|]; [|destruct U2].
          destruct (_ <=? _); [rewrite done_out in U2; apply in_map_iff in U2; destruct U2 as [? [? _]]; discriminate|].
          unfold backoff in U2. destruct (_ <? _); destruct U2 as [|[]]; discriminate.
        - rewrite H1 in U2. destruct (receive_ack_cases c f0 s0) as [[_ [n [w [q' [F [T [I O']]]]]]]|Q].
          + rewrite O' in U2. apply in_map_iff in U2. destruct U2 as [? [? _]]. discriminate.
          + rewrite Q in U2. destruct U2.
        - eapply calm_no_accept; eauto. }
      destruct D as [D|D]; [|tauto]. split; auto.
      intros A. assert (SS : StronglySorted Z.lt (acc_bodies (snd (run c (init e0) l)))).
      { apply (w_acc1 _ _ _ _ _ _ _ _ _ _ (W_reach c e0 l C)). }
      rewrite E, X' in SS. rewrite <- app_assoc, acc_bodies_app in SS.
      assert (f_body q < f_body q); [|lia]. eapply sorted_app_lt; [exact SS| |].
      - rewrite <- accepted_bodies. apply in_map, accepted_in, A.
      - rewrite acc_bodies_app. apply in_or_app. right. left. reflexivity. }
    apply N0. apply (w_done _ _ _ _ _ _ _ _ _ _ W0) in D0. tauto.
  - exfalso. destruct D as [D|D]; [discriminate|].
    eapply (send_no_done c s1 e f ok q); rewrite S; apply in_or_app; right; [left|right]; auto.
Qed.

(** ** Broadcast packets are never reported (C22) *)

Lemma done_not_bcast c s tr e ok p : W c s tr -> s_ids s <= 65536 ->
  In (ODone ok p) (snd (step c s e)) -> f_dst p <> bcast.
Proof.
  intros H B I. destruct (classify c s e).
  - exfalso. subst e. cbn [step] in I.
    destruct (enqueue_cases c size dst s) as [[_ E]|[[_ [_ E]]|[_ [Q E]]]]; rewrite E in I; cbn [snd] in I.
    1,2: destruct I as [|[]]; discriminate.
    destruct (behind _ _ _); cbn [snd] in I; [destruct I as [|[|[]]]; discriminate|].
    destruct I as [X|X]; [discriminate|]. apply in_app_or in X. destruct X as [X|[X|[]]]; [|discriminate].
    eapply calm_no_done; eauto. apply tx_first_calm.
  - assert (In t (s_timers s)) as TI by (eapply nth_error_In; eauto).
    destruct (timer_arg c s tr t n arg H TI H2) as [AR _].
    assert (exists q, acc q tr /\ f_seq q = n /\ f_dst q <> bcast) as [q [QA [QN QD]]].
    { pose proof (w_tm _ _ _ _ _ _ _ _ _ _ H t TI) as T.
      destruct H2 as [[q [K [-> ->]]]|[K ->]]; rewrite K in T; cbn in T; [destruct T; eauto|exact T]. }
    rewrite H7 in I. cbn [snd] in I. destruct I as [I|[I|I]]; try discriminate.
    destruct (retry_cases c s tr n arg draw s1 H B H3 AR) as [[N E]|[t0 [a [b [E1 [E2 [U D]]]]]]].
    + rewrite E in I. destruct I.
    + assert (T0 : In t0 (s_tx s)) by (rewrite E1; apply in_or_app; right; left; auto).
      cbv zeta in D. destruct D as [[D1 [D2 D3]]|[D1 [D2 D3]]]; rewrite D3 in I.
      * destruct I as [I|[]]. injection I as _ <-.
        assert (t_pkt t0 = q) as ->; auto.
        apply (seq_inj_w c s tr); auto; [|congruence]. apply (w_tx _ _ _ _ _ _ _ _ _ _ H); auto.
      * exfalso. unfold backoff in I. destruct (_ <? _); destruct I as [|[]]; discriminate.
  - rewrite H2 in I. destruct (receive_ack_cases c f s) as [[_ [n [u [q [F [T [J O]]]]]]]|E].
    + rewrite O in I. apply in_map_iff in I. destruct I as [x [E X]]. injection E as <- <-.
      apply filter_In in X. destruct X as [X Y]. apply Z.eqb_eq in Y.
      apply find_some in F. destruct F as [F _].
      destruct (w_ack _ _ _ _ _ _ _ _ _ _ H n u q F) as [_ [QA QD]].
      assert (t_pkt x = q) as ->; auto.
      apply (seq_inj_w c s tr); auto. apply (w_tx _ _ _ _ _ _ _ _ _ _ H); auto.
    + rewrite E in I. destruct I.
  - exfalso. eapply calm_no_done; eauto.
Qed.

Lemma bcast_stays c e0 l p : config_ok c -> s_ids (fst (run c (init e0) l)) <= 65536 ->
  In (OAccept p) (snd (run c (init e0) l)) -> f_dst p = bcast -> In p (s_queue (fst (run c (init e0) l))).
Proof.
  intros C B A D. pose proof (W_reach c e0 l C) as H.
  destruct (w_all _ _ _ _ _ _ _ _ _ _ H p A) as [I|[ok I]].
  - rewrite (w_queue _ _ _ _ _ _ _ _ _ _ H). exact I.
  - exfalso. apply in_split in I. destruct I as [x [y E]].
    destruct (run_split _ _ _ _ _ _ E) as [l1 [e [l2 [u [v [L [X [S _]]]]]]]].
    apply (done_not_bcast c (fst (run c (init e0) l1)) (snd (run c (init e0) l1)) e ok p); auto.
    + apply W_reach; auto.
    + rewrite L, run_app in B. cbn [fst] in B. pose proof (ids_mono c (e :: l2) (fst (run c (init e0) l1))). lia.
    + rewrite S. apply in_or_app. right. left. auto.
Qed.

(** ** Payment (C24) *)

(** Every DATA or RTS transmission in [o] directly follows the booking made for it. *)
Definition paid (c : config) (o : list out) : Prop :=
  forall a f b, o = a ++ OSend f :: b ->
  (f_type f = T_DATA -> c_rts c = false \/ f_dst f = bcast ->
     exists a', a = a' ++ [OBooked true (f_size f) (hdr_size T_ACK)]) /\
  (f_type f = T_RTS -> c_rts c = true /\ exists a' p, a = a' ++ [OBooked true (f_size p + hdr_size T_RTS) (2 * hdr_size T_RTS)] /\ concerns p f).

Lemma paid_app c a b : paid c a -> paid c b -> paid c (a ++ b).
Proof.
  intros A B x f y E. apply app_split in E. destruct E as [[r [E _]]|[r [-> E]]].
  - apply (A x f r E).
  - destruct (B r f y E) as [B1 B2]. split.
    + intros T M. destruct (B1 T M) as [a' ->]. exists (a ++ a'). rewrite app_assoc. auto.
    + intros T. destruct (B2 T) as [M [a' [p [-> P]]]]. split; auto. exists (a ++ a'), p. rewrite app_assoc. auto.
Qed.

Lemma paid_unsent c o : forallb unsent o = true -> paid c o.
Proof.
  intros U a f b E. exfalso. eapply unsent_not; [exact U|]. rewrite E. apply in_or_app. right. left. eauto.
Qed.

Lemma paid_ctrl c ty src dst n : ty <> T_DATA -> ty <> T_RTS -> paid c [OSend (ctrl ty src dst n)].
Proof.
  intros D T a f b E. destruct a as [|x a]; [|destruct a; discriminate].
  injection E as <- _. cbn. split; intros; congruence.
Qed.

Lemma is_rts_spec c p : is_rts c p = true <-> f_dst p <> bcast /\ c_rts c = true.
Proof.
  unfold is_rts. rewrite andb_true_iff, negb_true_iff, Z.eqb_neq. tauto.
Qed.

Lemma paid_check c p s : f_type p = T_DATA -> f_src p = c_addr c -> paid c (snd (check_resources c p s)).
Proof.
  intros T SA. rewrite check_out. cbv zeta. destruct (fst (book _ _ _ _)); [|apply paid_unsent; auto].
  intros a f b E. destruct a as [|x a]; [discriminate|]. injection E as <- E.
  destruct a as [|y a]; [|destruct a; discriminate]. injection E as <- _.
  unfold first_frame, price_tx, price_rx. destruct (is_rts c p) eqn:IR.
  - apply is_rts_spec in IR. split; [discriminate|]. intros _. split.
    + tauto.
    + exists [], p. split; auto. right. repeat split; auto.
  - split; [intros _ _; exists []; auto|]. intros X. rewrite T in X. discriminate.
Qed.

Lemma paid_unpaid_data c p : f_type p = T_DATA -> c_rts c = true -> f_dst p <> bcast -> paid c [OSend p].
Proof.
  intros T R D a f b E. destruct a as [|x a]; [|destruct a; discriminate].
  injection E as <- _. split; [intros _ [X|X]; [congruence|tauto]|]. rewrite T. discriminate.
Qed.

Lemma unsent_retry c n arg draw s : forallb unsent (snd (retry_or_discard c n arg draw s)) = true.
Proof.
  apply forallb_forall. intros o O. destruct o; auto. exfalso. eapply retry_no_send, O.
Qed.

Lemma paid_cons c o l : unsent o = true -> paid c l -> paid c (o :: l).
Proof. intros U P. apply (paid_app c [o] l); auto. apply paid_unsent. cbn. rewrite U. auto. Qed.

Lemma forward_unsent f s : forallb unsent (snd (forward_new f s)) = true.
Proof. unfold forward_new. destruct (is_new _ _ _) as [[] l]; reflexivity. Qed.

Lemma paid_receive_data c f s : paid c (snd (receive_data c f s)).
Proof.
  unfold receive_data. destruct (_ =? _); [apply paid_unsent, forward_unsent|].
  destruct (negb _); [apply paid_unsent; auto|].
  set (rest := _ ;; _).
  assert (X : forall s, paid c (snd (rest s))).
  { intros s0. unfold rest. rewrite seqa_eq. cbn [snd].
    apply paid_app; [destruct (find _ _) as [[? ?]|]; apply paid_unsent; auto|].
    rewrite seqa_eq. cbn [snd].
    apply paid_app; [apply paid_ctrl; discriminate|apply paid_unsent, forward_unsent]. }
  destruct (c_rts c); auto. rewrite booking_eq. cbv zeta. cbn [snd].
  apply paid_cons; auto. destruct (fst _); auto. apply paid_unsent; auto.
Qed.

Lemma paid_receive_rts c f s : paid c (snd (receive_rts c f s)).
Proof.
  unfold receive_rts. rewrite booking_eq. cbv zeta. cbn [snd]. apply paid_cons; auto.
  destruct (_ =? _); [|apply paid_unsent; auto].
  rewrite booking_eq. cbv zeta. cbn [snd]. apply paid_cons; auto.
  destruct (fst _); [|apply paid_unsent; auto].
  rewrite seqa_eq. cbn [snd app]. apply paid_ctrl; discriminate.
Qed.

Lemma acc_data c s tr p : W c s tr -> acc p tr -> f_type p = T_DATA /\ f_src p = c_addr c.
Proof. intros H A. apply (w_hist _ _ _ _ _ _ _ _ _ _ H) in A. tauto. Qed.

Lemma paid_tx_first c s tr : W c s tr -> paid c (snd (tx_first c s)).
Proof.
  intros H. unfold tx_first. destruct (s_queue s) as [|p q] eqn:E; [apply paid_unsent; auto|].
  destruct (acc_data c s tr p H); [|apply paid_check; auto].
  rewrite (w_queue _ _ _ _ _ _ _ _ _ _ H) in E.
  destruct (s_tx s) as [|t l] eqn:T; [discriminate|]. injection E as <- _.
  apply (w_tx _ _ _ _ _ _ _ _ _ _ H). rewrite T. left; auto.
Qed.

Lemma paid_step c s tr e : config_ok c -> K c s tr -> honest c tr e -> paid c tr -> paid c (snd (step c s e)).
Proof.
  intros C H HO P. pose proof (proj1 H) as HW. destruct e; cbn [step].
  - destruct (enqueue_cases c size dst s) as [[_ E]|[[_ [_ E]]|[_ [Q E]]]]; rewrite E; cbn [snd];
      try (apply paid_unsent; reflexivity).
    destruct (behind _ _ _); cbn [snd]; [apply paid_unsent; reflexivity|].
    apply paid_cons; auto. apply paid_app; [|apply paid_unsent; auto].
    eapply paid_tx_first. apply (W_accept c s tr size dst C HW Q).
  - unfold receive. destruct ok; cbn [negb]; [|apply paid_unsent; auto].
    destruct (f_type f =? T_RTS); [apply paid_receive_rts|].
    destruct (Z.eqb_spec (f_type f) T_CTS) as [TC|_].
    { unfold receive_cts. destruct (Z.eqb_spec (f_dst f) (c_addr c)) as [D|D]; [|apply paid_unsent; auto].
      specialize (HO TC D). rewrite seqa_eq. cbn [snd]. apply paid_app.
      - destruct (find _ _) as [[? ?]|]; apply paid_unsent; auto.
      - set (r := fst _).
        assert (s_tx r = s_tx s) as R3 by (unfold r; destruct (find _ (s_cts s)) as [[? ?]|]; reflexivity).
        rewrite R3. destruct (find _ (s_tx s)) as [t|] eqn:F; [|apply paid_unsent; auto].
        rewrite send_data_out. apply find_some in F. destruct F as [FI F].
        apply andb_true_iff in F. destruct F as [_ F2]. apply Z.eqb_eq in F2.
        destruct (acc_data c s tr (t_pkt t) HW (w_tx _ _ _ _ _ _ _ _ _ _ HW t FI)).
        apply paid_unpaid_data; auto.
        + apply in_split in HO. destruct HO as [x [y E]]. destruct (P _ _ _ E) as [_ P2].
          destruct (P2 eq_refl) as [M _]. exact M.
        + destruct (k_sent _ _ _ _ _ (proj2 (proj2 H)) _ HO) as [_ X].
          destruct (X eq_refl) as [p [PE [_ [PD _]]]]. injection PE as E1 _. congruence. }
    destruct (f_type f =? T_DATA); [apply paid_receive_data|].
    destruct (f_type f =? T_ACK); [|apply paid_unsent; auto].
    destruct (receive_ack_cases c f s) as [[_ [n [u [q [F [T [J O]]]]]]]|E].
    + rewrite O. apply paid_unsent. apply forallb_forall. intros o X. apply in_map_iff in X.
      destruct X as [x [<- _]]. reflexivity.
    + rewrite E. apply paid_unsent; auto.
  - destruct (nth_error (s_timers s) i) as [t|] eqn:N; [|apply paid_unsent; auto].
    apply nth_error_In in N. pose proof (w_tm _ _ _ _ _ _ _ _ _ _ HW t N) as T.
    destruct (tm_kind t); cbn [fire tm_ok] in *.
    + destruct (acc_data c s tr p HW T). apply paid_check; auto.
    + unfold cts_timeout. rewrite (timeout_eq c (f_seq p) (Some p) draw (OTimeout (f_seq p))
          (fun s => set_cts (erase_first (fun x => fst x =? f_seq p) (s_cts s)) s)).
      cbv zeta. cbn [snd]. apply paid_unsent. cbn [forallb unsent]. apply unsent_retry.
    + unfold ack_timeout. rewrite (timeout_eq c sq None draw (OTimeout sq)
          (fun s => set_ack (erase_first (fun x => fst (fst x) =? sq) (s_ack s)) s)).
      cbv zeta. cbn [snd]. apply paid_unsent. cbn [forallb unsent]. apply unsent_retry.
    + apply paid_unsent; auto.
  - apply paid_unsent; auto.
  - eapply paid_tx_first; eauto.
  - apply paid_unsent; auto.
Qed.

Lemma paid_run c l : forall s tr, config_ok c -> K c s tr -> paid c tr -> genuine c s tr l ->
  s_ids (fst (run c s l)) <= 65535 -> paid c (tr ++ snd (run c s l)).
Proof.
  induction l as [|e l IH]; intros s tr C H P G B.
  - cbn. rewrite app_nil_r. exact P.
  - rewrite run_cons in *. cbn [fst snd genuine] in *. destruct G as [G1 G2]. rewrite app_assoc.
    pose proof (answered_honest _ _ _ _ H G1) as HO.
    apply IH; auto.
    + apply K_step; auto. pose proof (ids_mono c l (fst (step c s e))). lia.
    + apply paid_app; auto. eapply paid_step; eauto.
Qed.

(** ** Acknowledgements (C25) and frames for others (C26) *)

Lemma retry_out_send c n arg draw s f : ~ In (OSend f) (snd (retry_or_discard c n arg draw s)).
Proof. apply retry_no_send. Qed.

Lemma check_send c p s f : In (OSend f) (snd (check_resources c p s)) -> f = first_frame c p.
Proof.
  rewrite check_out. cbv zeta. destruct (fst _); intros [X|X]; try discriminate; [|destruct X].
  destruct X as [X|[]]. congruence.
Qed.

Lemma first_frame_type c p : f_type p = T_DATA -> f_type (first_frame c p) <> T_ACK.
Proof. unfold first_frame. destruct (is_rts c p); [discriminate|]. intros ->. discriminate. Qed.

Lemma tx_first_send c s tr f : W c s tr -> In (OSend f) (snd (tx_first c s)) ->
  exists p, In p (s_queue s) /\ f_type p = T_DATA /\ f = first_frame c p.
Proof.
  intros H. unfold tx_first. destruct (s_queue s) as [|p q] eqn:E; [intros []|].
  intros I. apply check_send in I. exists p. split; [left; auto|]. split; auto.
  rewrite (w_queue _ _ _ _ _ _ _ _ _ _ H) in E.
  destruct (s_tx s) as [|t l] eqn:T; [discriminate|]. injection E as <- _.
  apply (acc_data c s tr); auto. apply (w_tx _ _ _ _ _ _ _ _ _ _ H). rewrite T. left; auto.
Qed.

Lemma forward_no_send f s g : ~ In (OSend g) (snd (forward_new f s)).
Proof. intros H. eapply unsent_not; eauto. apply forward_unsent. Qed.

Lemma receive_data_send c f s g : In (OSend g) (snd (receive_data c f s)) ->
  f_dst f <> bcast /\ f_dst f = c_addr c /\ g = ctrl T_ACK (c_addr c) (f_src f) (f_seq f).
Proof.
  unfold receive_data. destruct (Z.eqb_spec (f_dst f) bcast) as [E|E].
  { intros X. exfalso. eapply forward_no_send, X. }
  destruct (Z.eqb_spec (f_dst f) (c_addr c)) as [D|D]; cbn [negb]; [|intros []].
  set (rest := _ ;; _).
  assert (X : forall s, In (OSend g) (snd (rest s)) -> g = ctrl T_ACK (c_addr c) (f_src f) (f_seq f)).
  { intros s0. unfold rest. rewrite seqa_eq. cbn [snd]. rewrite in_app_iff.
    intros [X|X]; [destruct (find _ _) as [[? ?]|] in X; destruct X|].
    rewrite seqa_eq in X. cbn [snd] in X. apply in_app_or in X. destruct X as [[X|[]]|X]; [congruence|].
    exfalso. eapply forward_no_send, X. }
  intros I. split; auto. split; auto. destruct (c_rts c); [eauto|].
  rewrite booking_eq in I. cbv zeta in I. cbn [snd] in I. destruct I as [I|I]; [discriminate|].
  destruct (fst _); [eauto|destruct I].
Qed.

Lemma ack_only c s tr e g : config_ok c -> W c s tr -> In (OSend g) (snd (step c s e)) -> f_type g = T_ACK ->
  exists f, e = EvRecv f true /\ f_type f = T_DATA /\ f_dst f = c_addr c /\ f_dst f <> bcast /\
    f_src g = c_addr c /\ f_dst g = f_src f /\ f_seq g = f_seq f.
Proof.
  intros C H I T. destruct e; cbn [step] in I.
  - exfalso. destruct (enqueue_cases c size dst s) as [[_ E]|[[_ [_ E]]|[_ [Q E]]]]; rewrite E in I; cbn [snd] in I.
    1,2: destruct I as [|[]]; discriminate.
    destruct (behind _ _ _); cbn [snd] in I; [destruct I as [|[|[]]]; discriminate|].
    destruct I as [X|X]; [discriminate|]. apply in_app_or in X. destruct X as [X|[X|[]]]; [|discriminate].
    pose proof (W_accept c s tr size dst C H Q) as W2. cbv zeta in W2.
    destruct (tx_first_send c _ _ g W2 X) as [p [_ [PT ->]]]. eapply first_frame_type; eauto.
  - unfold receive in I. destruct ok; cbn [negb] in I; [|destruct I].
    destruct (Z.eqb_spec (f_type f) T_RTS).
    { exfalso. unfold receive_rts in I. rewrite booking_eq in I. cbv zeta in I. cbn [snd] in I.
      destruct I as [I|I]; [discriminate|]. destruct (_ =? _); [|destruct I].
      rewrite booking_eq in I. cbv zeta in I. cbn [snd] in I.
      destruct I as [I|I]; [discriminate|]. destruct (fst _); [|destruct I].
      rewrite seqa_eq in I. cbn [snd app] in I. destruct I as [I|[]]. injection I as <-. discriminate. }
    destruct (Z.eqb_spec (f_type f) T_CTS).
    { exfalso. unfold receive_cts in I. destruct (_ =? _); [|destruct I].
      rewrite seqa_eq in I. cbn [snd] in I. apply in_app_or in I. destruct I as [I|I].
      - destruct (find _ _) as [[? ?]|] in I; destruct I.
      - revert I. set (r := fst _).
        assert (s_tx r = s_tx s) as R3 by (unfold r; destruct (find _ (s_cts s)) as [[? ?]|]; reflexivity).
        rewrite R3. destruct (find _ (s_tx s)) as [t|] eqn:F; [|intros []].
        rewrite send_data_out. intros [I|[]]. injection I as <-. apply find_some in F. destruct F as [F _].
        destruct (acc_data c s tr (t_pkt t) H (w_tx _ _ _ _ _ _ _ _ _ _ H t F)) as [TT _]. rewrite T in TT. discriminate. }
    destruct (Z.eqb_spec (f_type f) T_DATA).
    { apply receive_data_send in I. destruct I as [A [B ->]]. exists f. cbn. auto 10. }
    destruct (f_type f =? T_ACK); [|destruct I]. exfalso.
    destruct (receive_ack_cases c f s) as [[_ [m [u [q [F [X [J O]]]]]]]|E].
    + rewrite O in I. apply in_map_iff in I. destruct I as [x [E _]]. discriminate.
    + rewrite E in I. destruct I.
  - exfalso. destruct (nth_error (s_timers s) i) as [t|] eqn:N; [|destruct I].
    apply nth_error_In in N. pose proof (w_tm _ _ _ _ _ _ _ _ _ _ H t N) as TK.
    destruct (tm_kind t); cbn [fire tm_ok] in *.
    + destruct (acc_data c s tr p H TK). apply check_send in I. subst g. eapply first_frame_type; eauto.
    + unfold cts_timeout in I. rewrite (timeout_eq c (f_seq p) (Some p) draw (OTimeout (f_seq p))
          (fun s => set_cts (erase_first (fun x => fst x =? f_seq p) (s_cts s)) s)) in I.
      cbv zeta in I. cbn [snd] in I. destruct I as [I|[I|I]]; try discriminate. eapply retry_no_send, I.
    + unfold ack_timeout in I. rewrite (timeout_eq c sq None draw (OTimeout sq)
          (fun s => set_ack (erase_first (fun x => fst (fst x) =? sq) (s_ack s)) s)) in I.
      cbv zeta in I. cbn [snd] in I. destruct I as [I|[I|I]]; try discriminate. eapply retry_no_send, I.
    + destruct I as [I|[]]. discriminate.
  - destruct I.
  - exfalso. destruct (tx_first_send c s tr g H I) as [p [_ [PT ->]]]. eapply first_frame_type; eauto.
  - destruct I.
Qed.

(** A DATA frame for this node is acknowledged, new or not, if the energy suffices. *)
Lemma ack_always c s f : f_type f = T_DATA -> f_dst f = c_addr c -> f_dst f <> bcast ->
  c_rts c = true \/ fst (book (c_energy c) (s_energy s) (hdr_size T_RTS) (f_size f - hdr_size T_DATA)) = true ->
  sent (snd (step c s (EvRecv f true))) = [ctrl T_ACK (c_addr c) (f_src f) (f_seq f)].
Proof.
  intros T D B M. cbn [step]. unfold receive. cbn [negb].
  rewrite T. change (T_DATA =? T_RTS) with false. change (T_DATA =? T_CTS) with false.
  change (T_DATA =? T_DATA) with true. cbv iota. unfold receive_data.
  rewrite (proj2 (Z.eqb_neq _ _) B), (proj2 (Z.eqb_eq _ _) D). cbn [negb].
  set (rest := _ ;; _).
  assert (X : forall s, sent (snd (rest s)) = [ctrl T_ACK (c_addr c) (f_src f) (f_seq f)]).
  { intros s0. unfold rest. rewrite seqa_eq. cbn [snd]. unfold sent. rewrite flat_map_app.
    replace (flat_map _ (snd (match find _ (s_data s0) with Some _ => _ | None => _ end))) with (@nil frame)
      by (destruct (find _ _) as [[? ?]|]; reflexivity).
    rewrite seqa_eq. cbn [snd]. rewrite flat_map_app. cbn [app flat_map send_ack emit].
    unfold forward_new. destruct (is_new _ _ _) as [[] l]; reflexivity. }
  destruct (c_rts c); auto. destruct M as [M|M]; [discriminate|].
  rewrite booking_eq. cbv zeta. cbn [snd]. rewrite M. cbn. apply X.
Qed.

Lemma others_ignored c s f : f_dst f <> c_addr c -> f_dst f <> bcast ->
  fst (step c s (EvRecv f true)) = set_energy (s_energy (fst (step c s (EvRecv f true)))) s /\
  (forall o, In o (snd (step c s (EvRecv f true))) -> exists ok, o = OBooked ok 0 (f_size f) /\ f_type f = T_RTS).
Proof.
  intros A B. cbn [step]. unfold receive. cbn [negb].
  assert (Z0 : forall (s : state), s = set_energy (s_energy s) s) by (intros []; reflexivity).
  assert (NA : (f_dst f =? c_addr c) = false) by (apply Z.eqb_neq; auto).
  assert (NB : (f_dst f =? bcast) = false) by (apply Z.eqb_neq; auto).
  destruct (Z.eqb_spec (f_type f) T_RTS).
  - unfold receive_rts. rewrite booking_eq, NA. cbv zeta. cbn [fst snd skip]. split; [reflexivity|].
    intros o [<-|[]]. eauto.
  - destruct (f_type f =? T_CTS).
    { unfold receive_cts. rewrite NA. cbn. split; auto. tauto. }
    destruct (f_type f =? T_DATA).
    { unfold receive_data. rewrite NA, NB. cbn. split; auto. tauto. }
    destruct (f_type f =? T_ACK); [unfold receive_ack; rewrite NA|]; cbn; split; auto; tauto.
Qed.
