(** Pending events of the client: which steps add which, and where frames and reports come from. *)
From Coq Require Import ZArith List Lia Bool Permutation.
From Verif Require Import Base HeaderModel SeqModel EnergyModel MacModel MacSpec MacAcct MacResp ApModel ClientModel ClientSpec ClientCase ClientAcct.
Import ListNotations.
Open Scope Z_scope.

(** ** The pending events after a step *)
Fixpoint cts_new (f : kframe) (now u : Z) (l : list lrec) : list ltimer :=
  match l with
  | [] => []
  | r :: t =>
    if kf_seq (lr_pkt r) =? kf_seq f
    then Ltimer u (now + kf_dur f * nsec) (LKData (lr_pkt r) (l_mcs (kf_flags f))) :: cts_new f now (u + 1) t
    else cts_new f now u t
  end.
Lemma cts_timers f l : forall s, l_timers (cts_loop f l s) = l_timers s ++ cts_new f (l_now s) (l_uid s) l.
Proof.
  induction l as [|r l IH]; intros s; cbn [cts_loop cts_new]; [rewrite app_nil_r; auto|].
  rewrite IH. destruct (_ =? _); auto. dl s. lproj. rewrite <- app_assoc. auto.
Qed.
Lemma cts_in f l : forall now u t, In t (cts_new f now u l) ->
  exists r, In r l /\ kf_seq (lr_pkt r) = kf_seq f /\ lt_kind t = LKData (lr_pkt r) (l_mcs (kf_flags f)) /\ lt_due t = now + kf_dur f * nsec.
Proof.
  induction l as [|r l IH]; intros now u t T; [contradiction|]. cbn in T. destruct (Z.eqb_spec (kf_seq (lr_pkt r)) (kf_seq f)) as [E|E].
  - destruct T as [<-|T]; [exists r; cbn; auto|]. destruct (IH _ _ _ T) as [x [X1 X2]]. exists x. split; auto. right. auto.
  - destruct (IH _ _ _ T) as [x [X1 X2]]. exists x. split; auto. right. auto.
Qed.
(** Other fields. *)
Lemma cts_fields f l : forall s, let s' := cts_loop f l s in
  l_now s' = l_now s /\ l_rec s' = l_rec s /\ l_queue s' = l_queue s /\ l_acks s' = l_acks s /\ l_state s' = l_state s /\ l_boact s' = l_boact s /\
  l_boseq s' = l_boseq s /\ l_sector s' = l_sector s /\ l_ctsn s' = l_ctsn s /\ l_last s' = l_last s /\ l_air s' = l_air s /\ l_sde s' = l_sde s /\
  l_ids s' = l_ids s /\ l_seq s' = l_seq s /\ (l_answered s = true -> l_answered s' = true) /\ l_uid s <= l_uid s' /\ l_tx s' = l_tx s /\ l_res s' = l_res s.
Proof.
  induction l as [|r l IH]; intros s; cbn [cts_loop]; [cbv zeta; repeat split; auto; lia|].
  destruct (_ =? _); [|apply IH].
  specialize (IH (lsched (kf_dur f * nsec) (LKData (lr_pkt r) (l_mcs (kf_flags f))) (lset_ctsrx (l_now s) (lset_answered true s)))).
  cbv zeta in *. destruct IH as (->&->&->&->&->&->&->&->&->&->&->&->&->&->&A&B&->&->). dl s. lproj. repeat split; auto; lia.
Qed.

Inductive lnew (c : lcfg) (e : lenv) (s : lst) : levent -> list lout -> list ltimer -> Prop :=
| N_none ev o : lnew c e s ev o []
| N_dummy f u : lc_ways c = 3 -> kf_type f = T_CTA -> kf_flags f = 1 ->
    lnew c e s (LERxEnd f true) [] [Ltimer u (l_now s + boslots c e) (LKDummy (the_dummy c e f s))]
| N_cta3 f o N1 N2 : lc_ways c = 3 -> kf_type f = T_CTA -> kf_flags f <> 1 -> (kf_flags f = 2 -> kf_dst f <> lc_addr c) ->
    (N1 = [] \/ exists u r, N1 = [Ltimer u (l_now s + psec) (LKDone false (l_last s))] /\ l_answered s = false /\ find1 (l_last s) (l_rec s) = Some r /\ lc_rts_retry c <= wrap16 (lr_retry r + 1) /\ In (LTmo false (l_last s)) o) ->
    (N2 = [] \/ exists u r t, N2 = [Ltimer u (l_now s + boslots c e) (LKRts (lr_pkt r))] /\ l_rec s = r :: t /\ l_boact s = false /\
       (l_sector s <= -1 \/ kf_sector f = l_sector s)) ->
    lnew c e s (LERxEnd f true) o (N1 ++ N2)
| N_cta1 f o u r t : lc_ways c = 1 -> kf_type f = T_CTA -> l_rec s = r :: t -> l_boact s = false ->
    lnew c e s (LERxEnd f true) o [Ltimer u (l_now s + fair c e) (LKData (lr_pkt r) 0)]
| N_cts f u : kf_type f = T_CTS -> kf_dst f = lc_addr c ->
    lnew c e s (LERxEnd f true) [] (cts_new f (l_now s) u (l_rec s))
| N_ack f u v : kf_type f = T_ACK -> kf_dst f = lc_addr c -> In (kf_seq f, v) (l_acks s) ->
    lnew c e s (LERxEnd f true) [] [Ltimer u (l_now s + psec) (LKDone true (kf_seq f))]
| N_data i t p m o : nth_error (l_timers s) i = Some t -> lt_kind t = LKData p m ->
    lnew c e s (LETimer i) (LSnd p m :: o) [Ltimer (l_uid s) (l_now s + ack_wait c s) (LKAck (kf_seq p))]
| N_tmo i t q o u r : nth_error (l_timers s) i = Some t -> lt_kind t = LKAck q ->
    find1 q (l_rec s) = Some r -> lc_data_retry c <= wrap16 (lr_retry r + 1) ->
    lnew c e s (LETimer i) (LTmo true q :: o) [Ltimer u (l_now s + psec) (LKDone false q)]
| N_res i t b q o N : nth_error (l_timers s) i = Some t -> lt_kind t = LKDone b q -> (forall x, In x N -> lt_kind x = LKResult) ->
    lnew c e s (LETimer i) o N.

Definition lkept (s : lst) (ev : levent) (K : list ltimer) : Prop :=
  match ev with
  | LETimer i =>
    (exists t, nth_error (l_timers s) i = Some t /\ K = remove_nth i (l_timers s)) \/ nth_error (l_timers s) i = None /\ K = l_timers s
  | _ => K = l_timers s \/ exists u, K = filter (fun t => negb (lt_id t =? u)) (l_timers s)
  end.
Definition ltrack (c : lcfg) (e : lenv) (s : lst) (ev : levent) (s' : lst) (o : list lout) : Prop :=
  exists K N, l_timers s' = K ++ N /\ lkept s ev K /\ lnew c e s ev o N.

Lemma track0 c e s ev s' o : lkept s ev (l_timers s') -> ltrack c e s ev s' o.
Proof. intros K. exists (l_timers s'), []. rewrite app_nil_r. repeat split; auto. constructor. Qed.
Lemma dec_timers s : l_timers (decrease s) = l_timers s.
Proof. unfold decrease. destruct (find1 _ _); auto. destruct (_ =? 0); destruct s; auto. Qed.
Lemma ltry_timers f s : l_timers (ltry f s) = l_timers s.
Proof. unfold ltry. destruct (lcan s), (lready s); destruct s; reflexivity. Qed.
Lemma ltry_fields f s : l_acks (ltry f s) = l_acks s /\ l_last (ltry f s) = l_last s /\ l_answered (ltry f s) = l_answered s /\ l_rec (ltry f s) = l_rec s /\
  l_queue (ltry f s) = l_queue s /\ l_boact (ltry f s) = l_boact s /\ l_boseq (ltry f s) = l_boseq s /\ l_now (ltry f s) = l_now s /\ l_sector (ltry f s) = l_sector s.
Proof. unfold ltry. destruct (lcan s), (lready s); destruct s; cbn; auto 10. Qed.
Lemma update1_head sq f r t : (forall x, lr_pkt (f x) = lr_pkt x) -> exists r' t', update1 sq f (r :: t) = r' :: t' /\ lr_pkt r' = lr_pkt r.
Proof. intros F. cbn. destruct (_ =? _); eauto. Qed.

Lemma step_track c e s ev s' o : lcase c e s ev s' o -> ltrack c e s ev s' o.
Proof.
  intros C. destruct C.
  - apply track0. cbn. auto.
  - apply track0. cbn. dl s; lproj; auto.
  - apply track0. cbn. dl s; lproj; auto.
  - apply track0. cbn. dl s. destruct s_sde as [u|]; cbn; eauto.
  - apply track0. cbn. auto.
  - eexists (l_timers s), _. split; [|split; [cbn; auto|apply N_dummy; eauto]]. dl s; reflexivity.
  - apply track0. cbn. dl s; lproj; auto.
  - apply track0. cbn. dl s; lproj; auto.
  - assert (X : exists N1, l_timers s1 = l_timers s ++ N1 /\ l_now s1 = l_now s /\ l_sector s1 = l_sector s /\ (l_boact s1 = false -> l_boact s = false) /\
      (forall r t, l_rec s1 = r :: t -> exists r0 t0, l_rec s = r0 :: t0 /\ lr_pkt r = lr_pkt r0) /\
      (N1 = [] \/ exists u r, N1 = [Ltimer u (l_now s + psec) (LKDone false (l_last s))] /\ l_answered s = false /\ find1 (l_last s) (l_rec s) = Some r /\ lc_rts_retry c <= wrap16 (lr_retry r + 1) /\ In (LTmo false (l_last s)) o1)).
    { destruct H5 as [A|s1 o1 A T].
      - exists []. rewrite app_nil_r. dl s; lproj. repeat split; auto. eauto.
      - destruct T as [F|r F L|r F L].
        + exists []. rewrite app_nil_r. dl s; lproj. repeat split; auto. eauto.
        + exists [Ltimer (l_uid s) (l_now s + psec) (LKDone false (l_last s))]. dl s; lproj. repeat split; auto; [|right; exists s_uid, r; repeat split; auto; left; auto].
          intros x t E. destruct s_rec as [|y z]; [discriminate|].
          destruct (update1_head s_last (fun x : lrec => Lrec (lr_pkt x) (wrap16 (lr_retry r + 1)) (lr_life x)) y z) as [r' [t' [U V]]]; [auto|].
          rewrite U in E. injection E as <- <-. eauto.
        + exists []. rewrite app_nil_r. dl s; lproj. repeat split; auto; try discriminate.
          intros x t E. destruct s_rec as [|y z]; [discriminate|].
          match type of E with update1 _ ?g _ = _ => destruct (update1_head s_last g y z) as [r' [t' [U V]]]; [auto|] end.
          rewrite U in E. injection E as <- <-. eauto. }
    destruct X as (N1 & X1 & X2 & X3 & X4 & X5 & X6).
    assert (Y : exists N2, l_timers s2 = l_timers s1 ++ N2 /\
      (N2 = [] \/ exists u r t, N2 = [Ltimer u (l_now s + boslots c e) (LKRts (lr_pkt r))] /\ l_rec s = r :: t /\ l_boact s = false /\
       (l_sector s <= -1 \/ kf_sector f = l_sector s))).
    { destruct H6 as [B|B|B|r t B S R].
      - exists []. rewrite app_nil_r, dec_timers. auto.
      - exists []. rewrite app_nil_r. destruct s1; auto.
      - exists []. rewrite app_nil_r. destruct s1; auto.
      - destruct (X5 _ _ R) as [r0 [t0 [R1 R2]]]. exists [Ltimer (l_uid s1) (l_now s1 + boslots c e) (LKRts (lr_pkt r))].
        split; [destruct s1; reflexivity|]. right. exists (l_uid s1), r0, t0. rewrite X2, R2, <- X3. auto. }
    destruct Y as (N2 & Y1 & Y2). exists (l_timers s), (N1 ++ N2). rewrite Y1, X1, app_assoc. repeat split; [cbn; auto|].
    apply N_cta3; auto. destruct X6 as [X6|(u & r & Z1 & Z2 & Z3 & Z4 & Z5)]; auto. right. exists u, r. repeat split; auto. apply in_or_app; auto.
  - destruct H3 as [B|B|r t B R].
    + apply track0. rewrite dec_timers. cbn. dl s; auto.
    + apply track0. cbn. dl s; auto.
    + eexists (l_timers s), [Ltimer (l_uid s) (l_now s + fair c e) (LKData (lr_pkt r) 0)]. dl s; lproj. split; [reflexivity|]. split; [cbn; auto|].
      eapply N_cta1; eauto.
  - apply track0. cbn. dl s; lproj; auto.
  - exists (l_timers s), (cts_new f (l_now s) (l_uid s) (l_rec s)). split; [|split; [cbn; auto|apply N_cts; auto]].
    rewrite cts_timers. destruct s; reflexivity.
  - apply track0. cbn. dl s; lproj; auto.
  - apply find_some in H2. destruct H2 as [F1 F2]. cbn in F2. apply Z.eqb_eq in F2. subst q.
    exists (filter (fun t => negb (lt_id t =? u)) (l_timers s)), [Ltimer (l_uid s) (l_now s + psec) (LKDone true (kf_seq f))].
    split; [dl s; reflexivity|]. split; [cbn; eauto|]. eapply N_ack; eauto.
  - apply track0. rewrite ltry_timers. subst s0. left. dl s; lproj; eauto.
  - apply track0. rewrite ltry_timers. subst s0. left. dl s; lproj; eauto.
  - apply track0. subst s0. left. dl s; lproj; eauto.
  - apply track0. subst s0. left. dl s; lproj; eauto.
  - exists (remove_nth i (l_timers s)), [Ltimer (l_uid s) (l_now s + ack_wait c s) (LKAck (kf_seq p))].
    split; [subst s0; dl s; reflexivity|]. split; [left; eauto|]. eapply N_data; eauto.
  - destruct H2 as [F|r F L|r F L].
    + apply track0. subst s0. left. dl s; lproj; eauto.
    + exists (remove_nth i (l_timers s)), [Ltimer (l_uid s) (l_now s + psec) (LKDone false sq)].
      split; [subst s0; dl s; reflexivity|]. split; [left; eauto|]. eapply N_tmo; eauto; subst s0; dl s; exact F.
    + apply track0. subst s0. left. dl s; lproj; eauto.
  - subst s0. destruct (ldone_loop ok sq (l_queue s) (l_rec s)) as [[[[[l q] d] k] em] ub] eqn:D.
    assert (D' : ldone_loop ok sq (l_queue (lset_timers (remove_nth i (l_timers s)) s)) (l_rec (lset_timers (remove_nth i (l_timers s)) s)) = (l, q, d, k, em, ub)) by (destruct s; exact D).
    destruct (Z.eq_dec k 0) as [->|K].
    + rewrite (l_done_none _ _ _ _ _ _ _ _ D'). cbn [fst snd]. apply track0. left. dl s; lproj; eauto.
    + rewrite (l_done_eq _ _ _ _ _ _ _ _ _ D' K). cbn [fst snd].
      exists (remove_nth i (l_timers s)), (results_at (length d) s). split; [dl s; reflexivity|]. split; [left; eauto|].
      eapply N_res; eauto. intros x X. unfold results_at in X. apply in_map_iff in X. destruct X as [j [<- _]]. auto.
  - apply track0. subst s0. left. dl s; lproj; eauto.
  - apply track0. right. auto.
  - apply track0. cbn. dl s; auto.
Qed.

Lemma kept_in s ev K t : lkept s ev K -> In t K -> In t (l_timers s).
Proof.
  destruct ev; cbn; try (intros [->|[u ->]] T; [auto|apply filter_In in T; apply T]).
  intros [[x [_ ->]]|[_ ->]] T; auto. eapply MacInv.in_remove; eauto.
Qed.

(** ** Expectations of acknowledgements *)
Lemma step_acks c e s ev s' o : lcase c e s ev s' o -> forall x, In x (l_acks s') ->
  In x (l_acks s) \/ exists i t p m, ev = LETimer i /\ nth_error (l_timers s) i = Some t /\ lt_kind t = LKData p m /\ In (LSnd p m) o /\ x = (kf_seq p, l_uid s).
Proof.
  intros C x X. destruct C; try (left; dl s; exact X).
  - left. destruct (l_sde s); dl s; exact X.
  - left. assert (E : l_acks s2 = l_acks s).
    { assert (l_acks s1 = l_acks s) by (destruct H5 as [A|s1 o1 A T]; [dl s; auto|destruct T; dl s; auto]).
      destruct H6; try (destruct s1; auto; fail). unfold decrease. destruct (find1 _ _); auto. destruct (_ =? 0); destruct s1; auto. }
    congruence.
  - left. assert (E : l_acks s2 = l_acks s).
    { destruct H3; try (dl s; auto; fail). unfold decrease. destruct (find1 _ _); [|dl s; auto]. destruct (_ =? 0); dl s; auto. }
    congruence.
  - left. destruct (cts_fields f (l_rec s) (lset_ctsn (wrap16 (l_ctsn s + 1)) (lset_state LIdle s))) as (_&_&_&E&_). rewrite E in X. dl s; exact X.
  - left. assert (X' : In x (erase1 (fun x => fst x =? kf_seq f) (l_acks s))) by (dl s; exact X). eapply MacInv.in_erase1; eauto.
  - left. subst s0. rewrite (proj1 (ltry_fields _ _)) in X. dl s; exact X.
  - left. subst s0. rewrite (proj1 (ltry_fields _ _)) in X. dl s; exact X.
  - left. subst s0. dl s; exact X.
  - left. subst s0. dl s; exact X.
  - assert (X' : In x (l_acks s ++ [(kf_seq p, l_uid s)])) by (subst s0; dl s; exact X).
    apply in_app_or in X'. destruct X' as [X'|[<-|[]]]; auto. right. exists i, t, p, m. repeat split; auto. left. auto.
  - left. assert (X' : In x (erase1 (fun x => fst x =? sq) (l_acks s))).
    { subst s0. destruct H2; dl s; exact X. }
    eapply MacInv.in_erase1; eauto.
  - left. subst s0. destruct (ldone_loop ok sq (l_queue s) (l_rec s)) as [[[[[l q] d] k] em] ub] eqn:D.
    assert (D' : ldone_loop ok sq (l_queue (lset_timers (remove_nth i (l_timers s)) s)) (l_rec (lset_timers (remove_nth i (l_timers s)) s)) = (l, q, d, k, em, ub)) by (destruct s; exact D).
    destruct (Z.eq_dec k 0) as [->|K].
    + rewrite (l_done_none _ _ _ _ _ _ _ _ D') in X. cbn [fst] in X. dl s; exact X.
    + rewrite (l_done_eq _ _ _ _ _ _ _ _ _ D' K) in X. cbn [fst] in X. dl s; exact X.
  - left. subst s0. dl s; exact X.
Qed.

(** ** The RTS that waits for an answer *)
Lemma step_last c e s ev s' o : lcase c e s ev s' o ->
  l_last s' = l_last s /\ (l_answered s' = false -> l_answered s = false) \/
  exists f r t, ev = LERxEnd f true /\ l_rec s = r :: t /\ l_last s' = kf_seq (lr_pkt r).
Proof.
  intros C. destruct C; try (left; dl s; lproj; auto; fail).
  - left. destruct (l_sde s); dl s; lproj; auto.
  - assert (X : l_last s1 = l_last s /\ (l_answered s1 = false -> l_answered s = false) /\
      (forall r t, l_rec s1 = r :: t -> exists r0 t0, l_rec s = r0 :: t0 /\ lr_pkt r = lr_pkt r0)).
    { destruct H5 as [A|s1 o1 A T]; [dl s; lproj; repeat split; auto; eauto|].
      destruct T; dl s; lproj; repeat split; auto; eauto; intros x y E; (destruct s_rec as [|z w]; [discriminate|]);
        match type of E with update1 _ ?g _ = _ => destruct (update1_head s_last g z w) as [r' [t' [U V]]]; [auto|] end;
        rewrite U in E; injection E as <- <-; eauto. }
    destruct X as (X1 & X2 & X3). destruct H6 as [B|B|B|r t B S R].
    + left. rewrite <- X1. unfold decrease. destruct (find1 _ _); [|auto]. destruct (_ =? 0); destruct s1; auto.
    + left. rewrite <- X1. destruct s1; auto.
    + left. rewrite <- X1. destruct s1; auto.
    + right. destruct (X3 _ _ R) as [r0 [t0 [R1 R2]]]. exists f, r0, t0. rewrite <- R2. destruct s1; auto.
  - left. destruct H3; try (dl s; lproj; auto; fail). unfold decrease. destruct (find1 _ _); [|dl s; auto]. destruct (_ =? 0); dl s; auto.
  - left. destruct (cts_fields f (l_rec s) (lset_ctsn (wrap16 (l_ctsn s + 1)) (lset_state LIdle s))) as (_&_&_&_&_&_&_&_&_&E&_&_&_&_&A&_).
    rewrite E. split; [dl s; auto|]. intros X. destruct (l_answered s) eqn:Y; auto. rewrite A in X; [discriminate|dl s; exact Y].
  - left. subst s0. match goal with |- context [ltry ?a ?b] => destruct (ltry_fields a b) as (_ & -> & -> & _) end. dl s; lproj; auto.
  - left. subst s0. match goal with |- context [ltry ?a ?b] => destruct (ltry_fields a b) as (_ & -> & -> & _) end. dl s; lproj; auto.
  - left. subst s0. dl s; lproj; auto.
  - left. subst s0. dl s; lproj; auto.
  - left. subst s0. dl s; lproj; auto.
  - left. subst s0. destruct H2; dl s; lproj; auto.
  - left. subst s0. destruct (ldone_loop ok sq (l_queue s) (l_rec s)) as [[[[[l q] d] k] em] ub] eqn:D.
    assert (D' : ldone_loop ok sq (l_queue (lset_timers (remove_nth i (l_timers s)) s)) (l_rec (lset_timers (remove_nth i (l_timers s)) s)) = (l, q, d, k, em, ub)) by (destruct s; exact D).
    destruct (Z.eq_dec k 0) as [->|K].
    + rewrite (l_done_none _ _ _ _ _ _ _ _ D'). cbn [fst]. dl s; auto.
    + rewrite (l_done_eq _ _ _ _ _ _ _ _ _ D' K). cbn [fst]. dl s; auto.
  - left. subst s0. dl s; lproj; auto.
Qed.

(** ** Frames sent *)
Lemma step_snd c e s ev s' o f m : lcase c e s ev s' o -> In (LSnd f m) o ->
  exists i t, ev = LETimer i /\ nth_error (l_timers s) i = Some t /\ l_air s = None /\ l_air s' = Some f /\
    (lt_kind t = LKDummy f /\ m = 0 \/ (exists p, lt_kind t = LKRts p /\ f = the_rts c p s /\ m = 0) \/ lt_kind t = LKData f m /\ kf_dst f <> bcast).
Proof.
  assert (TN : forall limit life ack sq a b y, tcase limit life ack sq a b y -> ~ In (LSnd f m) y).
  { intros limit life ack sq a b y T I. destruct T; cbn in I; destruct I as [I|I]; try discriminate; try contradiction.
    destruct (_ >=? 32); [destruct I as [I|[]]; discriminate|contradiction]. }
  intros C I. destruct C; try contradiction; try (cbn in I; destruct I as [I|[]]; discriminate).
  - cbn in I. destruct I as [I|[I|[]]]; discriminate.
  - exfalso. apply in_app_or in I. destruct I as [I|I].
    + destruct H5 as [A|s1 o1 A T]; [contradiction|]. eapply TN; eauto.
    + destruct H6; try contradiction. destruct I as [I|[]]; discriminate.
  - exfalso. destruct H3; try contradiction; [destruct I as [I|[]]; discriminate|]. destruct (_ <? 0); [destruct I as [I|[]]; discriminate|contradiction].
  - subst s0. unfold lsnt in I. destruct (lcan _) eqn:E; [|contradiction]. destruct I as [I|[]]. injection I as <- <-.
    exists i, t. repeat split; auto; [|unfold ltry; rewrite E; dl s; auto]. unfold lcan in E. apply andb_true_iff in E. destruct E as [_ E]. dl s; lproj; destruct s_air; auto; discriminate.
  - subst s0. unfold lsnt in I. destruct (lcan _) eqn:E; [|contradiction]. destruct I as [I|[]]. injection I as <- <-.
    exists i, t. repeat split; auto; [| |right; left; eauto].
    + unfold lcan in E. apply andb_true_iff in E. destruct E as [_ E]. dl s; lproj; destruct s_air; auto; discriminate.
    + unfold ltry. assert (E' : lcan (lset_ids (l_ids s + 1) (lset_timers (remove_nth i (l_timers s)) s)) = true) by (rewrite <- E; dl s; reflexivity).
      rewrite E'. dl s; reflexivity.
  - subst s0. destruct I as [I|I].
    + injection I as -> ->. exists i, t. repeat split; auto.
    + destruct (_ <? 0); [destruct I as [I|[]]; discriminate|contradiction].
  - exfalso. eapply TN; eauto.
  - exfalso. subst s0. destruct (ldone_loop ok sq (l_queue s) (l_rec s)) as [[[[[l q] d] k] em] ub] eqn:D.
    assert (D' : ldone_loop ok sq (l_queue (lset_timers (remove_nth i (l_timers s)) s)) (l_rec (lset_timers (remove_nth i (l_timers s)) s)) = (l, q, d, k, em, ub)) by (destruct s; exact D).
    destruct (Z.eq_dec k 0) as [->|K].
    + rewrite (l_done_none _ _ _ _ _ _ _ _ D') in I. contradiction.
    + rewrite (l_done_eq _ _ _ _ _ _ _ _ _ D' K) in I. cbn [snd] in I. apply in_app_or in I. destruct I as [I|I].
      * apply in_map_iff in I. destruct I as [x [I _]]. discriminate.
      * destruct ub; [destruct I as [I|[]]; discriminate|contradiction].
  - exfalso. destruct (l_res s); [contradiction|]. destruct I as [I|[]]; discriminate.
Qed.

(** ** Reports *)
Lemma step_rep c e s ev s' o b p : lcase c e s ev s' o -> In (LRep b p) o ->
  exists i t, nth_error (l_timers s) i = Some t /\ lt_kind t = LKDone b (kf_seq p) /\ In p (map lr_pkt (l_rec s)).
Proof.
  intros C I. apply step_view in C. destruct C as [S| |].
  - destruct S as (_ & S1 & S2). exfalso. apply in_lrep in I. destruct b; [rewrite S1 in I|rewrite S2 in I]; contradiction.
  - subst o. destruct I as [I|[I|[]]]; discriminate.
  - subst o. apply in_app_or in I. destruct I as [I|I].
    2: { destruct ub; [destruct I as [I|[]]; discriminate|contradiction]. }
    apply in_map_iff in I. destruct I as [x [I1 I2]]. injection I1 as -> ->.
    destruct (ldone_spec b sq (length (l_rec s)) _ _ _ _ _ _ _ _ (le_n _) H1) as (B1 & B2 & B3 & B4 & B5 & B6 & B7 & B8 & B9).
    exists i, t. repeat split; auto.
    + rewrite (B3 _ I2). auto.
    + eapply Permutation_in; [symmetry; exact B1|]. apply in_or_app. auto.
Qed.
