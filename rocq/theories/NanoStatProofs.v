(** The traced throughput of the nano MAC is a mean over the packets sent. *)
From Coq Require Import ZArith QArith List Bool Lia.
From Verif Require Import Base HeaderModel SeqModel EnergyModel NanoModel NanoSpec NanoProofs NanoOut NanoRetry NanoTrace NanoBudget StatProofs NanoStat.
Import ListNotations.
Open Scope Z_scope.

Definition accs (g : list (Z * out)) : list (frame * Z) := flat_map (fun x => match x with (t, OAccept p) => [(p, t)] | _ => [] end) g.
Definition sents (g : list (Z * out)) : list (frame * Z) := flat_map (fun x => match x with (t, ODone true p) => [(p, t)] | _ => [] end) g.
Lemma accs_app a b : accs (a ++ b) = accs a ++ accs b. Proof. apply flat_map_app. Qed.
Lemma sents_app a b : sents (a ++ b) = sents a ++ sents b. Proof. apply flat_map_app. Qed.
Lemma timed_out c l : forall s, map snd (timed c s l) = snd (run c s l).
Proof.
  induction l as [|e l IH]; intros s; [reflexivity|]. cbn [timed run]. rewrite map_app, IH. destruct (step c s e) as [s1 o1]. cbn [fst snd].
  destruct (run c s1 l). cbn [snd]. f_equal. rewrite map_map. cbn [snd]. apply map_id.
Qed.
Lemma accs_fst g : map fst (accs g) = accepted_pkts (map snd g).
Proof. unfold accepted_pkts. induction g as [|[t o] g IH]; [reflexivity|]. cbn [accs flat_map map snd]. rewrite map_app. fold (accs g). rewrite IH. destruct o; reflexivity. Qed.
Lemma sents_fst g : map fst (sents g) = reported true (map snd g).
Proof. unfold reported. induction g as [|[t o] g IH]; [reflexivity|]. cbn [sents flat_map map snd]. rewrite map_app. fold (sents g). rewrite IH. destruct o as [| | |[] p| | | | | |]; reflexivity. Qed.

Definition known (g : list (Z * out)) : Prop := forall g1 t p g2, g = g1 ++ (t, ODone true p) :: g2 -> exists t0, In (p, t0) (accs g1).
Definition distinct (g : list (Z * out)) : Prop := NoDup (map f_body (map fst (accs g))).

Lemma nsrun_app g1 : forall st g2, nsrun st (g1 ++ g2) =
  (fst (nsrun (fst (nsrun st g1)) g2), snd (nsrun st g1) ++ snd (nsrun (fst (nsrun st g1)) g2)).
Proof.
  induction g1 as [|x g1 IH]; intros st g2; cbn [app nsrun fst snd].
  - destruct (nsrun st g2); auto.
  - destruct (nsstep st x) as [st1 o1]. rewrite IH. destruct (nsrun st1 g1) as [st2 o2]. cbn [fst snd].
    destruct (nsrun st2 g2) as [st3 o3]. cbn [fst snd]. rewrite app_assoc. auto.
Qed.
Lemma nsrun_start g : ns_start (fst (nsrun nstat0 g)) = accs g.
Proof.
  induction g as [|[t o] g IH] using rev_ind; auto. rewrite nsrun_app. cbn [fst]. rewrite accs_app, <- IH.
  cbn [nsrun nsstep]. destruct o as [| | |[] p| | | | | |]; cbn; rewrite ?app_nil_r; auto.
  destruct (find _ _) as [[q t0]|]; cbn; reflexivity.
Qed.
Lemma find_acc l p t0 : NoDup (map f_body (map fst l)) -> In (p, t0) l -> find (fun r : frame * Z => f_body (fst r) =? f_body p) l = Some (p, t0).
Proof.
  induction l as [|[q t] l IH]; intros N I; [destruct I|]. cbn [map fst] in N. inversion N as [|x y N1 N2]; subst. cbn [find fst].
  destruct I as [E|I].
  - injection E as -> ->. rewrite Z.eqb_refl. reflexivity.
  - destruct (Z.eqb_spec (f_body q) (f_body p)) as [E|E]; [|auto]. exfalso. apply N1. rewrite E. apply in_map, (in_map fst _ _ I).
Qed.

Definition sent_rate (g : list (Z * out)) (x : Q) (r : frame * Z) : Prop :=
  exists t0, In (fst r, t0) (accs g) /\ x = nrate (f_size (fst r)) (snd r - t0).
Lemma mean g : known g -> distinct g ->
  exists X, Forall2 (sent_rate g) X (sents g) /\ (ns_all (fst (nsrun nstat0 g)) == qsum X)%Q /\ ns_n (fst (nsrun nstat0 g)) = Z.of_nat (length X) /\
    length (snd (nsrun nstat0 g)) = length X /\
    forall n, (n < length X)%nat -> (nth n (snd (nsrun nstat0 g)) 0 == qsum (firstn (S n) X) / inject_Z (Z.of_nat (S n)))%Q.
Proof.
  induction g as [|x g IH] using rev_ind; intros K D.
  { exists []. cbn. repeat split; auto. intros n N. inversion N. }
  assert (K1 : known g). { intros g1 t p g2 E. apply (K g1 t p (g2 ++ [x])). rewrite E, <- app_assoc. reflexivity. }
  assert (D1 : distinct g). { unfold distinct in *. rewrite accs_app, !map_app in D. revert D. generalize (map f_body (map fst (accs g))). intros l. induction l as [|y l IHl]; intros N; [constructor|].
    inversion N as [|? ? N1 N2]; subst. constructor; [intros Y; apply N1; apply in_or_app; auto|auto]. }
  destruct (IH K1 D1) as (X & A1 & A2 & A3 & A4 & A5). clear IH.
  assert (MO : Forall2 (sent_rate (g ++ [x])) X (sents g)).
  { clear - A1. induction A1 as [|a b L R (t0 & I & E) H IH]; constructor; auto. exists t0. rewrite accs_app. split; auto. apply in_or_app; auto. }
  rewrite sents_app, nsrun_app. cbn [fst snd].
  assert (SAME : forall (st : nstat) o, (ns_all st = ns_all (fst (nsrun nstat0 g))) -> ns_n st = ns_n (fst (nsrun nstat0 g)) -> o = [] -> sents [x] = [] ->
    exists Y, Forall2 (sent_rate (g ++ [x])) Y (sents g ++ sents [x]) /\ (ns_all st == qsum Y)%Q /\ ns_n st = Z.of_nat (length Y) /\
      length (snd (nsrun nstat0 g) ++ o) = length Y /\
      forall n, (n < length Y)%nat -> (nth n (snd (nsrun nstat0 g) ++ o) 0 == qsum (firstn (S n) Y) / inject_Z (Z.of_nat (S n)))%Q).
  { intros st o E1 E2 E3 E4. exists X. rewrite E1, E2, E3, E4, !app_nil_r. auto. }
  destruct x as [t o]. destruct o as [| | |[] p| | | | | |]; try (apply SAME; reflexivity).
  destruct (K g t p [] eq_refl) as [t0 I].
  cbn [nsrun nsstep]. rewrite nsrun_start, (find_acc _ p t0 D1 I).
  set (r := nrate (f_size p) (t - t0)). cbn [fst snd app flat_map sents ns_all ns_n]. exists (X ++ [r]).
  assert (QS : (qsum (X ++ [r]) == qsum X + r)%Q) by (rewrite qsum_app; cbn [qsum]; ring).
  repeat split.
  + apply Forall2_app; auto. constructor; [|constructor]. exists t0. cbn [fst snd]. split; auto. rewrite accs_app. apply in_or_app; auto.
  + rewrite QS, A2. ring.
  + rewrite A3, app_length. cbn [length]. lia.
  + rewrite !app_length, A4. reflexivity.
  + intros n N. rewrite app_length in N. cbn [length] in N. destruct (Nat.eq_dec n (length X)) as [->|NE].
    * rewrite app_nth2 by lia. rewrite A4, Nat.sub_diag. cbn [nth]. rewrite firstn_all2 by (rewrite app_length; cbn; lia).
      rewrite A3. replace (Z.of_nat (length X) + 1) with (Z.of_nat (S (length X))) by lia. rewrite QS, A2. reflexivity.
    * rewrite app_nth1 by lia. rewrite firstn_app. replace (S n - length X)%nat with 0%nat by lia. cbn [firstn]. rewrite app_nil_r. apply A5. lia.
Qed.

(** Packets are recorded before they are reported. *)
Lemma enq_no_done c s size dst ok p : ~ In (ODone ok p) (snd (step c s (EvEnqueue size dst))).
Proof.
  cbn [step]. intros I. destruct (enqueue_cases c size dst s) as [[_ E]|[[_ [_ E]]|[_ [Q E]]]]; rewrite E in I; cbn [snd] in I.
  1,2: destruct I as [I|[]]; discriminate I.
  destruct (behind _ _ _); cbn [snd] in I.
  - destruct I as [I|[I|[]]]; discriminate I.
  - destruct I as [X|X]; [discriminate X|]. apply in_app_or in X. destruct X as [X|[X|[]]]; [|discriminate X].
    pose proof (tx_first_calm c (accept_state c s size dst)) as C. rewrite forallb_forall in C. apply C in X. discriminate X.
Qed.
Lemma timed_app c l1 : forall s l2, timed c s (l1 ++ l2) = timed c s l1 ++ timed c (fst (run c s l1)) l2.
Proof.
  induction l1 as [|e l1 IH]; intros s l2; [reflexivity|]. cbn [app timed]. rewrite IH, <- app_assoc. do 2 f_equal.
  cbn [run]. destruct (step c s e) as [s1 o1]. cbn [fst]. destruct (run c s1 l1). reflexivity.
Qed.
Lemma split_app {A} (a b g1 : list A) x g2 : a ++ b = g1 ++ x :: g2 -> (exists g, a = g1 ++ x :: g) \/ (exists g, g1 = a ++ g /\ b = g ++ x :: g2).
Proof.
  revert g1. induction a as [|y a IH]; intros g1 E; [right; exists g1; auto|]. destruct g1 as [|z g1]; injection E as -> E.
  - left. exists a. reflexivity.
  - destruct (IH _ E) as [[g X]|[g [X Y]]]; [left; exists g; rewrite X; auto|right; exists g; rewrite X; auto].
Qed.
Lemma known_run c e0 l : config_ok c -> known (timed c (init e0) l).
Proof.
  intros C. induction l as [|e l IH] using rev_ind; intros g1 t p g2 E.
  { destruct g1; discriminate E. }
  rewrite timed_app in E. cbn [timed] in E. rewrite app_nil_r in E. set (s := fst (run c (init e0) l)) in *.
  apply split_app in E. destruct E as [[g E]|[g [E1 E2]]]; [apply (IH _ _ _ _ E)|].
  assert (D : In (ODone true p) (snd (step c s e))).
  { assert (X : In (ODone true p) (map snd (map (pair (s_now s)) (snd (step c s e))))) by (rewrite E2, map_app; cbn; apply in_or_app; right; left; auto).
    rewrite map_map in X. cbn [snd] in X. rewrite map_id in X. exact X. }
  pose proof (W_step c s _ e C (W_reach c e0 l C)) as H.
  destruct (w_done _ _ _ _ _ _ _ _ _ _ H true p ltac:(apply in_or_app; auto)) as [A _]. unfold acc in A. apply in_app_or in A.
  destruct A as [A|A].
  - rewrite <- timed_out in A. apply in_map_iff in A. destruct A as [[t0 x] [A1 A2]]. cbn [snd] in A1. subst x.
    exists t0. rewrite E1, accs_app. apply in_or_app. left. unfold accs. apply in_flat_map. exists (t0, OAccept p). split; [exact A2|left; auto].
  - exfalso. apply accept_out in A. destruct A as (size & dst & -> & _). apply (enq_no_done _ _ _ _ _ _ D).
Qed.
Lemma distinct_run c e0 l : config_ok c -> distinct (timed c (init e0) l).
Proof. intros C. unfold distinct. rewrite accs_fst, timed_out. apply (account c (fst (run c (init e0) l))), W_reach, C. Qed.

(** The clock. *)
Definition still (a : act) : Prop := forall s, s_now (fst (a s)) = s_now s.
Lemma still_seq a b : still a -> still b -> still (a ;; b).
Proof. intros A B s. rewrite seqa_eq. cbn [fst]. rewrite B. apply A. Qed.
Lemma still_emit o : still (emit o). Proof. intros s. reflexivity. Qed.
Lemma still_skip : still skip. Proof. intros s. reflexivity. Qed.
Lemma still_booking c tx rx k : (forall b, still (k b)) -> still (booking c tx rx k).
Proof. intros K s. unfold booking. destruct (book _ _ _ _) as [ok r]. rewrite still_seq; auto using still_emit. Qed.
Lemma still_refund c tx rx : still (refund c tx rx). Proof. intros s. reflexivity. Qed.
Lemma still_send_data c p : still (send_data c p). Proof. intros s. unfold send_data. destruct (_ =? _); reflexivity. Qed.
Lemma still_check c p : still (check_resources c p).
Proof. unfold check_resources. destruct (_ && _); apply still_booking; intros []; auto using still_skip, still_send_data. Qed.
Lemma still_tx_first c : still (tx_first c). Proof. intros s. unfold tx_first. destruct (s_queue s); [reflexivity|apply still_check]. Qed.
Lemma still_enqueue c size dst : still (enqueue c size dst).
Proof.
  intros s. unfold enqueue. destruct (size =? 64); [reflexivity|]. destruct (_ <=? _); [reflexivity|]. cbv zeta. destruct (existsb _ _); [reflexivity|].
  rewrite !still_seq; auto using still_emit, still_seq, still_tx_first.
Qed.
Lemma still_done ok p : still (send_data_done ok p).
Proof. intros s. unfold send_data_done. destruct (find _ _), ok; reflexivity. Qed.
Lemma still_retry c sq arg d : still (retry_or_discard c sq arg d).
Proof.
  intros s. unfold retry_or_discard. destruct (bump _ _) as [[t l]|]; [|reflexivity]. destruct (_ <=? _); [rewrite still_done; reflexivity|].
  unfold backoff. destruct (_ <? _); reflexivity.
Qed.
Lemma still_data c f : still (receive_data c f).
Proof.
  assert (F : still (forward_new f)) by (intros s; unfold forward_new; destruct (is_new _ _ _); reflexivity).
  unfold receive_data. destruct (_ =? _); [exact F|]. destruct (negb _); [apply still_skip|]. cbv zeta.
  match goal with |- still (if _ then ?r else _) => assert (R : still r) end.
  { apply still_seq; [|apply still_seq; [apply still_emit|exact F]]. intros s. destruct (find _ _) as [[]|]; reflexivity. }
  destruct (c_rts c); [exact R|]. apply still_booking. intros []; [exact R|apply still_skip].
Qed.
Lemma still_rts c f : still (receive_rts c f).
Proof.
  unfold receive_rts. apply still_booking. intros b. destruct (_ =? _); [|apply still_skip]. apply still_booking. intros []; [|apply still_skip].
  apply still_seq; [intros s; reflexivity|apply still_emit].
Qed.
Lemma still_cts c f : still (receive_cts c f).
Proof.
  unfold receive_cts. destruct (_ =? _); [|apply still_skip]. apply still_seq; intros s.
  - destruct (find _ _) as [[]|]; reflexivity.
  - destruct (find _ _); [apply still_send_data|reflexivity].
Qed.
Lemma still_ack c f : still (receive_ack c f).
Proof.
  intros s. unfold receive_ack. destruct (_ =? _); [|reflexivity]. destruct (find _ _) as [[[n u] p]|]; [|reflexivity].
  rewrite still_seq; auto using still_done. intros ?; reflexivity.
Qed.
Lemma now_step c s e : s_now (fst (step c s e)) = match e with EvTick t => t | _ => s_now s end.
Proof.
  destruct e as [size dst|f ok|i d|r| |t]; cbn [step]; try reflexivity.
  - apply still_enqueue.
  - unfold receive. destruct (negb ok); [reflexivity|]. destruct (_ =? _); [apply still_rts|]. destruct (_ =? _); [apply still_cts|].
    destruct (_ =? _); [apply still_data|]. destruct (_ =? _); [apply still_ack|reflexivity].
  - destruct (nth_error _ _) as [t|]; [|reflexivity]. destruct (tm_kind t) as [p|p|sq|sq]; cbn [fire].
    + rewrite still_check. reflexivity.
    + unfold cts_timeout. rewrite still_seq; [reflexivity|apply still_emit|]. repeat apply still_seq; auto using still_refund, still_retry. intros ?; reflexivity.
    + unfold ack_timeout. rewrite still_seq; [reflexivity|apply still_emit|]. repeat apply still_seq; auto using still_refund, still_retry. intros ?; reflexivity.
    + reflexivity.
  - apply still_tx_first.
Qed.
Lemma timed_after c l : forall s, timely_run c s l = true -> forall t o, In (t, o) (timed c s l) -> s_now s <= t.
Proof.
  induction l as [|e l IH]; intros s T t o I; [destruct I|]. cbn [timely_run] in T. apply andb_true_iff in T. destruct T as [T1 T2].
  cbn [timed] in I. apply in_app_or in I. destruct I as [I|I].
  - apply in_map_iff in I. destruct I as [x [E _]]. injection E as <- _. lia.
  - specialize (IH _ T2 _ _ I). rewrite now_step in IH. destruct e as [| | | | |t']; try exact IH. cbn [timely] in T1. apply andb_true_iff in T1. destruct T1 as [T1 _]. apply Z.leb_le in T1. lia.
Qed.
(** Effects come in the order of time. *)
Lemma timed_order c l : forall s, timely_run c s l = true -> forall g1 x g2, timed c s l = g1 ++ x :: g2 -> forall y, In y g1 -> fst y <= fst x.
Proof.
  induction l as [|e l IH]; intros s T g1 x g2 E y I; [destruct g1; discriminate E|]. cbn [timely_run] in T. apply andb_true_iff in T. destruct T as [T1 T2].
  cbn [timed] in E. assert (AFT : forall z, In z (timed c (fst (step c s e)) l) -> s_now s <= fst z).
  { intros [t o] J. pose proof (timed_after _ _ _ T2 _ _ J) as A. rewrite now_step in A. cbn [fst]. destruct e as [| | | | |t']; try exact A.
    cbn [timely] in T1. apply andb_true_iff in T1. destruct T1 as [T1 _]. apply Z.leb_le in T1. lia. }
  assert (EQ : forall z, In z (map (pair (s_now s)) (snd (step c s e))) -> fst z = s_now s).
  { intros z J. apply in_map_iff in J. destruct J as [w [<- _]]. reflexivity. }
  apply split_app in E. destruct E as [[g E]|[g [E1 E2]]].
  - rewrite (EQ y), (EQ x); [lia| |]; rewrite E; apply in_or_app; [right; left; auto|auto].
  - assert (X : In x (timed c (fst (step c s e)) l)) by (rewrite E2; apply in_or_app; right; left; auto).
    rewrite E1 in I. apply in_app_or in I. destruct I as [I|I]; [rewrite (EQ y I); apply AFT, X|].
    apply (IH _ T2 _ _ _ E2 _ I).
Qed.
