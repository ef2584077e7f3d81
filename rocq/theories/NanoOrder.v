(** Ordering invariant of one nano MAC: as long as fewer than 65536 packets have been
    accepted, nothing is transmitted while an earlier packet for the same destination is
    pending. *)
From Coq Require Import ZArith List Lia Bool Sorting.Sorted.
From Verif Require Import Base HeaderModel SeqModel EnergyModel NanoModel NanoProofs.
Import ListNotations.
Open Scope Z_scope.

(** Every pending packet for the destination of [p] was accepted no earlier than [p]. *)
Definition ord (p : frame) (tx : list txent) : Prop :=
  forall t, In t tx -> f_dst (t_pkt t) = f_dst p -> f_body p <= f_body (t_pkt t).
(** The same for all destinations. *)
Definition ord_all (p : frame) (tx : list txent) : Prop :=
  forall t, In t tx -> f_body p <= f_body (t_pkt t).

Lemma ord_all_ord p tx : ord_all p tx -> ord p tx.
Proof. intros H t T _. auto. Qed.

Definition ktm (tx : list txent) (tr : list out) (k : tkind) : Prop :=
  match k with
  | KCheck p => f_dst p <> bcast /\ ord p tx
  | KCts p => ord p tx
  | KAck n => exists p, acc p tr /\ f_seq p = n /\ f_dst p <> bcast /\ ord p tx
  | KData _ => True
  end.

Definition ksent (c : config) (tx : list txent) (tr : list out) (f : frame) : Prop :=
  (f_type f = T_DATA -> acc f tr /\ ord f tx /\ (f_dst f = bcast -> ord_all f tx)) /\
  (f_type f = T_RTS -> exists p, f = ctrl T_RTS (c_addr c) (f_dst p) (f_seq p) /\
                         acc p tr /\ f_dst p <> bcast /\ ord p tx).

Record K0 (c : config) (tx : list txent) (tm : list timer) (ak : list (Z * Z * frame))
  (tr : list out) : Prop := {
  k_tm : forall t, In t tm -> ktm tx tr (tm_kind t);
  k_ack : forall n u p, In (n, u, p) ak -> ord p tx;
  k_sent : forall f, In (OSend f) tr -> ksent c tx tr f
}.

Definition K (c : config) : inv := fun s tr =>
  W c s tr /\ s_ids s <= 65535 /\ K0 c (s_tx s) (s_timers s) (s_ack s) tr.

(** Outputs other than transmissions. *)
Definition unsent (o : out) : bool := match o with OSend _ => false | _ => true end.

Lemma ktm_app tx tr o k : ktm tx tr k -> ktm tx (tr ++ o) k.
Proof. destruct k; cbn; auto. intros [p [A B]]. exists p. split; auto using acc_app. Qed.

Lemma ksent_app c tx tr o f : ksent c tx tr f -> ksent c tx (tr ++ o) f.
Proof.
  intros [A B]. split; intros T.
  - destruct (A T) as [X Y]. auto using acc_app.
  - destruct (B T) as [p [X [Y Z]]]. exists p. auto using acc_app.
Qed.

Lemma K0_change c tx tm ak tr tm' ak' o :
  K0 c tx tm ak tr ->
  (forall t, In t tm' -> In t tm \/ ktm tx tr (tm_kind t)) ->
  (forall n u p, In (n, u, p) ak' -> In (n, u, p) ak \/ ord p tx) ->
  (forall f, In (OSend f) o -> ksent c tx (tr ++ o) f) ->
  K0 c tx tm' ak' (tr ++ o).
Proof.
  intros [] T A S. constructor.
  - intros t H. apply ktm_app. destruct (T t H); auto.
  - intros n u p H. destruct (A n u p H); eauto.
  - intros f H. apply in_app_or in H. destruct H as [H|H]; auto using ksent_app.
Qed.

Lemma unsent_not o f : forallb unsent o = true -> ~ In (OSend f) o.
Proof. intros Q H. rewrite forallb_forall in Q. specialize (Q _ H). discriminate. Qed.

Lemma K0_quiet c tx tm ak tr o : K0 c tx tm ak tr -> forallb unsent o = true -> K0 c tx tm ak (tr ++ o).
Proof.
  intros H Q. eapply K0_change; eauto. intros f F. exfalso. eapply unsent_not; eauto.
Qed.

(** Shrinking the list of pending packets. *)
Lemma K0_shrink c tx tx' tm ak tr :
  K0 c tx tm ak tr -> (forall t, In t tx' -> In (t_pkt t) (map t_pkt tx)) -> K0 c tx' tm ak tr.
Proof.
  intros [] H.
  assert (O : forall p, ord p tx -> ord p tx').
  { intros p P t T E. specialize (H t T). apply in_map_iff in H. destruct H as [t' [E' T']].
    rewrite <- E' in *. auto. }
  assert (OA : forall p, ord_all p tx -> ord_all p tx').
  { intros p P t T. specialize (H t T). apply in_map_iff in H. destruct H as [t' [E' T']].
    rewrite <- E' in *. auto. }
  constructor.
  - intros t T. specialize (k_tm0 t T). destruct (tm_kind t); cbn in *; auto.
    + destruct k_tm0. auto.
    + destruct k_tm0 as [p [? [? [? ?]]]]. exists p. auto.
  - intros n u p P. eauto.
  - intros f F. destruct (k_sent0 f F) as [A B]. split; intros T.
    + destruct (A T) as [? [? ?]]. auto.
    + destruct (B T) as [p [? [? [? ?]]]]. exists p. auto.
Qed.

Lemma bounded_seq c s tr p : K c s tr -> acc p tr -> f_seq p = f_body p + 1.
Proof.
  intros [[] [B _]] A. apply w_hist in A. destruct A as [_ [_ [-> A]]].
  unfold wrap16. apply Z.mod_small. change (2 ^ 16) with 65536. lia.
Qed.

Lemma seq_inj c s tr p q : K c s tr -> acc p tr -> acc q tr -> f_seq p = f_seq q -> p = q.
Proof.
  intros H P Q E. rewrite (bounded_seq _ _ _ _ H P), (bounded_seq _ _ _ _ H Q) in E.
  destruct H as [[] _]. apply w_uniq; auto. lia.
Qed.

Lemma K_emit c o : quiet o = true -> unsent o = true -> keeps (K c) (emit o).
Proof.
  intros Q U s tr [H [B H']]. cbn. split; [apply W0_quiet; auto|split; auto]; cbn; rewrite ?Q; auto.
  apply K0_quiet; auto. cbn. rewrite U. auto.
Qed.

Lemma K_booking c tx rx k : (forall ok, keeps (K c) (k ok)) -> keeps (K c) (booking c tx rx k).
Proof.
  intros H s tr I. rewrite booking_eq. cbv zeta. set (b := book _ _ _ _). cbn [fst snd].
  replace (tr ++ OBooked (fst b) tx rx :: snd (k (fst b) (set_energy (snd b) s)))
    with ((tr ++ [OBooked (fst b) tx rx]) ++ snd (k (fst b) (set_energy (snd b) s)))
    by (rewrite <- app_assoc; reflexivity).
  apply H. apply (K_emit c (OBooked (fst b) tx rx) eq_refl eq_refl (set_energy (snd b) s)). exact I.
Qed.

Lemma K_refund c tx rx : keeps (K c) (refund c tx rx).
Proof. intros s tr H. unfold refund. apply K_emit; auto. Qed.

(** A packet that may be transmitted now. *)
Definition ready (p : frame) (tx : list txent) (tr : list out) : Prop :=
  acc p tr /\ ord p tx /\ (f_dst p = bcast -> ord_all p tx).

Lemma ready_app p tx tr o : ready p tx tr -> ready p tx (tr ++ o).
Proof. intros [A B]. split; auto using acc_app. Qed.

Lemma type_data_not_rts p : f_type p = T_DATA -> f_type p <> T_RTS.
Proof. intros ->. discriminate. Qed.

Lemma K_send_rts c p s tr : K c s tr -> ready p (s_tx s) tr -> f_dst p <> bcast ->
  K c (fst (send_rts c p s)) (tr ++ snd (send_rts c p s)).
Proof.
  intros [H [B H']] [A [O _]] D. split; [apply W_send_rts; auto|split; [exact B|]].
  unfold send_rts. cbn [fst snd]. eapply K0_change; [exact H'| |auto|].
  - intros t T. apply in_schedule in T. destruct T as [|T]; auto. right. rewrite T. exact O.
  - intros f [F|[]]. injection F as <-. split; [discriminate|].
    intros _. exists p. auto using acc_app.
Qed.

Lemma K_send_data c p s tr : K c s tr -> ready p (s_tx s) tr ->
  K c (fst (send_data c p s)) (tr ++ snd (send_data c p s)).
Proof.
  intros [H [B H']] [A [O OA]]. pose proof (W_send_data c p s tr H A) as H1.
  assert (TD : f_type p = T_DATA) by (apply (w_hist _ _ _ _ _ _ _ _ _ _ H) in A; tauto).
  assert (S : forall f, In (OSend f) [OSend p] -> ksent c (s_tx s) (tr ++ [OSend p]) f).
  { intros f [F|[]]. injection F as <-. split.
    - auto using acc_app.
    - intros T. apply type_data_not_rts in TD. tauto. }
  unfold send_data in *. destruct (Z.eqb_spec (f_dst p) bcast) as [E|E]; cbn [fst snd] in *.
  - split; auto. split; auto. eapply K0_change; eauto.
  - split; [exact H1|split; [exact B|]]. eapply K0_change; [exact H'| | |exact S].
    + intros t T. apply in_schedule in T. destruct T as [|T]; auto. right. rewrite T.
      exists p. auto.
    + intros n u q T. cbn in T. apply in_app_or in T. destruct T as [|[T|[]]]; auto.
      injection T as <- <- <-. auto.
Qed.

Lemma K_check c p s tr : K c s tr -> ready p (s_tx s) tr ->
  K c (fst (check_resources c p s)) (tr ++ snd (check_resources c p s)).
Proof.
  intros H R. unfold check_resources.
  destruct (negb (f_dst p =? bcast) && c_rts c) eqn:E; rewrite booking_eq; cbv zeta; cbn [fst snd];
    set (b := book _ _ _ _); rewrite (app_assoc tr [_] _ : tr ++ _ :: _ = _).
  - apply andb_true_iff in E. destruct E as [E _]. apply negb_true_iff, Z.eqb_neq in E.
    pose proof (K_emit c (OBooked (fst b) (f_size p + hdr_size T_RTS) (2 * hdr_size T_RTS)) eq_refl eq_refl
      (set_energy (snd b) s) tr H) as H1. cbn [emit fst snd] in H1.
    destruct (fst b); [apply K_send_rts; auto using ready_app|cbn; rewrite app_nil_r; exact H1].
  - pose proof (K_emit c (OBooked (fst b) (f_size p) (hdr_size T_ACK)) eq_refl eq_refl
      (set_energy (snd b) s) tr H) as H1. cbn [emit fst snd] in H1.
    destruct (fst b); [apply K_send_data; auto using ready_app|cbn; rewrite app_nil_r; exact H1].
Qed.

Lemma ready_front c s tr p q : W c s tr -> s_queue s = p :: q -> ready p (s_tx s) tr.
Proof.
  intros [] E. rewrite w_queue in E. destruct (s_tx s) as [|t l] eqn:T; [discriminate|].
  injection E as <- _.
  assert (O : ord_all (t_pkt t) (t :: l)).
  { intros t' [<-|T']; [lia|]. cbn in w_sorted. inversion w_sorted; subst.
    rewrite Forall_forall in H2. specialize (H2 (f_body (t_pkt t'))).
    apply Z.lt_le_incl, H2. apply (in_map (fun t => f_body (t_pkt t))). auto. }
  split; [apply w_tx; left; auto|split; auto using ord_all_ord].
Qed.

Lemma K_tx_first c : keeps (K c) (tx_first c).
Proof.
  intros s tr H. unfold tx_first. destruct (s_queue s) as [|p q] eqn:E; [cbn; rewrite app_nil_r; exact H|].
  apply K_check; auto. destruct H as [H _]. eapply ready_front; eauto.
Qed.

Lemma K_enqueue c size dst s tr : config_ok c -> K c s tr ->
  s_ids (fst (enqueue c size dst s)) <= 65535 ->
  K c (fst (enqueue c size dst s)) (tr ++ snd (enqueue c size dst s)).
Proof.
  intros C H. unfold enqueue.
  destruct (size =? 64); [intros _; apply K_emit; auto|].
  destruct (Z.leb_spec (c_limit c) (Z.of_nat (length (s_queue s)))) as [L|L]; [intros _; apply K_emit; auto|].
  pose proof (W_accept c s tr size dst C (proj1 H) L) as A. cbv zeta in A |- *.
  set (p := Frame _ _ _ _ _ _) in *. set (s2 := set_tx _ _) in *.
  change (s_tx (set_ids _ _)) with (s_tx s).
  intros B.
  assert (s_ids s2 <= 65535) as B2.
  { revert B. destruct (existsb _ _); rewrite seqa_eq; cbn [fst snd emit]; auto.
    rewrite seqa_eq. cbn [fst snd emit]. unfold tx_first.
    change (s_queue s2) with (s_queue s ++ [p]). destruct (s_queue s ++ [p]) as [|x ?]; [auto|].
    unfold check_resources. destruct (_ && _); rewrite booking_eq; cbv zeta; cbn [fst snd];
      destruct (fst (book _ _ _ _)); cbn [fst snd skip]; auto.
    unfold send_data. destruct (_ =? _); auto. }
  clear B.
  assert (K2 : K c s2 (tr ++ [OAccept p])).
  { split; [exact A|]. split; [exact B2|]. destruct H as [HW [HB []]].
    assert (O : forall x, acc x tr -> ord x (s_tx s) -> ord x (s_tx s2)).
    { intros x X OX t T E. cbn in T. apply in_app_or in T. destruct T as [T|[<-|[]]]; auto.
      cbn. apply (w_hist _ _ _ _ _ _ _ _ _ _ HW) in X. lia. }
    assert (OA : forall x, acc x tr -> ord_all x (s_tx s) -> ord_all x (s_tx s2)).
    { intros x X OX t T. cbn in T. apply in_app_or in T. destruct T as [T|[<-|[]]]; auto.
      cbn. apply (w_hist _ _ _ _ _ _ _ _ _ _ HW) in X. lia. }
    constructor.
    - intros t T. pose proof (w_tm _ _ _ _ _ _ _ _ _ _ HW t T) as WT. specialize (k_tm0 t T).
      destruct (tm_kind t); cbn in *; auto.
      + destruct k_tm0; auto.
      + destruct WT; auto.
      + destruct k_tm0 as [x [? [? [? ?]]]]. exists x. auto using acc_app.
    - intros n u x X. apply O; [|eapply k_ack0, X].
      apply (w_ack _ _ _ _ _ _ _ _ _ _ HW n u x X).
    - intros f F. apply in_app_or in F. destruct F as [F|[F|[]]]; [|discriminate].
      destruct (k_sent0 f F) as [X Y]. split; intros T.
      + destruct (X T) as [? [? ?]]. repeat split; auto using acc_app.
      + destruct (Y T) as [x [? [? [? ?]]]]. exists x. auto using acc_app. }
  destruct (existsb _ _); rewrite seqa_eq; cbn [fst snd emit]; rewrite app_assoc.
  - apply (K_emit c (ORet true)); auto.
  - apply (keeps_seq (K c) (tx_first c) (emit (ORet true))); auto using K_tx_first.
    apply K_emit; auto.
Qed.

Lemma find_first_sorted (q : txent -> bool) l d :
  StronglySorted Z.lt (map (fun t => f_body (t_pkt t)) l) -> find q l = Some d ->
  forall t, In t l -> q t = true -> f_body (t_pkt d) <= f_body (t_pkt t).
Proof.
  induction l as [|x l IH]; intros S F t T Q; cbn in *; [tauto|]. inversion S; subst.
  destruct (q x) eqn:E.
  - injection F as <-. destruct T as [<-|T]; [lia|]. rewrite Forall_forall in H2.
    apply Z.lt_le_incl, H2. apply (in_map (fun t => f_body (t_pkt t))). auto.
  - destruct T as [<-|T]; [congruence|]. apply IH; auto.
Qed.

Lemma K_done c ok p s tr : K c s tr -> acc p tr -> f_dst p <> bcast -> ord p (s_tx s) ->
  K c (fst (send_data_done ok p s)) (tr ++ snd (send_data_done ok p s)).
Proof.
  intros H A D O. pose proof H as [HW [HB HK]].
  pose proof (W_done c ok p s tr HW) as W1.
  set (r := send_data_done ok p s) in *.
  assert (TX : s_tx (fst r) = filter (fun t => negb (f_seq (t_pkt t) =? f_seq p)) (s_tx s))
    by (unfold r, send_data_done; destruct ok; reflexivity).
  assert (AK : s_ack (fst r) = s_ack s)
    by (unfold r, send_data_done; cbn [fst]; destruct (find _ _), ok; reflexivity).
  assert (ID : s_ids (fst r) = s_ids s)
    by (unfold r, send_data_done; cbn [fst]; destruct (find _ _), ok; reflexivity).
  assert (TM : forall t, In t (s_timers (fst r)) -> In t (s_timers s) \/
      exists d, tm_kind t = KCheck (t_pkt d) /\
        find (fun t => (f_seq (t_pkt t) >? f_seq p) && (f_dst (t_pkt t) =? f_dst p)) (s_tx s) = Some d).
  { intros t T. unfold r, send_data_done in T. cbn [fst] in T.
    destruct (find _ (s_tx s)) as [d|]; [|left; destruct ok; exact T].
    assert (In t (s_timers (schedule 0 (KCheck (t_pkt d)) s))) as T' by (destruct ok; exact T).
    apply in_schedule in T'. destruct T' as [|T']; eauto. }
  assert (UN : forallb unsent (snd r) = true).
  { unfold r, send_data_done. cbn [snd]. apply forallb_forall. intros o I.
    apply in_map_iff in I. destruct I as [t [<- _]]. reflexivity. }
  split; [exact W1|]. split; [lia|]. rewrite TX, AK.
  set (tx' := filter _ (s_tx s)).
  assert (K1 : K0 c tx' (s_timers s) (s_ack s) tr).
  { eapply K0_shrink; [exact HK|]. intros t T. apply in_map. apply filter_In in T. tauto. }
  eapply K0_change; [exact K1| |auto|].
  - intros t T. destruct (TM t T) as [|[d [E F]]]; auto. right. rewrite E. cbn.
    pose proof (find_some _ _ F) as [FI FQ]. apply andb_true_iff in FQ. destruct FQ as [FQ FD].
    apply Z.eqb_eq in FD. apply Z.gtb_lt in FQ. split; [rewrite FD; exact D|].
    intros t' T' E'. apply filter_In in T'. destruct T' as [T' N]. apply negb_true_iff, Z.eqb_neq in N.
    apply (find_first_sorted _ _ _ (w_sorted _ _ _ _ _ _ _ _ _ _ HW) F); auto.
    apply andb_true_iff. split; [|apply Z.eqb_eq; congruence].
    apply Z.gtb_lt. specialize (O t' T' ltac:(congruence)).
    pose proof (w_tx _ _ _ _ _ _ _ _ _ _ HW t' T') as A'.
    rewrite (bounded_seq _ _ _ _ H A), (bounded_seq _ _ _ _ H A') in *. lia.
  - intros f F. exfalso. eapply unsent_not; eauto.
Qed.

Lemma K_cancel c u s tr : K c s tr -> K c (cancel u s) tr.
Proof.
  intros [H [B H']]. rewrite <- (app_nil_r tr). split; [|split; [exact B|]].
  - eapply W0_change; [exact H|reflexivity| |auto]. intros t T. left. apply in_cancel in T. exact T.
  - eapply K0_change; [exact H'| |auto|intros f []]. intros t T. left. apply in_cancel in T. exact T.
Qed.

Lemma K_set_cts c l s tr : K c s tr -> K c (set_cts l s) tr.
Proof. intros H. exact H. Qed.

Lemma K_erase_ack c q s tr : K c s tr -> K c (set_ack (erase_first q (s_ack s)) s) tr.
Proof.
  intros [H [B H']]. rewrite <- (app_nil_r tr). split; [|split; [exact B|]].
  - eapply W0_change; [exact H|reflexivity|auto|]. intros n u p P. left. eapply in_erase_first, P.
  - eapply K0_change; [exact H'|auto| |intros f []]. intros n u p P. left. eapply in_erase_first, P.
Qed.

Lemma K_retry_or_discard c sq arg draw s tr :
  K c s tr ->
  (exists p, acc p tr /\ f_seq p = sq /\ f_dst p <> bcast /\ ord p (s_tx s) /\
             match arg with Some q => q = p | None => True end) ->
  K c (fst (retry_or_discard c sq arg draw s)) (tr ++ snd (retry_or_discard c sq arg draw s)).
Proof.
  intros H [p [A [E [D [O AE]]]]]. unfold retry_or_discard.
  destruct (bump sq (s_tx s)) as [[t l]|] eqn:B; [|cbn; rewrite app_nil_r; exact H].
  destruct (W_bump _ _ _ _ _ _ (proj1 H) B) as [H1 [A1 E1]].
  assert (t_pkt t = p) as TP by (apply (seq_inj c s tr); auto; congruence).
  pose proof (bump_map _ _ _ _ B) as M.
  assert (O' : ord p l).
  { intros x X. apply (in_map t_pkt) in X. rewrite M in X. apply in_map_iff in X.
    destruct X as [y [<- Y]]. auto. }
  assert (H2 : K c (set_tx l s) tr).
  { destruct H as [HW [HB HK]]. split; [exact H1|split; [exact HB|]].
    eapply K0_shrink; [exact HK|]. intros x X. rewrite <- M. apply in_map. auto. }
  destruct (c_retry c <=? t_retry t).
  - assert ((match arg with Some q => q | None => t_pkt t end) = p) as -> by (destruct arg; auto).
    apply K_done; auto.
  - unfold backoff. destruct (t_retry t <? 32); cbn [fst snd].
    + destruct H2 as [HW [HB HK]]. split; [|split; [exact HB|]].
      * eapply W0_change; [exact HW|reflexivity| |auto].
        intros x X. apply in_schedule in X. destruct X as [|X]; auto. right. rewrite X. exact A1.
      * eapply K0_change; [exact HK| |auto|].
        -- intros x X. apply in_schedule in X. destruct X as [|X]; auto. right. rewrite X, TP. cbn. auto.
        -- intros f [F|[]]. discriminate.
    + apply (K_emit c OUB); auto.
Qed.

Lemma K_timeout_tail c sq arg draw o1 (g : state -> state) tx rx s tr :
  quiet o1 = true -> unsent o1 = true ->
  (forall s tr, K c s tr -> K c (g s) tr) -> (forall s, s_tx (g s) = s_tx s) ->
  K c s tr ->
  (exists p, acc p tr /\ f_seq p = sq /\ f_dst p <> bcast /\ ord p (s_tx s) /\
             match arg with Some q => q = p | None => True end) ->
  let a := emit o1 ;; refund c tx rx ;; (fun s => (g s, [])) ;; retry_or_discard c sq arg draw in
  K c (fst (a s)) (tr ++ snd (a s)).
Proof.
  intros Q U G GT H [p [A [E [D [O AE]]]]] a. unfold a. rewrite !seqa_eq. cbn [fst snd emit].
  pose proof (K_emit c o1 Q U s tr H) as H1. cbn [fst snd emit] in H1.
  pose proof (K_refund c tx rx _ _ H1) as H2.
  pose proof (G _ _ H2) as H3.
  rewrite !app_assoc. rewrite app_nil_r.
  apply K_retry_or_discard; auto.
  exists p. rewrite GT. repeat split; auto using acc_app.
Qed.

Lemma K_cts_timeout c p draw s tr : K c s tr -> acc p tr -> f_dst p <> bcast -> ord p (s_tx s) ->
  K c (fst (cts_timeout c p draw s)) (tr ++ snd (cts_timeout c p draw s)).
Proof.
  intros H A D O. unfold cts_timeout.
  apply (K_timeout_tail c (f_seq p) (Some p) draw (OTimeout (f_seq p))
           (fun s => set_cts (erase_first (fun x => fst x =? f_seq p) (s_cts s)) s)
           (c_framelen c) (2 * hdr_size T_RTS)); auto.
  exists p. auto.
Qed.

Lemma K_ack_timeout c sq draw s tr : K c s tr ->
  (exists p, acc p tr /\ f_seq p = sq /\ f_dst p <> bcast /\ ord p (s_tx s)) ->
  K c (fst (ack_timeout c sq draw s)) (tr ++ snd (ack_timeout c sq draw s)).
Proof.
  intros H [p [A [E [D O]]]]. unfold ack_timeout.
  apply (K_timeout_tail c sq None draw (OTimeout sq)
           (fun s => set_ack (erase_first (fun x => fst (fst x) =? sq) (s_ack s)) s)
           0 (hdr_size T_RTS)); auto.
  - intros. apply K_erase_ack; auto.
  - exists p. auto 10.
Qed.

Lemma K_data_timeout c sq : keeps (K c) (data_timeout c sq).
Proof.
  unfold data_timeout. apply keeps_seq; [apply K_refund|]. intros s tr H. cbn. rewrite app_nil_r. exact H.
Qed.

Lemma K_ctrl c ty dst sq : ty = T_CTS \/ ty = T_ACK -> keeps (K c) (emit (OSend (ctrl ty (c_addr c) dst sq))).
Proof.
  intros T s tr [H [B H']]. cbn. split; [apply W0_quiet; auto|split; auto].
  eapply K0_change; eauto. intros f [F|[]]. injection F as <-.
  split; intros E; cbn in E; destruct T; subst; discriminate.
Qed.

Lemma K_receive_rts c f : keeps (K c) (receive_rts c f).
Proof.
  unfold receive_rts. apply K_booking. intros _. destruct (_ =? _); [|apply keeps_skip].
  apply K_booking. intros []; [|apply keeps_skip]. apply keeps_seq; [|apply K_ctrl; auto].
  intros s tr [H [B H']]. cbn [fst snd]. rewrite app_nil_r.
  split; [|split; [exact B|]]; rewrite <- (app_nil_r tr).
  - eapply W0_change; [exact H|reflexivity| |auto].
    intros t T. apply in_schedule in T. destruct T as [|T]; auto. right. rewrite T. exact I.
  - eapply K0_change; [exact H'| |auto|intros ? []].
    intros t T. apply in_schedule in T. destruct T as [|T]; auto. right. rewrite T. exact I.
Qed.

(** A CTS addressed to this node answers an RTS it sent. *)
Definition honest (c : config) (tr : list out) (e : event) : Prop :=
  match e with
  | EvRecv f true => f_type f = T_CTS -> f_dst f = c_addr c ->
      In (OSend (ctrl T_RTS (c_addr c) (f_src f) (f_seq f))) tr
  | _ => True
  end.

Lemma K_receive_cts c f s tr : K c s tr ->
  (f_dst f = c_addr c -> In (OSend (ctrl T_RTS (c_addr c) (f_src f) (f_seq f))) tr) ->
  K c (fst (receive_cts c f s)) (tr ++ snd (receive_cts c f s)).
Proof.
  intros H HO. unfold receive_cts. destruct (Z.eqb_spec (f_dst f) (c_addr c)) as [E|E];
    [|cbn; rewrite app_nil_r; exact H].
  specialize (HO E). rewrite seqa_eq. cbn [fst snd].
  set (r := match find _ (s_cts s) with Some _ => _ | None => _ end).
  assert (snd r = []) as R2 by (unfold r; destruct (find _ _) as [[? ?]|]; reflexivity).
  assert (K c (fst r) tr) as R1.
  { unfold r. destruct (find _ _) as [[n u]|]; [|exact H]. cbn [fst]. apply K_cancel. exact H. }
  assert (s_tx (fst r) = s_tx s) as R3 by (unfold r; destruct (find _ _) as [[? ?]|]; reflexivity).
  rewrite R2, app_nil_l.
  destruct (find _ (s_tx (fst r))) as [t|] eqn:F; [|cbn; rewrite app_nil_r; exact R1].
  apply find_some in F. destruct F as [FI F]. apply andb_true_iff in F. destruct F as [F1 F2].
  apply Z.eqb_eq in F1. apply Z.eqb_eq in F2.
  apply K_send_data; auto.
  destruct (k_sent _ _ _ _ _ (proj2 (proj2 R1)) _ HO) as [_ X].
  destruct (X eq_refl) as [p [PE [PA [PD PO]]]].
  injection PE as E1 E2.
  assert (t_pkt t = p) as ->.
  { apply (seq_inj c (fst r) tr); auto; [|congruence].
    apply (w_tx _ _ _ _ _ _ _ _ _ _ (proj1 R1)). auto. }
  split; [exact PA|split; [exact PO|tauto]].
Qed.

Lemma K_forward c f : keeps (K c) (forward_new f).
Proof.
  intros s tr H. unfold forward_new. destruct (is_new _ _ _) as [[] l]; cbn [fst snd].
  - apply (K_emit c (OUp f) eq_refl eq_refl (set_filter l s)). exact H.
  - rewrite app_nil_r. exact H.
Qed.

Lemma K_receive_data c f : keeps (K c) (receive_data c f).
Proof.
  unfold receive_data. destruct (_ =? _); [apply K_forward|]. destruct (negb _); [apply keeps_skip|].
  set (rest := _ ;; _). assert (keeps (K c) rest) as R.
  { unfold rest. apply keeps_seq; [|apply keeps_seq; [apply K_ctrl; auto|apply K_forward]].
    intros s tr H. destruct (find _ _) as [[n u]|]; cbn [fst snd]; rewrite app_nil_r; [|exact H].
    apply K_cancel. exact H. }
  destruct (c_rts c); auto. apply K_booking. intros []; auto using keeps_skip.
Qed.

Lemma K_receive_ack c f : keeps (K c) (receive_ack c f).
Proof.
  intros s tr H. unfold receive_ack. destruct (_ =? _); [|cbn; rewrite app_nil_r; exact H].
  destruct (find _ _) as [[[n u] p]|] eqn:F; [|cbn; rewrite app_nil_r; exact H].
  apply find_some in F. destruct F as [F _].
  rewrite seqa_eq. cbn [fst snd]. rewrite app_nil_r.
  apply K_erase_ack. apply K_done.
  - apply K_cancel. exact H.
  - apply (w_ack _ _ _ _ _ _ _ _ _ _ (proj1 H) n u p F).
  - apply (w_ack _ _ _ _ _ _ _ _ _ _ (proj1 H) n u p F).
  - apply (k_ack _ _ _ _ _ (proj2 (proj2 H)) n u p F).
Qed.

Lemma K_step c s tr e : config_ok c -> honest c tr e -> s_ids (fst (step c s e)) <= 65535 ->
  K c s tr -> K c (fst (step c s e)) (tr ++ snd (step c s e)).
Proof.
  intros C HO B H. destruct e; cbn [step] in *.
  - apply K_enqueue; auto.
  - unfold receive in *. destruct ok; cbn [negb] in *; [|apply keeps_skip; auto].
    destruct (f_type f =? T_RTS); [apply K_receive_rts; auto|].
    destruct (Z.eqb_spec (f_type f) T_CTS); [apply K_receive_cts; auto|].
    destruct (f_type f =? T_DATA); [apply K_receive_data; auto|].
    destruct (f_type f =? T_ACK); [apply K_receive_ack; auto|apply keeps_skip; auto].
  - destruct (nth_error (s_timers s) i) as [t|] eqn:N; [|cbn; rewrite app_nil_r; exact H].
    apply nth_error_In in N.
    pose proof (w_tm _ _ _ _ _ _ _ _ _ _ (proj1 H) t N) as WT.
    pose proof (k_tm _ _ _ _ _ (proj2 (proj2 H)) t N) as KT.
    assert (H1 : K c (set_timers (remove_nth i (s_timers s)) s) tr).
    { destruct H as [HW [HB HK]]. rewrite <- (app_nil_r tr). split; [|split; [exact HB|]].
      - eapply W0_change; [exact HW|reflexivity| |auto]. intros x X. left. eapply in_remove_nth, X.
      - eapply K0_change; [exact HK| |auto|intros ? []]. intros x X. left. eapply in_remove_nth, X. }
    destruct (tm_kind t); cbn [fire tm_ok ktm] in WT, KT |- *.
    + apply K_check; auto. destruct KT. split; [exact WT|split; [exact H2|tauto]].
    + destruct WT. apply K_cts_timeout; auto.
    + apply K_ack_timeout; auto.
    + apply K_data_timeout; auto.
  - cbn. rewrite app_nil_r. exact H.
  - apply K_tx_first; auto.
  - cbn. rewrite app_nil_r. exact H.
Qed.

Lemma K_init c e0 : config_ok c -> K c (init e0) [].
Proof.
  intros C. split; [apply W_init; auto|]. split; [cbn; lia|].
  constructor; cbn; intros; contradiction.
Qed.
