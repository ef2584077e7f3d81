(** Invariants of one nano MAC under an arbitrary environment. *)
From Coq Require Import ZArith List Lia Bool Sorting.Sorted Sorting.Permutation.
From Verif Require Import Base HeaderModel SeqModel EnergyModel NanoModel.
Import ListNotations.
Open Scope Z_scope.

(** ** Lists *)

Lemma in_remove_nth {A} (l : list A) : forall i x, In x (remove_nth i l) -> In x l.
Proof.
  induction l as [|y l IH]; intros [|i] x H; cbn in *; auto.
  destruct H; [auto|]. right. eapply IH, H.
Qed.

Lemma in_erase_first {A} (q : A -> bool) l x : In x (erase_first q l) -> In x l.
Proof.
  induction l as [|y l IH]; cbn; [auto|]. destruct (q y); cbn; [auto|]. intros [->|H]; auto.
Qed.

Lemma filter_all {A} (q : A -> bool) l : (forall x, In x l -> q x = true) -> filter q l = l.
Proof.
  induction l as [|y l IH]; intros H; [reflexivity|]. cbn. rewrite (H y) by (left; auto).
  f_equal. apply IH. intros; apply H; right; auto.
Qed.

Lemma filter_map {A B} (f : A -> B) (q : B -> bool) l :
  filter q (map f l) = map f (filter (fun x => q (f x)) l).
Proof. induction l as [|y l IH]; [reflexivity|]. cbn. destruct (q (f y)); cbn; rewrite IH; reflexivity. Qed.

Lemma sorted_filter {A} (g : A -> Z) (q : A -> bool) l :
  StronglySorted Z.lt (map g l) -> StronglySorted Z.lt (map g (filter q l)).
Proof.
  induction l as [|y l IH]; intros H; cbn in *; [auto|]. inversion H; subst.
  destruct (q y); cbn; [constructor|]; auto.
  rewrite Forall_forall in *. intros z Z. apply in_map_iff in Z. destruct Z as [x [<- X]].
  apply filter_In in X. apply H3. apply in_map, X.
Qed.

Lemma sorted_inj {A} (g : A -> Z) l x y :
  StronglySorted Z.lt (map g l) -> In x l -> In y l -> g x = g y -> x = y.
Proof.
  induction l as [|z l IH]; intros H X Y E; cbn in *; [tauto|]. inversion H; subst.
  rewrite Forall_forall in H3.
  destruct X as [->|X], Y as [->|Y]; auto.
  - specialize (H3 (g y) (in_map g _ _ Y)). lia.
  - specialize (H3 (g x) (in_map g _ _ X)). lia.
Qed.

Lemma sorted_snoc l x : StronglySorted Z.lt l -> (forall y, In y l -> y < x) -> StronglySorted Z.lt (l ++ [x]).
Proof.
  induction 1 as [|y l S IH F]; intros H; cbn; [repeat constructor|].
  constructor; [apply IH; intros; apply H; right; auto|].
  rewrite Forall_forall in *. intros z Z. apply in_app_or in Z. destruct Z as [Z|[<-|[]]]; auto.
  apply H. left; auto.
Qed.

Lemma filter_split_length {A} (q : A -> bool) l :
  (length (filter q l) + length (filter (fun x => negb (q x)) l) = length l)%nat.
Proof. induction l as [|y l IH]; cbn; [auto|]. destruct (q y); cbn; lia. Qed.

(** ** Actions *)

Lemma seqa_eq f g s : (f ;; g) s = (fst (g (fst (f s))), snd (f s) ++ snd (g (fst (f s)))).
Proof. unfold seqa. destruct (f s) as [s1 o1]. cbn. destruct (g s1). reflexivity. Qed.

Lemma run_cons c s e l :
  run c s (e :: l) = (fst (run c (fst (step c s e)) l),
                      snd (step c s e) ++ snd (run c (fst (step c s e)) l)).
Proof. cbn. destruct (step c s e) as [s1 o1]. cbn. destruct (run c s1 l). reflexivity. Qed.

(** An invariant over state and the outputs so far. *)
Definition inv := state -> list out -> Prop.
Definition keeps (I : inv) (a : act) : Prop :=
  forall s tr, I s tr -> I (fst (a s)) (tr ++ snd (a s)).

Lemma keeps_seq I a b : keeps I a -> keeps I b -> keeps I (a ;; b).
Proof.
  intros A B s tr H. rewrite seqa_eq. cbn [fst snd]. rewrite app_assoc. auto.
Qed.

Lemma keeps_skip I : keeps I skip.
Proof. intros s tr H. cbn. rewrite app_nil_r. exact H. Qed.

(** ** Accounting invariant (any number of packets) *)

Definition acc (p : frame) (tr : list out) : Prop := In (OAccept p) tr.

Definition tm_ok (tr : list out) (k : tkind) : Prop :=
  match k with
  | KCheck p => acc p tr
  | KCts p => acc p tr /\ f_dst p <> bcast
  | KAck n => exists p, acc p tr /\ f_seq p = n /\ f_dst p <> bcast
  | KData _ => True
  end.

Definition done_bodies (tr : list out) : list Z :=
  flat_map (fun o => match o with ODone _ p => [f_body p] | _ => [] end) tr.
Definition acc_bodies (tr : list out) : list Z :=
  flat_map (fun o => match o with OAccept p => [f_body p] | _ => [] end) tr.
Definition count (q : out -> bool) (tr : list out) : Z := Z.of_nat (length (filter q tr)).
Definition is_accept (o : out) : bool := match o with OAccept _ => true | _ => false end.
Definition is_done (b : bool) (o : out) : bool :=
  match o with ODone ok _ => Bool.eqb ok b | _ => false end.

Record W0 (c : config) (tx : list txent) (q : list frame) (tm : list timer)
  (ak : list (Z * Z * frame)) (ids sq ite disc : Z) (tr : list out) : Prop := {
  w_queue : q = map t_pkt tx;
  w_limit : Z.of_nat (length tx) <= c_limit c;
  w_pos : 0 <= ids;
  w_seq : sq = wrap16 ids;
  w_sorted : StronglySorted Z.lt (map (fun t => f_body (t_pkt t)) tx);
  w_tx : forall t, In t tx -> acc (t_pkt t) tr;
  w_hist : forall p, acc p tr -> f_type p = T_DATA /\ f_src p = c_addr c /\
             f_seq p = wrap16 (f_body p + 1) /\ 0 <= f_body p < ids;
  w_uniq : forall p p', acc p tr -> acc p' tr -> f_body p = f_body p' -> p = p';
  w_tm : forall t, In t tm -> tm_ok tr (tm_kind t);
  w_ack : forall n u p, In (n, u, p) ak -> n = f_seq p /\ acc p tr /\ f_dst p <> bcast;
  w_done : forall ok p, In (ODone ok p) tr -> acc p tr /\ forall t, In t tx -> f_body (t_pkt t) <> f_body p;
  w_done1 : NoDup (done_bodies tr);
  w_all : forall p, acc p tr -> In p (map t_pkt tx) \/ exists ok, In (ODone ok p) tr;
  w_acc1 : StronglySorted Z.lt (acc_bodies tr);
  w_n : count is_accept tr = ids;
  w_ok : count (is_done true) tr = ite;
  w_fail : count (is_done false) tr = disc;
  w_sum : ids = ite + disc + Z.of_nat (length tx)
}.

Definition W (c : config) : inv := fun s tr =>
  W0 c (s_tx s) (s_queue s) (s_timers s) (s_ack s) (s_ids s) (s_seq s) (s_ite s) (s_disc s) tr.

(** Outputs that do not concern the invariant. *)
Definition quiet (o : out) : bool :=
  match o with OAccept _ | ODone _ _ => false | _ => true end.

Lemma acc_app p tr o : acc p tr -> acc p (tr ++ o).
Proof. intros. apply in_or_app. auto. Qed.

Lemma acc_quiet p tr o : forallb quiet o = true -> acc p (tr ++ o) -> acc p tr.
Proof.
  intros Q H. apply in_app_or in H. destruct H as [H|H]; auto.
  rewrite forallb_forall in Q. specialize (Q _ H). discriminate.
Qed.

Lemma done_quiet ok p tr o : forallb quiet o = true -> In (ODone ok p) (tr ++ o) -> In (ODone ok p) tr.
Proof.
  intros Q H. apply in_app_or in H. destruct H as [H|H]; auto.
  rewrite forallb_forall in Q. specialize (Q _ H). discriminate.
Qed.

Lemma filter_quiet q o : (forall x, quiet x = true -> q x = false) -> forallb quiet o = true -> filter q o = [].
Proof.
  intros H. induction o as [|x o IH]; [reflexivity|]. cbn. rewrite andb_true_iff. intros [A B].
  rewrite (H _ A). auto.
Qed.

Lemma count_app q a b : count q (a ++ b) = count q a + count q b.
Proof. unfold count. rewrite filter_app, app_length. lia. Qed.

Lemma count_quiet q tr o : (forall x, quiet x = true -> q x = false) -> forallb quiet o = true ->
  count q (tr ++ o) = count q tr.
Proof.
  intros H Q. rewrite count_app. unfold count at 2. rewrite (filter_quiet q o H Q). cbn. lia.
Qed.

Lemma done_bodies_app a b : done_bodies (a ++ b) = done_bodies a ++ done_bodies b.
Proof. apply flat_map_app. Qed.

Lemma done_bodies_quiet o : forallb quiet o = true -> done_bodies o = [].
Proof.
  induction o as [|x o IH]; [reflexivity|]. cbn. rewrite andb_true_iff. intros [A B].
  unfold done_bodies in *. cbn. rewrite IH by exact B. destruct x; try reflexivity; discriminate.
Qed.

Lemma acc_bodies_app a b : acc_bodies (a ++ b) = acc_bodies a ++ acc_bodies b.
Proof. apply flat_map_app. Qed.

Lemma acc_bodies_quiet o : forallb quiet o = true -> acc_bodies o = [].
Proof.
  induction o as [|x o IH]; [reflexivity|]. cbn. rewrite andb_true_iff. intros [A B].
  unfold acc_bodies in *. cbn. rewrite IH by exact B. destruct x; try reflexivity; discriminate.
Qed.

Lemma in_acc_bodies b tr : In b (acc_bodies tr) -> exists p, acc p tr /\ f_body p = b.
Proof.
  unfold acc_bodies. rewrite in_flat_map. intros [o [O B]]. destruct o; cbn in B; try tauto.
  destruct B as [<-|[]]. exists p. split; auto.
Qed.

Lemma NoDup_app {A} (a b : list A) : NoDup a -> NoDup b -> (forall x, In x a -> ~ In x b) -> NoDup (a ++ b).
Proof.
  induction 1 as [|x a N D IH]; intros B H; cbn; auto. constructor.
  - intros I. apply in_app_or in I. destruct I; [auto|]. apply (H x); [left|]; auto.
  - apply IH; auto. intros y Y. apply H. right; auto.
Qed.

Lemma tm_ok_app tr o k : tm_ok tr k -> tm_ok (tr ++ o) k.
Proof.
  destruct k; cbn; auto using acc_app.
  - intros [A B]. auto using acc_app.
  - intros [p [A B]]. exists p. auto using acc_app.
Qed.

(** Changing timers and ack list within what the invariant allows, with quiet outputs. *)
Lemma W0_change c tx q tm ak ids sq ite disc tr tm' ak' o :
  W0 c tx q tm ak ids sq ite disc tr ->
  forallb quiet o = true ->
  (forall t, In t tm' -> In t tm \/ tm_ok tr (tm_kind t)) ->
  (forall n u p, In (n, u, p) ak' -> In (n, u, p) ak \/ (n = f_seq p /\ acc p tr /\ f_dst p <> bcast)) ->
  W0 c tx q tm' ak' ids sq ite disc (tr ++ o).
Proof.
  intros [] Q T A. constructor; auto.
  - intros t H. auto using acc_app.
  - intros p H. apply acc_quiet in H; auto.
  - intros p p' H H'. apply acc_quiet in H; auto. apply acc_quiet in H'; auto.
  - intros t H. destruct (T t H); auto using tm_ok_app.
  - intros n u p H. destruct (A n u p H) as [H1|[? [? ?]]]; [|auto using acc_app].
    destruct (w_ack0 n u p H1) as [? [? ?]]; auto using acc_app.
  - intros ok p H. apply done_quiet in H; auto. destruct (w_done0 ok p H). auto using acc_app.
  - rewrite done_bodies_app, (done_bodies_quiet o), app_nil_r; auto.
  - intros p H. apply acc_quiet in H; auto. destruct (w_all0 p H) as [?|[ok ?]]; auto.
    right. exists ok. apply in_or_app; auto.
  - rewrite acc_bodies_app, (acc_bodies_quiet o), app_nil_r; auto.
  - rewrite count_quiet; auto. intros []; auto; discriminate.
  - rewrite count_quiet; auto. intros []; auto; discriminate.
  - rewrite count_quiet; auto. intros []; auto; discriminate.
Qed.

Lemma W0_quiet c tx q tm ak ids sq ite disc tr o :
  W0 c tx q tm ak ids sq ite disc tr -> forallb quiet o = true ->
  W0 c tx q tm ak ids sq ite disc (tr ++ o).
Proof. intros H Q. eapply W0_change; eauto. Qed.

Lemma in_schedule t delay k s :
  In t (s_timers (schedule delay k s)) -> In t (s_timers s) \/ tm_kind t = k.
Proof. cbn. intros H. apply in_app_or in H. destruct H as [|[<-|[]]]; auto. Qed.

Lemma W_emit c o : quiet o = true -> keeps (W c) (emit o).
Proof. intros Q s tr H. cbn. apply W0_quiet; auto. cbn. rewrite Q. reflexivity. Qed.

Lemma W_booking c tx rx k : (forall ok, keeps (W c) (k ok)) -> keeps (W c) (booking c tx rx k).
Proof.
  intros K s tr H. unfold booking. destruct (book _ _ _ _) as [ok r].
  apply (keeps_seq (W c) (emit (OBooked ok tx rx)) (k ok)); [apply W_emit; reflexivity|apply K|exact H].
Qed.

Lemma W_refund c tx rx : keeps (W c) (refund c tx rx).
Proof. intros s tr H. unfold refund. apply W_emit; [reflexivity|exact H]. Qed.

Lemma W_send_rts c p s tr : W c s tr -> acc p tr -> f_dst p <> bcast ->
  W c (fst (send_rts c p s)) (tr ++ snd (send_rts c p s)).
Proof.
  intros H A B. unfold send_rts. cbn [fst snd]. eapply W0_change; [exact H|reflexivity| |auto].
  intros t T. apply in_schedule in T. destruct T as [|T]; auto. right. rewrite T. cbn. auto.
Qed.

Lemma W_send_data c p s tr : W c s tr -> acc p tr ->
  W c (fst (send_data c p s)) (tr ++ snd (send_data c p s)).
Proof.
  intros H A. unfold send_data. destruct (Z.eqb_spec (f_dst p) bcast) as [E|E]; cbn [fst snd].
  - apply W0_quiet; auto.
  - eapply W0_change; [exact H|reflexivity| |].
    + intros t T. apply in_schedule in T. destruct T as [|T]; auto. right. rewrite T. exists p. auto.
    + intros n u q T. cbn in T. apply in_app_or in T. destruct T as [|[T|[]]]; auto.
      injection T as <- <- <-. auto.
Qed.

Lemma booking_eq c tx rx k s :
  booking c tx rx k s =
  let b := book (c_energy c) (s_energy s) tx rx in
  (fst (k (fst b) (set_energy (snd b) s)), OBooked (fst b) tx rx :: snd (k (fst b) (set_energy (snd b) s))).
Proof.
  unfold booking. destruct (book _ _ _ _) as [ok r]. cbn [fst snd].
  rewrite seqa_eq. cbn [fst snd emit]. reflexivity.
Qed.

Lemma W_check c p s tr : W c s tr -> acc p tr ->
  W c (fst (check_resources c p s)) (tr ++ snd (check_resources c p s)).
Proof.
  intros H A. unfold check_resources.
  destruct (negb (f_dst p =? bcast) && c_rts c) eqn:E; rewrite booking_eq; cbv zeta; cbn [fst snd];
    set (b := book _ _ _ _); rewrite (app_assoc tr [_] _ : tr ++ _ :: _ = _).
  - apply andb_true_iff in E. destruct E as [E _]. apply negb_true_iff, Z.eqb_neq in E.
    assert (W c (set_energy (snd b) s) (tr ++ [OBooked (fst b) (f_size p + hdr_size T_RTS) (2 * hdr_size T_RTS)])) as H1
      by (apply W0_quiet; auto).
    destruct (fst b); [apply W_send_rts; auto using acc_app|cbn; rewrite app_nil_r; exact H1].
  - assert (W c (set_energy (snd b) s) (tr ++ [OBooked (fst b) (f_size p) (hdr_size T_ACK)])) as H1
      by (apply W0_quiet; auto).
    destruct (fst b); [apply W_send_data; auto using acc_app|cbn; rewrite app_nil_r; exact H1].
Qed.

Lemma W_tx_first c : keeps (W c) (tx_first c).
Proof.
  intros s tr H. unfold tx_first. destruct (s_queue s) as [|p q] eqn:E; [cbn; rewrite app_nil_r; exact H|].
  apply W_check; auto. destruct H. rewrite w_queue0 in E.
  destruct (s_tx s) as [|t l]; [discriminate|]. injection E as <- _.
  apply w_tx0. left; auto.
Qed.

Lemma wrap16_succ x : wrap16 (wrap16 x + 1) = wrap16 (x + 1).
Proof. unfold wrap16. rewrite Zplus_mod_idemp_l. reflexivity. Qed.

(** m_queueLimit is unsigned. *)
Definition config_ok (c : config) : Prop := 0 <= c_limit c.

Lemma W_accept c s tr size dst :
  config_ok c -> W c s tr -> Z.of_nat (length (s_queue s)) < c_limit c ->
  let sq := wrap16 (s_seq s + 1) in
  let p := Frame T_DATA (c_addr c) dst sq (size + hdr_size T_DATA) (s_ids s) in
  W c (set_tx (s_tx s ++ [Tx p 0]) (set_ids (s_ids s + 1) (set_queue (s_queue s ++ [p]) (set_seq sq s))))
      (tr ++ [OAccept p]).
Proof.
  intros R [] L sq p.
  assert (F : forall x, acc x tr -> f_body x <> s_ids s).
  { intros x X. apply w_hist0 in X. lia. }
  assert (IA : forall x, acc x (tr ++ [OAccept p]) -> acc x tr \/ x = p).
  { intros x X. apply in_app_or in X. destruct X as [|[X|[]]]; auto. injection X; auto. }
  assert (ID : forall ok x, In (ODone ok x) (tr ++ [OAccept p]) -> In (ODone ok x) tr).
  { intros ok x X. apply in_app_or in X. destruct X as [|[X|[]]]; auto. discriminate. }
  constructor; cbn.
  - rewrite map_app, w_queue0. reflexivity.
  - rewrite app_length. rewrite w_queue0, map_length in L. cbn. lia.
  - lia.
  - unfold sq. rewrite w_seq0. apply wrap16_succ.
  - rewrite map_app. apply sorted_snoc; auto. cbn. intros y Y. apply in_map_iff in Y.
    destruct Y as [t [<- T]]. apply w_tx0 in T. apply w_hist0 in T. lia.
  - intros t T. apply in_app_or in T. destruct T as [T|[<-|[]]].
    + auto using acc_app.
    + cbn. apply in_or_app. right. left. reflexivity.
  - intros x X. apply IA in X. destruct X as [X| ->].
    + apply w_hist0 in X. intuition lia.
    + cbn. repeat split; auto; try lia. unfold sq. rewrite w_seq0. apply wrap16_succ.
  - intros x y X Y E. apply IA in X, Y. destruct X as [X| ->], Y as [Y| ->]; auto.
    + exfalso. apply (F x X). exact E.
    + exfalso. apply (F y Y). auto.
  - intros t T. apply tm_ok_app. auto.
  - intros n u x X. destruct (w_ack0 n u x X) as [? [? ?]]. auto using acc_app.
  - intros ok x X. apply ID in X. destruct (w_done0 ok x X) as [A B]. split; auto using acc_app.
    intros t T. apply in_app_or in T. destruct T as [T|[<-|[]]]; auto. cbn. apply F in A. auto.
  - rewrite done_bodies_app. cbn. rewrite app_nil_r. auto.
  - intros x X. apply IA in X. rewrite map_app. destruct X as [X| ->].
    + destruct (w_all0 x X) as [?|[ok ?]]; [left|right; exists ok]; apply in_or_app; auto.
    + left. apply in_or_app. right. left. reflexivity.
  - rewrite acc_bodies_app. apply sorted_snoc; auto. cbn. intros x X.
    apply in_acc_bodies in X. destruct X as [y [Y <-]]. apply w_hist0 in Y. lia.
  - rewrite count_app. cbn. lia.
  - rewrite count_app. cbn. lia.
  - rewrite count_app. cbn. lia.
  - rewrite app_length. cbn. lia.
Qed.

Lemma W_enqueue c size dst : config_ok c -> keeps (W c) (enqueue c size dst).
Proof.
  intros C s tr H. unfold enqueue.
  destruct (size =? 64); [apply W_emit; auto|].
  destruct (Z.leb_spec (c_limit c) (Z.of_nat (length (s_queue s)))) as [L|L]; [apply W_emit; auto|].
  pose proof (W_accept c s tr size dst C H L) as A. cbv zeta in A.
  cbv zeta. set (p := Frame _ _ _ _ _ _) in *. set (s2 := set_tx _ _) in *.
  change (s_tx (set_ids _ _)) with (s_tx s).
  destruct (existsb _ _); rewrite seqa_eq; cbn [fst snd emit].
  - rewrite app_assoc. apply (W_emit c (ORet true)); auto.
  - rewrite app_assoc. apply (keeps_seq (W c) (tx_first c) (emit (ORet true))); auto using W_tx_first.
    apply W_emit; auto.
Qed.

Lemma fold_remove hit : forall q,
  fold_left (fun q t => remove_pkt (t_pkt t) q) hit q =
  filter (fun x => forallb (fun t => negb (f_body x =? f_body (t_pkt t))) hit) q.
Proof.
  induction hit as [|t hit IH]; intros q; cbn.
  - symmetry. apply filter_all. auto.
  - rewrite IH. unfold remove_pkt. induction q as [|x q IHq]; [reflexivity|].
    cbn. destruct (negb (f_body x =? f_body (t_pkt t))); cbn; [|exact IHq].
    destruct (forallb _ hit); cbn; rewrite IHq; reflexivity.
Qed.

Lemma queue_miss tx sq :
  StronglySorted Z.lt (map (fun t => f_body (t_pkt t)) tx) ->
  fold_left (fun q t => remove_pkt (t_pkt t) q) (filter (fun t => f_seq (t_pkt t) =? sq) tx) (map t_pkt tx)
  = map t_pkt (filter (fun t => negb (f_seq (t_pkt t) =? sq)) tx).
Proof.
  intros S. rewrite fold_remove, filter_map. f_equal. apply filter_ext_in. intros t T.
  destruct (Z.eqb_spec (f_seq (t_pkt t)) sq) as [E|E]; cbn.
  - apply not_true_is_false. intros F. rewrite forallb_forall in F.
    specialize (F t). rewrite Z.eqb_refl in F. cbn in F. discriminate F.
    apply filter_In. split; auto. apply Z.eqb_eq. auto.
  - apply forallb_forall. intros t' T'. apply filter_In in T'. destruct T' as [T' E'].
    apply negb_true_iff, Z.eqb_neq. intros B. apply Z.eqb_eq in E'.
    apply E. rewrite <- E'. f_equal. f_equal.
    apply (sorted_inj (fun t => f_body (t_pkt t)) tx t t'); auto.
Qed.

Lemma done_bodies_map ok l : done_bodies (map (fun t => ODone ok (t_pkt t)) l) = map (fun t => f_body (t_pkt t)) l.
Proof. induction l as [|t l IH]; [reflexivity|]. cbn. unfold done_bodies in IH. rewrite IH. reflexivity. Qed.

Lemma sorted_NoDup l : StronglySorted Z.lt l -> NoDup l.
Proof.
  induction 1 as [|x l S IH F]; constructor; auto.
  intros I. rewrite Forall_forall in F. specialize (F _ I). lia.
Qed.

Lemma count_done_map b ok l :
  count (is_done b) (map (fun t => ODone ok (t_pkt t)) l) = if Bool.eqb ok b then Z.of_nat (length l) else 0.
Proof.
  unfold count. induction l as [|t l IH]; [destruct (Bool.eqb ok b); reflexivity|].
  cbn. destruct (Bool.eqb ok b); cbn [length]; lia.
Qed.

Lemma count_accept_map ok l : count is_accept (map (fun t => ODone ok (t_pkt t)) l) = 0.
Proof. unfold count. induction l; auto. Qed.

Lemma in_done_map ok p ok' l : In (ODone ok p) (map (fun t => ODone ok' (t_pkt t)) l) ->
  ok = ok' /\ exists t, In t l /\ t_pkt t = p.
Proof.
  intros H. apply in_map_iff in H. destruct H as [t [E T]]. injection E as -> <-. eauto.
Qed.

Lemma not_acc_map p ok l : ~ acc p (map (fun t => ODone ok (t_pkt t)) l).
Proof. intros H. apply in_map_iff in H. destruct H as [t [E _]]. discriminate. Qed.

Lemma in_done_bodies b tr : In b (done_bodies tr) -> exists ok p, In (ODone ok p) tr /\ f_body p = b.
Proof.
  unfold done_bodies. rewrite in_flat_map. intros [o [O B]]. destruct o; cbn in B; try tauto.
  destruct B as [<-|[]]. eauto.
Qed.

Lemma W_done c ok p s tr : W c s tr ->
  W c (fst (send_data_done ok p s)) (tr ++ snd (send_data_done ok p s)).
Proof.
  intros []. unfold send_data_done. cbn [fst snd].
  set (s1 := match find _ _ with Some _ => _ | None => _ end).
  set (hit := filter (fun t => f_seq (t_pkt t) =? f_seq p) (s_tx s)).
  set (miss := filter _ (s_tx s)).
  assert (IA : forall x, acc x (tr ++ map (fun t => ODone ok (t_pkt t)) hit) -> acc x tr).
  { intros x X. apply in_app_or in X. destruct X as [|X]; auto. exfalso. eapply not_acc_map, X. }
  assert (HT : forall t, In t hit -> In t (s_tx s)) by (intros t T; apply filter_In in T; tauto).
  assert (MT : forall t, In t miss -> In t (s_tx s)) by (intros t T; apply filter_In in T; tauto).
  assert (D : forall t t', In t hit -> In t' miss -> f_body (t_pkt t) <> f_body (t_pkt t')).
  { intros t t' T T' E.
    assert (t = t') by (apply (sorted_inj (fun t => f_body (t_pkt t)) (s_tx s)); auto). subst t'.
    apply filter_In in T, T'. destruct T as [_ T], T' as [_ T']. rewrite T in T'. discriminate. }
  assert (LEN : Z.of_nat (length hit) + Z.of_nat (length miss) = Z.of_nat (length (s_tx s))).
  { pose proof (filter_split_length (fun t => f_seq (t_pkt t) =? f_seq p) (s_tx s)) as X.
    cbv beta in X. fold hit in X. fold miss in X. lia. }
  assert (X : W0 c miss (map t_pkt miss) (s_timers s1) (s_ack s1) (s_ids s) (s_seq s)
      (if ok then s_ite s + Z.of_nat (length hit) else s_ite s)
      (if ok then s_disc s else s_disc s + Z.of_nat (length hit))
      (tr ++ map (fun t => ODone ok (t_pkt t)) hit)).
  { constructor; auto.
    - lia.
    - apply sorted_filter; auto.
    - intros t T. auto using acc_app.
    - intros t T.
      assert (In t (s_timers s) \/ exists t', In t' (s_tx s) /\ tm_kind t = KCheck (t_pkt t')) as [H|[t' [H ->]]].
      { unfold s1 in T. destruct (find _ _) as [t'|] eqn:F; auto.
        apply in_schedule in T. destruct T as [T|T]; auto. right. exists t'. split; auto.
        apply find_some in F. tauto. }
      + apply tm_ok_app; auto.
      + cbn. apply acc_app. apply w_tx0; auto.
    - intros n u x X.
      assert (In (n, u, x) (s_ack s)) as X' by (unfold s1 in X; destruct (find _ _); exact X).
      destruct (w_ack0 n u x X') as [? [? ?]]. auto using acc_app.
    - intros ok' x X. apply in_app_or in X. destruct X as [X|X].
      + destruct (w_done0 _ _ X). split; auto using acc_app.
      + apply in_done_map in X. destruct X as [_ [t [T <-]]]. split.
        * apply acc_app. apply w_tx0; auto.
        * intros t' T' E. apply (D t t'); auto.
    - rewrite done_bodies_app, done_bodies_map. apply NoDup_app; auto.
      + apply sorted_NoDup, sorted_filter. auto.
      + intros b B B'. apply in_done_bodies in B. destruct B as [ok' [x [X <-]]].
        apply in_map_iff in B'. destruct B' as [t [E T]].
        destruct (w_done0 _ _ X) as [_ N]. apply (N t); auto.
    - intros x X. apply IA in X. destruct (w_all0 x X) as [I|[ok' I]].
      + apply in_map_iff in I. destruct I as [t [<- T]].
        destruct (f_seq (t_pkt t) =? f_seq p) eqn:E.
        * right. exists ok. apply in_or_app. right. apply in_map_iff. exists t. split; auto.
          apply filter_In. auto.
        * left. apply in_map. apply filter_In. rewrite E. auto.
      + right. exists ok'. apply in_or_app. auto.
    - rewrite acc_bodies_app. replace (acc_bodies (map _ hit)) with (@nil Z); [rewrite app_nil_r; auto|].
      clear. induction hit; auto.
    - rewrite count_app, count_accept_map. lia.
    - rewrite count_app, count_done_map. destruct ok; cbn; lia.
    - rewrite count_app, count_done_map. destruct ok; cbn; lia.
    - destruct ok; lia. }
  assert (Q : fold_left (fun q t => remove_pkt (t_pkt t) q) hit (s_queue s) = map t_pkt miss).
  { rewrite w_queue0. apply queue_miss. auto. }
  assert (I1 : s_ids s1 = s_ids s /\ s_seq s1 = s_seq s /\ s_disc s1 = s_disc s /\ s_ite s1 = s_ite s)
    by (unfold s1; destruct (find _ _); auto).
  destruct I1 as [I1 [I2 [I3 I4]]].
  unfold W. destruct ok; cbn; rewrite Q, ?I1, ?I2, ?I3, ?I4; exact X.
Qed.

Lemma bump_spec sq tx t l : bump sq tx = Some (t, l) ->
  exists t0 a b, tx = a ++ t0 :: b /\ l = a ++ t :: b /\ t_pkt t = t_pkt t0 /\
    t_retry t = wrap16 (t_retry t0 + 1) /\ f_seq (t_pkt t0) = sq /\
    (forall x, In x a -> f_seq (t_pkt x) <> sq).
Proof.
  revert t l. induction tx as [|x tx IH]; intros t l H; cbn in H; [discriminate|].
  destruct (Z.eqb_spec (f_seq (t_pkt x)) sq) as [E|E].
  - injection H as <- <-. exists x, [], tx. cbn. repeat split; auto.
  - destruct (bump sq tx) as [[t' l']|] eqn:B; [|discriminate]. injection H as <- <-.
    destruct (IH t' l' eq_refl) as [t0 [a [b [-> [-> [P [R [S F]]]]]]]].
    exists t0, (x :: a), b. repeat split; auto. intros y [<-|Y]; auto.
Qed.

Lemma bump_none sq tx : bump sq tx = None -> forall t, In t tx -> f_seq (t_pkt t) <> sq.
Proof.
  induction tx as [|x tx IH]; intros H t T; cbn in *; [tauto|].
  destruct (Z.eqb_spec (f_seq (t_pkt x)) sq) as [E|E]; [discriminate|].
  destruct (bump sq tx) as [[? ?]|]; [discriminate|]. destruct T as [<-|T]; auto.
Qed.

Lemma bump_map sq tx t l : bump sq tx = Some (t, l) -> map t_pkt l = map t_pkt tx.
Proof.
  intros H. apply bump_spec in H. destruct H as [t0 [a [b [-> [-> [P _]]]]]].
  rewrite !map_app. cbn. rewrite P. reflexivity.
Qed.

(** The invariant does not look at retry counters. *)
Lemma W0_retry c tx tx' q tm ak ids sq ite disc tr :
  W0 c tx q tm ak ids sq ite disc tr -> map t_pkt tx' = map t_pkt tx ->
  W0 c tx' q tm ak ids sq ite disc tr.
Proof.
  intros [] M.
  assert (L : length tx' = length tx) by (rewrite <- (map_length t_pkt tx'), M, map_length; auto).
  assert (I : forall t, In t tx' -> exists t', In t' tx /\ t_pkt t' = t_pkt t).
  { intros t T. apply (in_map t_pkt) in T. rewrite M in T. apply in_map_iff in T.
    destruct T as [t' [E T]]. eauto. }
  constructor; auto.
  - rewrite M; auto.
  - rewrite L; auto.
  - rewrite <- (map_map t_pkt f_body), M, (map_map t_pkt f_body). auto.
  - intros t T. destruct (I t T) as [t' [T' <-]]. apply w_tx0; auto.
  - intros ok p P. destruct (w_done0 ok p P) as [A B]. split; auto.
    intros t T. destruct (I t T) as [t' [T' <-]]. auto.
  - intros p P. rewrite M. auto.
  - rewrite L; auto.
Qed.

Lemma W_bump c sq s tr t l : W c s tr -> bump sq (s_tx s) = Some (t, l) ->
  W c (set_tx l s) tr /\ acc (t_pkt t) tr /\ f_seq (t_pkt t) = sq.
Proof.
  intros H B. pose proof (bump_map _ _ _ _ B) as M.
  pose proof (bump_spec _ _ _ _ B) as [t0 [a [b [E1 [E2 [P [R [S F]]]]]]]].
  split; [|split].
  - eapply W0_retry; eauto.
  - rewrite P. apply (w_tx _ _ _ _ _ _ _ _ _ _ H). rewrite E1. apply in_or_app. right; left; auto.
  - rewrite P. auto.
Qed.

Lemma W_backoff c p retry draw s tr : W c s tr -> acc p tr ->
  W c (fst (backoff c p retry draw s)) (tr ++ snd (backoff c p retry draw s)).
Proof.
  intros H A. unfold backoff. destruct (retry <? 32); cbn [fst snd]; [|apply W0_quiet; auto].
  eapply W0_change; [exact H|reflexivity| |auto].
  intros x X. apply in_schedule in X. destruct X as [|X]; auto. right. rewrite X. exact A.
Qed.

Lemma W_retry_or_discard c sq arg draw : keeps (W c) (retry_or_discard c sq arg draw).
Proof.
  intros s tr H. unfold retry_or_discard.
  destruct (bump sq (s_tx s)) as [[t l]|] eqn:B; [|cbn; rewrite app_nil_r; exact H].
  destruct (W_bump _ _ _ _ _ _ H B) as [H1 [A _]].
  destruct (c_retry c <=? t_retry t); [apply W_done; auto|apply W_backoff; auto].
Qed.

Lemma W_cts_timeout c p draw : keeps (W c) (cts_timeout c p draw).
Proof.
  unfold cts_timeout.
  apply keeps_seq; [apply W_emit; reflexivity|]. apply keeps_seq; [apply W_refund|].
  apply keeps_seq.
  - intros s tr H. cbn. apply W0_quiet; auto.
  - apply W_retry_or_discard.
Qed.

Lemma W_ack_timeout c sq draw : keeps (W c) (ack_timeout c sq draw).
Proof.
  unfold ack_timeout.
  apply keeps_seq; [apply W_emit; reflexivity|]. apply keeps_seq; [apply W_refund|].
  apply keeps_seq.
  - intros s tr H. cbn. eapply W0_change; [exact H|reflexivity|auto|].
    intros n u p P. left. eapply in_erase_first, P.
  - apply W_retry_or_discard.
Qed.

Lemma W_data_timeout c sq : keeps (W c) (data_timeout c sq).
Proof.
  unfold data_timeout. apply keeps_seq; [apply W_refund|]. intros s tr H. cbn. apply W0_quiet; auto.
Qed.

Lemma in_cancel t u s : In t (s_timers (cancel u s)) -> In t (s_timers s).
Proof. cbn. intros H. apply filter_In in H. tauto. Qed.

Lemma W_receive_rts c f : keeps (W c) (receive_rts c f).
Proof.
  unfold receive_rts. apply W_booking. intros _. destruct (_ =? _); [|apply keeps_skip].
  apply W_booking. intros []; [|apply keeps_skip]. apply keeps_seq; [|apply W_emit; reflexivity].
  intros s tr H. cbn. eapply W0_change; [exact H|reflexivity| |auto].
  intros t T. apply (in_schedule t (c_dur c (hdr_size T_CTS) + margin) (KData (f_seq f)) s) in T.
  destruct T as [|T]; auto. right. rewrite T. exact I.
Qed.

Lemma W_receive_cts c f : keeps (W c) (receive_cts c f).
Proof.
  unfold receive_cts. destruct (_ =? _); [|apply keeps_skip]. apply keeps_seq.
  - intros s tr H. destruct (find _ _) as [[n u]|]; cbn [fst snd]; [|rewrite app_nil_r; exact H].
    eapply W0_change; [exact H|reflexivity| |auto]. intros t T. left. apply in_cancel in T. exact T.
  - intros s tr H. destruct (find _ _) as [t|] eqn:F; [|cbn; rewrite app_nil_r; exact H].
    apply W_send_data; auto. apply (w_tx _ _ _ _ _ _ _ _ _ _ H). apply find_some in F. tauto.
Qed.

Lemma W_forward c f : keeps (W c) (forward_new f).
Proof.
  intros s tr H. unfold forward_new. destruct (is_new _ _ _) as [[] l]; cbn [fst snd].
  - apply W0_quiet; auto.
  - rewrite app_nil_r. exact H.
Qed.

Lemma W_receive_data c f : keeps (W c) (receive_data c f).
Proof.
  unfold receive_data. destruct (_ =? _); [apply W_forward|]. destruct (negb _); [apply keeps_skip|].
  set (rest := _ ;; _). assert (keeps (W c) rest) as R.
  { unfold rest. apply keeps_seq; [|apply keeps_seq; [apply W_emit; reflexivity|apply W_forward]].
    intros s tr H. destruct (find _ _) as [[n u]|]; cbn [fst snd]; [|rewrite app_nil_r; exact H].
    eapply W0_change; [exact H|reflexivity| |auto]. intros t T. left. apply in_cancel in T. exact T. }
  destruct (c_rts c); auto. apply W_booking. intros []; auto using keeps_skip.
Qed.

Lemma W_receive_ack c f : keeps (W c) (receive_ack c f).
Proof.
  intros s tr H. unfold receive_ack. destruct (_ =? _); [|cbn; rewrite app_nil_r; exact H].
  destruct (find _ _) as [[[n u] p]|]; [|cbn; rewrite app_nil_r; exact H].
  apply (keeps_seq (W c) (send_data_done true p)).
  - intros s' tr' H'. apply W_done; auto.
  - intros s' tr' H'. cbn. eapply W0_change; [exact H'|reflexivity|auto|].
    intros n' u' p' P. left. eapply in_erase_first, P.
  - rewrite <- (app_nil_r tr). eapply W0_change; [exact H|reflexivity| |auto].
    intros t T. left. apply in_cancel in T. exact T.
Qed.

Lemma W_receive c f ok : keeps (W c) (receive c f ok).
Proof.
  unfold receive. destruct (negb ok); [apply keeps_skip|].
  destruct (_ =? _); [apply W_receive_rts|]. destruct (_ =? _); [apply W_receive_cts|].
  destruct (_ =? _); [apply W_receive_data|]. destruct (_ =? _); [apply W_receive_ack|apply keeps_skip].
Qed.

Lemma W_fire c t draw s tr : config_ok c -> W c s tr -> tm_ok tr (tm_kind t) ->
  W c (fst (fire c (tm_kind t) draw s)) (tr ++ snd (fire c (tm_kind t) draw s)).
Proof.
  intros C H T. destruct (tm_kind t); cbn in T |- *.
  - apply W_check; auto.
  - apply W_cts_timeout; auto.
  - apply W_ack_timeout; auto.
  - apply W_data_timeout; auto.
Qed.

Lemma W_step c s tr e : config_ok c -> W c s tr -> W c (fst (step c s e)) (tr ++ snd (step c s e)).
Proof.
  intros C H. destruct e; cbn [step].
  - apply W_enqueue; auto.
  - apply W_receive; auto.
  - destruct (nth_error (s_timers s) i) as [t|] eqn:N; [|cbn; rewrite app_nil_r; exact H].
    apply W_fire; auto.
    + rewrite <- (app_nil_r tr). eapply W0_change; [exact H|reflexivity| |auto].
      intros x X. left. eapply in_remove_nth, X.
    + apply (w_tm _ _ _ _ _ _ _ _ _ _ H). eapply nth_error_In, N.
  - cbn. rewrite app_nil_r. exact H.
  - apply W_tx_first; auto.
  - cbn. rewrite app_nil_r. exact H.
Qed.

Lemma W_init c e0 : config_ok c -> W c (init e0) [].
Proof.
  intros L. unfold config_ok in L. constructor; cbn; auto; try lia; try (intros; contradiction); try constructor.
Qed.

Lemma W_run c l : forall s tr, config_ok c -> W c s tr -> W c (fst (run c s l)) (tr ++ snd (run c s l)).
Proof.
  induction l as [|e l IH]; intros s tr C H.
  - cbn. rewrite app_nil_r. exact H.
  - rewrite run_cons. cbn [fst snd]. rewrite app_assoc. apply IH; auto. apply W_step; auto.
Qed.

Lemma W_reach c e0 l : config_ok c -> W c (fst (run c (init e0) l)) (snd (run c (init e0) l)).
Proof. intros C. apply (W_run c l (init e0) [] C (W_init c e0 C)). Qed.
