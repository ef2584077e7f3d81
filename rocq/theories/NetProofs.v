(** Invariants of a network of nano nodes. *)
From Coq Require Import ZArith List Lia Bool Sorting.Sorted.
From Verif Require Import Base HeaderModel SeqModel SeqProofs EnergyModel NanoModel NanoProofs NanoSpec NanoOut
  NanoRetry NanoOrder NanoTrace NanoLate NanoSend NanoLive NanoDrain NetModel.
Import ListNotations.
Open Scope Z_scope.

(** ** Steps that hand nothing up *)

Definition mute (a : act) : Prop :=
  forall s, s_filter (fst (a s)) = s_filter s /\ handed_up (snd (a s)) = [].

Lemma handed_app a b : handed_up (a ++ b) = handed_up a ++ handed_up b.
Proof. apply flat_map_app. Qed.

Lemma mute_seq a b : mute a -> mute b -> mute (a ;; b).
Proof.
  intros A B s. rewrite seqa_eq. cbn [fst snd]. rewrite handed_app.
  destruct (A s) as [A1 A2], (B (fst (a s))) as [B1 B2]. rewrite A2, B2. split; [congruence|reflexivity].
Qed.
Lemma mute_skip : mute skip.
Proof. intros s. split; reflexivity. Qed.
Lemma mute_emit o : handed_up [o] = [] -> mute (emit o).
Proof. intros H s. split; [reflexivity|exact H]. Qed.
Lemma mute_booking c tx rx k : (forall b, mute (k b)) -> mute (booking c tx rx k).
Proof.
  intros H s. rewrite booking_eq. cbv zeta. cbn [fst snd].
  set (b := book _ _ _ _). destruct (H (fst b) (set_energy (snd b) s)) as [A1 A2].
  split; [exact A1|]. exact A2.
Qed.
Lemma mute_refund c tx rx : mute (refund c tx rx).
Proof. intros s. split; reflexivity. Qed.
Lemma mute_send_data c p : mute (send_data c p).
Proof. intros s. unfold send_data. destruct (_ =? _); split; reflexivity. Qed.
Lemma mute_check c p : mute (check_resources c p).
Proof.
  unfold check_resources. destruct (_ && _); apply mute_booking; intros []; auto using mute_skip, mute_send_data.
  all: intros s; split; reflexivity.
Qed.
Lemma mute_tx_first c : mute (tx_first c).
Proof. intros s. unfold tx_first. destruct (s_queue s); [split; reflexivity|apply mute_check]. Qed.
Lemma mute_done ok p : mute (send_data_done ok p).
Proof.
  intros s. split.
  - unfold send_data_done. cbn [fst]. destruct (find _ (s_tx s)), ok; reflexivity.
  - rewrite done_out. induction (filter _ _); auto.
Qed.
Lemma mute_backoff c p r d : mute (backoff c p r d).
Proof. intros s. unfold backoff. destruct (_ <? _); split; reflexivity. Qed.
Lemma mute_retry c n arg d : mute (retry_or_discard c n arg d).
Proof.
  intros s. unfold retry_or_discard. destruct (bump _ _) as [[t l]|]; [|split; reflexivity].
  destruct (_ <=? _).
  - destruct (mute_done false (match arg with Some p => p | None => t_pkt t end) (set_tx l s)) as [A B].
    rewrite A, B. split; reflexivity.
  - destruct (mute_backoff c (t_pkt t) (t_retry t) d (set_tx l s)) as [A B]. rewrite A, B. split; reflexivity.
Qed.
Lemma mute_fire c k d : mute (fire c k d).
Proof.
  destruct k; cbn [fire].
  - apply mute_check.
  - unfold cts_timeout. repeat apply mute_seq; auto using mute_refund, mute_retry.
    + intros s. split; reflexivity.
    + intros s. split; reflexivity.
  - unfold ack_timeout. repeat apply mute_seq; auto using mute_refund, mute_retry.
    + intros s. split; reflexivity.
    + intros s. split; reflexivity.
  - unfold data_timeout. apply mute_seq; [apply mute_refund|intros s; split; reflexivity].
Qed.
Lemma mute_enqueue c size dst : mute (enqueue c size dst).
Proof.
  intros s. unfold enqueue. destruct (_ =? 64); [split; reflexivity|]. destruct (_ <=? _); [split; reflexivity|].
  cbv zeta. match goal with |- context [if ?b then _ else _] => destruct b end.
  - split; reflexivity.
  - set (s2 := set_tx _ _).
    destruct (mute_seq _ _ (mute_emit (OAccept (Frame T_DATA (c_addr c) dst (wrap16 (s_seq s + 1)) (size + hdr_size T_DATA) (s_ids s))) eq_refl)
      (mute_seq _ _ (mute_tx_first c) (mute_emit (ORet true) eq_refl)) s2) as [A B].
    split; [rewrite A; reflexivity|exact B].
Qed.
Lemma mute_receive_rts c f : mute (receive_rts c f).
Proof.
  unfold receive_rts. apply mute_booking. intros _. destruct (_ =? _); [|apply mute_skip].
  apply mute_booking. intros []; [|apply mute_skip]. apply mute_seq; [|apply mute_emit; auto].
  intros s. split; reflexivity.
Qed.
Lemma mute_receive_cts c f : mute (receive_cts c f).
Proof.
  unfold receive_cts. destruct (_ =? _); [|apply mute_skip]. apply mute_seq.
  - intros s. destruct (find _ _) as [[n u]|]; split; reflexivity.
  - intros s. destruct (find _ _); [apply mute_send_data|split; reflexivity].
Qed.
Lemma mute_receive_ack c f : mute (receive_ack c f).
Proof.
  intros s. unfold receive_ack. destruct (_ =? _); [|split; reflexivity].
  destruct (find _ _) as [[[n u] p]|]; [|split; reflexivity].
  destruct (mute_seq _ _ (mute_done true p) (fun s => conj eq_refl eq_refl :
    s_filter (fst ((fun s => (set_ack (erase_first (fun x => fst (fst x) =? f_seq f) (s_ack s)) s, [])) s)) = s_filter s /\
    handed_up (snd ((fun s => (set_ack (erase_first (fun x => fst (fst x) =? f_seq f) (s_ack s)) s, @nil out)) s)) = [])
    (cancel u s)) as [A B].
  split; [rewrite A; reflexivity|exact B].
Qed.

(** ** Steps that may *)

Definition takes (c : config) (s : state) (e : event) (f : frame) : Prop :=
  e = EvRecv f true /\ f_type f = T_DATA /\ (f_dst f = c_addr c \/ f_dst f = bcast) /\
  s_filter (fst (step c s e)) = snd (is_new (s_filter s) (f_src f) (f_seq f)) /\
  handed_up (snd (step c s e)) = if fst (is_new (s_filter s) (f_src f) (f_seq f)) then [f] else [].

Lemma forward_takes f s :
  s_filter (fst (forward_new f s)) = snd (is_new (s_filter s) (f_src f) (f_seq f)) /\
  handed_up (snd (forward_new f s)) = (if fst (is_new (s_filter s) (f_src f) (f_seq f)) then [f] else []) /\
  forall g, ~ In (OSend g) (snd (forward_new f s)).
Proof.
  unfold forward_new. destruct (is_new _ _ _) as [b l]. cbn [fst snd]. destruct b; repeat split; auto.
  intros g [X|[]]. discriminate.
Qed.

Lemma data_cases c s f : f_type f = T_DATA ->
  (takes c s (EvRecv f true) f) \/
  (s_filter (fst (receive_data c f s)) = s_filter s /\ handed_up (snd (receive_data c f s)) = [] /\
   forall g, ~ In (OSend g) (snd (receive_data c f s))).
Proof.
  intros T. unfold takes.
  assert (E : step c s (EvRecv f true) = receive_data c f s).
  { cbn [step]. unfold receive. cbn [negb]. rewrite T. reflexivity. }
  rewrite E. unfold receive_data. destruct (Z.eqb_spec (f_dst f) bcast) as [B|B].
  { left. destruct (forward_takes f s) as [A1 [A2 A3]]. repeat split; auto. }
  destruct (Z.eqb_spec (f_dst f) (c_addr c)) as [D|D]; cbn [negb].
  2: right; repeat split; auto.
  set (rest := _ ;; _).
  assert (R : forall s0, s_filter (fst (rest s0)) = snd (is_new (s_filter s0) (f_src f) (f_seq f)) /\
    handed_up (snd (rest s0)) = if fst (is_new (s_filter s0) (f_src f) (f_seq f)) then [f] else []).
  { intros s0. unfold rest. rewrite seqa_eq. cbn [fst snd]. set (r := match find _ (s_data s0) with Some _ => _ | None => _ end).
    assert (s_filter (fst r) = s_filter s0 /\ snd r = []) as [R1 R2]
      by (unfold r; destruct (find _ (s_data s0)) as [[? ?]|]; split; reflexivity).
    rewrite R2. rewrite seqa_eq. cbn [fst snd send_ack emit app]. 
    destruct (forward_takes f (fst r)) as [A1 [A2 _]]. rewrite <- R1. split; [exact A1|].
    change (handed_up ([OSend (ctrl T_ACK (c_addr c) (f_src f) (f_seq f))] ++ snd (forward_new f (fst r))) =
            (if fst (is_new (s_filter (fst r)) (f_src f) (f_seq f)) then [f] else [])).
    rewrite handed_app. exact A2. }
  destruct (c_rts c).
  - left. destruct (R s). repeat split; auto.
  - rewrite booking_eq. cbv zeta. cbn [fst snd].
    set (bk := book _ _ _ _). destruct (fst bk).
    + left. destruct (R (set_energy (snd bk) s)) as [R1 R2]. repeat split; auto.
    + right. cbn. repeat split; auto. intros g [X|[]]. discriminate.
Qed.

Lemma up_cases c s e :
  (exists f, takes c s e f) \/
  (s_filter (fst (step c s e)) = s_filter s /\ handed_up (snd (step c s e)) = []).
Proof.
  destruct e; cbn [step].
  - right. apply mute_enqueue.
  - unfold receive. destruct ok; cbn [negb]; [|right; split; reflexivity].
    destruct (Z.eqb_spec (f_type f) T_RTS); [right; apply mute_receive_rts|].
    destruct (Z.eqb_spec (f_type f) T_CTS); [right; apply mute_receive_cts|].
    destruct (Z.eqb_spec (f_type f) T_DATA) as [T|].
    { destruct (data_cases c s f T) as [X|[A [B _]]]; [left; eauto|right; auto]. }
    destruct (Z.eqb_spec (f_type f) T_ACK); right; [apply mute_receive_ack|split; reflexivity].
  - destruct (nth_error _ i) as [t|]; right; [|split; reflexivity].
    destruct (mute_fire c (tm_kind t) draw (set_timers (remove_nth i (s_timers s)) s)) as [A B]. rewrite A, B. split; reflexivity.
  - right. split; reflexivity.
  - right. apply mute_tx_first.
  - right. split; reflexivity.
Qed.

(** Where the frames come from: [acc] gives a data frame of this node. *)
Lemma acc_new c s tr e p : config_ok c -> W c s tr -> acc p (tr ++ snd (step c s e)) ->
  f_type p = T_DATA /\ f_src p = c_addr c.
Proof.
  intros C H A. pose proof (W_step c s tr e C H) as W1. apply (acc_data c _ _ p W1 A).
Qed.

(** An ACK goes out only with the frame passed to the filter. *)
Lemma ack_takes c s tr e g : config_ok c -> W c s tr -> In (OSend g) (snd (step c s e)) -> f_type g = T_ACK ->
  exists f, takes c s e f /\ f_dst f = c_addr c /\ g = ctrl T_ACK (c_addr c) (f_src f) (f_seq f).
Proof.
  intros C H I T. destruct (send_cases c s tr e g C H I) as [p _ _ _ X|A _|x _ _ _ A|x _ _ _ X|x E TX D B X].
  - subst g. discriminate.
  - destruct (acc_new c s tr e g C H A) as [Y _]. rewrite T in Y. discriminate.
  - destruct (acc_new c s tr e g C H A) as [Y _]. rewrite T in Y. discriminate.
  - subst g. discriminate.
  - exists x. split; auto. subst e. destruct (data_cases c s x TX) as [Y|[_ [_ Y]]]; [exact Y|].
    exfalso. apply (Y g). cbn [step] in I. unfold receive in I. cbn [negb] in I. rewrite TX in I. exact I.
Qed.

(** Success is reported on an ACK with the packet's number, while the packet is pending. *)
Lemma success_pending c s tr e p : config_ok c -> W c s tr -> s_ids s <= 65536 ->
  In (ODone true p) (snd (step c s e)) ->
  acc p tr /\ (exists t, In t (s_tx s) /\ t_pkt t = p) /\
  exists f, e = EvRecv f true /\ f_type f = T_ACK /\ f_dst f = c_addr c /\ f_seq f = f_seq p.
Proof.
  intros C HW B I.
  destruct (classify c s e) as [size dst ->|i draw t n arg s1 tx rx E1 E2 E3 X1 X2 X3 X4 E|f E1 E2 E|X1 X2 X3 X4 CA].
  - exfalso. cbn [step] in I.
    destruct (enqueue_cases c size dst s) as [[_ E]|[[_ [_ E]]|[_ [Q E]]]]; rewrite E in I; cbn [snd] in I;
      try (destruct I as [X|[]]; discriminate).
    cbv zeta in I. destruct (behind _ _ _); cbn [snd] in I.
    + destruct I as [X|[X|[]]]; discriminate.
    + destruct I as [X|X]; [discriminate|]. apply in_app_or in X.
      destruct X as [X|[X|[]]]; [|discriminate]. apply (calm_no_done _ _ _ (tx_first_calm c _) X).
  - exfalso. rewrite E in I. cbn [snd] in I. destruct I as [X|[X|X]]; try discriminate.
    unfold retry_or_discard in X. destruct (bump _ _) as [[t' l]|]; [|destruct X].
    destruct (_ <=? _).
    + rewrite done_out in X. apply in_done_map in X. destruct X. discriminate.
    + unfold backoff in X. destruct (_ <? _); destruct X as [X|[]]; discriminate.
  - rewrite E in I. destruct (receive_ack_cases c f s) as [[D [n [u [q [F [_ [_ Y]]]]]]]|Y].
    2: rewrite Y in I; destruct I.
    rewrite Y in I. apply in_done_map in I. destruct I as [_ [t [T TP]]]. apply filter_In in T. destruct T as [T TE].
    apply find_some in F. destruct F as [F FE]. cbn in FE. apply Z.eqb_eq in FE, TE.
    destruct (w_ack _ _ _ _ _ _ _ _ _ _ HW _ _ _ F) as [NE [A _]].
    split; [|split].
    + rewrite <- TP. apply (w_tx _ _ _ _ _ _ _ _ _ _ HW). auto.
    + eauto.
    + exists f. rewrite <- TP. repeat split; auto. congruence.
  - exfalso. eapply calm_no_done; eauto.
Qed.

(** ** The network invariant *)

Record Inv (c : addr -> config) (n : net) : Prop := {
  i_w : forall a, W (c a) (fst (n a)) (snd (n a));
  i_k : forall a, s_ids (fst (n a)) <= 65535 -> K (c a) (fst (n a)) (snd (n a));
  i_src : forall b f, In (OSend f) (snd (n b)) -> f_src f = b;
  i_data : forall f, on_air n f -> f_type f = T_DATA -> acc f (snd (n (f_src f)));
  i_cts : forall f, on_air n f -> f_type f = T_CTS -> exists g, on_air n g /\ f_type g = T_RTS /\
            f_src g = f_dst f /\ f_dst g = f_src f /\ f_seq g = f_seq f;
  i_up : forall x f, In f (handed_up (snd (n x))) ->
           on_air n f /\ f_type f = T_DATA /\ (f_dst f = x \/ f_dst f = bcast);
  i_sorted : forall x a, StronglySorted Z.lt
               (map f_seq (filter (fun f => f_src f =? a) (handed_up (snd (n x)))));
  i_top : forall x f, In f (handed_up (snd (n x))) ->
            exists m, lookup (s_filter (fst (n x))) (f_src f) = Some m /\ f_seq f <= m;
  i_last : forall x a m, lookup (s_filter (fst (n x))) a = Some m ->
             exists f, In f (handed_up (snd (n x))) /\ f_src f = a /\ f_seq f = m;
  i_ack : forall g, on_air n g -> f_type g = T_ACK ->
            (exists d, on_air n d /\ f_type d = T_DATA /\ f_src d = f_dst g /\ f_dst d = f_src g /\ f_seq d = f_seq g) /\
            exists m, lookup (s_filter (fst (n (f_src g)))) (f_dst g) = Some m /\ f_seq g <= m;
  i_done : forall a p, s_ids (fst (n a)) <= 65535 -> In (ODone true p) (snd (n a)) ->
             In p (handed_up (snd (n (f_dst p))))
}.

Lemma Inv_init c e0 : net_ok c -> Inv c (fun a => (init (e0 a), [])).
Proof.
  intros C. constructor; cbn; try (intros; contradiction); try discriminate.
  - intros a. apply W_init. apply C.
  - intros a _. apply K_init. apply C.
  - intros f [b []].
  - intros f [b []].
  - intros x a. constructor.
  - intros g [b []].
Qed.

Section Step.
Variables (c : addr -> config) (n : net) (a : addr) (e : event).
Hypothesis C : net_ok c.
Hypothesis A : allowed n e.
Hypothesis I : Inv c n.

Let s := fst (n a).
Let tr := snd (n a).
Let s' := fst (step (c a) s e).
Let o := snd (step (c a) s e).
Let n' := net_step c n a e.

Lemma at_a : n' a = (s', tr ++ o).
Proof. unfold n', net_step. rewrite Z.eqb_refl. reflexivity. Qed.
Lemma at_b b : b <> a -> n' b = n b.
Proof. intros B. unfold n', net_step. rewrite (proj2 (Z.eqb_neq b a) B). reflexivity. Qed.

Lemma Ca : config_ok (c a).
Proof. apply C. Qed.
Lemma Wa : W (c a) s tr.
Proof. apply (i_w c n I). Qed.

Lemma in_tr' b x : In x (snd (n' b)) -> In x (snd (n b)) \/ (b = a /\ In x o).
Proof.
  destruct (Z.eq_dec b a) as [->|B].
  - rewrite at_a. cbn. rewrite in_app_iff. tauto.
  - rewrite at_b by auto. auto.
Qed.
Lemma in_tr b x : In x (snd (n b)) -> In x (snd (n' b)).
Proof.
  destruct (Z.eq_dec b a) as [->|B].
  - rewrite at_a. cbn. rewrite in_app_iff. auto.
  - rewrite at_b by auto. auto.
Qed.
Lemma air_mono f : on_air n f -> on_air n' f.
Proof. intros [b B]. exists b. apply in_tr, B. Qed.
Lemma air_new f : on_air n' f -> on_air n f \/ In (OSend f) o.
Proof. intros [b B]. apply in_tr' in B. destruct B as [B|[_ B]]; auto. left. exists b. exact B. Qed.

Lemma up_in f b : In f (handed_up (snd (n b))) -> In f (handed_up (snd (n' b))).
Proof.
  unfold handed_up. rewrite !in_flat_map. intros [x [X Y]]. exists x. split; auto. apply in_tr, X.
Qed.

Lemma own_src f : In (OSend f) o -> f_src f = a.
Proof.
  intros S. destruct (C a) as [CA _].
  destruct (send_cases (c a) s tr e f Ca Wa S) as [p _ _ _ ->|X _|x _ _ _ X|x _ _ _ ->|x _ _ _ _ ->]; auto.
  - destruct (acc_new _ _ _ _ _ Ca Wa X). congruence.
  - destruct (acc_new _ _ _ _ _ Ca Wa X). congruence.
Qed.

Lemma acc_tr' f : acc f (tr ++ o) -> acc f (snd (n' a)).
Proof. rewrite at_a. auto. Qed.

Lemma own_data f : In (OSend f) o -> f_type f = T_DATA -> acc f (tr ++ o).
Proof.
  intros S T.
  destruct (send_cases (c a) s tr e f Ca Wa S) as [p _ _ _ ->|X _|x _ _ _ X|x _ _ _ ->|x _ _ _ _ ->]; auto; discriminate.
Qed.

Lemma ok_answered : answered (c a) tr e.
Proof.
  destruct e as [|f ok| | | |]; cbn; auto. destruct ok; auto. intros T D. destruct (C a) as [CA _]. rewrite CA in *.
  destruct (i_cts c n I f A T) as [g [G1 [G2 [G3 [G4 G5]]]]].
  exists g. destruct G1 as [b G1]. pose proof (i_src c n I b g G1) as SB.
  assert (b = a) as -> by congruence. repeat split; auto; congruence.
Qed.

Lemma ids_le : s_ids s <= s_ids s'.
Proof. apply ids_mono_step. Qed.

Lemma Ka : s_ids s' <= 65535 -> K (c a) s' (tr ++ o).
Proof.
  intros B. pose proof ids_le. assert (HK : K (c a) s tr) by (apply (i_k c n I); unfold s in *; lia).
  apply K_step; auto using Ca. eapply answered_honest; eauto using ok_answered.
Qed.

(** The filter of node [b] only rises. *)
Lemma look_mono b x m : lookup (s_filter (fst (n b))) x = Some m ->
  exists m', lookup (s_filter (fst (n' b))) x = Some m' /\ m <= m'.
Proof.
  intros L. destruct (Z.eq_dec b a) as [->|B].
  2: rewrite at_b by auto; exists m; split; auto; lia.
  rewrite at_a. cbn [fst]. destruct (up_cases (c a) s e) as [[f [_ [_ [_ [F _]]]]]|[F _]].
  - unfold s'. rewrite F, is_new_lookup. fold s in L. destruct (Z.eqb_spec (f_src f) x) as [<-|].
    + rewrite L. eexists. split; [reflexivity|]. lia.
    + exists m. split; auto. lia.
  - unfold s'. rewrite F. exists m. split; auto. lia.
Qed.

Lemma new_ack g : In (OSend g) o -> f_type g = T_ACK ->
  (exists d, on_air n' d /\ f_type d = T_DATA /\ f_src d = f_dst g /\ f_dst d = f_src g /\ f_seq d = f_seq g) /\
  exists m, lookup (s_filter (fst (n' (f_src g)))) (f_dst g) = Some m /\ f_seq g <= m.
Proof.
  intros S T. destruct (C a) as [CA _].
  destruct (ack_takes (c a) s tr e g Ca Wa S T) as [f [[E [TF [_ [F _]]]] [D G]]]. rewrite CA in *.
  assert (OF : on_air n f) by (rewrite E in A; exact A).
  split.
  - exists f. rewrite G. cbn. repeat split; auto using air_mono.
  - rewrite G. cbn [ctrl f_src f_dst f_seq]. rewrite at_a. cbn [fst]. unfold s'. rewrite F, is_new_lookup, Z.eqb_refl.
    eexists. split; [reflexivity|]. destruct (lookup _ _); lia.
Qed.

Lemma new_done p : s_ids s' <= 65535 -> In (ODone true p) o -> In p (handed_up (snd (n (f_dst p)))).
Proof.
  intros B D. pose proof ids_le as LE. assert (HK : K (c a) s tr) by (apply (i_k c n I); unfold s in *; lia).
  destruct (success_pending (c a) s tr e p Ca Wa ltac:(lia) D) as [AP [[t [T TP]] [f [E [TF [DF SF]]]]]].
  destruct (C a) as [CA _]. rewrite CA in DF.
  assert (OF : on_air n f) by (rewrite E in A; exact A).
  destruct (i_ack c n I f OF TF) as [[d [D1 [D2 [D3 [D4 D5]]]]] [m [M1 M2]]].
  assert (d = p) as ->.
  { destruct D1 as [b D1]. pose proof (i_src c n I b d D1). assert (b = a) as -> by congruence.
    destruct (k_sent _ _ _ _ _ (proj2 (proj2 HK)) d D1) as [X _]. destruct (X D2) as [AD _].
    apply (seq_inj (c a) s tr); auto. congruence. }
  rewrite D4. destruct (i_last c n I _ _ _ M1) as [h [H1 [H2 H3]]].
  destruct (i_up c n I _ _ H1) as [[b O] [HT HD]].
  pose proof (i_src c n I b h O) as SB. assert (b = a) as -> by congruence.
  destruct (k_sent _ _ _ _ _ (proj2 (proj2 HK)) h O) as [X _]. destruct (X HT) as [AH [OH OB]].
  assert (f_body h <= f_body p).
  { rewrite <- TP. destruct HD as [HD|HD]; [|apply OB; auto]. apply OH; auto. congruence. }
  pose proof (bounded_seq _ _ _ _ HK AH). pose proof (bounded_seq _ _ _ _ HK AP).
  assert (h = p) as -> by (apply (seq_inj (c a) s tr); auto; lia). exact H1.
Qed.

Lemma Inv_step : Inv c n'.
Proof.
  constructor.
  - intros b. destruct (Z.eq_dec b a) as [->|B]; [rewrite at_a; apply W_step; auto using Ca, Wa|].
    rewrite at_b by auto. apply (i_w c n I).
  - intros b. destruct (Z.eq_dec b a) as [->|B]; [rewrite at_a; apply Ka|].
    rewrite at_b by auto. apply (i_k c n I).
  - intros b f S. apply in_tr' in S. destruct S as [S|[-> S]]; [apply (i_src c n I _ _ S)|apply own_src, S].
  - intros f O T. apply air_new in O. destruct O as [O|O].
    + apply in_tr. apply (i_data c n I f O T).
    + rewrite (own_src f O). apply acc_tr', own_data; auto.
  - intros f O T. apply air_new in O. destruct O as [O|O].
    + destruct (i_cts c n I f O T) as [g [G1 G2]]. exists g. split; [apply air_mono, G1|exact G2].
    + destruct (C a) as [CA _].
      destruct (send_cases (c a) s tr e f Ca Wa O) as [p _ _ _ ->|X _|x _ _ _ X|x E TX DX ->|x _ _ _ _ ->];
        try discriminate.
      * destruct (acc_new _ _ _ _ _ Ca Wa X) as [Y _]. rewrite T in Y. discriminate.
      * destruct (acc_new _ _ _ _ _ Ca Wa X) as [Y _]. rewrite T in Y. discriminate.
      * exists x. split; [apply air_mono; rewrite E in A; exact A|]. cbn. repeat split; auto. 
  - intros b f U. destruct (Z.eq_dec b a) as [->|B].
    2: { rewrite at_b in U by auto. destruct (i_up c n I b f U) as [X Y]. split; auto using air_mono. }
    rewrite at_a in U. cbn [snd] in U. rewrite handed_app in U. apply in_app_or in U. destruct U as [U|U].
    + destruct (i_up c n I a f U) as [X Y]. split; auto using air_mono.
    + destruct (up_cases (c a) s e) as [[g [E [T [D [_ H]]]]]|[_ H]]; fold o in H; rewrite H in U; [|destruct U].
      destruct (fst (is_new _ _ _)); [|destruct U]. destruct U as [<-|[]]. destruct (C a) as [CA _]. rewrite CA in D.
      split; [apply air_mono; rewrite E in A; exact A|auto].
  - intros b x. destruct (Z.eq_dec b a) as [->|B]; [|rewrite at_b by auto; apply (i_sorted c n I)].
    rewrite at_a. cbn [snd]. rewrite handed_app, filter_app, map_app.
    pose proof (i_sorted c n I a x) as S.
    destruct (up_cases (c a) s e) as [[g [E [T [D [_ H]]]]]|[_ H]]; fold o in H; rewrite H.
    2: cbn; rewrite app_nil_r; exact S.
    destruct (fst (is_new _ _ _)) eqn:N; cbn [filter map]; [|rewrite app_nil_r; exact S].
    destruct (Z.eqb_spec (f_src g) x) as [<-|]; cbn [map]; [|rewrite app_nil_r; exact S].
    apply sorted_snoc; [exact S|]. intros y Y. apply in_map_iff in Y. destruct Y as [h [<- Y]].
    apply filter_In in Y. destruct Y as [Y1 Y2]. apply Z.eqb_eq in Y2.
    destruct (i_top c n I a h Y1) as [m [M1 M2]]. rewrite Y2 in M1. fold s in M1.
    rewrite is_new_fst, M1 in N. apply Z.gtb_lt in N. lia.
  - intros b f U. destruct (Z.eq_dec b a) as [->|B].
    2: { rewrite at_b in * by auto. apply (i_top c n I b f U). }
    rewrite at_a in U. cbn [snd] in U. rewrite handed_app in U. apply in_app_or in U. destruct U as [U|U].
    + destruct (i_top c n I a f U) as [m [M1 M2]]. destruct (look_mono _ _ _ M1) as [m' [M3 M4]].
      exists m'. split; auto. lia.
    + rewrite at_a. cbn [fst].
      destruct (up_cases (c a) s e) as [[g [E [T [D [F H]]]]]|[_ H]]; fold o in H; rewrite H in U; [|destruct U].
      destruct (fst (is_new _ _ _)) eqn:N; [|destruct U]. destruct U as [<-|[]].
      unfold s'. rewrite F, is_new_lookup, Z.eqb_refl. eexists. split; [reflexivity|].
      destruct (lookup _ _); lia.
  - intros b x m L. destruct (Z.eq_dec b a) as [->|B].
    2: { rewrite at_b in * by auto. apply (i_last c n I b x m L). }
    rewrite at_a in L. cbn [fst] in L. rewrite at_a. cbn [snd]. rewrite handed_app.
    assert (OLD : lookup (s_filter s) x = Some m ->
      exists f, In f (handed_up tr ++ handed_up o) /\ f_src f = x /\ f_seq f = m).
    { intros X. destruct (i_last c n I a x m X) as [f [F1 F2]]. exists f. split; auto. apply in_or_app. left. exact F1. }
    destruct (up_cases (c a) s e) as [[g [E [T [D [F H]]]]]|[F H]]; unfold s' in L; rewrite F in L; [|auto].
    rewrite is_new_lookup in L. destruct (Z.eqb_spec (f_src g) x) as [<-|]; [|auto].
    injection L as L. fold o in H. rewrite is_new_fst in H.
    destruct (lookup (s_filter s) (f_src g)) as [m0|] eqn:L0.
    + destruct (Z.gtb_spec (f_seq g) m0).
      * exists g. rewrite H. split; [apply in_or_app; right; left; reflexivity|]. split; auto. lia.
      * apply OLD. f_equal. lia.
    + exists g. rewrite H. split; [apply in_or_app; right; left; reflexivity|]. auto.
  - intros g O T. apply air_new in O. destruct O as [O|O]; [|apply new_ack; auto].
    destruct (i_ack c n I g O T) as [[d [D1 D2]] [m [M1 M2]]]. split.
    + exists d. split; [apply air_mono, D1|exact D2].
    + destruct (look_mono _ _ _ M1) as [m' [M3 M4]]. exists m'. split; auto. lia.
  - intros b p B D. apply up_in. apply in_tr' in D. destruct D as [D|[-> D]].
    + apply (i_done c n I b p); auto. destruct (Z.eq_dec b a) as [->|N]; [|rewrite at_b in B; auto].
      rewrite at_a in B. cbn in B. pose proof ids_le. unfold s in *. lia.
    + rewrite at_a in B. cbn in B. apply new_done; auto.
Qed.
End Step.

Lemma Inv_reach c e0 n : net_ok c -> net_reach c e0 n -> Inv c n.
Proof.
  intros C R. induction R; [apply Inv_init; auto|apply Inv_step; auto].
Qed.

(** ** Consequences *)

Lemma per_source_nodup l :
  (forall a, NoDup (map f_seq (filter (fun f => f_src f =? a) l))) -> NoDup l.
Proof.
  induction l as [|x l IH]; intros H; constructor.
  - intros X. specialize (H (f_src x)). cbn [filter] in H. rewrite Z.eqb_refl in H. cbn [map] in H.
    inversion H as [|y z N _]. apply N. apply in_map. apply filter_In. split; auto. apply Z.eqb_refl.
  - apply IH. intros a. specialize (H a). cbn [filter] in H. destruct (f_src x =? a); auto.
    cbn [map] in H. inversion H. auto.
Qed.

Lemma up_nodup c n x : Inv c n -> NoDup (handed_up (snd (n x))).
Proof.
  intros I. apply per_source_nodup. intros a. apply sorted_NoDup. apply (i_sorted c n I).
Qed.

Lemma sorted_map_le (g h : frame -> Z) l : (forall x, In x l -> g x = h x + 1) ->
  StronglySorted Z.lt (map g l) -> StronglySorted Z.lt (map h l).
Proof.
  induction l as [|x l IH]; intros E S; cbn in *; [constructor|].
  inversion S as [|y z S1 S2]; subst. constructor; auto.
  apply Forall_forall. intros y Y. apply in_map_iff in Y. destruct Y as [w [<- Y]].
  rewrite Forall_forall in S2. specialize (S2 (g w) (in_map g l w Y)). rewrite (E x), (E w) in S2 by auto. lia.
Qed.

Lemma up_ordered c n x a : Inv c n -> s_ids (fst (n a)) <= 65535 ->
  StronglySorted Z.lt (map f_body (filter (fun f => f_src f =? a) (handed_up (snd (n x))))).
Proof.
  intros I B. apply (sorted_map_le f_seq); [|apply (i_sorted c n I)].
  intros f F. apply filter_In in F. destruct F as [F S]. apply Z.eqb_eq in S.
  destruct (i_up c n I x f F) as [O [T _]]. pose proof (i_data c n I f O T) as AF. rewrite S in AF.
  apply (bounded_seq (c a) (fst (n a)) (snd (n a))); auto. apply (i_k c n I); auto.
Qed.
