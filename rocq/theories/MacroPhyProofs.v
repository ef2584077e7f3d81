From Coq Require Import ZArith List Lia Bool Sorted.
From Verif Require Import Base EnergyModel MacroPhyModel MacroPhySpec.
Import ListNotations.
Open Scope Z_scope.

Lemma heard_app a b : heard (a ++ b) = heard a ++ heard b.
Proof. apply flat_map_app. Qed.
Lemma own_app a b : own (a ++ b) = own a ++ own b.
Proof. apply flat_map_app. Qed.
Lemma verdicts_app id a b : verdicts id (a ++ b) = verdicts id a ++ verdicts id b.
Proof. apply flat_map_app. Qed.
Lemma nth_in {A} i (l : list A) x : nth_error l i = Some x -> In x l.
Proof. apply nth_error_In. Qed.
Lemma remove_nth_in {A} i (l : list A) x : In x (remove_nth i l) -> In x l.
Proof. revert i; induction l as [|y l IH]; intros [|i] H; cbn in *; auto. destruct H; auto. right. eauto. Qed.
Lemma remove_nth_keep {A} i (l : list A) x y : nth_error l i = Some x -> In y l -> y <> x -> In y (remove_nth i l).
Proof.
  revert i; induction l as [|z l IH]; intros [|i] H I N; cbn in *; try contradiction.
  - injection H as ->. destruct I as [I|I]; [congruence|exact I].
  - destruct I as [->|I]; [left; reflexivity|right; eauto].
Qed.
Lemma remove_nth_nodup {A} i (l : list A) : NoDup l -> NoDup (remove_nth i l).
Proof.
  revert i; induction l as [|y l IH]; intros [|i] H; cbn; auto; inversion H; subst; auto.
  constructor; auto. intros X. apply remove_nth_in in X. auto.
Qed.
Lemma remove_nth_gone {A} i (l : list A) x : NoDup l -> nth_error l i = Some x -> ~ In x (remove_nth i l).
Proof.
  revert i; induction l as [|y l IH]; intros [|i] H E; cbn in *; try discriminate; inversion H; subst.
  - injection E as ->. auto.
  - intros [->|X]; [apply nth_in in E; auto|]. eapply IH; eauto.
Qed.
Lemma nodup_app_last {A} (l : list A) x : NoDup l -> ~ In x l -> NoDup (l ++ [x]).
Proof.
  induction l as [|y l IH]; intros H N; cbn; [constructor; auto|]. inversion H; subst.
  constructor; [|apply IH; auto; intros X; apply N; right; auto].
  intros X. apply in_app_or in X as [X|[X|[]]]; auto. subst. apply N. left. auto.
Qed.

Section Inv.
Variables (sense : Z -> bool) (good : Z -> Z -> bool).

Record Inv (s : kphy) (o : list kout) : Prop := MkInv {
  i_tx : k_state s = KTx -> exists t d, In (t, d) (own o) /\ t <= k_now s <= t + d /\ k_txs s = [t + d];
  i_notx : k_state s <> KTx -> k_txs s = [];
  i_own : forall t d, In (t, d) (own o) -> 0 < d /\ t <= k_now s /\ (t + d <= k_now s \/ (k_state s = KTx /\ In (t + d) (k_txs s)));
  i_list : k_list s = heard o;
  i_heard : forall g, In g (heard o) -> 0 <= g_id g < k_next s /\ g_start g <= k_now s /\ 0 < g_dur g;
  i_next : 0 <= k_next s;
  i_ids : forall g h, In g (heard o) -> In h (heard o) -> g_id g = g_id h -> g = h;
  i_pend : forall g, In g (k_rxs s) -> In g (heard o) /\ k_now s <= g_end g;
  i_nodup : NoDup (k_rxs s);
  i_rx : k_state s = KRx -> k_busy s = true;
  i_busy : k_busy s = true -> exists g, In g (k_rxs s) /\ g_end g = k_end s;
  i_sensed : forall g, In g (heard o) -> sense (g_pow g) = true ->
     (forall t d, In (t, d) (own o) -> g_start g < t \/ t + d < g_start g) ->
     g_end g <= k_end s;
  i_quiet : k_busy s = false -> k_end s <= k_now s + ns;
  i_pkt : forall id, k_rx s = Some id -> exists g, In g (heard o) /\ g_id g = id /\
     sense (g_pow g) = true /\ forall t d, In (t, d) (own o) -> g_start g <= t \/ t + d <= g_start g;
  i_after : k_state s = KRx -> exists h, In h (heard o) /\ sense (g_pow h) = true /\
     forall t d, In (t, d) (own o) -> t + d <= g_start h;
  i_fresh : forall g, In g (k_rxs s) -> verdicts (g_id g) o = [];
  i_new : forall id, k_next s <= id -> verdicts id o = [];
  i_verdicts : forall id, In (verdicts id o) [[]; [true]; [false]; [false; false]];
  i_when : forall id ok t, In (KDone id ok t) o -> exists g, In g (heard o) /\ g_id g = id /\ g_end g = t
}.

Lemma inv0 : Inv kphy0 [].
Proof.
  constructor; cbn; try (intros; contradiction || discriminate); auto; try tauto; try lia; constructor.
Qed.

Ltac prj := cbn [k_now k_state k_busy k_end k_rx k_list k_txs k_rxs k_next fst snd].
Ltac outs := rewrite ?own_app, ?heard_app, ?verdicts_app; cbn [own heard verdicts flat_map app]; rewrite ?app_nil_r.

Lemma inv_send s o d : Inv s o -> 0 < d -> Inv (fst (k_send d s)) (o ++ snd (k_send d s)).
Proof.
  intros I D. unfold k_send. destruct (k_state s) eqn:E; prj.
  2: { constructor; prj; outs; try (apply I; fail).
       all: try (intros g X; outs; apply (i_fresh s o I g X); fail).
       all: try (intros id X; outs; apply (i_new s o I id X); fail).
       all: try (intros id; outs; apply (i_verdicts s o I id); fail).
       intros id ok t X. apply in_app_or in X as [X|[X|[]]]; [eapply i_when; eauto|discriminate]. }
  all: constructor; prj; outs; try discriminate; try (apply I; fail).
  all: try (intros _; exists (k_now s), d; rewrite (i_notx s o I) by congruence; cbn; split; [apply in_or_app; right; left; auto|split; [lia|auto]]; fail).
  all: try (intros X; congruence).
  all: try (intros t d' X; apply in_app_or in X as [X|[X|[]]]; [
      destruct (i_own s o I t d' X) as [A [B [C|[C _]]]]; [auto|congruence]
    | injection X as <- <-; repeat split; auto; try lia; right; split; auto; apply in_or_app; right; left; auto]; fail).
  all: try (intros g Hg Sg C; apply (i_sensed s o I g Hg Sg); intros t d' X; apply C; apply in_or_app; auto; fail).
  all: try (intros id X; destruct (i_pkt s o I id X) as [g [A [B [B' C]]]]; exists g; split; [auto|]; split; [auto|]; split; [auto|];
      intros t d' Y; apply in_app_or in Y as [Y|[Y|[]]]; [auto|]; injection Y as <- <-; left; apply (i_heard s o I g A); fail).
  all: try (intros g X; outs; apply (i_fresh s o I g X); fail).
  all: try (intros id X; outs; apply (i_new s o I id X); fail).
  all: try (intros id; outs; apply (i_verdicts s o I id); fail).
  all: intros id ok t X; apply in_app_or in X as [X|[X|[]]]; [eapply i_when; eauto|discriminate].
Qed.

Lemma inv_send_done s o i t : Inv s o -> nth_error (k_txs s) i = Some t -> t = k_now s ->
  let s0 := KPhy (k_now s) (k_state s) (k_busy s) (k_end s) (k_rx s) (k_list s) (remove_nth i (k_txs s)) (k_rxs s) (k_next s) in
  Inv (fst (k_send_done s0)) (o ++ snd (k_send_done s0)).
Proof.
  intros I E T s0.
  assert (K : k_state s = KTx).
  { destruct (k_state s) eqn:K; auto; rewrite (i_notx s o I) in E by congruence; destruct i; discriminate. }
  destruct (i_tx s o I K) as [u [d [A [B C]]]].
  assert (U : k_txs s = [k_now s] /\ remove_nth i (k_txs s) = []).
  { rewrite C in *. destruct i as [|i]; [|destruct i; discriminate]. cbn in *. split; congruence. }
  destruct U as [U1 U2].
  unfold k_send_done, s0. prj. rewrite U2.
  constructor; prj; outs; try discriminate; auto; try (apply I; fail).
  - intros t' d' X. destruct (i_own s o I t' d' X) as [P [Q R]]. split; [auto|]. split; [auto|]. left.
    destruct R as [R|[_ R]]; auto. rewrite U1 in R. destruct R as [R|[]]. lia.
  - intros g X. outs. apply (i_fresh s o I g X).
  - intros id X. outs. apply (i_new s o I id X).
  - intros id. outs. apply (i_verdicts s o I id).
  - intros id ok t' X. apply in_app_or in X as [X|[X|[]]]; [eapply i_when; eauto|discriminate].
Qed.

Lemma inv_receive s o dur pow : Inv s o -> 0 < dur ->
  Inv (fst (k_receive sense dur pow s)) (o ++ snd (k_receive sense dur pow s)).
Proof.
  intros I D. set (g := Sig (k_next s) (k_now s) dur pow).
  assert (NH : ~ In g (heard o)) by (intros X; pose proof (i_heard s o I g X) as [[_ Y] _]; cbn in Y; lia).
  assert (NP : ~ In g (k_rxs s)) by (intros X; apply NH; apply (i_pend s o I); auto).
  assert (H1 : forall h, In h (heard o ++ [g]) -> 0 <= g_id h < k_next s + 1 /\ g_start h <= k_now s /\ 0 < g_dur h).
  { intros h X. apply in_app_or in X as [X|[<-|[]]]. destruct (i_heard s o I h X); lia.
    pose proof (i_next s o I). cbn. lia. }
  assert (H2 : forall h h', In h (heard o ++ [g]) -> In h' (heard o ++ [g]) -> g_id h = g_id h' -> h = h').
  { intros h h' X Y Z. apply in_app_or in X as [X|[<-|[]]]; apply in_app_or in Y as [Y|[<-|[]]]; auto.
    - eapply i_ids; eauto.
    - pose proof (i_heard s o I h X). cbn in Z. lia.
    - pose proof (i_heard s o I h' Y). cbn in Z. lia. }
  assert (H3 : forall h, In h (k_rxs s ++ [g]) -> In h (heard o ++ [g]) /\ k_now s <= g_end h).
  { intros h X. apply in_app_or in X as [X|[<-|[]]].
    - destruct (i_pend s o I h X). split; [apply in_or_app; auto|auto].
    - split; [apply in_or_app; right; left; auto|]. unfold g_end. cbn. lia. }
  assert (H4 : NoDup (k_rxs s ++ [g])) by (apply nodup_app_last; auto; apply I).
  assert (FR : verdicts (k_next s) o = []) by (apply (i_new s o I); lia).
  assert (H5 : forall h, In h (k_rxs s ++ [g]) -> verdicts (g_id h) o = []).
  { intros h X. apply in_app_or in X as [X|[<-|[]]]; [apply (i_fresh s o I); auto|auto]. }
  assert (H6 : forall id, k_next s + 1 <= id -> verdicts id o = []) by (intros id X; apply (i_new s o I); lia).
  assert (H7 : forall id ok t, In (KDone id ok t) o -> exists h, In h (heard o ++ [g]) /\ g_id h = id /\ g_end h = t).
  { intros id ok t X. destruct (i_when s o I id ok t X) as [h [A B]]. exists h. split; [apply in_or_app; auto|auto]. }
  assert (H8 : forall id, k_rx s = Some id -> exists h, In h (heard o ++ [g]) /\ g_id h = id /\
     sense (g_pow h) = true /\ forall t d, In (t, d) (own o) -> g_start h <= t \/ t + d <= g_start h).
  { intros id X. destruct (i_pkt s o I id X) as [h [A B]]. exists h. split; [apply in_or_app; auto|auto]. }
  assert (B1 : k_busy s = true -> exists h, In h (k_rxs s ++ [g]) /\ g_end h = k_end s).
  { intros X. destruct (i_busy s o I X) as [h [A B]]. exists h. split; [apply in_or_app; auto|auto]. }
  assert (A1 : k_state s = KRx -> exists h, In h (heard o ++ [g]) /\ sense (g_pow h) = true /\
     forall t d, In (t, d) (own o) -> t + d <= g_start h).
  { intros X. destruct (i_after s o I X) as [h [A B]]. exists h. split; [apply in_or_app; auto|auto]. }
  assert (OW : k_state s <> KTx -> forall t d, In (t, d) (own o) -> t + d <= k_now s).
  { intros X t d Y. destruct (i_own s o I t d Y) as [_ [_ [Z|[Z _]]]]; auto. contradiction. }
  unfold k_receive. fold g.
  assert (QUIET : forall st, st = k_state s -> (st <> KTx -> sense pow && (k_now s + dur >? k_end s) = false) ->
    Inv (KPhy (k_now s) st (k_busy s) (k_end s) (k_rx s) (k_list s ++ [g]) (k_txs s) (k_rxs s ++ [g]) (k_next s + 1)) (o ++ [KHeard g])).
  { intros st -> Q. constructor; prj; outs; auto; try (apply I; fail).
    - rewrite (i_list s o I). auto.
    - pose proof (i_next s o I). lia.
    - intros h X Sg C. apply in_app_or in X as [X|[<-|[]]]; [apply (i_sensed s o I h X Sg C)|].
      destruct (k_state s) eqn:K.
      2: { exfalso. destruct (i_tx s o I K) as [t [d [P [R _]]]]. specialize (C t d P). cbn in C. lia. }
      all: specialize (Q ltac:(discriminate)); cbn in Sg; rewrite Sg in Q; cbn in Q;
        assert (LE : k_now s + dur <= k_end s) by (rewrite Z.gtb_ltb in Q; apply Z.ltb_ge in Q; auto);
        unfold g_end; cbn; lia.
    - intros h X. outs. apply H5; auto.
    - intros id X. outs. apply H6; auto.
    - intros id. outs. apply (i_verdicts s o I id).
    - intros id ok t X. apply in_app_or in X as [X|[X|[]]]; [eauto|discriminate]. }
  assert (LOUD : k_state s <> KTx -> sense pow = true -> k_now s + dur > k_end s -> forall rx out,
    (rx = k_rx s \/ rx = Some (g_id g)) -> own out = [] -> heard out = [g] -> (forall id, verdicts id out = []) -> (forall id ok t, ~ In (KDone id ok t) out) ->
    Inv (KPhy (k_now s) KRx true (k_now s + dur) rx (k_list s ++ [g]) (k_txs s) (k_rxs s ++ [g]) (k_next s + 1)) (o ++ out)).
  { intros NT SE GT rx out RX O1 O2 O3 O4.
    constructor; prj; outs; rewrite ?O1, ?O2, ?app_nil_r; auto; try discriminate; try (apply I; fail).
    - intros _. apply (i_notx s o I NT).
    - intros t d X. destruct (i_own s o I t d X) as [P [Q [R|[R _]]]]; [auto|contradiction].
    - rewrite (i_list s o I). auto.
    - pose proof (i_next s o I). lia.
    - intros _. exists g. split; [apply in_or_app; right; left; auto|reflexivity].
    - intros h X Sg C. apply in_app_or in X as [X|[<-|[]]]; [|unfold g_end; cbn; lia].
      pose proof (i_sensed s o I h X Sg C). lia.
    - intros id X. destruct RX as [-> | ->]; [auto|]. injection X as <-. exists g.
      split; [apply in_or_app; right; left; auto|]. split; [auto|]. split; [auto|]. intros t d Y. right. apply (OW NT t d Y).
    - intros _. exists g. split; [apply in_or_app; right; left; auto|]. split; [auto|]. intros t d Y. apply (OW NT t d Y).
    - intros h X. rewrite verdicts_app, O3, app_nil_r. auto.
    - intros id X. rewrite verdicts_app, O3, app_nil_r. auto.
    - intros id. rewrite verdicts_app, O3, app_nil_r. apply (i_verdicts s o I id).
    - intros id ok t X. apply in_app_or in X as [X|X]; [eauto|destruct (O4 _ _ _ X)]. }
  destruct (k_state s) eqn:K.
  2: { apply QUIET; auto. congruence. }
  all: destruct (sense pow && (k_now s + dur >? k_end s)) eqn:Q; [|apply QUIET; auto].
  all: apply andb_prop in Q as [Q1 Q2]; rewrite Z.gtb_lt in Q2.
  all: destruct (k_busy s); prj; apply LOUD; auto; try congruence; try lia; cbn; intros; intuition discriminate.
Qed.

Lemma inv_receive_done s o i g : Inv s o -> nth_error (k_rxs s) i = Some g -> g_end g = k_now s ->
  let s0 := KPhy (k_now s) (k_state s) (k_busy s) (k_end s) (k_rx s) (k_list s) (k_txs s) (remove_nth i (k_rxs s)) (k_next s) in
  Inv (fst (k_receive_done good g s0)) (o ++ snd (k_receive_done good g s0)).
Proof.
  intros I E T s0. pose proof (nth_in _ _ _ E) as IN. destruct (i_pend s o I g IN) as [HG _].
  assert (G : forall st busy out,
    (st = k_state s \/ (k_state s = KRx /\ st = KIdle)) ->
    busy = (if k_end s <=? k_now s + ns then false else k_busy s) ->
    (st = KRx -> busy = true) ->
    own out = [] -> heard out = [] ->
    (forall id, id <> g_id g -> verdicts id out = []) -> In (verdicts (g_id g) out) [[]; [true]; [false]; [false; false]] ->
    (forall id ok t, In (KDone id ok t) out -> id = g_id g /\ t = k_now s) ->
    Inv (KPhy (k_now s) st busy (k_end s) (k_rx s) (k_list s) (k_txs s) (remove_nth i (k_rxs s)) (k_next s)) (o ++ out)).
  { intros st busy out ST BU RX O1 O2 O3 O4 O5.
    assert (SX : st = KTx -> k_state s = KTx) by (destruct ST as [->|[ST ->]]; congruence).
    assert (SY : st <> KTx -> k_state s <> KTx) by (destruct ST as [->|[ST ->]]; congruence).
    constructor; prj; outs; rewrite ?O1, ?O2, ?app_nil_r; auto; try (apply I; fail).
    - intros X. apply (i_tx s o I); auto.
    - intros X. apply (i_notx s o I); auto.
    - intros t d X. destruct (i_own s o I t d X) as [P [Q [R|[R R']]]]; split; auto. split; auto. right. split; auto.
      destruct ST as [->|[Y ->]]; [auto|congruence].
    - intros h X. apply remove_nth_in in X. apply (i_pend s o I); auto.
    - apply remove_nth_nodup. apply I.
    - intros X. destruct (Z.leb_spec (k_end s) (k_now s + ns)) as [L|L]; [congruence|].
      rewrite BU in X. destruct (i_busy s o I X) as [h [A B]]. exists h. split; auto.
      eapply remove_nth_keep; eauto. intros ->. unfold ns in L. lia.
    - intros X. destruct (Z.leb_spec (k_end s) (k_now s + ns)) as [L|L]; auto. apply (i_quiet s o I). congruence.
    - intros X. destruct ST as [->|[Y ->]]; [apply (i_after s o I); auto|discriminate].
    - intros h X. assert (N : h <> g) by (intros ->; revert X; apply remove_nth_gone; auto; apply I).
      apply remove_nth_in in X. rewrite verdicts_app, (i_fresh s o I h X). apply O3. intros Y. apply N.
      apply (i_ids s o I); auto. apply (i_pend s o I); auto.
    - intros id X. rewrite verdicts_app, (i_new s o I id X). apply O3. intros ->. pose proof (i_heard s o I g HG). lia.
    - intros id. rewrite verdicts_app. destruct (Z.eq_dec id (g_id g)) as [->|N].
      + rewrite (i_fresh s o I g IN). exact O4.
      + rewrite (O3 id N), app_nil_r. apply (i_verdicts s o I id).
    - intros id ok t X. apply in_app_or in X as [X|X]; [eapply i_when; eauto|].
      destruct (O5 _ _ _ X) as [-> ->]. exists g. auto. }
  unfold k_receive_done, s0. prj.
  remember (if k_end s <=? k_now s + ns then false else k_busy s) as busy eqn:BU.
  assert (VD : forall id ok, id <> g_id g -> verdicts id [KDone (g_id g) ok (k_now s)] = []).
  { intros id ok N. cbn. destruct (Z.eqb_spec (g_id g) id); [congruence|auto]. }
  assert (VS : forall ok, verdicts (g_id g) [KDone (g_id g) ok (k_now s)] = [ok]).
  { intros ok. cbn. rewrite Z.eqb_refl. auto. }
  assert (DD : forall x out, (forall id ok t, In (KDone id ok t) out -> id = g_id g /\ t = k_now s) ->
     forall id ok t, In (KDone id ok t) (KDone (g_id g) x (k_now s) :: out) -> id = g_id g /\ t = k_now s).
  { intros x out H id ok t [X|X]; [injection X; auto|eauto]. }
  assert (DN : forall id ok t, In (KDone id ok t) [] -> id = g_id g /\ t = k_now s) by (intros ? ? ? []).
  destruct (k_state s) eqn:K.
  1,2: apply G; prj; auto; cbn; auto; discriminate.
  assert (ONE : forall ok, Inv (KPhy (k_now s) KIdle busy (k_end s) (k_rx s) (k_list s) (k_txs s) (remove_nth i (k_rxs s)) (k_next s))
     (o ++ [KDone (g_id g) ok (k_now s)])).
  { intros ok. apply G; auto; try discriminate; [rewrite VS; destruct ok; cbn; auto | apply DD; auto]. }
  assert (STAY : busy = true -> Inv (KPhy (k_now s) KRx busy (k_end s) (k_rx s) (k_list s) (k_txs s) (remove_nth i (k_rxs s)) (k_next s)) (o ++ [])).
  { intros X. apply G; auto. cbn. auto. }
  destruct (k_rx s) as [id|] eqn:R; [destruct (Z.eqb_spec (g_id g) id) as [Q|Q]|].
  - destruct (good _ _); prj; [apply ONE|]. destruct busy; [apply ONE|].
    apply G; auto; try discriminate; [intros id' N; cbn; destruct (Z.eqb_spec (g_id g) id'); [congruence|auto] | cbn; rewrite Z.eqb_refl; cbn; auto | apply DD; apply DD; auto].
  - destruct busy; prj; [apply STAY; auto|apply ONE].
  - destruct busy; prj; [apply STAY; auto|apply ONE].
Qed.

Lemma inv_step s o e : Inv s o -> ktimely s e = true -> Inv (fst (kstep sense good s e)) (o ++ snd (kstep sense good s e)).
Proof.
  intros I T. destruct e as [d|i|d p|i|t]; cbn [kstep ktimely] in *.
  - apply inv_send; auto. apply Z.ltb_lt; auto.
  - destruct (nth_error (k_txs s) i) as [t|] eqn:E; [|discriminate]. eapply inv_send_done; eauto. apply Z.eqb_eq; auto.
  - apply inv_receive; auto. apply Z.ltb_lt; auto.
  - destruct (nth_error (k_rxs s) i) as [g|] eqn:E; [|discriminate]. eapply inv_receive_done; eauto. apply Z.eqb_eq; auto.
  - apply andb_prop in T as [T T2]. apply andb_prop in T as [T T1].
    apply Z.leb_le in T. rewrite forallb_forall in T1, T2. prj. rewrite app_nil_r.
    constructor; prj; try (apply I; fail).
    + intros X. destruct (i_tx s o I X) as [u [d [A [B C]]]]. exists u, d. split; auto. split; auto.
      assert (Y : t <=? u + d = true) by (apply T1; rewrite C; left; auto). apply Z.leb_le in Y. lia.
    + intros u d X. destruct (i_own s o I u d X) as [A [B C]]. split; [auto|]. split; [lia|]. destruct C; [left; lia|auto].
    + intros g X. destruct (i_heard s o I g X). split; auto. lia.
    + intros g X. destruct (i_pend s o I g X) as [A B]. split; auto. specialize (T2 g X). apply Z.leb_le in T2. auto.
    + intros X. pose proof (i_quiet s o I X). lia.
Qed.

Lemma inv_reach s o : kreach sense good s o -> Inv s o.
Proof. induction 1; [apply inv0|apply inv_step; auto]. Qed.

Lemma reach_run l : forall s o, kreach sense good s o -> ktimely_run sense good s l = true ->
  kreach sense good (fst (krun sense good s l)) (o ++ snd (krun sense good s l)).
Proof.
  induction l as [|e l IH]; intros s o R T; cbn [krun ktimely_run] in *; [cbn; rewrite app_nil_r; auto|].
  apply andb_prop in T as [T1 T2]. pose proof (KR1 sense good s o e R T1) as R1. specialize (IH _ _ R1 T2).
  destruct (kstep sense good s e) as [s1 o1]. cbn [fst snd] in *. destruct (krun sense good s1 l) as [s2 o2].
  cbn [fst snd] in *. rewrite app_assoc. auto.
Qed.

Lemma interference_power now id l :
  k_interference now id l = power_of id (fun g => now - g_start g <=? g_dur g) l.
Proof.
  unfold power_of. induction l as [|g l IH]; cbn [k_interference filter]; auto. rewrite IH.
  destruct (negb (g_id g =? id) && (now - g_start g <=? g_dur g)); cbn; lia.
Qed.

(** A step that reports a success. *)
Lemma step_success s o e id t : Inv s o -> ktimely s e = true -> In (KDone id true t) (snd (kstep sense good s e)) ->
  snd (kstep sense good s e) = [KDone id true t] /\
  exists g, In g (heard o) /\ g_id g = id /\ g_end g = t /\
    good (g_pow g) (power_of id (fun h => t - g_start h <=? g_dur h) (heard o)) = true /\
    (forall u d, In (u, d) (own o) -> u + d <= g_start g \/ g_start g <= u) /\
    (exists h, In h (heard o) /\ sense (g_pow h) = true /\ g_start h <= t /\ forall u d, In (u, d) (own o) -> u + d <= g_start h).
Proof.
  intros I T X. destruct e as [d|i|d p|i|u]; cbn [kstep ktimely] in *.
  - unfold k_send in X. destruct (k_state s); cbn in X; intuition discriminate.
  - destruct (nth_error (k_txs s) i); cbn in X; intuition discriminate.
  - unfold k_receive in X. destruct (k_state s); [|cbn in X; intuition discriminate|];
      (destruct (sense p && (k_now s + d >? k_end s)); [destruct (k_busy s)|]); cbn in X; intuition discriminate.
  - destruct (nth_error (k_rxs s) i) as [g|] eqn:E; [|discriminate].
    pose proof (nth_in _ _ _ E) as IN. destruct (i_pend s o I g IN) as [HG _]. apply Z.eqb_eq in T.
    unfold k_receive_done in X |- *. prj. cbn [k_now k_state k_busy k_end k_rx k_list k_txs k_rxs k_next] in X.
    destruct (k_state s) eqn:K; try (cbn in X; contradiction).
    destruct (k_rx s) as [x|] eqn:R; [destruct (Z.eqb_spec (g_id g) x) as [Q|Q]|].
    + destruct (good (g_pow g) (k_interference (k_now s) x (k_list s))) eqn:GD; cbn [snd] in X |- *.
      2: { destruct X as [X|X]; [discriminate|]. destruct (if _ : bool then false else _); cbn in X; intuition discriminate. }
      destruct X as [X|[]]. injection X as <- <-. split; auto. exists g.
      rewrite interference_power, (i_list s o I), <- Q in GD.
      destruct (i_pkt s o I x R) as [g' [A [B [_ C]]]]. assert (g' = g) by (apply (i_ids s o I); congruence). subst g'.
      destruct (i_after s o I K) as [h [H1 [H2 H3]]].
      repeat split; auto.
      * intros u d' Y. destruct (C u d' Y); auto.
      * exists h. repeat split; auto. apply (i_heard s o I h H1).
    + destruct (if _ : bool then false else _); cbn in X; intuition discriminate.
    + destruct (if _ : bool then false else _); cbn in X; intuition discriminate.
  - cbn in X. contradiction.
Qed.

Lemma split_last {A} (o p a b : list A) x : o ++ p = a ++ x :: b ->
  (exists c, o = a ++ x :: c) \/ (exists c, a = o ++ c /\ p = c ++ x :: b).
Proof.
  revert a. induction o as [|y o IH]; intros a E; cbn in *; [right; exists a; auto|].
  destruct a as [|z a]; cbn in *.
  - injection E as -> E. left. exists o. auto.
  - injection E as -> E. destruct (IH a E) as [[c ->]|[c [-> ->]]]; [left; exists c; auto|right; exists c; auto].
Qed.

Lemma success_inv s o : kreach sense good s o -> forall a id t b, o = a ++ KDone id true t :: b ->
  exists g, In g (heard a) /\ g_id g = id /\ g_end g = t /\
    good (g_pow g) (power_of id (fun h => t - g_start h <=? g_dur h) (heard a)) = true /\
    (forall u d, In (u, d) (own a) -> u + d <= g_start g \/ g_start g <= u) /\
    (exists h, In h (heard a) /\ sense (g_pow h) = true /\ g_start h <= t /\ forall u d, In (u, d) (own a) -> u + d <= g_start h).
Proof.
  induction 1 as [|s o e R IH T]; intros a id t b E; [destruct a; discriminate|].
  apply split_last in E as [[c E]|[c [-> E]]]; [eapply IH; eauto|].
  pose proof (step_success s o e id t (inv_reach _ _ R) T) as P.
  destruct P as [P1 P2]; [rewrite E; apply in_or_app; right; left; auto|].
  rewrite E in P1. assert (c = []). { destruct c as [|x c]; auto. cbn in P1. injection P1 as _ P1. destruct c; discriminate. }
  subst c. rewrite app_nil_r. exact P2.
Qed.

(** Own transmissions. *)
Lemma sorted_snoc {A} (R : A -> A -> Prop) l x : StronglySorted R l -> Forall (fun y => R y x) l -> StronglySorted R (l ++ [x]).
Proof.
  induction 1 as [|y l S IH F]; intros G; cbn; [constructor; constructor|]. inversion G; subst.
  constructor; auto. apply Forall_app. auto.
Qed.
Lemma own_disjoint s o : kreach sense good s o -> StronglySorted (fun x y => fst x + snd x <= fst y) (own o).
Proof.
  induction 1 as [|s o e R IH T]; [constructor|].
  pose proof (inv_reach _ _ R) as I. rewrite own_app.
  assert (O : own (snd (kstep sense good s e)) = [] \/
    (exists d, own (snd (kstep sense good s e)) = [(k_now s, d)]) /\ k_state s <> KTx).
  { destruct e as [d|i|d p|i|u]; cbn [kstep].
    - unfold k_send. destruct (k_state s); cbn; auto; right; split; eauto; discriminate.
    - destruct (nth_error (k_txs s) i); cbn; auto.
    - unfold k_receive. destruct (k_state s); auto;
      (destruct (sense p && (k_now s + d >? k_end s)); [destruct (k_busy s)|]); cbn; auto.
    - destruct (nth_error (k_rxs s) i) as [g|]; auto. unfold k_receive_done. prj. destruct (k_state s); auto.
      destruct (k_rx s) as [x|]; [destruct (g_id g =? x)|]; [destruct (good _ _)| |];
        try destruct (if _ : bool then false else _); cbn; auto.
    - auto. }
  destruct O as [O|[[d O] NT]]; rewrite O.
  - rewrite app_nil_r. auto.
  - apply sorted_snoc; auto. apply Forall_forall. intros [t d'] X. cbn.
    destruct (i_own s o I t d' X) as [_ [_ [Z|[Z _]]]]; auto. contradiction.
Qed.
End Inv.
