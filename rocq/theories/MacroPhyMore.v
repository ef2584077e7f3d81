(** C59: the MAC layer of a macro node is told about the end of every reception it was told the start of. *)
From Coq Require Import ZArith List Bool Lia.
From Verif Require Import Base EnergyModel MacroPhyModel MacroPhySpec MacroPhyProofs MacroPhyProps.
Import ListNotations.
Open Scope Z_scope.

(** Once the end of a signal is over ([k_rxs]: the signals that have not ended) whose start the MAC was told, the MAC was told its end. *)
Definition C59_full := forall sense good s o, kreach sense good s o -> forall g t, In (KStart (g_id g) t) o -> In g (heard o) -> ~ In g (k_rxs s) ->
  exists ok, In (KDone (g_id g) ok (g_end g)) o.
(** Two signals end at the same time, that which was not received first: it is reported as failed and the received packet is not reported at all. *)
Definition unreported : list kev := [KSignal (10 * us) 500; KTick us; KSignal (9 * us) 1; KTick (10 * us); KSignalEnd 1; KSignalEnd 0].
Theorem C59_reported_refuted : ~ C59_full.
Proof.
  intros F. assert (O : seen unreported = [KHeard (Sig 0 0 (10 * us) 500); KStart 0 0; KHeard (Sig 1 us (9 * us) 1); KDone 1 false (10 * us)]) by (vm_compute; reflexivity).
  pose proof (final_reach unreported eq_refl) as R. destruct (F _ _ _ _ R (Sig 0 0 (10 * us) 500) 0) as [ok X].
  - rewrite O. right; left; reflexivity.
  - rewrite O. left; reflexivity.
  - intros X. vm_compute in X. exact X.
  - rewrite O in X. cbn [g_id] in X. destruct X as [X|[X|[X|[X|[]]]]]; discriminate X.
Qed.
Print Assumptions C59_reported_refuted.

Section More.
Variables (sense : Z -> bool) (good : Z -> Z -> bool).
Lemma start_heard s o : kreach sense good s o -> forall id t, In (KStart id t) o -> exists g, In g (heard o) /\ g_id g = id.
Proof.
  induction 1 as [|s o e R IH T]; intros id t X; [destruct X|]. apply in_app_or in X. rewrite heard_app. destruct X as [X|X].
  - destruct (IH id t X) as (g & A & B). exists g. split; auto. apply in_or_app; auto.
  - destruct e as [d|i|d p|i|u]; cbn [kstep] in *.
    + unfold k_send in X. destruct (k_state s); cbn in X; destruct X as [X|[]]; discriminate X.
    + destruct (nth_error (k_txs s) i); cbn in X; [destruct X as [X|[]]; discriminate X|destruct X].
    + unfold k_receive in *. destruct (k_state s); [|cbn in X; destruct X as [X|[]]; discriminate X|];
      (destruct (sense p && (k_now s + d >? k_end s)); [destruct (k_busy s)|]; cbn [snd] in X |- *; cbn in X; destruct X as [X|X]; try discriminate X; try contradiction; destruct X as [X|[]]; injection X as <- _; eexists; split; [apply in_or_app; right; cbn; left; reflexivity|reflexivity]).
    + destruct (nth_error (k_rxs s) i) as [g|]; [|destruct X]. exfalso. unfold k_receive_done in X. cbn [k_now k_state k_busy k_end k_rx k_list k_txs k_rxs k_next] in X.
      destruct (k_state s); try destruct X. destruct (k_rx s) as [x|]; [destruct (g_id g =? x); [destruct (good _ _)|]|]; destruct (if _ : bool then false else _); cbn in X; repeat (destruct X as [X|X]; try discriminate X); destruct X.
    + destruct X.
Qed.

Definition following (s : kphy) (id : Z) (g : sig) : Prop := In g (k_rxs s) /\ k_state s = KRx /\ k_busy s = true /\ k_rx s = Some id /\ g_end g <= k_end s.
Lemma follow s o : kreach sense good s o -> forall a b id t g, o = a ++ KStart id t :: b -> In g (heard o) -> g_id g = id ->
  (forall u d, In (u, d) (own b) -> g_end g < u) ->
  (forall h, In h (heard o) -> g_id h <> id -> g_end h < g_end g - ns \/ g_end g < g_end h) ->
  following s id g \/ exists ok, In (KDone id ok (g_end g)) o.
Proof.
  induction 1 as [|s o e R IH T]; intros a b id t g E H Gi OW AL; [destruct a; discriminate E|].
  pose proof (inv_reach _ _ _ _ R) as I. pose proof (inv_step sense good s o e I T) as I1. pose proof E as E0.
  apply split_last in E as [[c E]|[c [-> E]]].
  - assert (HO : In g (heard o)).
    { destruct (start_heard s o R id t) as (g' & A & B); [rewrite E; apply in_or_app; right; left; reflexivity|].
      assert (g' = g); [|subst; auto]. apply (i_ids _ _ _ I1); [rewrite heard_app; apply in_or_app; auto|auto|congruence]. }
    assert (EB : b = c ++ snd (kstep sense good s e)).
    { rewrite E, <- app_assoc in E0. cbn [app] in E0. apply app_inv_head in E0. injection E0 as E0. auto. }
    destruct (IH a c id t g E HO Gi) as [F|[ok F]].
    + intros u d X. apply (OW u d). rewrite EB, own_app. apply in_or_app; auto.
    + intros h X. apply AL. rewrite heard_app. apply in_or_app; auto.
    + destruct F as (P & K & B & X & L). destruct (i_pend _ _ _ I g P) as [_ NOW].
      destruct e as [d|i|d p|i|u]; cbn [kstep ktimely] in *.
      * exfalso. unfold k_send in EB. rewrite K in EB. cbn [snd] in EB. specialize (OW (k_now s) d). rewrite EB, own_app in OW.
        assert (Y : g_end g < k_now s) by (apply OW; apply in_or_app; right; left; reflexivity). lia.
      * exfalso. rewrite (i_notx _ _ _ I) in T by congruence. destruct i; discriminate T.
      * left. unfold k_receive. rewrite K, B. destruct (sense p && (k_now s + d >? k_end s)) eqn:S; unfold following; cbn [fst k_rxs k_state k_busy k_rx k_end].
        -- apply andb_prop in S as [_ S]. repeat split; auto; [apply in_or_app; auto|lia].
        -- repeat split; auto. apply in_or_app; auto.
      * destruct (nth_error (k_rxs s) i) as [g'|] eqn:N; [|discriminate T]. apply Z.eqb_eq in T. pose proof (nth_in _ _ _ N) as IN. destruct (i_pend _ _ _ I g' IN) as [HG' _].
        unfold k_receive_done. cbn [k_now k_state k_busy k_end k_rx k_list k_txs k_rxs k_next]. rewrite K, X. destruct (Z.eqb_spec (g_id g') id) as [Q|Q].
        -- right. assert (g' = g) by (apply (i_ids _ _ _ I); congruence). subst g'. destruct (good _ _); cbn [snd]; eexists; apply in_or_app; right; left; rewrite <- Q, <- T; reflexivity.
        -- left. assert (g' <> g) by congruence. destruct (AL g') as [Y|Y]; [rewrite heard_app; apply in_or_app; auto|auto| |lia].
           destruct (Z.leb_spec (k_end s) (k_now s + ns)); [lia|]. rewrite B. unfold following. cbn [fst k_rxs k_state k_busy k_rx k_end]. repeat split; auto. eapply remove_nth_keep; eauto.
      * left. unfold following. cbn [fst k_rxs k_state k_busy k_rx k_end]. auto.
    + right. exists ok. apply in_or_app; auto.
  - left. destruct e as [d|i|d p|i|u]; cbn [kstep ktimely] in *.
    + exfalso. unfold k_send in E. destruct (k_state s); cbn in E; (destruct c as [|? [|? ?]]; discriminate E).
    + exfalso. destruct (nth_error (k_txs s) i); cbn in E; (destruct c as [|? [|? ?]]; discriminate E).
    + assert (X : In (KStart id t) (snd (k_receive sense d p s))) by (rewrite E; apply in_or_app; right; left; reflexivity). unfold k_receive in *.
      destruct (k_state s) eqn:K; [|exfalso; cbn in X; destruct X as [X|[]]; discriminate X|];
      (destruct (sense p && (k_now s + d >? k_end s)) eqn:S; [destruct (k_busy s) eqn:B|]; cbn [snd] in X; cbn in X; destruct X as [X|X]; try discriminate X; try contradiction;
       destruct X as [X|[]]; injection X as <- _; rewrite heard_app in H; cbn [snd heard flat_map app] in H; apply in_app_or in H; destruct H as [H|[H|[]]];
       [exfalso; destruct (i_heard _ _ _ I g H) as [? _]; rewrite Gi in *; cbn [g_id] in *; lia|]; subst g; unfold following; cbn [fst k_rxs k_state k_busy k_rx k_end g_id];
       repeat split; auto; [apply in_or_app; right; left; reflexivity|unfold g_end; cbn; lia]).
    + exfalso. destruct (nth_error (k_rxs s) i) as [g'|]; [|cbn in E; destruct c; discriminate E].
      assert (X : In (KStart id t) (snd (k_receive_done good g' (KPhy (k_now s) (k_state s) (k_busy s) (k_end s) (k_rx s) (k_list s) (k_txs s) (remove_nth i (k_rxs s)) (k_next s))))) by (rewrite E; apply in_or_app; right; left; reflexivity).
      clear E. unfold k_receive_done in X. cbn [k_now k_state k_busy k_end k_rx k_list k_txs k_rxs k_next] in X.
      destruct (k_state s); try destruct X. destruct (k_rx s) as [x|]; [destruct (g_id g' =? x); [destruct (good _ _)|]|]; destruct (if _ : bool then false else _); cbn in X; repeat (destruct X as [X|X]; try discriminate X); destruct X.
    + exfalso. cbn in E. destruct c; discriminate E.
Qed.
End More.

(** It is, at its end, if the node did not transmit after the start and up to the end of the signal and no other signal ended within the last nanosecond of it. *)
Theorem C59_reported_partial : forall sense good s o, kreach sense good s o -> forall a b t g, o = a ++ KStart (g_id g) t :: b -> In g (heard o) -> ~ In g (k_rxs s) ->
  (forall u d, In (u, d) (own b) -> g_end g < u) ->
  (forall h, In h (heard o) -> g_id h <> g_id g -> g_end h < g_end g - 1000000 \/ g_end g < g_end h) ->
  exists ok, In (KDone (g_id g) ok (g_end g)) o.
Proof.
  intros sense good s o R a b t g E H N OW AL. destruct (follow sense good s o R a b (g_id g) t g E H eq_refl OW AL) as [(P & _)|X]; [contradiction|exact X].
Qed.
Print Assumptions C59_reported_partial.
(** A second signal that ends earlier, a third one that ends later. *)
Example C59_example :
  let l := [KSignal (10 * us) 500; KTick us; KSignal (5 * us) 1; KSignal (20 * us) 2; KTick (6 * us); KSignalEnd 1; KTick (10 * us); KSignalEnd 0] in
  ktimely_run all_sensed stronger kphy0 l = true /\ In (KStart 0 0) (seen l) /\ ~ In (Sig 0 0 (10 * us) 500) (k_rxs (final l)) /\ In (KDone 0 true (10 * us)) (seen l).
Proof.
  split; [vm_compute; reflexivity|]. split; [vm_compute; auto|]. split; [intros X; vm_compute in X; destruct X as [X|[]]; discriminate X|vm_compute; auto 10].
Qed.
