(** Properties C28-C33 and C46-C47: the nano PHY. *)
From Coq Require Import ZArith List Lia Bool Sorting.Sorted Permutation Reals Lra.
From Verif Require Import Base EnergyModel NanoModel PhyModel PhySpec PhyProofs.
Import ListNotations.
Open Scope Z_scope.

(** ** C28: SortArray sorts *)
Theorem C28_sort_array : forall l, Permutation l (sort_array l) /\ StronglySorted Z.le (sort_array l).
Proof. intros l. split; [apply sort_array_perm|apply sort_array_sorted]. Qed.
Print Assumptions C28_sort_array.

Example C28_example : sort_array [5; 3; 9; 3; 1] = [1; 3; 3; 5; 9].
Proof. reflexivity. Qed.

(** ** C29: the slot search stays inside its array *)

(** Full statement: no event of any timely run reads out of bounds. *)
Definition C29_full := forall low c l, pconf_ok c -> ptimely_run low c phy0 l = true ->
  ~ In PUB (snd (prun low c phy0 l)).

(** Default attributes, 72 seconds into the simulation: 67 receptions that start 150 fs after
    each other, and then a transmission. *)
Definition pc0 : pconf := PConf 100 10000.
Definition never_low (a b : Z) : bool := false.
Definition oob_run : list pev :=
  flat_map (fun i => [PTick (2 ^ 56 + 8 - 10050 + 150 * Z.of_nat i); PRx (Z.of_nat i) 1360000 1 0]) (seq 0 67)
  ++ [PTick (2 ^ 56 + 8); PSend 1360000].

Theorem C29_slot_search_refuted : ~ C29_full.
Proof.
  intros F. apply (F never_low pc0 oob_run).
  - unfold pconf_ok, pc0. cbn. lia.
  - vm_compute. reflexivity.
  - assert (X : existsb (fun o => match o with PUB => true | _ => false end) (snd (prun never_low pc0 phy0 oob_run)) = true)
      by (vm_compute; reflexivity).
    apply existsb_exists in X. destruct X as [o [I O]]. destruct o; try discriminate O. exact I.
Qed.
Print Assumptions C29_slot_search_refuted.

(** It holds while all times fit into the 53 bits of a double (half of it: 4.5 seconds). *)
Theorem C29_slot_search_partial : forall c s dur, pconf_ok c -> early c s ->
  ~ In PUB (snd (send c dur s)).
Proof.
  intros c s dur C E. pose proof (place_in_bounds c s C E) as H. unfold send.
  destruct (place _ _ _ _); cbn; [intros [X|[]]; discriminate|intros [X|[]]; discriminate|congruence].
Qed.
Print Assumptions C29_slot_search_partial.

(** A state with two ongoing receptions and one transmission scheduled in the future. *)
Definition busy_phy : phy := Phy 5000 [OTx 5600 1000000] [ORx 1000 1360000 1 false 1 0; ORx 4250 1360000 2 false 1 0] [OTx 5600 1000000].
Example C29_example : pconf_ok pc0 /\ early pc0 busy_phy /\ snd (send pc0 7 busy_phy) = [PTx 5100 7].
Proof.
  split; [unfold pconf_ok; cbn; lia|]. split; [|vm_compute; reflexivity].
  unfold early, busy_phy, ongoing. change (2 ^ 52) with 4503599627370496. cbn [y_now y_txs y_rxs map o_start r_start app In p_ts pc0].
  split; [lia|]. split; [lia|]. intros st H. lia.
Qed.

(** ** C30: the chosen slot does not overlap ongoing trains *)
Definition C30_full := forall low c l dur st x,
  pconf_ok c -> ptimely_run low c phy0 l = true -> early c (fst (prun low c phy0 l)) ->
  In (PTx x dur) (snd (send c dur (fst (prun low c phy0 l)))) ->
  In st (ongoing (fst (prun low c phy0 l))) -> ~ trains_overlap (p_pulse c) (p_ts c) x st.

(** Beta = 4. The first train is in the middle of a pulse when the transmission is placed: the
    pulse one symbol later is not taken into account. *)
Definition overlap_run : list pev := [PTick 1000; PRx 1 100000 1 0; PTick 1240; PRx 2 100000 1 0; PTick 1450].
Theorem C30_no_overlap_refuted : ~ C30_full.
Proof.
  intros F. apply (F never_low (PConf 100 400) overlap_run 100000 1000 1740).
  - unfold pconf_ok. cbn. lia.
  - vm_compute. reflexivity.
  - replace (fst (prun never_low (PConf 100 400) phy0 overlap_run)) with
      (Phy 1450 [] [ORx 1000 100000 1 false 1 0; ORx 1240 100000 2 false 1 0] []) by (vm_compute; reflexivity).
    unfold early, ongoing. change (2 ^ 52) with 4503599627370496. cbn. repeat split; try lia.
  - vm_compute. left. reflexivity.
  - vm_compute. left. reflexivity.
  - exists 0, 2, 1800. cbn. lia.
Qed.
Print Assumptions C30_no_overlap_refuted.

(** What holds: the transmission begins inside the next symbol, a pulse away from its borders,
    and the only trains it can overlap are those that are inside a pulse at this moment. *)
Theorem C30_no_overlap_partial : forall c s dur x, pconf_ok c -> early c s ->
  In (PTx x dur) (snd (send c dur s)) -> ongoing s <> [] ->
  y_now s + p_pulse c <= x <= y_now s + p_ts c - p_pulse c /\
  forall st, In st (ongoing s) -> trains_overlap (p_pulse c) (p_ts c) x st ->
    0 < (y_now s - st) mod p_ts c < p_pulse c.
Proof.
  intros c s dur x C E H NE. unfold send in H. destruct (place _ _ _ _) as [z| |] eqn:P; cbn in H;
    try (destruct H as [H|[]]; discriminate).
  destruct H as [[= ->]|[]]. split; [eapply place_window; eauto|].
  intros st I O. eapply place_disjoint; eauto.
Qed.
Print Assumptions C30_no_overlap_partial.

(** ... in particular nothing is overlapped if every ongoing train is between two pulses. *)
Theorem C30_no_overlap_between_pulses_partial : forall c s dur x, pconf_ok c -> early c s ->
  In (PTx x dur) (snd (send c dur s)) ->
  (forall st, In st (ongoing s) -> (y_now s - st) mod p_ts c = 0 \/ p_pulse c <= (y_now s - st) mod p_ts c) ->
  forall st, In st (ongoing s) -> ~ trains_overlap (p_pulse c) (p_ts c) x st.
Proof.
  intros c s dur x C E H Q st I O.
  assert (NE : ongoing s <> []) by (intros X; rewrite X in I; destruct I).
  destruct (C30_no_overlap_partial c s dur x C E H NE) as [_ K]. specialize (K st I O). specialize (Q st I). lia.
Qed.
Print Assumptions C30_no_overlap_between_pulses_partial.

Example C30_example : (forall st, In st (ongoing busy_phy) ->
    (y_now busy_phy - st) mod p_ts pc0 = 0 \/ p_pulse pc0 <= (y_now busy_phy - st) mod p_ts pc0) /\
  ongoing busy_phy <> [] /\ In (PTx 5100 7) (snd (send pc0 7 busy_phy)).
Proof.
  split; [|split; [discriminate|vm_compute; auto]].
  cbn [ongoing busy_phy y_txs y_rxs map o_start r_start app In y_now]. intros st [<-|[<-|[<-|[]]]]; vm_compute; auto;
    right; discriminate.
Qed.

(** ** C31: refused only when nothing is free *)
Definition C31_full := forall low c l dur,
  pconf_ok c -> ptimely_run low c phy0 l = true -> early c (fst (prun low c phy0 l)) ->
  let s := fst (prun low c phy0 l) in
  In PRefused (snd (send c dur s)) ->
  forall x, y_now s <= x <= y_now s + p_ts c ->
  exists st, In st (ongoing s) /\ trains_overlap (p_pulse c) (p_ts c) x st.

(** Beta = 2, one reception, now is exactly the end of one of its pulses: the second half of the
    symbol is free. *)
Definition refuse_run : list pev := [PTick 1000; PRx 1 100000 1 0; PTick 1100].
Theorem C31_refusal_refuted : ~ C31_full.
Proof.
  intros F. specialize (F never_low (PConf 100 200) refuse_run 100000).
  replace (fst (prun never_low (PConf 100 200) phy0 refuse_run)) with
    (Phy 1100 [] [ORx 1000 100000 1 false 1 0] []) in F by (vm_compute; reflexivity).
  assert (E : early (PConf 100 200) (Phy 1100 [] [ORx 1000 100000 1 false 1 0] [])).
  { unfold early, ongoing. change (2 ^ 52) with 4503599627370496. cbn. repeat split; try lia. }
  assert (C : pconf_ok (PConf 100 200)) by (unfold pconf_ok; cbn; lia).
  specialize (F C ltac:(vm_compute; reflexivity) E ltac:(vm_compute; auto) 1100 ltac:(cbn; lia)).
  destruct F as [st [[<-|[]] [m [k [t [A B]]]]]]. cbn [p_pulse p_ts o_start r_start pc0 map y_rxs y_now] in A, B. lia.
Qed.
Print Assumptions C31_refusal_refuted.

(** What holds: every start at least a pulse away from the borders of the next symbol would
    overlap an ongoing train. *)
Theorem C31_refusal_partial : forall c s dur, pconf_ok c -> early c s ->
  In PRefused (snd (send c dur s)) ->
  forall x, y_now s + p_pulse c <= x <= y_now s + p_ts c - p_pulse c ->
  exists st, In st (ongoing s) /\ trains_overlap (p_pulse c) (p_ts c) x st.
Proof.
  intros c s dur C E H x W. unfold send in H. destruct (place _ _ _ _) as [z| |] eqn:P; cbn in H;
    try (destruct H as [H|[]]; discriminate).
  apply (no_slot c s C E x); auto. intros X. unfold ongoing in X. apply app_eq_nil in X. destruct X as [X Y].
  apply map_eq_nil in X. apply map_eq_nil in Y. rewrite X, Y in P. discriminate.
Qed.
Print Assumptions C31_refusal_partial.

Definition full_phy : phy := Phy 2100 [] [ORx 1000 100000 1 false 1 0; ORx 1190 100000 2 false 1 0] [].
Example C31_example : pconf_ok (PConf 100 400) /\ early (PConf 100 400) full_phy /\
  In PRefused (snd (send (PConf 100 400) 5 full_phy)) /\ trains_overlap 100 400 2250 1000.
Proof.
  split; [unfold pconf_ok; cbn; lia|]. split; [|split; [vm_compute; auto|exists 0, 3, 2260; lia]].
  unfold early, ongoing. change (2 ^ 52) with 4503599627370496. cbn. repeat split; try lia.
Qed.

(** ** C32: half-duplex drops *)
Definition C32_full := forall low c l id dur pow junk,
  pconf_ok c -> ptimely_run low c phy0 l = true -> early c (fst (prun low c phy0 l)) ->
  let s := fst (prun low c phy0 l) in
  In (PDropped id) (snd (rx_start low c id dur pow junk s)) <->
  exists t, In t (y_txs s) /\ trains_overlap (p_pulse c) (p_ts c) (y_now s) (o_start t).

(** Default attributes: a transmission is placed 200 fs in the future (start 11100); a packet
    that arrives now (10900) is dropped although the pulses are 100 fs apart. *)
Definition drop_run : list pev := [PTick 1000; PRx 1 1000000 1 0; PTick 10900; PSend 1000000].
Theorem C32_half_duplex_refuted : ~ C32_full.
Proof.
  intros F. specialize (F never_low pc0 drop_run 2 1000000 1 0).
  replace (fst (prun never_low pc0 phy0 drop_run)) with
    (Phy 10900 [OTx 11100 1000000] [ORx 1000 1000000 1 false 1 0] [OTx 11100 1000000]) in F by (vm_compute; reflexivity).
  assert (E : early pc0 (Phy 10900 [OTx 11100 1000000] [ORx 1000 1000000 1 false 1 0] [OTx 11100 1000000])).
  { unfold early, ongoing. change (2 ^ 52) with 4503599627370496. cbn. repeat split; try lia. }
  assert (C : pconf_ok pc0) by (unfold pconf_ok; cbn; lia).
  specialize (F C ltac:(vm_compute; reflexivity) E). cbv zeta in F. destruct F as [F _].
  specialize (F ltac:(vm_compute; auto)). destruct F as [t [[<-|[]] [m [k [u [A B]]]]]]. cbn [p_pulse p_ts o_start r_start pc0 map y_rxs y_now] in A, B. lia.
Qed.
Print Assumptions C32_half_duplex_refuted.

(** What holds: every overlapping reception is dropped, and a reception that is dropped
    overlaps, or touches a pulse without overlapping, or the transmission begins more than a
    pulse in the future. *)
Theorem C32_half_duplex_partial : forall low c s id dur pow junk, pconf_ok c -> early c s ->
  (forall t, In t (y_txs s) -> trains_overlap (p_pulse c) (p_ts c) (y_now s) (o_start t) ->
     snd (rx_start low c id dur pow junk s) = [PDropped id]) /\
  (In (PDropped id) (snd (rx_start low c id dur pow junk s)) ->
     exists t, In t (y_txs s) /\
       (trains_overlap (p_pulse c) (p_ts c) (y_now s) (o_start t) \/
        (y_now s - o_start t + p_pulse c) mod p_ts c = 0 \/ y_now s + p_pulse c < o_start t)).
Proof.
  intros low c s id dur pow junk C E.
  assert (B : forall t, In t (y_txs s) -> Z.abs (o_start t) <= 2 ^ 52).
  { intros t I. destruct E as [_ [_ E]]. apply E. unfold ongoing. apply in_app_iff. left. apply in_map. exact I. }
  split.
  - intros t I O. unfold rx_start.
    replace (existsb (fun t => close_to c (y_now s) (o_start t)) (y_txs s)) with true; auto.
    symmetry. apply existsb_exists. exists t. split; auto. apply close_overlap; auto.
  - unfold rx_start. destruct (existsb _ _) eqn:X; cbn; [|intros [H|[]]; discriminate]. intros _.
    apply existsb_exists in X. destruct X as [t [I T]]. exists t. split; auto. apply close_reasons; auto.
Qed.
Print Assumptions C32_half_duplex_partial.

Example C32_example : trains_overlap 100 10000 5000 25050 /\
  snd (rx_start never_low pc0 3 1 1 0 (Phy 5000 [OTx 4950 9] [] [OTx 4950 9])) = [PDropped 3] /\
  snd (rx_start never_low pc0 3 1 1 0 (Phy 5000 [OTx 4850 9] [] [OTx 4850 9])) = [PAccepted 3].
Proof.
  split; [exists 2, 0, 25060; lia|]. split; vm_compute; reflexivity.
Qed.

(** ** C33: every accepted reception is reported exactly once *)

(** Over whole runs in which every reception has its own packet: a reception is accepted at most
    once and never both accepted and dropped; it is reported at most as often as it was accepted,
    and it is still in the list otherwise. *)
Theorem C33_reported_once : forall low c l id, NoDup (started l) ->
  let s := fst (prun low c phy0 l) in let tr := snd (prun low c phy0 l) in
  (accepted_rx id tr <= 1)%nat /\
  (reports id tr + length (filter (fun r => (r_id r =? id)%Z) (y_rxs s)) = accepted_rx id tr)%nat /\
  (In (PDropped id) tr -> reports id tr = 0%nat).
Proof.
  intros low c l id ND s tr. destruct (accepted_run low c id l phy0) as [A B].
  pose proof (held_run low c id l phy0) as H. unfold held in H. change (y_rxs phy0) with (@nil orx) in H. cbn [filter length] in H.
  pose proof (proj1 (NoDup_count_occ Z.eq_dec _) ND id) as N.
  fold tr in A, B, H. fold s in H. split; [lia|]. split; [lia|]. intros D. specialize (B D). lia.
Qed.
Print Assumptions C33_reported_once.

(** The end of a reception reports it, as failed exactly when it is marked as collided, and
    forgets it. *)
Theorem C33_report : forall low c s id,
  (forall ok, In (PReport id ok) (snd (pstep low c s (PRxEnd id))) ->
     exists r, In r (y_rxs s) /\ r_id r = id /\ ok = negb (r_coll r)) /\
  (forall r, In r (y_rxs s) -> r_id r = id -> (forall r', In r' (y_rxs s) -> r_id r' = id -> r' = r) ->
     snd (pstep low c s (PRxEnd id)) = [PReport id (negb (r_coll r))] /\
     Permutation (y_rxs s) (r :: y_rxs (fst (pstep low c s (PRxEnd id))))).
Proof.
  intros low c s id. cbn [pstep]. unfold rx_end. split.
  - intros ok. destruct (find _ (y_rxs s)) as [r|] eqn:F; cbn; [|intros []].
    intros [[= <-]|[]]. apply find_some in F. destruct F as [I F]. apply Z.eqb_eq in F. eauto.
  - intros r I R U. destruct (find (fun r => r_id r =? id) (y_rxs s)) as [r'|] eqn:F.
    + pose proof (erase_perm _ _ _ F) as P. apply find_some in F. destruct F as [I' F]. apply Z.eqb_eq in F.
      rewrite (U r' I' F) in *. cbn. auto.
    + exfalso. apply (find_none _ _ F) in I. rewrite R, Z.eqb_refl in I. discriminate.
Qed.
Print Assumptions C33_report.

(** Transmissions: the list holds exactly the transmissions whose removal is pending; these are
    all transmissions that end after now. *)
Theorem C33_transmissions : forall low c l, ptimely_run low c phy0 l = true ->
  let s := fst (prun low c phy0 l) in let tr := snd (prun low c phy0 l) in
  let live := filter (fun t => y_now s <? o_start t + o_dur t) in
  Permutation (y_txs s) (y_dels s) /\ Permutation (live (y_txs s)) (live (transmitted tr)) /\
  (forall t, In t (y_txs s) -> In t (transmitted tr)).
Proof.
  intros low c l T s tr live. destruct (tx_exact low c l T) as [P [dead [D1 D2]]]. fold s in P, D1, D2. fold tr in D1.
  split; auto. split.
  - assert (L : live (transmitted tr) = live (transmitted tr)) by auto.
    assert (Q : Permutation (live (transmitted tr)) (live (y_txs s ++ dead))).
    { unfold live. clear - D1. induction D1; cbn; auto.
      - destruct (_ <? _); auto.
      - destruct (_ <? _), (_ <? _); auto. apply perm_swap.
      - eapply Permutation_trans; eauto. }
    rewrite Q. unfold live. rewrite filter_app. replace (filter _ dead) with (@nil otx).
    + rewrite app_nil_r. reflexivity.
    + symmetry. clear - D2. induction dead as [|d dead IH]; auto. cbn [filter].
      pose proof (D2 d (or_introl eq_refl)). destruct (Z.ltb_spec (y_now s) (o_start d + o_dur d)); [lia|].
      apply IH. intros x X. apply D2. right. auto.
  - intros t I. eapply Permutation_in; [symmetry; exact D1|]. apply in_app_iff. auto.
Qed.
Print Assumptions C33_transmissions.

Definition ratio10 (pow intf : Z) : bool := pow <? 10 * (1 + intf).
Definition sample : list pev :=
  [PTick 1000; PRx 1 1000 50 0; PTick 1200; PSend 300; PRx 2 500 1 0; PTick 1400; PRx 3 600 20 0;
   PTick 1520; PRx 4 1000 90 0; PTick 1550; PDelete 0; PTick 2000; PRxEnd 3; PRxEnd 1; PSend 70].
Example C33_example : NoDup (started sample) /\ ptimely_run ratio10 (PConf 50 500) phy0 sample = true /\
  snd (prun ratio10 (PConf 50 500) phy0 sample) =
    [PAccepted 1; PTx 1250 300; PDropped 2; PAccepted 3; PAccepted 4; PReport 3 true; PReport 1 false; PTx 2070 70].
Proof.
  split; [|split; vm_compute; reflexivity].
  cbn. repeat (constructor; [intros H; cbn in H; lia|]). constructor.
Qed.

(** ** C46: whether a reception collides is decided by the signals on the air *)

(** Full statement: the outcome does not depend on the indeterminate initial value of the
    interference field. *)
Definition C46_full := forall low c l l',
  Forall2 (fun e e' => match e, e' with
    | PRx id dur pow _, PRx id' dur' pow' _ => id = id' /\ dur = dur' /\ pow = pow'
    | _, _ => e = e' end) l l' ->
  snd (prun low c phy0 l) = snd (prun low c phy0 l').

(** A single packet, 20 times the noise, nothing else on the air: it is reported as received
    correctly or as collided depending on the garbage in memory. *)
Theorem C46_collision_refuted : ~ C46_full.
Proof.
  intros F. specialize (F ratio10 pc0 [PRx 1 1000 20 0; PRxEnd 1] [PRx 1 1000 20 5; PRxEnd 1]).
  assert (H : Forall2 (fun e e' => match e, e' with
    | PRx id dur pow _, PRx id' dur' pow' _ => id = id' /\ dur = dur' /\ pow = pow'
    | _, _ => e = e' end) [PRx 1 1000 20 0; PRxEnd 1] [PRx 1 1000 20 5; PRxEnd 1])
    by (repeat constructor).
  specialize (F H). vm_compute in F. discriminate.
Qed.
Print Assumptions C46_collision_refuted.

(** What holds when the field happens to be zero: when a reception is accepted, each reception
    in the list (old ones and the new one) that is close to now is marked as collided if the
    ratio of its power to the powers of all *other* close receptions is low; marks are never
    removed; receptions that are not close are untouched. *)
Definition others (c : pconf) (s : phy) (id : Z) : Z :=
  fold_right Z.add 0 (map r_pow (filter (fun r => negb (r_id r =? id) && close_to c (y_now s) (r_start r)) (y_rxs s))).
Theorem C46_collision_partial : forall low c s id dur pow, pconf_ok c ->
  y_now s < 2 ^ 52 -> 0 <= y_now s -> p_ts c < 2 ^ 52 ->
  (forall r, In r (y_rxs s) -> r_id r <> id) ->
  In (PAccepted id) (snd (rx_start low c id dur pow 0 s)) ->
  let s' := fst (rx_start low c id dur pow 0 s) in
  Forall2 (fun old new => r_id new = r_id old /\ r_start new = r_start old /\ r_pow new = r_pow old /\
      r_coll new = r_coll old || (close_to c (y_now s) (r_start old) && low (r_pow old) (others c s' (r_id old))))
    (y_rxs s ++ [ORx (y_now s) dur id false pow 0]) (y_rxs s').
Proof.
  intros low c s id dur pow C N1 N0 TS U A s'. unfold rx_start in A. subst s'. unfold rx_start.
  destruct (existsb _ _); [cbn in A; destruct A as [A|[]]; discriminate|]. clear A.
  cbn [fst y_rxs]. set (s' := Phy (y_now s) _ _ _).
  assert (SELF : close_to c (y_now s) (y_now s) = true).
  { destruct C as [C1 C2]. assert (B : 2 ^ 53 = 2 * 2 ^ 52) by reflexivity. unfold close_to.
    rewrite (rnd_id (y_now s)), (rnd_id (y_now s - p_pulse c)), (rnd_id (p_ts c)) by lia.
    replace (y_now s - (y_now s - p_pulse c)) with (p_pulse c) by lia. rewrite (rnd_id (p_pulse c)) by lia.
    apply Z.ltb_lt. rewrite Z.rem_small by lia. lia. }
  assert (MAP : forall (f : orx -> bool) l, (forall r, f (hit low c (y_now s) pow (y_rxs s) r) = f r) ->
    map r_pow (filter f (map (hit low c (y_now s) pow (y_rxs s)) l)) = map r_pow (filter f l)).
  { intros f l F. induction l as [|r l IH]; auto. cbn [map filter]. rewrite F.
    destruct (f r); cbn [map]; rewrite IH; auto.
    replace (r_pow (hit low c (y_now s) pow (y_rxs s) r)) with (r_pow r); auto. unfold hit. destruct (close_to c (y_now s) (r_start r)); auto. }
  assert (HF : forall i r, let f := fun r => negb (r_id r =? i) && close_to c (y_now s) (r_start r) in
    f (hit low c (y_now s) pow (y_rxs s) r) = f r).
  { intros i r. cbv zeta. unfold hit. destruct (close_to c (y_now s) (r_start r)) eqn:K; cbn [r_id r_start]; rewrite K; auto. }
  assert (SUM : forall a b, fold_right Z.add 0 (a ++ b) = fold_right Z.add 0 a + fold_right Z.add 0 b)
    by (clear; intros a b; induction a as [|x a IH]; cbn; lia).
  apply Forall2_app.
  - assert (G : forall l, (forall r, In r l -> In r (y_rxs s)) ->
      Forall2 (fun old new => r_id new = r_id old /\ r_start new = r_start old /\ r_pow new = r_pow old /\
        r_coll new = r_coll old || (close_to c (y_now s) (r_start old) && low (r_pow old) (others c s' (r_id old))))
        l (map (hit low c (y_now s) pow (y_rxs s)) l)).
    { induction l as [|r l IH]; intros L; constructor; [|apply IH; intros; apply L; right; auto].
      unfold hit. destruct (close_to c (y_now s) (r_start r)) eqn:K; cbn [r_id r_start r_pow r_coll].
      - repeat split; auto. f_equal. rewrite andb_true_l. f_equal.
        unfold others. subst s'. cbn [y_now y_rxs]. rewrite filter_app, map_app, SUM, MAP by (apply HF).
        rewrite close_power_sum. cbn [filter r_id r_start].
        rewrite SELF, (proj2 (Z.eqb_neq id (r_id r))) by (intros X; apply (U r); [apply L; left|]; auto).
        cbn [negb andb map r_pow fold_right]. lia.
      - rewrite andb_false_l, orb_false_r. auto. }
    apply G. auto.
  - constructor; [|constructor]. cbn [r_id r_start r_pow r_coll]. rewrite SELF. repeat split; auto.
    cbn [orb andb]. f_equal. rewrite own_intf_sum. unfold others. subst s'. cbn [y_now y_rxs].
    rewrite filter_app, map_app, SUM, MAP by (apply HF). cbn [filter r_id]. rewrite Z.eqb_refl.
    cbn [negb andb map fold_right].
    replace (filter (fun r => negb (r_id r =? id) && close_to c (y_now s) (r_start r)) (y_rxs s))
      with (filter (fun r => close_to c (y_now s) (r_start r)) (y_rxs s)); [lia|].
    apply filter_ext_in. intros r I. rewrite (proj2 (Z.eqb_neq (r_id r) id)) by (apply U; auto). reflexivity.
Qed.
Print Assumptions C46_collision_partial.

Definition two_rx : phy := Phy 11000 [] [ORx 1000 90000 1 false 500 0; ORx 6000 90000 2 false 50 0] [].
Example C46_example : In (PAccepted 3) (snd (rx_start ratio10 pc0 3 9 40 0 two_rx)) /\
  map r_coll (y_rxs (fst (rx_start ratio10 pc0 3 9 40 0 two_rx))) = [false; false; true] /\
  others pc0 (fst (rx_start ratio10 pc0 3 9 40 0 two_rx)) 3 = 500 /\
  others pc0 (fst (rx_start ratio10 pc0 3 9 40 0 two_rx)) 1 = 40.
Proof. repeat split; vm_compute; auto. Qed.

(** ** C47: SinrTh is a threshold in dB *)
Open Scope R_scope.

(** 403-405, 419-421: sinr < m_sinrTh with sinr = rxPowerW / noisePlusInterference. *)
Definition collides (sinrTh signal noise : R) : Prop := signal / noise < sinrTh.
Definition dB (x : R) : R := 10 * (ln x / ln 10).

Definition C47_full := forall sinrTh signal noise, 0 < signal -> 0 < noise ->
  (collides sinrTh signal noise <-> dB (signal / noise) < sinrTh).

Lemma ln10_pos : 0 < ln 10.
Proof. rewrite <- ln_1. apply ln_increasing; lra. Qed.

(** SinrTh = 20 (dB): a signal 50 times as strong as the noise (17 dB) is accepted. *)
Theorem C47_sinr_threshold_refuted : ~ C47_full.
Proof.
  intros F. destruct (F 20 50 1 ltac:(lra) ltac:(lra)) as [_ H]. unfold collides, dB in H.
  replace (50 / 1) with 50 in H by lra.
  assert (50 < 20); [|lra]. apply H. pose proof ln10_pos.
  assert (L : ln 50 < 2 * ln 10).
  { replace (2 * ln 10) with (ln 10 + ln 10) by lra. rewrite <- ln_mult by lra. apply ln_increasing; lra. }
  replace 20 with (10 * (2 * ln 10 / ln 10)) by (field; lra).
  apply Rmult_lt_compat_l; [lra|]. unfold Rdiv. apply Rmult_lt_compat_r; auto. apply Rinv_0_lt_compat. auto.
Qed.
Print Assumptions C47_sinr_threshold_refuted.

(** What holds: at the default value 10 the linear ratio and the dB value lead to the same
    decision. *)
Theorem C47_sinr_threshold_partial : forall signal noise, 0 < signal -> 0 < noise ->
  (collides 10 signal noise <-> dB (signal / noise) < 10).
Proof.
  intros x n X N. unfold collides, dB. pose proof ln10_pos. set (r := x / n).
  assert (R : 0 < r) by (apply Rdiv_lt_0_compat; auto). split; intros L.
  - apply (ln_increasing _ _ R) in L.
    apply Rmult_lt_reg_r with (ln 10); auto. replace (10 * (ln r / ln 10) * ln 10) with (10 * ln r) by (field; lra). lra.
  - assert (ln r < ln 10).
    { apply (Rmult_lt_compat_r (ln 10)) in L; auto.
      replace (10 * (ln r / ln 10) * ln 10) with (10 * ln r) in L by (field; lra). lra. }
    apply ln_lt_inv; auto. lra.
Qed.
Print Assumptions C47_sinr_threshold_partial.

Example C47_example : collides 10 9 1 /\ ~ collides 10 11 1.
Proof. unfold collides. split; lra. Qed.
