(** Properties C52 to C58: the macro PHY. [sense] and [good] are arbitrary (see MacroPhyModel). *)
From Coq Require Import ZArith List Lia Bool Sorted QArith.
From Verif Require Import Base EnergyModel MacroPhyModel MacroPhySpec MacroPhyProofs.
Import ListNotations.
Open Scope Z_scope.

(** Concrete predicates for witnesses and examples: everything is sensed, a packet is decoded if it
    is stronger than the interference. *)
Definition all_sensed (p : Z) : bool := true.
Definition stronger (p i : Z) : bool := i <? p.
Definition us : Z := 1000 * ns.
Definition final (l : list kev) : kphy := fst (krun all_sensed stronger kphy0 l).
Definition seen (l : list kev) : list kout := snd (krun all_sensed stronger kphy0 l).
Lemma final_reach l : ktimely_run all_sensed stronger kphy0 l = true -> kreach all_sensed stronger (final l) (seen l).
Proof. intros T. apply (reach_run all_sensed stronger l kphy0 [] (KR0 _ _) T). Qed.

(** ** C52: carrier sense *)
Definition C52_full := forall sense good s o, kreach sense good s o -> forall g, In g (heard o) ->
  sense (g_pow g) = true -> g_start g <= k_now s < g_end g -> is_idle s = false.

(** A signal that begins while the node itself transmits is not sensed afterwards. *)
Definition deaf : list kev := [KSend us; KTick ns; KSignal (10 * us) 5; KTick us; KSendDone 0].
Theorem C52_carrier_sense_refuted : ~ C52_full.
Proof.
  intros F. specialize (F _ _ _ _ (final_reach deaf eq_refl) (Sig 0 ns (10 * us) 5)).
  assert (X : is_idle (final deaf) = false); [|vm_compute in X; discriminate].
  apply F; [vm_compute; auto|reflexivity|vm_compute; split; congruence].
Qed.
Print Assumptions C52_carrier_sense_refuted.

(** All others are, up to the last nanosecond (10^6 fs). *)
Theorem C52_carrier_sense_partial : forall sense good s o, kreach sense good s o -> forall g, In g (heard o) ->
  sense (g_pow g) = true ->
  (forall t d, In (t, d) (own o) -> g_start g < t \/ t + d < g_start g) ->
  k_now s + 1000000 < g_end g -> is_idle s = false.
Proof.
  intros sense good s o R g H S C L. pose proof (inv_reach _ _ _ _ R) as I.
  pose proof (i_sensed _ _ _ I g H S C) as E. unfold is_idle. destruct (k_state s) eqn:K; auto.
  destruct (k_busy s) eqn:B; auto. pose proof (i_quiet _ _ _ I B). unfold ns in *. lia.
Qed.
Print Assumptions C52_carrier_sense_partial.

Example C52_example :
  let l := [KSignal (10 * us) 5; KTick us; KSignal (2 * us) 1; KTick (3 * us); KSignalEnd 1] in
  ktimely_run all_sensed stronger kphy0 l = true /\ is_idle (final l) = false /\
  heard (seen l) = [Sig 0 0 (10 * us) 5; Sig 1 us (2 * us) 1].
Proof. vm_compute. auto. Qed.

(** ** C53: one report per packet *)
Definition C53_full := forall sense good s o, kreach sense good s o -> forall id, (length (verdicts id o) <= 1)%nat.

(** A packet that cannot be decoded is reported twice. *)
Definition weak : list kev := [KSignal us 0; KTick us; KSignalEnd 0].
Theorem C53_once_refuted : ~ C53_full.
Proof.
  intros F. specialize (F _ _ _ _ (final_reach weak eq_refl) 0). vm_compute in F. lia.
Qed.
Print Assumptions C53_once_refuted.

(** Every report concerns a signal that arrived, at the moment of its end; a success is reported
    once and excludes a failure; a failure is reported at most twice. *)
Theorem C53_once_partial : forall sense good s o, kreach sense good s o ->
  (forall id ok t, In (KDone id ok t) o -> exists g, In g (heard o) /\ g_id g = id /\ g_end g = t) /\
  (forall id, In (verdicts id o) [[]; [true]; [false]; [false; false]]).
Proof. intros sense good s o R. pose proof (inv_reach _ _ _ _ R) as I. split; apply I. Qed.
Print Assumptions C53_once_partial.

Example C53_example : ktimely_run all_sensed stronger kphy0 weak = true /\ verdicts 0 (seen weak) = [false; false].
Proof. vm_compute. auto. Qed.

(** ** C54: what is reported as correct was decodable *)
Definition C54_full := forall sense good s o, kreach sense good s o -> forall g, In g (heard o) ->
  In (KDone (g_id g) true (g_end g)) o ->
  good (g_pow g) (power_of (g_id g) (fun h => (g_start h <? g_end g) && (g_start g <? g_end h)) (heard o)) = true.

(** A much stronger signal that ends before the packet does is not counted. *)
Definition drowned : list kev := [KSignal (10 * us) 5; KTick us; KSignal us 100; KTick (2 * us); KSignalEnd 1; KTick (10 * us); KSignalEnd 0].
Theorem C54_decodable_refuted : ~ C54_full.
Proof.
  intros F. specialize (F _ _ _ _ (final_reach drowned eq_refl) (Sig 0 0 (10 * us) 5)).
  assert (X : stronger 5 100 = true); [|discriminate X]. apply F; vm_compute; auto.
Qed.
Print Assumptions C54_decodable_refuted.

(** The packet was decodable with regard to exactly the signals that had arrived and had not
    ended at the end of the packet. *)
Theorem C54_decodable_partial : forall sense good s o, kreach sense good s o -> forall a id t b,
  o = a ++ KDone id true t :: b -> exists g, In g (heard a) /\ g_id g = id /\ g_end g = t /\
    good (g_pow g) (power_of id (fun h => t - g_start h <=? g_dur h) (heard a)) = true.
Proof.
  intros sense good s o R a id t b E. destruct (success_inv _ _ _ _ R a id t b E) as [g [A [B [C [D _]]]]]. eauto.
Qed.
Print Assumptions C54_decodable_partial.

Example C54_example :
  let l := [KSignal (10 * us) 5; KTick us; KSignal (20 * us) 3; KTick (10 * us); KSignalEnd 0] in
  ktimely_run all_sensed stronger kphy0 l = true /\ verdicts 0 (seen l) = [true] /\
  power_of 0 (fun h => 10 * us - g_start h <=? g_dur h) (heard (seen l)) = 3.
Proof. vm_compute. auto. Qed.

(** ** C55: half duplex *)
Definition C55_full := forall sense good s o, kreach sense good s o -> forall g u d, In g (heard o) ->
  In (KDone (g_id g) true (g_end g)) o -> In (u, d) (own o) -> u + d <= g_start g \/ g_end g <= u.

(** A packet during which the node transmitted is reported as received when another signal
    arrives in time. *)
Definition revived : list kev :=
  [KSignal (10 * us) 5; KTick us; KSend us; KTick (2 * us); KSendDone 0; KTick (3 * us); KSignal (10 * us) 1; KTick (10 * us); KSignalEnd 0].
Theorem C55_half_duplex_refuted : ~ C55_full.
Proof.
  intros F. specialize (F _ _ _ _ (final_reach revived eq_refl) (Sig 0 0 (10 * us) 5) us us).
  assert (X : us + us <= 0 \/ 10 * us <= us); [|vm_compute in X; destruct X; congruence].
  apply F; vm_compute; auto 10.
Qed.
Print Assumptions C55_half_duplex_refuted.

(** This is the only way: a packet that overlaps an own transmission and is reported as received
    began before that transmission, and a sensed signal began after it. *)
Theorem C55_half_duplex_partial : forall sense good s o, kreach sense good s o -> forall a id t b,
  o = a ++ KDone id true t :: b -> exists g, In g (heard a) /\ g_id g = id /\ g_end g = t /\
    forall u d, In (u, d) (own a) -> u + d <= g_start g \/
      (g_start g <= u /\ exists h, In h (heard a) /\ sense (g_pow h) = true /\ u + d <= g_start h <= t).
Proof.
  intros sense good s o R a id t b E.
  destruct (success_inv _ _ _ _ R a id t b E) as [g [A [B [C [_ [D [h [H1 [H2 [H3 H4]]]]]]]]]].
  exists g. repeat split; auto. intros u d X. destruct (D u d X) as [Y|Y]; auto. right. split; auto.
  exists h. repeat split; auto.
Qed.
Print Assumptions C55_half_duplex_partial.

Example C55_example :
  let l := [KSignal (10 * us) 5; KTick us; KSend us; KTick (2 * us); KSendDone 0; KTick (10 * us); KSignalEnd 0] in
  ktimely_run all_sensed stronger kphy0 l = true /\ verdicts 0 (seen l) = [] /\ own (seen l) = [(us, us)].
Proof. vm_compute. auto. Qed.

(** ** C56: one transmission at a time *)
Theorem C56_one_transmission : forall sense good s o, kreach sense good s o ->
  StronglySorted (fun x y => fst x + snd x <= fst y) (own o) /\
  (forall dur, 0 < dur ->
    ((exists t d, In (t, d) (own o) /\ t <= k_now s < t + d) -> snd (kstep sense good s (KSend dur)) = [KRefused (k_now s)]) /\
    ((forall t d, In (t, d) (own o) -> t + d < k_now s) -> snd (kstep sense good s (KSend dur)) = [KOwn (k_now s) dur])).
Proof.
  intros sense good s o R. pose proof (inv_reach _ _ _ _ R) as I. split; [apply (own_disjoint _ _ _ _ R)|].
  intros dur D. cbn [kstep]. unfold k_send. split.
  - intros [t [d [X L]]]. destruct (i_own _ _ _ I t d X) as [_ [_ [Y|[Y _]]]]; [lia|]. rewrite Y. reflexivity.
  - intros F. destruct (k_state s) eqn:K; auto. exfalso.
    destruct (i_tx _ _ _ I K) as [t [d [A [B _]]]]. specialize (F t d A). lia.
Qed.
Print Assumptions C56_one_transmission.

Example C56_example :
  seen [KSend us; KTick ns; KSend us; KTick us; KSendDone 0; KSend us] = [KOwn 0 us; KRefused ns; KSent us; KOwn us us].
Proof. reflexivity. Qed.

(** ** C57: back to idle *)
Theorem C57_idle_again : forall sense good s o, kreach sense good s o ->
  k_txs s = [] -> k_rxs s = [] -> is_idle s = true.
Proof.
  intros sense good s o R T X. pose proof (inv_reach _ _ _ _ R) as I.
  assert (B : k_busy s = false).
  { destruct (k_busy s) eqn:B; auto. destruct (i_busy _ _ _ I B) as [g [Y _]]. rewrite X in Y. destruct Y. }
  unfold is_idle. destruct (k_state s) eqn:K.
  - rewrite B. auto.
  - destruct (i_tx _ _ _ I K) as [t [d [_ [_ C]]]]. rewrite T in C. discriminate.
  - pose proof (i_rx _ _ _ I K). congruence.
Qed.
Print Assumptions C57_idle_again.

Example C57_example :
  let l := drowned ++ [KSend us; KTick (10 * us + ns); KSignal us 7; KTick (11 * us); KSendDone 0; KTick (11 * us + ns); KSignalEnd 0] in
  ktimely_run all_sensed stronger kphy0 l = true /\ k_txs (final l) = [] /\ k_rxs (final l) = [] /\ is_idle (final l) = true.
Proof. vm_compute. auto. Qed.

(** ** C58: air times *)
Definition positive (c : kcfg) : Prop :=
  (0 < rt_default (kc_rates c) /\ 0 < rt_basic (kc_rates c) /\ 0 < rt_bpsk (kc_rates c) /\ 0 < rt_qpsk (kc_rates c) /\
   0 < rt_8psk (kc_rates c) /\ 0 < rt_16qam (kc_rates c) /\ 0 < rt_64qam (kc_rates c))%Q.

(** Control packets take preamble, header, trailer and payload at the basic rate. *)
Definition C58_full := forall c size mcs, positive c -> 0 <= size ->
  (send_duration c false size mcs == kc_preamble c + inject_Z (kc_header c + size + kc_trailer c) * 8 / rt_basic (kc_rates c))%Q.
(** They are sent at the data rate. *)
Theorem C58_basic_rate_refuted : ~ C58_full.
Proof.
  intros F. specialize (F (KCfg 0 3 2 (Rates 2 1 1 1 1 1 1)) 3 0). assert (P : positive (KCfg 0 3 2 (Rates 2 1 1 1 1 1 1))) by (repeat split).
  specialize (F P ltac:(lia)). vm_compute in F. discriminate F.
Qed.
Print Assumptions C58_basic_rate_refuted.

(** The default BasicRate does not fit GetBasicRate's return type. *)
Theorem C58_get_basic_rate_refuted : get_basic_rate 148010000000 = None.
Proof. reflexivity. Qed.
Print Assumptions C58_get_basic_rate_refuted.

(** Rate of each modulation and coding scheme, from the table in the documentation of the
    attributes. *)
Definition rate_of (c : kcfg) (mcs : Z) (r : Q) : Prop :=
  (mcs = 10 /\ r = rt_bpsk (kc_rates c)) \/ (mcs = 11 /\ r = rt_qpsk (kc_rates c)) \/ (mcs = 12 /\ r = rt_8psk (kc_rates c)) \/
  (mcs = 13 /\ r = rt_16qam (kc_rates c)) \/ (mcs = 14 /\ r = rt_64qam (kc_rates c)) \/
  (~ 10 <= mcs <= 14 /\ r = rt_default (kc_rates c)).

Theorem C58_air_time_partial : forall c, positive c ->
  (forall size mcs r, 0 <= mcs < 256 -> rate_of c mcs r ->
     (send_duration c true size mcs == kc_preamble c + inject_Z (kc_header c + kc_trailer c + size) * 8 / r)%Q) /\
  (forall size mcs, (rt_basic (kc_rates c) == rt_default (kc_rates c))%Q ->
     (send_duration c false size mcs == kc_preamble c + inject_Z (kc_header c + size + kc_trailer c) * 8 / rt_basic (kc_rates c))%Q) /\
  (forall rate size size' mcs, size < size' -> (send_duration c rate size mcs < send_duration c rate size' mcs)%Q).
Proof.
  intros c P. unfold positive in P.
  assert (PR : forall m, (0 < data_rate (kc_rates c) m)%Q).
  { intros m. unfold data_rate. repeat (destruct (_ =? _)); tauto. }
  assert (NZ : forall q : Q, (0 < q -> ~ q == 0)%Q) by (intros q H E; rewrite E in H; discriminate H).
  split; [|split].
  - intros size mcs r M RO. unfold send_duration, cal_tx_duration. cbv zeta. rewrite wrap8_id by (unfold u8; lia).
    assert (E : r = data_rate (kc_rates c) mcs).
    { unfold data_rate, rate_of in *. destruct RO as [[-> ->]|[[-> ->]|[[-> ->]|[[-> ->]|[[-> ->]|[N ->]]]]]]; auto.
      destruct (Z.eqb_spec mcs 10); [lia|]. destruct (Z.eqb_spec mcs 11); [lia|]. destruct (Z.eqb_spec mcs 12); [lia|].
      destruct (Z.eqb_spec mcs 13); [lia|]. destruct (Z.eqb_spec mcs 14); [lia|]. auto. }
    subst r. rewrite !inject_Z_plus. field. apply NZ, PR.
  - intros size mcs E. unfold send_duration, cal_tx_duration. cbv zeta.
    change (data_rate (kc_rates c) (wrap8 0)) with (rt_default (kc_rates c)). rewrite E. change (inject_Z 0) with 0%Q.
    field. apply NZ. tauto.
  - intros rate size size' mcs L.
    assert (I : (inject_Z size < inject_Z size')%Q) by (rewrite <- Zlt_Qlt; auto).
    unfold send_duration. destruct rate; unfold cal_tx_duration; cbv zeta.
    + apply Qplus_lt_r. unfold Qdiv. apply Qmult_lt_compat_r; [apply Qinv_lt_0_compat, PR|].
      apply Qmult_lt_compat_r; [reflexivity|auto].
    + rewrite Qplus_lt_l. apply Qplus_lt_r. unfold Qdiv. apply Qmult_lt_compat_r; [apply Qinv_lt_0_compat, PR|].
      apply Qmult_lt_compat_r; [reflexivity|]. rewrite !inject_Z_plus. rewrite Qplus_lt_l. apply Qplus_lt_r. auto.
Qed.
Print Assumptions C58_air_time_partial.

Example C58_example : let c := KCfg 0 3 2 (Rates 148010000000 148010000000 52480000000 105280000000 157440000000 210240000000 315520000000) in
  positive c /\ rate_of c 13 210240000000 /\ (send_duration c true 14995 13 == 120000 # 210240000000)%Q.
Proof. cbv zeta. split; [repeat split|]. split; [unfold rate_of; cbn; tauto|reflexivity]. Qed.
