(** The slots that the access point grants. *)
From Coq Require Import ZArith List Lia Bool.
From Verif Require Import Base HeaderModel SeqModel EnergyModel MacModel ApModel ApSpec ApProofs ApInv ApLive.
Import ListNotations.
Open Scope Z_scope.

(** Total of the waiting times announced before the j-th grant. *)
Definition flag_of (c : acfg) (x : kframe * Z) : Z := if ac_adapt c then select_mcs c (snd x) else 0.
Fixpoint wait_sum (c : acfg) (l : list (kframe * Z)) : Z :=
  match l with [] => 0 | x :: r => ac_data c (ac_size c) (flag_of c x) + ac_maxbo c + wait_sum c r end.
Lemma wait_sum_app c a b : wait_sum c (a ++ b) = wait_sum c a + wait_sum c b.
Proof. induction a as [|x a IH]; cbn [app wait_sum]; lia. Qed.

Lemma gtimers_in c now l : forall i w u t, In t (gtimers c now i w u l) ->
  exists a x b, l = a ++ x :: b /\ t = Ptimer (u + Z.of_nat (length a)) (now + (ac_ctrl c T_CTS + psec) * (i + Z.of_nat (length a)))
     (PKCts (kf_src (fst x)) (kf_seq (fst x)) (w + wait_sum c a) (flag_of c x)).
Proof.
  induction l as [|[f pw] r IH]; intros i w u t X; [destruct X|]. cbn [gtimers] in X. destruct X as [<-|X].
  - exists [], (f, pw), r. split; auto. cbn [length wait_sum]. unfold flag_of. cbn [fst snd]. change (Z.of_nat 0) with 0. rewrite !Z.add_0_r. reflexivity.
  - destruct (IH _ _ _ _ X) as (a & x & b & -> & ->). exists ((f, pw) :: a), x, b. split; auto. cbn [length wait_sum]. rewrite Nat2Z.inj_succ. unfold flag_of at 2. cbn [snd]. f_equal; [lia|f_equal; f_equal; lia|f_equal; lia].
Qed.

Lemma pturn_new c s : exists l, p_timers (pturn c s) = p_timers s ++ l /\
  (forall x, In x l -> pt_kind x = PKWait \/ pt_kind x = PKSec \/ pt_kind x = PKData).
Proof.
  unfold pturn. destruct (norm_angle (p_angle s + ac_bw c)) as [a k]. cbv zeta. destruct (ac_ways c =? 3).
  - eexists. split; [reflexivity|]. intros x [<-|[]]; auto.
  - exists ([Ptimer (p_uid s) (p_now s + t_sector c) PKSec] ++ [Ptimer (p_uid s + 1) (p_now s + t_data_timeout c) PKData]). split.
    + destruct s; cbn. rewrite <- app_assoc. reflexivity.
    + intros x [<-|[<-|[]]]; auto.
Qed.
(** What a step that schedules a CTS does. *)
Lemma grants c s ev t : inv0 s -> tids s -> pvalid s ev = true -> scheduled c s ev t -> is_cts t ->
  let n := Z.of_nat (length (p_rts s)) in
  In t (gtimers c (p_now s) 0 (n * ac_ctrl c T_CTS) (p_uid s) (p_rts s)) /\
  (forall u, scheduled c s ev u -> is_cts u -> In u (gtimers c (p_now s) 0 (n * ac_ctrl c T_CTS) (p_uid s) (p_rts s))) /\
  (forall u, scheduled c s ev u -> pt_kind u = PKSec -> pt_due u = p_now s + sector_time c n).
Proof.
  intros I T V [S1 S2] K. pose proof T as (T2 & _).
  assert (OLD : forall i0, In t (remove_nth i0 (p_timers s)) -> False).
  { intros i0 X. apply in_remove in X. specialize (T2 t X). lia. }
  assert (OLD' : In t (p_timers s) -> False) by (intros X; specialize (T2 t X); lia).
  unfold scheduled. revert S1. destruct (step_case c s ev I V); intros S1; try (exfalso; exact (OLD' S1)); try (exfalso; exact (OLD _ S1)).
  - exfalso. apply in_app_or in S1. destruct S1 as [S1|[<-|[]]]; [exact (OLD' S1)|exact K].
  - exfalso. apply in_app_or in S1. destruct S1 as [S1|[<-|[]]]; [exact (OLD' S1)|exact K].
  - exfalso. destruct (p_dto s); [|exact (OLD' S1)]. apply filter_In in S1. apply OLD'. apply S1.
  - exfalso. destruct (p_sec s); [|exact (OLD' S1)]. apply filter_In in S1. apply OLD'. apply S1.
  - exfalso. destruct (trysend_proj (pcta c s0) (pturn c s0)) as (_ & _ & _ & _ & _ & _ & _ & _ & _ & _ & _ & _ & _ & E). rewrite E in S1.
    assert (TT : In t (p_timers s0) -> False).
    { intros X. destruct H0; try (exact (OLD _ X)). change (p_sec (pset_timers ?x s)) with (p_sec s) in X. destruct (p_sec s); [|exact (OLD _ X)]. apply filter_In in X. destruct X as [X _]. exact (OLD _ X). }
    destruct (pturn_new c s0) as (l & L1 & L2). rewrite L1 in S1. apply in_app_or in S1. destruct S1 as [S1|S1]; [exact (TT S1)|].
    unfold is_cts in K. destruct (L2 t S1) as [X|[X|X]]; rewrite X in K; exact K.
  - exfalso. apply in_app_or in S1. destruct S1 as [S1|S1]; [exact (OLD _ S1)|].
    destruct (atimers_ids c (p_now s) (node_map m) 0 (p_uid s)) as (B & _). unfold is_cts in K. destruct (B t S1) as [_ [E|(b & d & E)]]; rewrite E in K; exact K.
  - assert (G : forall u, p_uid s <= pt_id u -> In u (remove_nth i (p_timers s) ++ gtimers c (p_now s) 0 (n * ac_ctrl c T_CTS) (p_uid s) (p_rts s) ++ [Ptimer (p_uid s + n) (p_now s + sector_time c n) PKSec]) ->
       In u (gtimers c (p_now s) 0 (n * ac_ctrl c T_CTS) (p_uid s) (p_rts s)) \/ u = Ptimer (p_uid s + n) (p_now s + sector_time c n) PKSec).
    { intros u U X. apply in_app_or in X. destruct X as [X|X]; [apply in_remove in X; specialize (T2 u X); lia|]. apply in_app_or in X. destruct X as [X|[<-|[]]]; auto. }
    cbv zeta. split; [|split].
    + destruct (G t S2 S1) as [X| ->]; auto. destruct K.
    + intros u [U1 U2] U3. destruct (G u U2 U1) as [X| ->]; auto. destruct U3.
    + intros u [U1 U2] U3. destruct (G u U2 U1) as [X| ->]; auto. destruct (gtimers_ids c (p_now s) (p_rts s) 0 (n * ac_ctrl c T_CTS) (p_uid s)) as (B & _). destruct (B u X) as (_ & d & q & dur & fl & E). congruence.
  - exfalso. destruct (trysend_proj f s1) as (_ & _ & _ & _ & _ & _ & _ & _ & _ & _ & _ & _ & _ & E). rewrite E in S1. exact (OLD _ S1).
  - exfalso. destruct (trysend_proj f s1) as (_ & _ & _ & _ & _ & _ & _ & _ & _ & _ & _ & _ & _ & E). rewrite E in S1. exact (OLD _ S1).
Qed.

Lemma quot_bounds x : 0 <= x -> nsec * Z.quot x nsec <= x < nsec * Z.quot x nsec + nsec.
Proof. intros H. unfold nsec in *. rewrite Z.quot_div_nonneg by lia. pose proof (Z.mul_div_le x 1000000). pose proof (Z.mul_succ_div_gt x 1000000). lia. Qed.
Lemma wait_sum_nonneg c l : 0 <= ac_maxbo c -> (forall m, 0 <= ac_data c (ac_size c) m) -> 0 <= wait_sum c l.
Proof. intros B D. induction l as [|x l IH]; cbn [wait_sum]; [lia|]. specialize (D (flag_of c x)). lia. Qed.

Lemma slots_apart c s ev t1 t2 d1 d2 len1 : inv0 s -> tids s -> pvalid s ev = true ->
  0 <= ac_maxbo c -> 0 <= ac_ctrl c T_CTS -> (forall m, 0 <= ac_data c (ac_size c) m) ->
  scheduled c s ev t1 -> is_cts t1 -> scheduled c s ev t2 -> is_cts t2 -> pt_id t1 < pt_id t2 ->
  (forall t dst q dur fl, scheduled c s ev t -> pt_kind t = PKCts dst q dur fl -> dur < 65536 * nsec) ->
  len1 + 2 * (d1 - d2) <= airtime c t1 + ac_maxbo c + ac_ctrl c T_CTS + psec - nsec ->
  arrival c t1 d1 + len1 <= arrival c t2 d2.
Proof.
  intros I T V M C D S1 K1 S2 K2 L W F. destruct (grants c s ev t1 I T V S1 K1) as (G1 & G & _). cbv zeta in *. pose proof (G t2 S2 K2) as G2. clear G.
  set (n := Z.of_nat (length (p_rts s))) in *.
  destruct (gtimers_in _ _ _ _ _ _ _ G1) as (a1 & x1 & b1 & E1 & Q1). destruct (gtimers_in _ _ _ _ _ _ _ G2) as (a2 & x2 & b2 & E2 & Q2).
  pose proof (W t1 _ _ _ _ S1 (eq_trans (f_equal pt_kind Q1) eq_refl)) as W1. pose proof (W t2 _ _ _ _ S2 (eq_trans (f_equal pt_kind Q2) eq_refl)) as W2. clear W.
  rewrite Q1, Q2 in *. unfold arrival, airtime in *. cbn [pt_kind pt_due pt_id] in *.
  assert (LL : (length a1 < length a2)%nat) by lia.
  assert (P : exists m, a2 = a1 ++ x1 :: m).
  { rewrite E1 in E2. clear - E2 LL. revert a2 E2 LL. induction a1 as [|y a1 IH]; intros [|z a2] E L; cbn in L; try lia.
    - cbn in E. injection E as <- _. exists a2. reflexivity.
    - cbn in E. injection E as <- E. destruct (IH a2 E ltac:(lia)) as [m ->]. exists m. reflexivity. }
  destruct P as [m ->]. rewrite wait_sum_app in *. cbn [wait_sum] in *. rewrite app_length in *. cbn [length] in *.
  pose proof (wait_sum_nonneg c a1 M D) as N1. pose proof (wait_sum_nonneg c m M D) as N2. pose proof (D (flag_of c x1)) as D1.
  assert (N0 : 0 <= n * ac_ctrl c T_CTS) by (unfold n; nia).
  assert (WR : forall x, 0 <= x -> x < 65536 * nsec -> wrap16 (Z.quot x nsec) = Z.quot x nsec).
  { intros x X1 X2. unfold wrap16. apply Z.mod_small. pose proof (quot_bounds x X1). unfold nsec in *. lia. }
  rewrite !WR by lia.
  pose proof (quot_bounds (n * ac_ctrl c T_CTS + wait_sum c a1) ltac:(lia)) as B1.
  pose proof (quot_bounds (n * ac_ctrl c T_CTS + (wait_sum c a1 + (ac_data c (ac_size c) (flag_of c x1) + ac_maxbo c + wait_sum c m))) ltac:(lia)) as B2.
  set (A := n * ac_ctrl c T_CTS) in *.
  assert (P : (ac_ctrl c T_CTS + psec) * (0 + Z.of_nat (length a1 + S (length m))) >= (ac_ctrl c T_CTS + psec) * (0 + Z.of_nat (length a1)) + (ac_ctrl c T_CTS + psec)).
  { rewrite Nat2Z.inj_add, Nat2Z.inj_succ. assert (0 <= ac_ctrl c T_CTS + psec) by (unfold psec; lia). nia. }
  lia.
Qed.

Lemma slots_covered c s ev t u d len : inv0 s -> tids s -> pvalid s ev = true ->
  0 <= ac_maxbo c -> 0 <= ac_ctrl c T_CTS -> 0 <= ac_sifs c -> (forall m, 0 <= ac_data c (ac_size c) m) ->
  (forall m, (ac_adapt c = false -> m = 0) -> ac_data c (ac_size c) m <= ac_data c (ac_size c) 0) ->
  scheduled c s ev t -> is_cts t -> scheduled c s ev u -> pt_kind u = PKSec ->
  len <= ac_data c (ac_size c) 0 -> d <= ac_prop c ->
  Z.of_nat (length (p_rts s)) * (ac_ctrl c T_CTS + psec - ac_ctrl c T_ACK) <= ac_maxbo c + psec ->
  arrival c t d + len <= pt_due u.
Proof.
  intros I T V M C S0 D DM S1 K1 S2 K2 L F N. destruct (grants c s ev t I T V S1 K1) as (G1 & _ & G). rewrite (G u S2 K2). clear G. cbv zeta in G1.
  set (n := Z.of_nat (length (p_rts s))) in *.
  destruct (gtimers_in _ _ _ _ _ _ _ G1) as (a1 & x1 & b1 & E1 & ->). unfold arrival. cbn [pt_kind pt_due].
  assert (LN : Z.of_nat (length a1) + 1 <= n) by (unfold n; rewrite E1, app_length; cbn [length]; lia).
  assert (WS : wait_sum c a1 <= Z.of_nat (length a1) * (ac_data c (ac_size c) 0 + ac_maxbo c)).
  { clear - D DM M. induction a1 as [|x a IH]; cbn [wait_sum length]; [lia|]. specialize (D (flag_of c x)). assert (X : ac_data c (ac_size c) (flag_of c x) <= ac_data c (ac_size c) 0) by (apply DM; unfold flag_of; intros ->; reflexivity). rewrite Nat2Z.inj_succ. nia. }
  pose proof (wait_sum_nonneg c a1 M D) as N1.
  assert (N0 : 0 <= n * ac_ctrl c T_CTS) by (unfold n; nia).
  pose proof (quot_bounds (n * ac_ctrl c T_CTS + wait_sum c a1) ltac:(lia)) as B1.
  assert (WR : forall x, 0 <= x -> wrap16 x <= x). { intros x X. unfold wrap16. apply Z.mod_le; lia. }
  specialize (WR (Z.quot (n * ac_ctrl c T_CTS + wait_sum c a1) nsec)). assert (0 <= Z.quot (n * ac_ctrl c T_CTS + wait_sum c a1) nsec) by (apply Z.quot_pos; unfold nsec; lia).
  specialize (WR H). unfold sector_time. fold n. set (k := Z.of_nat (length a1)) in *. set (dd := ac_data c (ac_size c) 0) in *.
  assert (0 <= dd) by (apply (D 0)). assert (0 <= k) by (unfold k; lia).
  set (w := wrap16 _) in *. assert (w * nsec <= n * ac_ctrl c T_CTS + wait_sum c a1) by (unfold nsec in *; lia).
  assert ((ac_ctrl c T_CTS + psec) * (0 + k) <= (ac_ctrl c T_CTS + psec) * (n - 1)) by (assert (0 <= ac_ctrl c T_CTS + psec) by (unfold psec; lia); nia).
  assert (k * (dd + ac_maxbo c) <= (n - 1) * (dd + ac_maxbo c)) by nia.
  nia.
Qed.
