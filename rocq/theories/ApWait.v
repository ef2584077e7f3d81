(** Property C135: the access point waits until every answer to its announcement can have arrived. *)
From Coq Require Import ZArith List Lia Bool.
From Verif Require Import Base HeaderModel SeqModel EnergyModel MacModel ApModel ApSpec ApProofs ApInv ApLive ApSlots ApScript ApProps ClientModel ClientSpec ClientCase ClientAcct ClientInv ClientMore ClientNeg ClientScript AckTime.
Import ListNotations.
Open Scope Z_scope.

(** The timeouts of a turn. *)
Lemma turn_timers c s : p_timers (pturn c s) = p_timers s ++
  (if ac_ways c =? 3 then [Ptimer (p_uid s) (p_now s + t_wait c) PKWait]
   else [Ptimer (p_uid s) (p_now s + t_sector c) PKSec; Ptimer (p_uid s + 1) (p_now s + t_data_timeout c) PKData]).
Proof. unfold pturn. destruct (norm_angle (p_angle s + ac_bw c)) as [a k]. cbv zeta. destruct (ac_ways c =? 3); destruct s; cbn; rewrite <- ?app_assoc; reflexivity. Qed.

Lemma due_of c s ev w z : inv0 s -> tids s -> pvalid s ev = true -> scheduled c s ev w -> pt_kind w = PKWait \/ pt_kind w = PKData -> scheduled c s ev z ->
  if ac_ways c =? 3 then pt_kind z = PKWait /\ pt_due z = p_now s + t_wait c
  else pt_kind z = PKSec /\ pt_due z = p_now s + t_sector c \/ pt_kind z = PKData /\ pt_due z = p_now s + t_data_timeout c.
Proof.
  intros I T V [S1 S2] K [Z1 Z2]. pose proof T as (T2 & _).
  assert (OLD' : forall x, p_uid s <= pt_id x -> In x (p_timers s) -> False) by (intros x N X; specialize (T2 x X); lia).
  assert (OLD : forall x i0, p_uid s <= pt_id x -> In x (remove_nth i0 (p_timers s)) -> False) by (intros x i0 N X; apply in_remove in X; eauto).
  revert S1 Z1. destruct (step_case c s ev I V); intros S1 Z1; try (exfalso; exact (OLD' _ S2 S1)); try (exfalso; exact (OLD _ _ S2 S1)).
  - exfalso. apply in_app_or in S1. destruct S1 as [S1|[<-|[]]]; [exact (OLD' _ S2 S1)|]. destruct K; discriminate.
  - exfalso. apply in_app_or in S1. destruct S1 as [S1|[<-|[]]]; [exact (OLD' _ S2 S1)|]. destruct K; discriminate.
  - exfalso. destruct (p_dto s); [|exact (OLD' _ S2 S1)]. apply filter_In in S1. destruct S1 as [S1 _]. exact (OLD' _ S2 S1).
  - exfalso. destruct (p_sec s); [|exact (OLD' _ S2 S1)]. apply filter_In in S1. destruct S1 as [S1 _]. exact (OLD' _ S2 S1).
  - destruct (trysend_proj (pcta c s0) (pturn c s0)) as (_ & _ & _ & _ & _ & _ & _ & _ & _ & _ & _ & _ & _ & E). rewrite E in Z1.
    assert (TT : In z (p_timers s0) -> False).
    { intros X. destruct H0; try (exact (OLD _ _ Z2 X)). change (p_sec (pset_timers ?x s)) with (p_sec s) in X. destruct (p_sec s); [|exact (OLD _ _ Z2 X)]. apply filter_In in X. destruct X as [X _]. exact (OLD _ _ Z2 X). }
    assert (N0 : p_now s0 = p_now s). { destruct H0; try reflexivity. destruct s; cbn. destruct p_sec; reflexivity. }
    rewrite turn_timers, N0 in Z1. apply in_app_or in Z1. destruct Z1 as [Z1|Z1]; [destruct (TT Z1)|]. destruct (ac_ways c =? 3).
    + destruct Z1 as [<-|[]]. cbn. auto.
    + destruct Z1 as [<-|[<-|[]]]; cbn; auto.
  - exfalso. cbn in S1. apply in_app_or in S1. destruct S1 as [S1|S1]; [exact (OLD _ _ S2 S1)|].
    assert (A : forall l i0 u, In w (atimers c (p_now s) i0 u l) -> pt_kind w = PKTurn \/ exists b n, pt_kind w = PKFeed b n).
    { clear. induction l as [|[n v] l IH]; intros i0 u X; cbn [atimers] in X; [destruct X as [<-|[]]; auto|]. destruct X as [<-|X]; eauto. right. cbn. eauto. }
    destruct (A _ _ _ S1) as [B|(b & n0 & B)]; rewrite B in K; destruct K; discriminate.
  - exfalso. cbn in S1. apply in_app_or in S1. destruct S1 as [S1|S1]; [exact (OLD _ _ S2 S1)|]. apply in_app_or in S1. destruct S1 as [S1|[<-|[]]].
    + destruct (gtimers_in _ _ _ _ _ _ _ S1) as (a & x & b & _ & ->). destruct K; discriminate.
    + destruct K; discriminate.
  - exfalso. destruct (trysend_proj f s1) as (_ & _ & _ & _ & _ & _ & _ & _ & _ & _ & _ & _ & _ & E). rewrite E in S1. exact (OLD _ _ S2 S1).
  - exfalso. destruct (trysend_proj f s1) as (_ & _ & _ & _ & _ & _ & _ & _ & _ & _ & _ & _ & _ & E). rewrite E in S1. exact (OLD _ _ S2 S1).
Qed.

(** What a client schedules when a CTA comes. *)
Lemma tcase_timers limit life ack sq s s' o t : tcase limit life ack sq s s' o -> In t (l_timers s') -> In t (l_timers s) \/ exists b q, lt_kind t = LKDone b q.
Proof.
  intros T I. destruct T; try (left; destruct s; exact I).
  assert (X : In t (l_timers s ++ [Ltimer (l_uid s) (l_now s + psec) (LKDone false sq)])) by (destruct s; exact I).
  apply in_app_or in X. destruct X as [X|[<-|[]]]; auto. right. cbn. eauto.
Qed.
Lemma dec_timers s : l_timers (decrease s) = l_timers s.
Proof. unfold decrease. destruct (find1 _ _); auto. destruct (_ =? 0); destruct s; auto. Qed.
Lemma answer_timers c e s f u : lvalid s (LERxEnd f true) = true -> kf_type f = T_CTA -> In u (l_timers (fst (lstep c e s (LERxEnd f true)))) -> ~ In u (l_timers s) ->
  (exists b q, lt_kind u = LKDone b q) \/ (lt_due u = l_now s + boslots c e /\ exists g, lt_kind u = LKRts g \/ lt_kind u = LKDummy g) \/
  (lt_due u = l_now s + fair c e /\ exists p, lt_kind u = LKData p 0).
Proof.
  intros V FT I N. pose proof (step_lcase c e s _ V) as C. revert C I. generalize (fst (lstep c e s (LERxEnd f true))) (snd (lstep c e s (LERxEnd f true))). intros s' o' C I.
  inversion C; subst s'; clear C; try (exfalso; apply N; destruct s; exact I); try (rewrite FT in *; discriminate).
  - assert (X : In u (l_timers s ++ [Ltimer (l_uid s) (l_now s + boslots c e) (LKDummy (the_dummy c e f s))])) by (destruct s; exact I).
    apply in_app_or in X. destruct X as [X|[<-|[]]]; [contradiction|]. right. left. cbn. split; eauto.
  - assert (P : l_now s1 = l_now s /\ forall t, In t (l_timers s1) -> In t (l_timers s) \/ exists b q, lt_kind t = LKDone b q).
    { match goal with P : prec _ _ _ _ _ |- _ => destruct P as [A|s1 o1 A T] end; [split; [destruct s; auto|intros t X; left; destruct s; exact X]|].
      destruct (tcase_rx _ _ _ _ _ _ _ T) as [_ Y]. split; [destruct s1, s; exact Y|]. intros t X.
      assert (X1 : In t (l_timers s1)) by (destruct s1; exact X). destruct (tcase_timers _ _ _ _ _ _ _ _ T X1) as [Z|Z]; auto; left; destruct s; exact Z. }
    destruct P as [P1 P2]. assert (G : In u (l_timers s1) -> exists b q, lt_kind u = LKDone b q) by (intros X; destruct (P2 u X); [contradiction|auto]).
    match goal with P : cta3 _ _ _ _ _ _ |- _ => destruct P end; try (left; apply G; destruct s1; exact I).
    + left. apply G. rewrite dec_timers in I. exact I.
    + assert (X : In u (l_timers s1 ++ [Ltimer (l_uid s1) (l_now s1 + boslots c e) (LKRts (lr_pkt r))])) by (destruct s1; exact I).
      apply in_app_or in X. destruct X as [X|[<-|[]]]; [left; auto|]. right. left. cbn. split; [lia|eauto].
  - match goal with P : cta1 _ _ _ _ _ |- _ => destruct P as [B|B R|r t B R] end.
    + exfalso. apply N. rewrite dec_timers in I. destruct s; exact I.
    + exfalso. apply N. destruct s; exact I.
    + assert (X : In u (l_timers s ++ [Ltimer (l_uid s) (l_now s + fair c e) (LKData (lr_pkt r) 0)])) by (destruct s; exact I).
      apply in_app_or in X. destruct X as [X|[<-|[]]]; [contradiction|]. right. right. cbn. split; eauto.
Qed.

Lemma slots_le c e : 0 <= lc_slot c -> 1 <= lc_slots c -> 0 <= boslots c e <= l_maxbo c.
Proof. intros A B. unfold boslots, l_maxbo, draw1. nia. Qed.

(** * C135 *)

(** 3-way: the access point turns and announces the sector at time [p_now s]; [w] is the event
    WaitTimeExpired of that turn. A client at propagation delay [d] hears the whole announcement
    one CTA and [d] later. An RTS (asked for by data or by the sector record) that the client then
    schedules has arrived completely before [w]. *)
Theorem C135_rts_wait : forall c h s o ev w lc x e f u d,
  areach anyhow c h s o -> pvalid s ev = true -> scheduled c s ev w -> pt_kind w = PKWait ->
  lvalid x (LERxEnd f true) = true -> kf_type f = T_CTA -> l_now x = p_now s + ac_ctrl c T_CTA + d ->
  lc_ctrl lc T_RTS = ac_ctrl c T_RTS -> l_maxbo lc = ac_maxbo c -> 1 <= lc_slots lc -> 0 <= lc_slot lc -> 0 <= ac_sifs c -> 0 <= d <= ac_prop c ->
  In u (l_timers (fst (lstep lc e x (LERxEnd f true)))) -> ~ In u (l_timers x) -> (exists g, lt_kind u = LKRts g \/ lt_kind u = LKDummy g) ->
  l_now x <= lt_due u /\ lt_due u + lc_ctrl lc T_RTS + d < pt_due w.
Proof.
  intros c h s o ev w lc x e f u d R V S K LV FT N EC EB SL SL' SF D I NI (g & G).
  pose proof (due_of c s ev w w (inv0_reach _ _ _ _ _ R) (tids_reach _ _ _ _ _ R) V S (or_introl K) S) as DW.
  assert (DW' : pt_due w = p_now s + t_wait c).
  { destruct (ac_ways c =? 3); [apply DW|]. rewrite K in DW. destruct DW as [[B _]|[B _]]; discriminate. }
  pose proof (slots_le lc e SL' SL) as B. rewrite EB in B.
  destruct (answer_timers lc e x f u LV FT I NI) as [(b & q & A)|[[A _]|[_ [p A]]]]; [rewrite A in G; destruct G; discriminate| |rewrite A in G; destruct G; discriminate].
  rewrite A, N, EC, DW'. unfold t_wait. unfold nsec. lia.
Qed.
Print Assumptions C135_rts_wait.

(** 1-way: [w] is the event DataTimeout of the turn. A data packet that the client schedules begins
    to arrive before [w]; if its duration is at most that of a packet of the size the access point
    assumes, it has arrived completely, and its acknowledgement been sent, before the event
    SectorTimeout of the turn. The client subtracts 6666 ps per metre for the way there and back: the
    way may take at most 1 ns more. (It takes the distance to the origin, not to the access point,
    thz-mac-macro-client.cc 446: see the refutation below.) The timeout counts with a CTS instead of the CTA: a CTA may not take longer. *)
Theorem C135_data_wait_partial : forall c h s o ev w z lc x e f u p m d len,
  areach anyhow c h s o -> pvalid s ev = true -> scheduled c s ev w -> pt_kind w = PKData -> scheduled c s ev z -> pt_kind z = PKSec ->
  lvalid x (LERxEnd f true) = true -> kf_type f = T_CTA -> l_now x = p_now s + ac_ctrl c T_CTA + d ->
  lc_prop lc = ac_prop c -> l_maxbo lc = ac_maxbo c -> 1 <= lc_slots lc -> 0 <= lc_slot lc -> 0 <= ac_sifs c -> 2 * d < lc_far lc * psec + nsec -> ac_ctrl c T_CTA <= ac_ctrl c T_CTS ->
  In u (l_timers (fst (lstep lc e x (LERxEnd f true)))) -> ~ In u (l_timers x) -> lt_kind u = LKData p m ->
  lt_due u + d < pt_due w /\ (len <= ac_data c (ac_size c) 0 -> lt_due u + len + d + ac_sifs c + ac_ctrl c T_ACK < pt_due z).
Proof.
  intros c h s o ev w z lc x e f u p m d len R V S K S' K' LV FT N EP EB SL SL' SF D CC I NI G.
  pose proof (due_of c s ev w w (inv0_reach _ _ _ _ _ R) (tids_reach _ _ _ _ _ R) V S (or_intror K) S) as DW.
  pose proof (due_of c s ev w z (inv0_reach _ _ _ _ _ R) (tids_reach _ _ _ _ _ R) V S (or_intror K) S') as DZ.
  rewrite K in DW. rewrite K' in DZ. destruct (ac_ways c =? 3); [destruct DW; discriminate|].
  destruct DW as [[B _]|[_ DW]]; [discriminate|]. destruct DZ as [[_ DZ]|[B _]]; [|discriminate].
  pose proof (slots_le lc e SL' SL) as B. rewrite EB in B.
  destruct (answer_timers lc e x f u LV FT I NI) as [(b & q & A)|[[_ [g [A|A]]]|[A _]]]; try (rewrite A in G; discriminate).
  rewrite A, N, DW, DZ. unfold fair. rewrite EP. unfold t_data_timeout, t_sector. unfold nsec in *. lia.
Qed.
Print Assumptions C135_data_wait_partial.

(** Full statement: for every node within the range the access point assumes. *)
Definition C135_full : Prop := forall c h s o ev w lc q0 hl x ol e f u p m d,
  areach intime c h s o -> pvalid s ev = true -> intime s ev -> scheduled c s ev w -> pt_kind w = PKData ->
  lreach ontime lc q0 hl x ol -> lvalid x (LERxEnd f true) = true -> kf_type f = T_CTA -> l_now x = p_now s + ac_ctrl c T_CTA + d ->
  lc_prop lc = ac_prop c -> l_maxbo lc = ac_maxbo c -> 1 <= lc_slots lc -> 0 <= lc_slot lc -> 0 <= ac_sifs c -> 0 <= d <= ac_prop c -> ac_ctrl c T_CTA <= ac_ctrl c T_CTS ->
  In u (l_timers (fst (lstep lc e x (LERxEnd f true)))) -> ~ In u (l_timers x) -> lt_kind u = LKData p m -> lt_due u + d < pt_due w.

(** The access point is 10 m from the origin of the coordinates, the node is at the origin. *)
Definition origin : lcfg :=
  Lcfg 1 1 5 (2 * nsec) 0 (33356 * psec) (15053 * 8 * 10 ^ 15 / 148010000000)
    (fun ty => (get_size (Hdr 0 0 ty 0 0 0 0 0) + 5) * 8 * 10 ^ 15 / 148010000000) 15000 0 10000 7 5.
Definition hear (d : Z) : list xcmd := [enq 0; XIn d ee LERxStart; XIn 1189108 ee (LETick (1189108 + d))].
Definition d10 : Z := 33356 * psec.
Theorem C135_data_wait_refuted : ~ C135_full.
Proof.
  intros H. assert (T : x_ok origin 4 (hear d10) = true) by (vm_compute; reflexivity).
  assert (E : l_timers (x_st origin 4 (hear d10)) = []) by (vm_compute; reflexivity).
  assert (L : exists u p, l_timers (fst (lstep origin ee (x_st origin 4 (hear d10)) (LERxEnd (cta 0) true))) = [u] /\ lt_kind u = LKData p 0 /\ lt_due u = 105257108) by (do 2 eexists; split; [vm_compute; reflexivity|split; vm_compute; reflexivity]).
  destruct L as (u & p & L1 & L2 & L3).
  assert (X : lt_due u + d10 < pt_due (Ptimer 2 79009209 PKData)).
  { eapply (H ap1 [] (pinit ap1) [] (AETimer 0) (Ptimer 2 79009209 PKData) origin 4 _ (x_st origin 4 (hear d10)) _ ee (cta 0) u p 0 d10).
    - apply AR0.
    - vm_compute; reflexivity.
    - vm_compute; reflexivity.
    - split; [vm_compute; auto|vm_compute; discriminate].
    - reflexivity.
    - exact (x_reach _ _ _ T).
    - vm_compute; reflexivity.
    - reflexivity.
    - vm_compute; reflexivity.
    - reflexivity.
    - reflexivity.
    - vm_compute; discriminate.
    - vm_compute; discriminate.
    - vm_compute; discriminate.
    - split; vm_compute; discriminate.
    - vm_compute; discriminate.
    - rewrite L1. left. reflexivity.
    - rewrite E. intros [].
    - exact L2. }
  rewrite L3 in X. vm_compute in X. discriminate.
Qed.
Print Assumptions C135_data_wait_refuted.

(** 3-way and 1-way with the default durations, the node 10 m away and at the place it takes itself to be. *)
Definition cl333 : lcfg :=
  Lcfg 1 3 5 (2 * nsec) 0 (33356 * psec) (15053 * 8 * 10 ^ 15 / 148010000000)
    (fun ty => (get_size (Hdr 0 0 ty 0 0 0 0 0) + 5) * 8 * 10 ^ 15 / 148010000000) 15000 66660 10000 7 5.
Definition pkt4 : kframe := Kframe T_DATA 1 0 5 0 0 0 15017 0.
Definition latest : lenv := Lenv 5 1 0.
Example C135_example : let c := aex 3 6 false true in let x := x_st cl333 4 (hear d10) in let w := Ptimer 1 80144267 PKWait in
  pvalid (pinit c) (AETimer 0) = true /\ scheduled c (pinit c) (AETimer 0) w /\ x_ok cl333 4 (hear d10) = true /\ lvalid x (LERxEnd (cta 0) true) = true /\
  l_now x = p_now (pinit c) + ac_ctrl c T_CTA + d10 /\ lc_ctrl cl333 T_RTS = ac_ctrl c T_RTS /\ l_maxbo cl333 = ac_maxbo c /\ d10 <= ac_prop c /\ l_timers x = [] /\
  map lt_kind (l_timers (fst (lstep cl333 latest x (LERxEnd (cta 0) true)))) = [LKRts pkt4] /\
  map (fun u => pt_due w - (lt_due u + lc_ctrl cl333 T_RTS + d10)) (l_timers (fst (lstep cl333 latest x (LERxEnd (cta 0) true)))) = [nsec].
Proof.
  cbv zeta. split; [vm_compute; reflexivity|]. split; [split; [vm_compute; auto|vm_compute; discriminate]|]. split; [vm_compute; reflexivity|]. split; [vm_compute; reflexivity|].
  split; [vm_compute; reflexivity|]. split; [reflexivity|]. split; [reflexivity|]. split; [vm_compute; discriminate|]. split; [vm_compute; reflexivity|]. split; vm_compute; reflexivity.
Qed.
Example C135_data_example : let c := ap1 in let lc := cfg10 1 in let x := x_st lc 4 (hear d10) in let w := Ptimer 2 79009209 PKData in let z := Ptimer 1 900224599 PKSec in
  pvalid (pinit c) (AETimer 0) = true /\ scheduled c (pinit c) (AETimer 0) w /\ scheduled c (pinit c) (AETimer 0) z /\ x_ok lc 4 (hear d10) = true /\ lvalid x (LERxEnd (cta 0) true) = true /\
  l_now x = p_now (pinit c) + ac_ctrl c T_CTA + d10 /\ lc_prop lc = ac_prop c /\ l_maxbo lc = ac_maxbo c /\ 2 * d10 < lc_far lc * psec + nsec /\ ac_ctrl c T_CTA <= ac_ctrl c T_CTS /\ l_timers x = [] /\
  map lt_kind (l_timers (fst (lstep lc latest x (LERxEnd (cta 0) true)))) = [LKData pkt4 0] /\
  map (fun u => pt_due w - (lt_due u + d10)) (l_timers (fst (lstep lc latest x (LERxEnd (cta 0) true)))) = [nsec + 108101 - 52 * psec].
Proof.
  cbv zeta. split; [vm_compute; reflexivity|]. split; [split; [vm_compute; auto|vm_compute; discriminate]|]. split; [split; [vm_compute; auto|vm_compute; discriminate]|].
  split; [vm_compute; reflexivity|]. split; [vm_compute; reflexivity|]. split; [vm_compute; reflexivity|]. split; [reflexivity|]. split; [reflexivity|]. split; [vm_compute; reflexivity|].
  split; [vm_compute; discriminate|]. split; [vm_compute; reflexivity|]. split; vm_compute; reflexivity.
Qed.
