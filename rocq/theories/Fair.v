(** Property C137: in 1-way mode the order of arrival of the data is the order of the drawn slots, whatever the distances. *)
From Coq Require Import ZArith List Lia Bool.
From Verif Require Import Base HeaderModel SeqModel EnergyModel MacModel ApModel ApSpec ClientModel ClientSpec ClientCase ClientAcct ClientInv ClientMore ClientNeg ClientScript AckTime ApWait.
Import ListNotations.
Open Scope Z_scope.

(** Two clients hear the end of the same announcement [d1] and [d2] after it was sent at [t0]; each then schedules a data packet, with the slots [le_cw e1] and [le_cw e2]
    drawn from 1..m_boSlots. [near c d]: what is known of the propagation delay [d] of a client. Its packet begins to arrive at the access point [d] after it is sent. *)
Definition C137_at (Q : lst -> levent -> Prop) (near : lcfg -> Z -> Prop) : Prop :=
  forall c1 c2 q1 q2 h1 h2 o1 o2 x1 x2 e1 e2 f t0 d1 d2 u1 u2 p1 p2 m1 m2,
  lreach Q c1 q1 h1 x1 o1 -> lreach Q c2 q2 h2 x2 o2 -> Q x1 (LERxEnd f true) -> Q x2 (LERxEnd f true) ->
  lvalid x1 (LERxEnd f true) = true -> lvalid x2 (LERxEnd f true) = true -> kf_type f = T_CTA -> l_now x1 = t0 + d1 -> l_now x2 = t0 + d2 ->
  lc_prop c1 = lc_prop c2 -> lc_slot c1 = lc_slot c2 -> lc_slots c1 = lc_slots c2 -> 0 < lc_slot c1 -> near c1 d1 -> near c2 d2 ->
  1 <= le_cw e1 <= lc_slots c1 -> 1 <= le_cw e2 <= lc_slots c2 ->
  In u1 (l_timers (fst (lstep c1 e1 x1 (LERxEnd f true)))) -> ~ In u1 (l_timers x1) -> lt_kind u1 = LKData p1 m1 ->
  In u2 (l_timers (fst (lstep c2 e2 x2 (LERxEnd f true)))) -> ~ In u2 (l_timers x2) -> lt_kind u2 = LKData p2 m2 ->
  (le_cw e1 < le_cw e2 -> lt_due u1 + d1 < lt_due u2 + d2) /\ (le_cw e1 = le_cw e2 -> Z.abs (lt_due u1 + d1 - (lt_due u2 + d2)) < lc_slot c1).

(** The way to the access point and back takes the 6666 ps per metre the client subtracts or up to a slot more. *)
Definition roundtrip (c : lcfg) (d : Z) : Prop := 0 <= 2 * d - lc_far c * psec < lc_slot c.
Theorem C137_fair_partial : C137_at freely roundtrip.
Proof.
  intros c1 c2 q1 q2 h1 h2 o1 o2 x1 x2 e1 e2 f t0 d1 d2 u1 u2 p1 p2 m1 m2 _ _ _ _ V1 V2 FT N1 N2 EP ES EL SP R1 R2 W1 W2 I1 J1 K1 I2 J2 K2.
  assert (A : forall c e x u p m, lvalid x (LERxEnd f true) = true -> In u (l_timers (fst (lstep c e x (LERxEnd f true)))) -> ~ In u (l_timers x) -> lt_kind u = LKData p m -> 1 <= le_cw e <= lc_slots c ->
    lt_due u = l_now x + (2 * lc_prop c - lc_far c * psec + lc_slot c * le_cw e)).
  { intros c e x u p m V I J K W. destruct (answer_timers c e x f u V FT I J) as [(b & q & A)|[[_ [g [A|A]]]|[A _]]]; try (rewrite A in K; discriminate).
    rewrite A. unfold fair, boslots, draw1. replace (Z.max 1 (Z.min (lc_slots c) (le_cw e))) with (le_cw e) by lia. reflexivity. }
  rewrite (A c1 e1 x1 u1 p1 m1 V1 I1 J1 K1 W1), (A c2 e2 x2 u2 p2 m2 V2 I2 J2 K2 W2), N1, N2. unfold roundtrip in *. rewrite <- ES in *. rewrite EP in *.
  split; [intros L; nia|]. intros L. rewrite L. lia.
Qed.
Print Assumptions C137_fair_partial.

(** Full statement: for all nodes in range. *)
Definition C137_full : Prop := C137_at ontime (fun c d => 0 <= d <= lc_prop c).
(** The access point is 10 m from the origin of the coordinates; one node is at the origin, the other half way. *)
Definition halfway : lcfg :=
  Lcfg 2 1 5 (2 * nsec) 0 (33356 * psec) (15053 * 8 * 10 ^ 15 / 148010000000)
    (fun ty => (get_size (Hdr 0 0 ty 0 0 0 0 0) + 5) * 8 * 10 ^ 15 / 148010000000) 15000 33330 10000 7 5.
Definition d5 : Z := 16678 * psec.
Definition drawn (n : Z) : lenv := Lenv n 1 0.
Theorem C137_fair_refuted : ~ C137_full.
Proof.
  intros H. assert (T1 : x_ok origin 4 (hear d10) = true) by (vm_compute; reflexivity). assert (T2 : x_ok halfway 4 (hear d5) = true) by (vm_compute; reflexivity).
  assert (E1 : l_timers (x_st origin 4 (hear d10)) = []) by (vm_compute; reflexivity). assert (E2 : l_timers (x_st halfway 4 (hear d5)) = []) by (vm_compute; reflexivity).
  assert (L1 : exists u p, l_timers (fst (lstep origin (drawn 1) (x_st origin 4 (hear d10)) (LERxEnd (cta 0) true))) = [u] /\ lt_kind u = LKData p 0 /\ lt_due u = 103257108) by (do 2 eexists; split; [vm_compute; reflexivity|split; vm_compute; reflexivity]).
  assert (L2 : exists u p, l_timers (fst (lstep halfway (drawn 2) (x_st halfway 4 (hear d5)) (LERxEnd (cta 0) true))) = [u] /\ lt_kind u = LKData p 0 /\ lt_due u = 55249108) by (do 2 eexists; split; [vm_compute; reflexivity|split; vm_compute; reflexivity]).
  destruct L1 as (u1 & p1 & A1 & B1 & D1). destruct L2 as (u2 & p2 & A2 & B2 & D2).
  destruct (H origin halfway 4 4 _ _ _ _ _ _ (drawn 1) (drawn 2) (cta 0) 1189108 d10 d5 u1 u2 p1 p2 0 0 (x_reach _ _ _ T1) (x_reach _ _ _ T2)) as [X _].
  - vm_compute; reflexivity.
  - vm_compute; reflexivity.
  - vm_compute; reflexivity.
  - vm_compute; reflexivity.
  - reflexivity.
  - vm_compute; reflexivity.
  - vm_compute; reflexivity.
  - reflexivity.
  - reflexivity.
  - reflexivity.
  - reflexivity.
  - split; vm_compute; discriminate.
  - split; vm_compute; discriminate.
  - split; vm_compute; discriminate.
  - split; vm_compute; discriminate.
  - fold (x_st origin 4 (hear d10)). rewrite A1. left. reflexivity.
  - fold (x_st origin 4 (hear d10)). rewrite E1. intros [].
  - exact B1.
  - fold (x_st halfway 4 (hear d5)). rewrite A2. left. reflexivity.
  - fold (x_st halfway 4 (hear d5)). rewrite E2. intros [].
  - exact B2.
  - specialize (X eq_refl). rewrite D1, D2 in X. vm_compute in X. discriminate.
Qed.
Print Assumptions C137_fair_refuted.

(** The access point at the origin, nodes at 10 m and 5 m: the hypotheses of the partial theorem, the kinds and the arrivals. *)
Example C137_example : let x1 := x_st (cfg10 1) 4 (hear d10) in let x2 := x_st halfway 4 (hear d5) in
  x_ok (cfg10 1) 4 (hear d10) = true /\ x_ok halfway 4 (hear d5) = true /\ lvalid x1 (LERxEnd (cta 0) true) = true /\ lvalid x2 (LERxEnd (cta 0) true) = true /\
  l_now x1 = 1189108 + d10 /\ l_now x2 = 1189108 + d5 /\ roundtrip (cfg10 1) d10 /\ roundtrip halfway d5 /\ l_timers x1 = [] /\ l_timers x2 = [] /\
  lc_prop (cfg10 1) = lc_prop halfway /\ lc_slot (cfg10 1) = lc_slot halfway /\ lc_slots (cfg10 1) = lc_slots halfway /\
  map (fun u => lt_due u + d10) (l_timers (fst (lstep (cfg10 1) (drawn 1) x1 (LERxEnd (cta 0) true)))) = [69953108] /\
  map (fun u => lt_due u + d5) (l_timers (fst (lstep halfway (drawn 2) x2 (LERxEnd (cta 0) true)))) = [71927108].
Proof.
  cbv zeta. do 6 (split; [vm_compute; reflexivity|]). split; [split; vm_compute; [discriminate|reflexivity]|]. split; [split; vm_compute; [discriminate|reflexivity]|].
  split; [vm_compute; reflexivity|]. split; [vm_compute; reflexivity|]. split; [reflexivity|]. split; [reflexivity|]. split; [reflexivity|]. split; vm_compute; reflexivity.
Qed.
