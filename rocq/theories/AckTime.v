(** Property C132: the acknowledgement timeout of a THzMacMacroClient in 1-way mode covers the exchange. *)
From Coq Require Import ZArith List Lia Bool.
From Verif Require Import Base HeaderModel SeqModel EnergyModel MacModel ApModel ApSpec ClientModel ClientSpec ClientScript ApScript ApNet ApProps ApProps2 MacroPhyModel ChannelModel MStackModel MStackAp MStackProps.
Import ListNotations.
Open Scope Z_scope.

(** [x] femtoseconds is what [bytes] take at [rate] bits per second, up to [e] femtoseconds (Seconds (double) is converted to Time).
    The rate is a whole number of bits per second here, and the division of doubles is exact. *)
Definition lasts (e rate bytes x : Z) : Prop := Z.abs (x * rate - bytes * 8 * 10 ^ 15) <= e * rate.

(** InitVariables, thz-mac-macro-client.cc:200-202: m_tData = Seconds ((PacketSize + 53) * 8 / DataRate), in uint32_t up to the division. *)
Definition init_tdata (rate : Z) (c : lcfg) : Prop := Z.abs (lc_tdata c * rate - wrap32 ((lc_min c + 53) * 8) * 10 ^ 15) <= rate.

(** The air time of a data packet with the defaults of the PHY (no preamble, 3 bytes of header, 2 of trailer; thz-phy-macro.cc:408-414)
    and the rate of the client for MCS 0. It is the sum of two converted numbers. *)
Definition data_time (rate : Z) (p : kframe) (air : Z) : Prop := lasts 2 rate (kf_size p + 5) air.

(** SendData of an accepted packet [p] fires and the packet goes out; the data arrive after [d1], the ACK, sent at once
    (thz-mac-macro-ap.cc:537-542), after [d2]. Then AckTimeout is scheduled for a later time than the end of the ACK. *)
Definition C132_at (ok : Z -> lcfg -> Z -> Prop) : Prop := forall rate c e s i t p size air d1 d2,
  0 < rate -> init_tdata rate c -> lc_ways c <> 3 -> 0 <= lc_sifs c -> 0 <= lc_min c < 2 ^ 29 - 53 -> d1 <= lc_prop c -> d2 <= lc_prop c ->
  nth_error (l_timers s) i = Some t -> lt_kind t = LKData p 0 -> lc_min c <= size -> kf_size p = size + 17 -> ok rate c size -> data_time rate p air ->
  let r := lstep c e s (LETimer i) in In (LSnd p 0) (snd r) ->
  exists u, In u (l_timers (fst r)) /\ lt_kind u = LKAck (kf_seq p) /\ l_now s + air + d1 + lc_ctrl c T_ACK + d2 < lt_due u.

Lemma init_lasts rate c : 0 <= lc_min c < 2 ^ 29 - 53 -> init_tdata rate c -> lasts 1 rate (lc_min c + 53) (lc_tdata c).
Proof. intros R H. unfold init_tdata, wrap32 in H. rewrite Z.mod_small in H by lia. unfold lasts. lia. Qed.

(** What SendData schedules. *)
Lemma data_sent c e s i t p : lc_ways c <> 3 -> nth_error (l_timers s) i = Some t -> lt_kind t = LKData p 0 -> In (LSnd p 0) (snd (lstep c e s (LETimer i))) ->
  let u := Ltimer (l_uid s) (l_now s + (lc_tdata c + lc_prop c + lc_sifs c + lc_ctrl c T_ACK + lc_prop c + nsec)) (LKAck (kf_seq p)) in
  l_timers (fst (lstep c e s (LETimer i))) = remove_nth i (l_timers s) ++ [u].
Proof.
  intros W N K. cbn [lstep]. rewrite N, K. cbn [lfire]. unfold l_send_data, lseq, llift. cbv zeta. destruct (kf_dst p =? bcast); [cbn; intros []|].
  unfold lsend. cbn [l_air lset_timers lset_state l_state is_lstate orb]. destruct (l_air s); [cbn; intros []|].
  intros _. unfold lseq, lemit, lsched_neg, llift, ack_wait. cbv zeta. replace (lc_ways c =? 3) with false by (symmetry; apply Z.eqb_neq; exact W).
  reflexivity.
Qed.

(** It holds for packets of up to 31 bytes more than the smallest one. *)
Theorem C132_acktime_partial : C132_at (fun _ c size => size <= lc_min c + 31).
Proof.
  intros rate c e s i t p size air d1 d2 RP TD W SI MR D1 D2 N K MS SZ OK AIR r SND. subst r. apply init_lasts in TD; [|exact MR].
  pose proof (data_sent c e s i t p W N K SND) as E. cbv zeta in E. rewrite E. eexists. split; [apply in_or_app; right; left; reflexivity|]. split; [reflexivity|]. cbn [lt_due].
  unfold data_time, lasts in *. rewrite SZ in AIR. assert (X : air <= lc_tdata c + 3).
  { apply Z.abs_le in AIR. apply Z.abs_le in TD. apply Z.mul_le_mono_pos_r with (p := rate); [exact RP|]. rewrite Z.mul_add_distr_r. lia. }
  unfold nsec. lia.
Qed.
Print Assumptions C132_acktime_partial.

(** It is exactly a matter of the size: if the packet is so long that the difference takes at least twice PropDelay, SIFS and one
    nanosecond (and the rounding), every ACK comes too late, at any distance. *)
Theorem C132_always_late : forall rate c e s i t p size air d1 d2,
  0 < rate -> init_tdata rate c -> lc_ways c <> 3 -> 0 <= lc_min c < 2 ^ 29 - 53 -> 0 <= d1 -> 0 <= d2 ->
  nth_error (l_timers s) i = Some t -> lt_kind t = LKData p 0 -> kf_size p = size + 17 -> data_time rate p air ->
  rate * (2 * lc_prop c + lc_sifs c + nsec + 3) <= (size - lc_min c - 31) * 8 * 10 ^ 15 ->
  let r := lstep c e s (LETimer i) in In (LSnd p 0) (snd r) ->
  exists u, l_timers (fst r) = remove_nth i (l_timers s) ++ [u] /\ lt_kind u = LKAck (kf_seq p) /\ lt_due u <= l_now s + air + d1 + lc_ctrl c T_ACK + d2.
Proof.
  intros rate c e s i t p size air d1 d2 RP TD W MR D1 D2 N K SZ AIR BIG r SND. subst r. apply init_lasts in TD; [|exact MR].
  pose proof (data_sent c e s i t p W N K SND) as E. cbv zeta in E. rewrite E. eexists. split; [reflexivity|]. split; [reflexivity|]. cbn [lt_due].
  unfold data_time, lasts in *. rewrite SZ in AIR. set (g := 2 * lc_prop c + lc_sifs c + nsec) in *. assert (X : lc_tdata c + g <= air).
  { apply Z.abs_le in AIR. apply Z.abs_le in TD. apply Z.mul_le_mono_pos_r with (p := rate); [exact RP|]. rewrite Z.mul_add_distr_r. lia. }
  subst g. unfold nsec in *. lia.
Qed.
Print Assumptions C132_always_late.

(** A cell in 1-way mode with one client 10 m away, PropDelay 33356 ps for both; otherwise the default attributes. *)
Definition ap1 : acfg := aex 1 6 false true.
Definition cfg10 (a : addr) : lcfg :=
  Lcfg a 1 5 (2 * nsec) 0 (33356 * psec) (15053 * 8 * 10 ^ 15 / 148010000000)
    (fun ty => (get_size (Hdr 0 0 ty 0 0 0 0 0) + 5) * 8 * 10 ^ 15 / 148010000000) 15000 66660 10000 7 5.
Definition one : mconf anet xev kframe lenv := cell_conf ap1 cfg10 cdur (fun _ _ => true) (fun _ _ _ => true) [0; 1].
Definition hop10 : Z := 33333 * psec.
Definition one_run (size : Z) (n : nat) :=
  let e := QOwn 1 ce (fun _ => hop10) (XEnq size 0) in
  e :: qscript one (cell_due [1]) (cell_timer ap1) ce hop10 n (qstep one ce (qinit one (cell0 ap1 (fun _ => 0))) e).
Definition one_end (size : Z) (n : nat) := qrun one ce (qinit one (cell0 ap1 (fun _ => 0))) (one_run size n).

(** Without a bound on the size it is false: the client accepts a packet of 15200 bytes, whose ACK is 8 ns late at 10 m. *)
Definition C132_full : Prop := C132_at (fun _ _ _ => True).
Definition big : kframe := Kframe T_DATA 1 0 1 0 0 0 15217 0.
Definition big_st : lst := ln_st (an_cl (q_net (one_end 15200 9)) 1).
Lemma big_at : C132_full -> forall s t, l_timers s = [t] -> lt_kind t = LKData big 0 -> In (LSnd big 0) (snd (lstep (cfg10 1) ce s (LETimer 0))) -> False.
Proof.
  intros H s t TS K SND. assert (N : nth_error (l_timers s) 0 = Some t) by (rewrite TS; reflexivity).
  pose proof (H 148010000000 (cfg10 1) ce s 0%nat t big 15200 822755219 (33356 * psec) (33356 * psec)) as X. cbv zeta in X.
  destruct X as (u & I & KU & L); [reflexivity|vm_compute; discriminate|vm_compute; discriminate|vm_compute; discriminate|split; [vm_compute; discriminate|vm_compute; reflexivity]|vm_compute; discriminate|vm_compute; discriminate|exact N|exact K|vm_compute; discriminate|reflexivity|exact I|vm_compute; discriminate|exact SND|].
  - assert (W : lc_ways (cfg10 1) <> 3) by (vm_compute; discriminate). pose proof (data_sent (cfg10 1) ce s 0%nat t big W N K SND) as E. cbv zeta in E. rewrite E in I. rewrite TS in I. destruct I as [<-|[]]. cbn [lt_due] in L.
    assert (X : 822755219 + 33356 * psec + lc_ctrl (cfg10 1) T_ACK + 33356 * psec >= lc_tdata (cfg10 1) + lc_prop (cfg10 1) + lc_sifs (cfg10 1) + lc_ctrl (cfg10 1) T_ACK + lc_prop (cfg10 1) + nsec) by (vm_compute; discriminate).
    lia.
Qed.
Theorem C132_acktime_refuted : ~ C132_full.
Proof.
  intros H. assert (T : exists t, l_timers big_st = [t] /\ lt_kind t = LKData big 0) by (eexists; split; vm_compute; reflexivity). destruct T as (t & T1 & T2).
  assert (S : snd (lstep (cfg10 1) ce big_st (LETimer 0)) = [LSnd big 0]) by (vm_compute; reflexivity).
  apply (big_at H big_st t T1 T2). rewrite S. left. reflexivity.
Qed.
Print Assumptions C132_acktime_refuted.
(** What becomes of it in the cell: sent five times, acknowledged five times and handed up once by the access point, reported as discarded. *)
Example C132_witness : let s := one_end 15200 200 in
  qtimely_run one (cell_due [0; 1]) (cell_own ap1) ce (qinit one (cell0 ap1 (fun _ => 0))) (one_run 15200 200) = true /\
  kup_of (an_out (q_net s)) = [big] /\ filter (fun y => (y =? T_DATA) || (y =? T_ACK)) (map kf_type (q_frames s)) = [4; 3; 4; 3; 4; 3; 4; 3; 4; 3] /\
  lrep_of false (ln_out (an_cl (q_net s) 1)) = [big] /\ lrep_of true (ln_out (an_cl (q_net s) 1)) = [].
Proof. vm_compute. auto 6. Qed.
(** The hypotheses of the partial theorem hold of a packet of 15000 bytes in the same cell, which is reported as sent; those of the other
    one hold of 17000 bytes. *)
Example C132_example : let s := ln_st (an_cl (q_net (one_end 15000 9)) 1) in let p := Kframe T_DATA 1 0 1 0 0 0 15017 0 in
  init_tdata 148010000000 (cfg10 1) /\ data_time 148010000000 p (15022 * 8 * 10 ^ 15 / 148010000000) /\ map lt_kind (l_timers s) = [LKData p 0] /\ snd (lstep (cfg10 1) ce s (LETimer 0)) = [LSnd p 0] /\
  lrep_of true (ln_out (an_cl (q_net (one_end 15000 40)) 1)) = [p] /\
  148010000000 * (2 * lc_prop (cfg10 1) + lc_sifs (cfg10 1) + nsec + 3) <= (17000 - lc_min (cfg10 1) - 31) * 8 * 10 ^ 15.
Proof. repeat split; try (vm_compute; reflexivity); vm_compute; discriminate. Qed.
