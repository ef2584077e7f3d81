(** Sequence-number wrap-around in one nano MAC (C43). *)
From Coq Require Import ZArith List Lia Bool.
From Verif Require Import Base HeaderModel SeqModel EnergyModel NanoModel NanoProofs NanoSpec NanoOut
  NanoRetry NanoOrder NanoTrace NanoLate NanoLive NanoDrain.
Import ListNotations.
Open Scope Z_scope.

(** ** Below the wrap *)

Lemma V_run c l : forall s tr, config_ok c -> W c s tr -> s_ids (fst (run c s l)) <= 65536 -> V s tr ->
  V (fst (run c s l)) (tr ++ snd (run c s l)).
Proof.
  induction l as [|e l IH]; intros s tr C HW B HV; [cbn; rewrite app_nil_r; auto|].
  rewrite run_cons in *. cbn [fst snd] in *. rewrite app_assoc.
  pose proof (ids_mono c l (fst (step c s e))). apply IH; auto using W_step. apply V_step; auto. lia.
Qed.

Lemma success_step c s tr e p : config_ok c -> W c s tr -> V s tr -> s_ids s <= 65536 ->
  In (ODone true p) (snd (step c s e)) ->
  exists f, e = EvRecv f true /\ f_type f = T_ACK /\ f_dst f = c_addr c /\ f_seq f = f_seq p /\ In (OSend p) tr.
Proof.
  intros C HW HV B I.
  destruct (classify c s e) as [size dst ->|i draw t n arg s1 tx rx E1 E2 E3 X1 X2 X3 X4 E|f E1 E2 E|X1 X2 X3 X4 CA].
  - exfalso. cbn [step] in I.
    destruct (enqueue_cases c size dst s) as [[_ E]|[[_ [_ E]]|[_ [Q E]]]]; rewrite E in I; cbn [snd] in I;
      try (destruct I as [X|[]]; discriminate).
    cbv zeta in I. destruct (behind _ _ _); cbn [snd] in I.
    + destruct I as [X|[X|[]]]; discriminate.
    + destruct I as [X|X]; [discriminate|]. apply in_app_or in X.
      destruct X as [X|[X|[]]]; [|discriminate]. apply (calm_no_done _ _ _ (tx_first_calm c _) X).
  - exfalso. rewrite E in I. cbn [snd] in I. destruct I as [X|[X|X]]; try discriminate.
    unfold retry_or_discard in X. destruct (bump _ _) as [[t' l]|]; [|destruct X].
    destruct (_ <=? _).
    + rewrite done_out in X. apply in_done_map in X. destruct X. discriminate.
    + unfold backoff in X. destruct (_ <? _); destruct X as [X|[]]; discriminate.
  - rewrite E in I. destruct (receive_ack_cases c f s) as [[D [n [u [q [F [_ [_ Y]]]]]]]|Y].
    2: rewrite Y in I; destruct I.
    rewrite Y in I. apply in_done_map in I. destruct I as [_ [t [T TP]]]. apply filter_In in T. destruct T as [T TE].
    apply find_some in F. destruct F as [F FE]. cbn in FE. apply Z.eqb_eq in FE, TE.
    destruct (w_ack _ _ _ _ _ _ _ _ _ _ HW _ _ _ F) as [NE [A _]].
    assert (q = p) as ->.
    { apply (seq_inj_w c s tr); auto; [|congruence]. rewrite <- TP. apply (w_tx _ _ _ _ _ _ _ _ _ _ HW). auto. }
    exists f. split; [exact E1|]. split; [exact E2|]. split; [exact D|]. split; [congruence|].
    apply (v_ack _ _ _ HV _ _ _ F).
  - exfalso. eapply calm_no_done; eauto.
Qed.

Lemma acked c e0 l e p : config_ok c -> genuine c (init e0) [] l ->
  s_ids (fst (run c (init e0) l)) <= 65535 ->
  In (ODone true p) (snd (step c (fst (run c (init e0) l)) e)) ->
  exists f, e = EvRecv f true /\ f_type f = T_ACK /\ f_dst f = c_addr c /\ f_seq f = f_seq p /\
    In (OSend p) (snd (run c (init e0) l)) /\
    forall g, In (OSend g) (snd (run c (init e0) l)) -> f_type g = T_DATA -> f_seq g = f_seq f -> g = p.
Proof.
  intros C G B I.
  pose proof (K_run c l (init e0) [] C (K_init c e0 C) G B) as HK. cbn [app] in HK.
  pose proof (V_run c l (init e0) [] C (W_init c e0 C) ltac:(lia) (V_init e0)) as HV. cbn [app] in HV.
  destruct (success_step c _ _ e p C (proj1 HK) HV ltac:(lia) I) as [f [E1 [E2 [E3 [E4 E5]]]]].
  exists f. repeat (split; [assumption|]). intros g S T E.
  destruct (k_sent _ _ _ _ _ (proj2 (proj2 HK)) g S) as [X _]. destruct (X T) as [AG _].
  destruct (k_sent _ _ _ _ _ (proj2 (proj2 HK)) p E5) as [Y _].
  assert (AP : acc p (snd (run c (init e0) l))).
  { apply Y. pose proof (W_step c _ _ e C (proj1 HK)) as W1.
    destruct (w_done _ _ _ _ _ _ _ _ _ _ W1 true p ltac:(apply in_or_app; right; exact I)) as [A _].
    apply (w_hist _ _ _ _ _ _ _ _ _ _ W1 p A). }
  apply (seq_inj c _ _ _ _ HK AG AP). congruence.
Qed.

(** ** Across the wrap: a run of 65538 packets *)

Definition wc : config := Cfg 1 false 1000 5 5 8000000000 (fun n => n * 800) default_eparams.
Definition w_ackf (from n : Z) : event := EvRecv (ctrl T_ACK from 1 n) true.

(** [p1], number 2, waits for node 3 without any timer; packets for node 2 pass it. *)
Definition p1 : frame := Frame T_DATA 1 3 2 37 1.
Definition q (k : Z) : frame := Frame T_DATA 1 2 k 37 (k - 1).

(** Packet [k] has just been sent. *)
Definition S (k ite e t uid due : Z) : state :=
  St k [p1; q k] [Tx p1 0; Tx (q k) 0] [] [(k, uid, q k)] [] [] ite 0 e t
     [Timer uid due (KAck k)] (uid + 1) k.
(** Packet [k + 1] is queued as well. *)
Definition S1 (k ite e t uid due : Z) : state :=
  St (k + 1) [p1; q k; q (k + 1)] [Tx p1 0; Tx (q k) 0; Tx (q (k + 1)) 0] [] [(k, uid, q k)] [] [] ite 0 e t
     [Timer uid due (KAck k)] (uid + 1) (k + 1).
(** Packet [k] has been acknowledged. *)
Definition S2 (k ite e t uid : Z) : state :=
  St (k + 1) [p1; q (k + 1)] [Tx p1 0; Tx (q (k + 1)) 0] [] [] [] [] (ite + 1) 0 e t
     [Timer (uid + 1) t (KCheck (q (k + 1)))] (uid + 2) (k + 1).

Ltac zb :=
  repeat match goal with
  | |- context [?a =? ?b] =>
      first [replace (a =? b) with true by (symmetry; apply Z.eqb_eq; lia)
            |replace (a =? b) with false by (symmetry; apply Z.eqb_neq; lia)]
  | |- context [?a <? ?b] =>
      first [replace (a <? b) with true by (symmetry; apply Z.ltb_lt; lia)
            |replace (a <? b) with false by (symmetry; apply Z.ltb_ge; lia)]
  | |- context [?a <=? ?b] =>
      first [replace (a <=? b) with true by (symmetry; apply Z.leb_le; lia)
            |replace (a <=? b) with false by (symmetry; apply Z.leb_gt; lia)]
  | |- context [?a >? ?b] =>
      first [replace (a >? b) with true by (symmetry; apply Z.gtb_lt; lia)
            |replace (a >? b) with false by (symmetry; rewrite Z.gtb_ltb; apply Z.ltb_ge; lia)]
  | |- context [?a >=? ?b] =>
      first [replace (a >=? b) with true by (symmetry; apply Z.geb_le; lia)
            |replace (a >=? b) with false by (symmetry; rewrite Z.geb_leb; apply Z.leb_gt; lia)]
  end.

Lemma q_seq k : f_seq (q k) = k. Proof. reflexivity. Qed.

Lemma ev1 k ite e t uid due : 3 <= k < 65535 ->
  step wc (S k ite e t uid due) (EvEnqueue 20 2) = (S1 k ite e t uid due, [OAccept (q (k + 1)); ORet true]).
Proof.
  intros K. cbn [step]. unfold enqueue. change (20 =? 64) with false. cbv iota.
  change (c_limit wc <=? Z.of_nat (length (s_queue (S k ite e t uid due)))) with false. cbv iota.
  change (s_seq (S k ite e t uid due)) with k. change (s_ids (S k ite e t uid due)) with k.
  change (s_tx (S k ite e t uid due)) with [Tx p1 0; Tx (q k) 0]. cbv zeta.
  replace (wrap16 (k + 1)) with (k + 1) by (symmetry; apply Z.mod_small; change (2 ^ 16) with 65536; lia).
  cbn [existsb t_pkt f_seq f_dst p1 q]. change (3 =? 2) with false. change (2 =? 2) with true.
  zb. cbv beta iota delta [andb orb]. unfold seqa, emit. cbv beta iota. unfold S1, q. replace (k + 1 - 1) with k by lia. reflexivity.
Qed.

Lemma ev3 k ite e t uid due : 3 <= k < 65535 ->
  step wc (S1 k ite e t uid due) (w_ackf 2 k) = (S2 k ite e t uid, [ODone true (q k)]).
Proof.
  intros K. unfold w_ackf. cbn [step]. unfold receive. cbn [negb ctrl f_type].
  change (T_ACK =? T_RTS) with false. change (T_ACK =? T_CTS) with false. change (T_ACK =? T_DATA) with false.
  change (T_ACK =? T_ACK) with true. cbv iota. unfold receive_ack. cbn [f_dst f_seq ctrl].
  change (1 =? c_addr wc) with true. cbv iota. change (s_ack (S1 k ite e t uid due)) with [(k, uid, q k)].
  cbn [find fst]. zb. cbv beta iota. rewrite seqa_eq.
  set (s0 := cancel uid _).
  assert (E0 : s0 = set_timers [] (S1 k ite e t uid due)).
  { unfold s0, cancel. cbn [S1 s_timers filter tm_id]. zb. reflexivity. }
  rewrite E0. unfold send_data_done. cbn [find s_tx set_timers S1 t_pkt]. rewrite !q_seq.
  change (f_seq p1) with 2. change (f_dst p1) with 3. change (f_dst (q k)) with 2. change (f_dst (q (k + 1))) with 2.
  change (3 =? 2) with false. change (2 =? 2) with true. zb. cbv beta iota delta [andb].
  cbn [filter t_pkt fold_left map]. rewrite !q_seq. change (f_seq p1) with 2. zb. cbn [negb]. cbn [fold_left t_pkt map].
  unfold remove_pkt. cbn [filter s_queue set_timers S1]. change (f_body p1) with 1.
  change (f_body (q k)) with (k - 1). change (f_body (q (k + 1))) with (k + 1 - 1). zb. cbn [negb fst snd app].
  cbn [set_ack set_ite set_queue set_tx schedule set_timers set_uid s_seq s_queue s_tx s_cts s_ack s_data s_filter s_ite s_disc s_energy s_now s_timers s_uid s_ids S1 erase_first fst].
  zb. unfold S2.
  cbv [set_ack set_ite set_queue set_tx schedule set_timers set_uid s_seq s_queue s_tx s_cts s_ack s_data s_filter s_ite s_disc s_energy s_now s_timers s_uid s_ids S1 app].
  replace (t + 0) with t by lia. replace (uid + 2) with (uid + 1 + 1) by lia. reflexivity.
Qed.

Lemma ev5 k ite e t uid : 3 <= k < 65535 -> 202 <= e ->
  step wc (S2 k ite e t uid) (EvTimer 0 0) =
  (S (k + 1) (ite + 1) (e - 202) t (uid + 2) (t + 719200), [OBooked true 37 17; OSend (q (k + 1))]).
Proof.
  intros K E. cbn [step]. change (nth_error (s_timers (S2 k ite e t uid)) 0) with (Some (Timer (uid + 1) t (KCheck (q (k + 1))))).
  cbv beta iota. cbn [tm_kind fire]. unfold check_resources. change (f_dst (q (k + 1))) with 2.
  change (negb (2 =? bcast) && c_rts wc) with false. cbv iota.
  change (f_size (q (k + 1))) with 37. change (hdr_size T_ACK) with 17.
  rewrite booking_eq. cbv zeta. unfold book. cbn [s_energy set_timers S2].
  change (cost (c_energy wc) 37 17) with 202. zb. cbn [fst snd]. unfold send_data. change (f_dst (q (k + 1))) with 2.
  change (2 =? bcast) with false. cbv iota. cbn [fst snd].
  unfold S, S2, schedule. cbv [set_ack set_energy set_timers set_uid s_seq s_queue s_tx s_cts s_ack s_data s_filter s_ite s_disc s_energy s_now s_timers s_uid s_ids remove_nth app f_seq q].
  change (c_dur wc (f_size (Frame T_DATA 1 2 (k + 1) 37 (k + 1 - 1))) + c_dur wc (hdr_size T_ACK) + margin) with 719200.
  replace (k + 1 - 1) with k by lia. reflexivity.
Qed.

(** Packet [k + 1] is enqueued, [k] is acknowledged, [k + 1] is sent. *)
Definition body (k t : Z) : list event := [EvEnqueue 20 2; EvTick t; w_ackf 2 k; EvTimer 0 0].

Lemma body_ok k ite e t t' uid due air : 3 <= k < 65535 -> 202 <= e -> t <= t' <= due ->
  run wc (S k ite e t uid due) (body k t') =
    (S (k + 1) (ite + 1) (e - 202) t' (uid + 2) (t' + 719200),
     [OAccept (q (k + 1)); ORet true; ODone true (q k); OBooked true 37 17; OSend (q (k + 1))]) /\ 
  forall r, realistic wc (S k ite e t uid due) (q k :: air) (body k t' ++ r) =
            realistic wc (S (k + 1) (ite + 1) (e - 202) t' (uid + 2) (t' + 719200)) (q (k + 1) :: q k :: air) r.
Proof.
  intros K E T.
  assert (E2 : step wc (S1 k ite e t uid due) (EvTick t') = (S1 k ite e t' uid due, [])) by reflexivity.
  split.
  - unfold body. cbn [run]. rewrite ev1 by auto. rewrite E2, ev3 by auto. rewrite ev5 by auto. reflexivity.
  - intros r. unfold body. cbn [app realistic]. rewrite ev1 by auto. rewrite E2, ev3 by auto. rewrite ev5 by auto.
    cbn [sent flat_map rev app].
    assert (P : plausible wc (S1 k ite e t' uid due) (q k :: air) (w_ackf 2 k) = true).
    { unfold plausible, w_ackf. cbn [ctrl f_dst f_type f_src f_seq negb orb].
      change (1 =? c_addr wc) with true. cbn [negb].
      change (T_ACK =? T_CTS) with false. change (T_ACK =? T_ACK) with true. cbv iota. cbn [found].
      change (f_type (q k)) with T_DATA. change (f_dst (q k)) with 2. rewrite q_seq, !Z.eqb_refl. reflexivity. }
    rewrite P. cbn [timely plausible S S1 S2 s_now s_timers forallb tm_due tm_id nth_error negb andb orb].
    unfold S1, S2. cbn [s_now s_timers forallb tm_due tm_id nth_error]. change (0 <? rng_m) with true. change (0 <=? 0) with true.
    zb. reflexivity.
Qed.

Fixpoint loop (n : nat) (k t : Z) : list event :=
  match n with O => [] | Datatypes.S n => body k t ++ loop n (k + 1) (t + 50000) end.

Lemma loop_ok n : forall k ite e t t' uid due air, 3 <= k -> k + Z.of_nat n <= 65535 -> 202 * Z.of_nat n <= e ->
  t <= t' <= due -> (0 < n)%nat ->
  exists air' o, run wc (S k ite e t uid due) (loop n k t') =
    (S (k + Z.of_nat n) (ite + Z.of_nat n) (e - 202 * Z.of_nat n) (t' + 50000 * (Z.of_nat n - 1)) (uid + 2 * Z.of_nat n) (t' + 50000 * (Z.of_nat n - 1) + 719200), o) /\ 
  (forall f, In (OSend f) o -> exists j, k < j <= k + Z.of_nat n /\ f = q j) /\ 
  forall r, realistic wc (S k ite e t uid due) (q k :: air) (loop n k t' ++ r) =
            realistic wc (S (k + Z.of_nat n) (ite + Z.of_nat n) (e - 202 * Z.of_nat n) (t' + 50000 * (Z.of_nat n - 1)) (uid + 2 * Z.of_nat n) (t' + 50000 * (Z.of_nat n - 1) + 719200))
              (q (k + Z.of_nat n) :: air') r.
Proof.
  induction n as [|n IH]; intros k ite e t t' uid due air K N E T P; [lia|].
  destruct (body_ok k ite e t t' uid due air ltac:(lia) ltac:(lia) T) as [B1 B2].
  destruct n as [|n].
  - exists (q k :: air). eexists. change (loop 1 k t') with (body k t' ++ []). rewrite app_nil_r.
    rewrite B1. split; [|split].
    + replace (Z.of_nat 1) with 1 by reflexivity.
      replace (t' + 50000 * (1 - 1)) with t' by lia. replace (202 * 1) with 202 by reflexivity. replace (2 * 1) with 2 by reflexivity. reflexivity.
    + intros f F. exists (k + 1). split; [lia|]. cbn in F. intuition congruence.
    + intros r. rewrite B2. replace (Z.of_nat 1) with 1 by reflexivity.
      replace (t' + 50000 * (1 - 1)) with t' by lia. replace (202 * 1) with 202 by reflexivity. replace (2 * 1) with 2 by reflexivity. reflexivity.
  - destruct (IH (k + 1) (ite + 1) (e - 202) t' (t' + 50000) (uid + 2) (t' + 719200) (q k :: air)
      ltac:(lia) ltac:(lia) ltac:(lia) ltac:(lia) ltac:(lia)) as [air' [o [I1 [I2 I3]]]].
    set (m := Datatypes.S n) in *.
    assert (Em : Z.of_nat (Datatypes.S m) = Z.of_nat m + 1) by lia. rewrite Em.
    replace (k + (Z.of_nat m + 1)) with (k + 1 + Z.of_nat m) by lia.
    replace (uid + 2 * (Z.of_nat m + 1)) with (uid + 2 + 2 * Z.of_nat m) by lia.
    replace (ite + (Z.of_nat m + 1)) with (ite + 1 + Z.of_nat m) by lia.
    replace (e - 202 * (Z.of_nat m + 1)) with (e - 202 - 202 * Z.of_nat m) by lia.
    replace (t' + 50000 * (Z.of_nat m + 1 - 1)) with (t' + 50000 + 50000 * (Z.of_nat m - 1)) by lia.
    exists air'. eexists. change (loop (Datatypes.S m) k t') with (body k t' ++ loop m (k + 1) (t' + 50000)).
    split; [|split].
    + rewrite run_app, B1. cbn [fst snd]. rewrite I1. cbn [fst snd]. reflexivity.
    + intros f F. apply in_app_or in F. destruct F as [F|F].
      * exists (k + 1). split; [lia|]. cbn in F. intuition congruence.
      * destruct (I2 f F) as [j [J ->]]. exists j. split; [lia|reflexivity].
    + intros r. rewrite <- app_assoc, B2. apply I3.
Qed.

(** The beginning: [p1] gets stuck, packet 3 is sent. *)
Definition start : list event :=
  [EvEnqueue 20 2; EvEnqueue 20 3; EvEnqueue 20 2; w_ackf 2 1; EvTimer 1 0; EvTick 719200; EvTimer 0 0].
(** The end: 65535 is acknowledged, numbers 0, 1 and 2 are queued; the first of these makes the
    MAC send [p1], which is acknowledged. *)
Definition finish : list event :=
  [w_ackf 2 65535; EvEnqueue 20 2; EvEnqueue 20 2; EvEnqueue 20 2; w_ackf 3 2].
Definition victim : frame := Frame T_DATA 1 2 2 37 65537.
Definition turns : nat := Z.to_nat 65532.
Definition wrap_run : list event := start ++ loop turns 3 719200 ++ finish.

Lemma turns_z : Z.of_nat turns = 65532.
Proof. unfold turns. apply Z2Nat.id. discriminate. Qed.

Lemma start_ok : run wc (init 100000000) start =
  (S 3 1 99999412 719200 3 719200, snd (run wc (init 100000000) start)) /\ 
  (forall f, In (OSend f) (snd (run wc (init 100000000) start)) -> f_type f = T_DATA /\ f_body f < 65537) /\ 
  forall r, realistic wc (init 100000000) [] (start ++ r) =
            realistic wc (S 3 1 99999412 719200 3 719200) (q 3 :: [q 1; q 1]) r.
Proof.
  split; [vm_compute; reflexivity|]. split.
  - intros f F. vm_compute in F. intuition (try discriminate); match goal with H : OSend _ = _ |- _ => injection H as <-; split; reflexivity end.
  - intros r. reflexivity.
Qed.

Definition last_state : state := S 65535 65533 86761948 3277269200 131067 3277988400.

Lemma finish_ok air :
  In (ODone true victim) (snd (run wc last_state finish)) /\
  (forall f, In (OSend f) (snd (run wc last_state finish)) -> f_type f = T_DATA /\ f_body f < 65537) /\
  realistic wc last_state (q 65535 :: air) finish = true.
Proof.
  split; [vm_compute; tauto|]. split; [|vm_compute; reflexivity].
  intros f F. vm_compute in F. intuition (try discriminate);
    match goal with H : OSend _ = _ |- _ => injection H as <-; split; reflexivity end.
Qed.

Lemma last_eq ite e t uid due : ite = 65533 -> e = 86761948 -> t = 3277269200 -> uid = 131067 -> due = 3277988400 ->
  S 65535 ite e t uid due = last_state.
Proof. intros -> -> -> -> ->. reflexivity. Qed.

Lemma wrap_n n e0 (i : state) : e0 = 100000000 -> i = init e0 -> Z.of_nat n = 65532 ->
  let l := start ++ loop n 3 719200 ++ finish in
  realistic wc i [] l = true /\ In (ODone true victim) (snd (run wc i l)) /\
  forall f, In (OSend f) (snd (run wc i l)) -> f_type f = T_DATA /\ f_body f < 65537.
Proof.
  destruct start_ok as [A1 [A2 A3]]. intros E0 E N. subst e0. rewrite <- E in A1, A2, A3. clear E.
  destruct (loop_ok n 3 1 99999412 719200 719200 3 719200 [q 1; q 1] ltac:(lia) ltac:(lia) ltac:(lia) ltac:(lia) ltac:(lia))
    as [air [o [B1 [B2 B3]]]].
  destruct (finish_ok air) as [C1 [C2 C3]].
  replace (3 + Z.of_nat n) with 65535 in * by lia.
  rewrite last_eq in B1, B3 by lia. revert C1 C2 C3 B1 B3. generalize last_state. intros s C1 C2 C3 B1 B3. cbv zeta.
  assert (R : snd (run wc i (start ++ loop n 3 719200 ++ finish)) = snd (run wc i start) ++ o ++ snd (run wc s finish)).
  { rewrite run_app, A1. cbn [fst snd]. rewrite run_app, B1. reflexivity. }
  rewrite R. split; [|split].
  - rewrite A3, B3. exact C3.
  - rewrite !in_app_iff. right. right. exact C1.
  - intros f F. rewrite !in_app_iff in F. destruct F as [F|[F|F]]; [exact (A2 f F)| |exact (C2 f F)].
    destruct (B2 f F) as [j [J ->]]. split; [reflexivity|]. cbn [q f_body]. lia.
Qed.

Lemma wrap_run_ok :
  realistic wc (init 100000000) [] wrap_run = true /\
  In (ODone true victim) (snd (run wc (init 100000000) wrap_run)) /\
  forall f, In (OSend f) (snd (run wc (init 100000000) wrap_run)) -> f_type f = T_DATA /\ f_body f < 65537.
Proof.
  exact (wrap_n turns _ _ eq_refl eq_refl turns_z).
Qed.

Lemma not_victim f : f_type f = T_DATA /\ f_body f < 65537 -> ~ concerns victim f.
Proof.
  intros [T B] [->|[X _]]; [discriminate|]. rewrite T in X. discriminate.
Qed.

Lemma wrap_witness : exists c e0 l p, config_ok c /\ realistic c (init e0) [] l = true /\
  In (ODone true p) (snd (run c (init e0) l)) /\
  forall f, In (OSend f) (snd (run c (init e0) l)) -> ~ concerns p f.
Proof.
  assert (C : config_ok wc) by (unfold config_ok, wc; cbn; lia).
  destruct wrap_run_ok as [R [D S]].
  exact (ex_intro _ wc (ex_intro _ _ (ex_intro _ wrap_run (ex_intro _ victim
    (conj C (conj R (conj D (fun f F => not_victim f (S f F))))))))).
Qed.
