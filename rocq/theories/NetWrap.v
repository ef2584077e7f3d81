(** A run of two nano nodes past the wrap-around of the sequence number (C45). *)
From Coq Require Import ZArith List Lia Bool.
From Verif Require Import Base HeaderModel SeqModel EnergyModel NanoModel NanoProofs NanoSpec NanoWrap NetModel NetProofs.
Import ListNotations.
Open Scope Z_scope.

Definition nc (a : addr) : config := Cfg a false 1000 5 5 8000000000 (fun n => n * 800) default_eparams.
Definition ne (_ : addr) : Z := 100000000.

(** Node 1 has completed [k] packets; its next number is [k + 1] modulo 2^16. *)
Definition idle1 (k t : Z) : state := St (wrap16 k) [] [] [] [] [] [] k 0 (100000000 - 202 * k) t [] k k.
Definition pk (k : Z) : frame := Frame T_DATA 1 2 (wrap16 (k + 1)) 37 k.
Definition busy1 (k t0 t : Z) : state :=
  St (wrap16 (k + 1)) [pk k] [Tx (pk k) 0] [] [(wrap16 (k + 1), k, pk k)] [] [] k 0 (100000000 - 202 * k - 202) t
     [Timer k (t0 + 719200) (KAck (wrap16 (k + 1)))] (k + 1) (k + 1).
Definition idle2 (F : seqlist) (e t : Z) : state := St 0 [] [] [] [] [] F 0 0 e t [] 0 0.
Definition cost2 : Z := cost default_eparams 18 20.

Lemma r1 k t : 0 <= k <= 65535 ->
  step (nc 1) (idle1 k t) (EvEnqueue 20 2) =
  (busy1 k t t, [OAccept (pk k); OBooked true 37 17; OSend (pk k); ORet true]).
Proof.
  intros K. cbn [step]. unfold enqueue. change (20 =? 64) with false. cbv iota.
  change (c_limit (nc 1) <=? Z.of_nat (length (s_queue (idle1 k t)))) with false. cbv iota.
  cbn [s_seq s_ids s_tx idle1 existsb]. cbv zeta. rewrite wrap16_succ.
  change (Frame T_DATA (c_addr (nc 1)) 2 (wrap16 (k + 1)) (20 + hdr_size T_DATA) k) with (pk k).
  unfold seqa at 1, emit at 1. cbv beta iota. unfold seqa, tx_first, emit.
  cbn [s_queue idle1 set_tx set_ids set_queue set_seq app]. unfold check_resources.
  change (negb (f_dst (pk k) =? bcast) && c_rts (nc 1)) with false. cbv iota.
  change (f_size (pk k)) with 37. change (hdr_size T_ACK) with 17.
  rewrite booking_eq. cbv zeta. unfold book. cbn [s_energy idle1 set_tx set_ids set_queue set_seq].
  change (cost (c_energy (nc 1)) 37 17) with 202.
  replace (100000000 - 202 * k - 202 >=? 0) with true by (symmetry; apply Z.geb_le; lia).
  cbn [fst snd]. unfold send_data. change (f_dst (pk k) =? bcast) with false. cbv iota.
  cbn [fst snd app]. reflexivity.
Qed.

Lemma r2 F k e t : cost2 <= e -> 0 <= k ->
  step (nc 2) (idle2 F e t) (EvRecv (pk k) true) =
  (idle2 (snd (is_new F 1 (wrap16 (k + 1)))) (e - cost2) t,
   OBooked true 18 20 :: OSend (ctrl T_ACK 2 1 (wrap16 (k + 1))) ::
   if fst (is_new F 1 (wrap16 (k + 1))) then [OUp (pk k)] else []).
Proof.
  intros E K. cbn [step]. unfold receive. cbn [negb f_type pk].
  change (T_DATA =? T_RTS) with false. change (T_DATA =? T_CTS) with false. change (T_DATA =? T_DATA) with true. cbv iota.
  unfold receive_data. change (f_dst (pk k) =? bcast) with false. change (f_dst (pk k) =? c_addr (nc 2)) with true.
  cbn [negb]. change (c_rts (nc 2)) with false. cbv iota.
  change (hdr_size T_RTS) with 18. change (f_size (pk k) - hdr_size T_DATA) with 20.
  rewrite booking_eq. cbv zeta. unfold book. cbn [s_energy idle2].
  change (cost (c_energy (nc 2)) 18 20) with cost2.
  replace (e - cost2 >=? 0) with true by (symmetry; apply Z.geb_le; lia).
  cbn [fst snd]. rewrite seqa_eq. cbn [find s_data set_energy idle2 fst snd app].
  rewrite seqa_eq. cbn [fst snd send_ack emit app]. unfold forward_new.
  cbn [s_filter set_energy f_src f_seq pk]. change (s_filter (idle2 F e t)) with F.
  destruct (is_new F 1 (wrap16 (k + 1))) as [b l]. cbn [fst snd]. reflexivity.
Qed.

Lemma r3 k t0 t : 0 <= k ->
  step (nc 1) (busy1 k t0 t) (EvRecv (ctrl T_ACK 2 1 (wrap16 (k + 1))) true) =
  (idle1 (k + 1) t, [ODone true (pk k)]).
Proof.
  intros K. cbn [step]. unfold receive. cbn [negb ctrl f_type].
  change (T_ACK =? T_RTS) with false. change (T_ACK =? T_CTS) with false. change (T_ACK =? T_DATA) with false.
  change (T_ACK =? T_ACK) with true. cbv iota. unfold receive_ack. cbn [f_dst f_seq ctrl].
  change (1 =? c_addr (nc 1)) with true. cbv iota. cbn [s_ack busy1 find fst]. rewrite Z.eqb_refl. cbv beta iota.
  rewrite seqa_eq.
  set (s0 := cancel k _).
  assert (E0 : s0 = set_timers [] (busy1 k t0 t)).
  { unfold s0, cancel. cbn [busy1 s_timers filter tm_id]. rewrite Z.eqb_refl. reflexivity. }
  rewrite E0. unfold send_data_done. cbn [find s_tx set_timers busy1 t_pkt f_seq f_dst pk].
  replace (wrap16 (k + 1) >? wrap16 (k + 1)) with false by (symmetry; rewrite Z.gtb_ltb; apply Z.ltb_irrefl).
  cbn [andb filter t_pkt f_seq pk]. rewrite Z.eqb_refl. cbn [negb fold_left t_pkt map].
  unfold remove_pkt. cbn [s_queue busy1 set_timers filter f_body pk]. rewrite Z.eqb_refl. cbn [negb fst snd app].
  cbv [set_ack set_ite set_queue set_tx set_timers busy1 s_seq s_queue s_tx s_cts s_ack s_data s_filter s_ite s_disc s_energy s_now s_timers s_uid s_ids].
  cbn [erase_first fst length]. rewrite Z.eqb_refl. unfold idle1.
  replace (100000000 - 202 * (k + 1)) with (100000000 - 202 * k - 202) by lia. reflexivity.
Qed.

(** After [k] packets, at time [t]. *)
Record at_rest (n : net) (k t : Z) (F : seqlist) : Prop := {
  ar_real : net_real nc ne n;
  ar_1 : fst (n 1) = idle1 k t;
  ar_2 : fst (n 2) = idle2 F (100000000 - cost2 * k) t;
  ar_o : forall a, a <> 1 -> a <> 2 -> s_timers (fst (n a)) = [] /\ s_now (fst (n a)) = t;
  ar_up : forall f, In f (handed_up (snd (n 2))) -> f_body f < k
}.

Lemma tick (n : net) t t' : net_real nc ne n -> t <= t' ->
  (forall a, s_now (fst (n a)) = t /\ forall x, In x (s_timers (fst (n a))) -> t' <= tm_due x) ->
  net_real nc ne (fun a => (set_now t' (fst (n a)), snd (n a))).
Proof.
  intros R T H. apply NTtick; auto. intros a. destruct (H a) as [H1 H2]. cbn [timely]. rewrite H1.
  apply andb_true_intro. split; [apply Z.leb_le; lia|]. apply forallb_forall. intros x X. apply Z.leb_le. auto.
Qed.

Lemma round n k t F : at_rest n k t F -> 0 <= k <= 65535 ->
  exists n', at_rest n' (k + 1) (t + 200000) (snd (is_new F 1 (wrap16 (k + 1)))) /\
    In (ODone true (pk k)) (snd (n' 1)) /\
    (fst (is_new F 1 (wrap16 (k + 1))) = false ->
     forall f, In f (handed_up (snd (n' 2))) -> f_body f < k).
Proof.
  intros [R A1 A2 AO AU] K. assert (CB : cost2 = 110) by reflexivity.
  (* enqueue *)
  set (n1 := net_step nc n 1 (EvEnqueue 20 2)).
  assert (R1 : net_real nc ne n1) by (apply NTev; auto; try discriminate; exact I).
  assert (E1 : n1 1 = (busy1 k t t, snd (n 1) ++ [OAccept (pk k); OBooked true 37 17; OSend (pk k); ORet true])).
  { unfold n1, net_step. rewrite Z.eqb_refl, A1, r1 by lia. reflexivity. }
  assert (E1' : forall b, b <> 1 -> n1 b = n b).
  { intros b B. unfold n1, net_step. rewrite (proj2 (Z.eqb_neq b 1) B). reflexivity. }
  (* half way *)
  set (n2 := fun a => (set_now (t + 100000) (fst (n1 a)), snd (n1 a))).
  assert (R2 : net_real nc ne n2).
  { apply (tick n1 t); auto; [lia|]. intros a. destruct (Z.eq_dec a 1) as [->|B].
    - rewrite E1. cbn. split; auto. intros x [<-|[]]. cbn. lia.
    - rewrite E1' by auto. destruct (Z.eq_dec a 2) as [->|D].
      + rewrite A2. cbn. split; auto. intros x [].
      + destruct (AO a B D) as [-> ->]. split; auto. intros x []. }
  (* node 2 receives *)
  set (n3 := net_step nc n2 2 (EvRecv (pk k) true)).
  assert (R3 : net_real nc ne n3).
  { apply NTev; auto; try discriminate. exists 1. unfold n2. cbn [snd]. rewrite E1. cbn [snd].
    apply in_or_app. right. right. right. left. reflexivity. }
  assert (E3 : n3 2 = (idle2 (snd (is_new F 1 (wrap16 (k + 1)))) (100000000 - cost2 * k - cost2) (t + 100000),
    snd (n 2) ++ OBooked true 18 20 :: OSend (ctrl T_ACK 2 1 (wrap16 (k + 1))) ::
      if fst (is_new F 1 (wrap16 (k + 1))) then [OUp (pk k)] else [])).
  { unfold n3, net_step. rewrite Z.eqb_refl. unfold n2. rewrite E1' by lia. cbn [fst snd]. rewrite A2.
    change (set_now (t + 100000) (idle2 F (100000000 - cost2 * k) t)) with (idle2 F (100000000 - cost2 * k) (t + 100000)).
    rewrite r2 by lia. reflexivity. }
  assert (E3' : forall b, b <> 2 -> n3 b = n2 b).
  { intros b B. unfold n3, net_step. rewrite (proj2 (Z.eqb_neq b 2) B). reflexivity. }
  (* and back *)
  set (n4 := fun a => (set_now (t + 200000) (fst (n3 a)), snd (n3 a))).
  assert (R4 : net_real nc ne n4).
  { apply (tick n3 (t + 100000)); auto; [lia|]. intros a. destruct (Z.eq_dec a 2) as [->|B].
    - rewrite E3. cbn. split; auto. intros x [].
    - rewrite E3' by auto. unfold n2. cbn [fst]. destruct (Z.eq_dec a 1) as [->|D].
      + rewrite E1. cbn. split; auto. intros x [<-|[]]. cbn. lia.
      + rewrite E1' by auto. destruct (AO a D B) as [X Y]. cbn. rewrite X. split; auto. intros x []. }
  set (n5 := net_step nc n4 1 (EvRecv (ctrl T_ACK 2 1 (wrap16 (k + 1))) true)).
  assert (R5 : net_real nc ne n5).
  { apply NTev; auto; try discriminate. exists 2. unfold n4. cbn [snd]. rewrite E3. cbn [snd].
    apply in_or_app. right. right. left. reflexivity. }
  assert (E5 : n5 1 = (idle1 (k + 1) (t + 200000),
     (snd (n 1) ++ [OAccept (pk k); OBooked true 37 17; OSend (pk k); ORet true]) ++ [ODone true (pk k)])).
  { unfold n5, net_step. rewrite Z.eqb_refl. unfold n4. rewrite E3' by lia. unfold n2. rewrite E1. cbn [fst snd].
    change (set_now (t + 200000) (set_now (t + 100000) (busy1 k t t))) with (busy1 k t (t + 200000)).
    rewrite r3 by lia. reflexivity. }
  assert (E5' : forall b, b <> 1 -> n5 b = n4 b).
  { intros b B. unfold n5, net_step. rewrite (proj2 (Z.eqb_neq b 1) B). reflexivity. }
  assert (UP : handed_up (snd (n5 2)) = handed_up (snd (n 2)) ++ (if fst (is_new F 1 (wrap16 (k + 1))) then [pk k] else [])).
  { rewrite E5' by lia. unfold n4. cbn [snd]. rewrite E3. cbn [snd]. rewrite handed_app. f_equal.
    destruct (fst (is_new _ _ _)); reflexivity. }
  exists n5. split; [constructor; auto|split].
  - rewrite E5. reflexivity.
  - rewrite E5' by lia. unfold n4. cbn [fst]. rewrite E3. cbn [fst].
    replace (100000000 - cost2 * (k + 1)) with (100000000 - cost2 * k - cost2) by lia. reflexivity.
  - intros a B D. rewrite E5' by auto. unfold n4. cbn [fst]. rewrite E3' by auto. unfold n2. cbn [fst].
    rewrite E1' by auto. destruct (AO a B D) as [X Y]. cbn. auto.
  - intros f U. rewrite UP in U. apply in_app_or in U. destruct U as [U|U].
    + specialize (AU f U). lia.
    + destruct (fst (is_new _ _ _)) in U; [|destruct U]. destruct U as [<-|[]]. cbn. lia.
  - rewrite E5. cbn [snd]. apply in_or_app. right. left. reflexivity.
  - intros N f U. rewrite UP, N, app_nil_r in U. auto.
Qed.

Lemma rounds m : (Z.of_nat m <= 65535) ->
  exists n t, at_rest n (Z.of_nat m) t (if Z.of_nat m =? 0 then [] else [(1, Z.of_nat m)]).
Proof.
  induction m as [|m IH]; intros M.
  - exists (fun a => (init (ne a), [])), 0. constructor; auto; [apply NTinit|intros f []].
  - destruct IH as [n [t A]]; [lia|].
    destruct (round n _ t _ A ltac:(lia)) as [n' [A' _]].
    exists n', (t + 200000).
    assert (EM : Z.of_nat (Datatypes.S m) = Z.of_nat m + 1) by lia. rewrite EM.
    replace (Z.of_nat m + 1 =? 0) with false by (symmetry; apply Z.eqb_neq; lia).
    replace (snd (is_new _ 1 (wrap16 (Z.of_nat m + 1)))) with [(1, Z.of_nat m + 1)] in A'; auto.
    unfold wrap16. rewrite Z.mod_small by (change (2 ^ 16) with 65536; lia).
    destruct (Z.eqb_spec (Z.of_nat m) 0) as [E|E]; [reflexivity|].
    cbn [is_new]. rewrite Z.eqb_refl. destruct (Z.gtb_spec (Z.of_nat m + 1) (Z.of_nat m)); [reflexivity|lia].
Qed.

Lemma lost_success : exists n p, net_real nc ne n /\ In (ODone true p) (snd (n 1)) /\ f_dst p = 2 /\
  ~ In p (handed_up (snd (n 2))).
Proof.
  assert (X : exists m, Z.of_nat m = 65535) by (exists (Z.to_nat 65535); apply Z2Nat.id; discriminate).
  destruct X as [m M]. destruct (rounds m ltac:(lia)) as [n [t A]]. rewrite M in A.
  destruct (round n 65535 t _ A ltac:(lia)) as [n' [A' [D U]]].
  exists n', (pk 65535). split; [apply A'|]. split; [exact D|]. split; [reflexivity|].
  intros H. specialize (U eq_refl _ H). cbn in U. lia.
Qed.
