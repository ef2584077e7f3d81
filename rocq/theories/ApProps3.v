(** C101 with UseWhiteList. *)
From Coq Require Import ZArith List Lia Bool.
From Verif Require Import Base HeaderModel SeqModel EnergyModel MacModel ApModel ApSpec ApProofs ApInv ApScript ApProps
  ClientModel ClientSpec ClientAcct ClientScript ApNet ApNetScript ApProps2.
Import ListNotations.
Open Scope Z_scope.

(** The first part of C101_delivered_partial in real time, but for any access point. *)
Definition C101_white_full := forall c cfg q0 N a p, (forall x, lc_addr (cfg x) = x) -> (forall x, 0 <= q0 x) -> anreach intime ontime c cfg q0 N ->
  (forall x, q0 x + Z.of_nat (length (lacc_of (ln_out (an_cl N x)))) < 65536) ->
  In p (lrep_of true (ln_out (an_cl N a))) -> In p (kup_of (an_out N)).

(** An access point with UseWhiteList and three sectors, and a client 50 ns away, farther than PropDelay. The sequence number of the RTS by which it
    answers CTA with flags 1 is not initialised (thz-mac-macro-client.cc:342-350); here it is 2. *)
Definition apw : acfg := aex 3 120 true true.
Definition far : Z := 50 * nsec.
Definition two : lenv := Lenv 2 1 2.
Definition turns (n : nat) : list zcmd := concat (repeat [ZFire; ZIn 1189108 AETxDone] n).
Definition enlist : list zcmd := [ZInC 1 (far - 1189108) LERxStart; ZRxE two 1 0 1189108; ZFireC 1; ZInC 1 1243159 LETxDone].
(** An RTS arrives when the access point waits for those of the next sector. *)
Definition late : list zcmd := turns 1 ++ [ZIn 23855733 AERxStart; ZRx 1 1243159 (-30000)].
(** CTS, data and ACK. *)
Definition serve : list zcmd :=
  [ZFire; ZFire; ZIn 1297209 AETxDone; ZInC 1 (far - 1297209) LERxStart; ZRxC 1 0 1297209;
   ZFireC 1; ZIn far AERxStart; ZInC 1 (380882334 - far) LETxDone; ZRx 1 far (-30000);
   ZIn 1189108 AETxDone; ZFire; ZIn 1189108 AETxDone; ZInC 1 (far - 3378216) LERxStart; ZRxC 1 1 1189108; ZFireC 1; ZFireC 1].
(** The client answers in the last two sectors of the dummy cycles. The second answer arrives when the list of nodes is finished, and gets
    a CTS: the client sends its second packet, and the first one later. That is acknowledged, but taken for an old one. *)
Definition white_script : list zcmd :=
  [ZInC 1 0 (LEEnq 15000 0); ZInC 1 0 (LEEnq 15000 0)] ++ turns 9 ++ enlist ++ late ++
  [ZInC 1 23712000 LERxStart; ZRxE two 1 0 1189108; ZFireC 1; ZInC 1 1243159 LETxDone;
   ZFire; ZFire; ZIn 1189108 AETxDone; ZFire; ZIn 1189108 AETxDone; ZIn 21558524 AERxStart; ZRx 1 1243159 (-30000)] ++ serve ++
  [ZInC 1 (nsec - psec) LERxStart; ZRxC 1 0 1189108; ZFireC 1; ZInC 1 1243159 LETxDone] ++ late ++ serve.
Definition zero (a : addr) : Z := 0.
Theorem C101_white_refuted : ~ C101_white_full.
Proof.
  intros H. assert (T : z_ok [1] apw cfg1 zero white_script = true) by (vm_compute; reflexivity).
  set (p := Kframe T_DATA 1 0 1 0 0 0 15017 0).
  specialize (H apw cfg1 zero _ 1 p (fun _ => eq_refl) ltac:(intros x; unfold zero; lia) (z_reach _ _ _ _ _ T)).
  assert (L : length (lacc_of (ln_out (an_cl (z_net [1] apw cfg1 zero white_script) 1))) = 2%nat) by (vm_compute; reflexivity).
  assert (O : forall x, x <> 1 -> an_cl (z_net [1] apw cfg1 zero white_script) x = Lnode [] (linit (zero x)) []).
  { intros x X. apply z_idle. apply Z.eqb_neq in X. rewrite Z.eqb_sym in X. cbn [white_script turns enlist late serve repeat concat app forallb zuses]. rewrite X. reflexivity. }
  assert (X : ~ In p (kup_of (an_out (z_net [1] apw cfg1 zero white_script)))).
  { apply not_existsb. vm_compute. reflexivity. }
  apply X, H.
  - intros x. unfold zero at 1. destruct (Z.eq_dec x 1) as [->|NE]; [rewrite L; cbn; lia|rewrite O by auto; cbn; lia].
  - apply in_existsb. vm_compute. reflexivity.
Qed.
Print Assumptions C101_white_refuted.
Example C101_white_example : let N := z_net [1] apw cfg1 zero white_script in
  map kf_seq (lacc_of (ln_out (an_cl N 1))) = [1; 2] /\ map kf_seq (lrep_of true (ln_out (an_cl N 1))) = [2; 1] /\ map kf_seq (kup_of (an_out N)) = [2].
Proof. vm_compute. auto. Qed.
