(** Properties C116: access point and clients with PHYs and channel. *)
From Coq Require Import ZArith List Lia Bool Permutation.
From Verif Require Import Base HeaderModel SeqModel EnergyModel MacModel ApModel ApSpec ApScript ApProps ApProps2 ClientModel ClientSpec ApNet ApNetScript
  MacroPhyModel ChannelModel MStackModel MStackProofs MStackAp.
Import ListNotations.
Open Scope Z_scope.

(** ** A scheduler for examples: the earliest event runs next; every delay is [d] *)
Fixpoint qindex {X} (g : X -> bool) (l : list X) : option nat :=
  match l with [] => None | x :: r => if g x then Some 0%nat else option_map S (qindex g r) end.
Fixpoint qfirst {X Y} (g : X -> option Y) (l : list X) : option Y :=
  match l with [] => None | x :: r => match g x with Some y => Some y | None => qfirst g r end end.
Section Sched.
Context {Net X F : Type} {O : Type} (c : mconf Net X F O) (due : Net -> list Z) (timer : Net -> Z -> addr -> option X) (o : O) (d : Z).
Definition qnext (s : mstack Net F) : option (qev (X := X) (O := O)) :=
  let now := c_now (q_chan s) in
  match qindex (fun e => fst e =? now) (c_pend (q_chan s)) with
  | Some i => Some (QChan i o (fun _ => d) 0)
  | None =>
    match qfirst (fun a => option_map (QOwn a o (fun _ => d)) (timer (q_net s) now a)) (q_nodes c) with
    | Some e => Some e
    | None => match map fst (c_pend (q_chan s)) ++ due (q_net s) with [] => None | t :: r => Some (QTick (fold_left Z.min r t)) end
    end
  end.
Fixpoint qscript (fuel : nat) (s : mstack Net F) : list (qev (X := X) (O := O)) :=
  match fuel with
  | 0%nat => []
  | S n => match qnext s with Some e => e :: qscript n (qstep c o s e) | None => [] end
  end.
End Sched.

Definition cell_timer (c : acfg) (N : anet) (now : Z) (a : addr) : option xev :=
  option_map XTimer
    (if a =? ac_addr c then qindex (fun t => pt_due t =? now) (p_timers (an_st N))
     else qindex (fun t => lt_due t =? now) (l_timers (ln_st (an_cl N a)))).
(** The default rates. *)
Definition cdur (f : kframe) (m : Z) : Z := (kf_size f + 5) * 8 * 10 ^ 15 / ap_rate m.
Definition cc : mconf anet xev kframe lenv := cell_conf ap3 cfg1 cdur (fun _ _ => true) (fun _ _ _ => true) [0; 1].
Definition ce : lenv := Lenv 1 1 0.
Definition cstart (q0 : addr -> Z) : list (qev (X := xev) (O := lenv)) :=
  [QOwn 1 ce (fun _ => air) (XEnq 15000 0); QOwn 1 ce (fun _ => air) (XEnq 15000 0)].
Definition crun (q0 : addr -> Z) (n : nat) := 
  let s := qrun cc ce (qinit cc (cell0 ap3 q0)) (cstart q0) in
  cstart q0 ++ qscript cc (cell_due [1]) (cell_timer ap3) ce air n s.
Definition cend q0 n := qrun cc ce (qinit cc (cell0 ap3 q0)) (crun q0 n).

(** * C116: access point and clients *)

(** As in C101, but the nodes receive what their PHYs received from the channel: in real time, with at most 65536 packets for each
    client, a packet that a client reports as sent was handed up by the access point. *)
Definition C116_full := forall c cfg q0 dur sense good nodes o0 l a p, (forall x, lc_addr (cfg x) = x) -> (forall x, 0 <= q0 x < 65536) ->
  let K := cell_conf c cfg dur sense good nodes in
  qtimely_run K (cell_due nodes) (cell_own c) o0 (qinit K (cell0 c q0)) l = true ->
  let N := q_net (qrun K o0 (qinit K (cell0 c q0)) l) in
  (forall x, In x nodes -> Z.of_nat (length (lacc_of (ln_out (an_cl N x)))) <= 65536) ->
  In p (lrep_of true (ln_out (an_cl N a))) -> In p (kup_of (an_out N)).
(** The counter of the client starts at 65534; the second packet gets the number 0. *)
Lemma C116_at : C116_full -> forall l p, qtimely_run cc (cell_due [0; 1]) (cell_own ap3) ce (qinit cc (cell0 ap3 cell_q0)) l = true ->
  (forall x, In x [0; 1] -> Z.of_nat (length (lacc_of (ln_out (an_cl (q_net (qrun cc ce (qinit cc (cell0 ap3 cell_q0)) l)) x)))) <= 65536) ->
  In p (lrep_of true (ln_out (an_cl (q_net (qrun cc ce (qinit cc (cell0 ap3 cell_q0)) l)) 1))) ->
  In p (kup_of (an_out (q_net (qrun cc ce (qinit cc (cell0 ap3 cell_q0)) l)))).
Proof.
  intros H l p. exact (H ap3 cfg1 cell_q0 cdur (fun _ _ => true) (fun _ _ _ => true) [0; 1] ce l 1 p (fun _ => eq_refl) ltac:(intros x; unfold cell_q0; destruct (x =? 1); lia)).
Qed.
Theorem C116_cell_refuted : ~ C116_full.
Proof.
  intros H. set (p := Kframe T_DATA 1 0 0 0 0 0 15017 1). assert (D : cend cell_q0 100 = qrun cc ce (qinit cc (cell0 ap3 cell_q0)) (crun cell_q0 100)) by reflexivity.
  assert (X : ~ In p (kup_of (an_out (q_net (cend cell_q0 100))))) by (apply not_existsb; vm_compute; reflexivity).
  apply X. rewrite D. apply (C116_at H); [vm_compute; reflexivity| |rewrite <- D; apply in_existsb; vm_compute; reflexivity].
  rewrite <- D. clear. assert (L0 : length (lacc_of (ln_out (an_cl (q_net (cend cell_q0 100)) 0))) = 0%nat) by (vm_compute; reflexivity).
  assert (L1 : length (lacc_of (ln_out (an_cl (q_net (cend cell_q0 100)) 1))) = 2%nat) by (vm_compute; reflexivity).
  intros x [<-|[<-|[]]]; [rewrite L0|rewrite L1]; clear; lia.
Qed.
Print Assumptions C116_cell_refuted.

(** Whatever the events, their order, propagation delays, received powers, carrier sense and SINR decisions and random draws are:
    no PHY refuses a packet, no list access in the channel is out of bounds, and every packet a PHY reports was sent ([q_bad]); a MAC waits for
    SendPacketDone exactly while its PHY transmits. As long as no counter wraps, what the access point hands up was accepted by
    the client of its source, and nothing is handed up twice. Without UseWhiteList, or if no answer to a CTA with flags 1 has the number of a packet of its client, also: a packet reported as sent was handed up, and one
    accepted was handed up, is reported as discarded, or is still held. *)
Theorem C116_cell_partial : forall c cfg q0 dur sense good nodes o0 l, (forall x, lc_addr (cfg x) = x) -> (forall x, 0 <= q0 x) ->
  let K := cell_conf c cfg dur sense good nodes in
  let s := qrun K o0 (qinit K (cell0 c q0)) l in let N := q_net s in
  q_bad s = false /\
  (p_air (an_st N) <> None <-> k_state (q_phy s (ac_addr c)) = KTx) /\
  (forall a, a <> ac_addr c -> (l_air (ln_st (an_cl N a)) <> None <-> k_state (q_phy s a) = KTx)) /\
  ((forall x, q0 x + Z.of_nat (length (lacc_of (ln_out (an_cl N x)))) < 65536) ->
   (forall f, In f (kup_of (an_out N)) -> In f (lacc_of (ln_out (an_cl N (kf_src f))))) /\ NoDup (kup_of (an_out N)) /\
   (ac_wl c = false \/ (forall a f p, In f (lsnd_of (ln_out (an_cl N a))) -> kf_type f = T_RTS -> kf_flags f = 1 ->
        In p (lacc_of (ln_out (an_cl N a))) -> kf_seq p <> kf_seq f) ->
     (forall a p, In p (lrep_of true (ln_out (an_cl N a))) -> In p (kup_of (an_out N))) /\
     (forall a p, In p (lacc_of (ln_out (an_cl N a))) ->
        In p (kup_of (an_out N)) \/ In p (lrep_of false (ln_out (an_cl N a))) \/ In p (map lr_pkt (l_rec (ln_st (an_cl N a))))))).
Proof.
  intros c cfg q0 dur sense good nodes o0 l AD U K s N. destruct (cell_run c cfg q0 dur sense good nodes o0 l) as [I A]. fold K in I, A. fold s in I, A.
  split; [apply (i_bad _ _ _ _ I)|].
  split. { specialize (A (ac_addr c)). unfold agree, cell_air in A. rewrite Z.eqb_refl in A. fold N in A. rewrite <- A. destruct (p_air (an_st N)); cbn [some_air]; split; intros; try discriminate; try reflexivity; congruence. }
  split. { intros a NE. specialize (A a). unfold agree, cell_air in A. apply Z.eqb_neq in NE. rewrite NE in A. fold N in A. rewrite <- A. destruct (l_air _); cbn [some_air]; split; intros; try discriminate; try reflexivity; congruence. }
  intros NW. pose proof (i_net _ _ _ _ I) as R. fold N in R. destruct (C102_genuine c cfg q0 N AD U R NW) as (G & D & _). split; [intros f F; apply (G f F)|]. split; auto.
  intros W. apply (C101_delivered_partial c cfg q0 N AD U W R NW).
Qed.
Print Assumptions C116_cell_partial.
(** Two exchanges in real time. *)
Example C116_example : let s := cend (fun _ => 0) 100 in
  qtimely_run cc (cell_due [0; 1]) (cell_own ap3) ce (qinit cc (cell0 ap3 (fun _ => 0))) (crun (fun _ => 0) 100) = true /\
  map kf_type (q_frames s) = [0; 1; 2; 4; 3; 0; 1; 2; 4; 3; 0] /\
  map kf_seq (lrep_of true (ln_out (an_cl (q_net s) 1))) = [1; 2] /\ map kf_seq (kup_of (an_out (q_net s))) = [1; 2].
Proof. vm_compute. auto. Qed.
