(** Scripts for concrete executions of a client in real time. *)
From Coq Require Import ZArith List Lia Bool.
From Verif Require Import Base HeaderModel SeqModel EnergyModel MacModel ApModel ClientModel ClientSpec.
Import ListNotations.
Open Scope Z_scope.

(** [XFire]: the next pending event runs at its time. [XIn d ev]: after time [d] event [ev] happens. Draws
    are those of [e]. *)
Inductive xcmd := XFire (e : lenv) | XIn (d : Z) (e : lenv) (ev : levent).

Fixpoint lsoonest (i : nat) (l : list ltimer) : option (nat * ltimer) :=
  match l with
  | [] => None
  | t :: r =>
    match lsoonest (S i) r with
    | Some (j, u) => if lt_due u <? lt_due t then Some (j, u) else Some (i, t)
    | None => Some (i, t)
    end
  end.
Definition xexpand1 (s : lst) (x : xcmd) : list (lenv * levent) :=
  match x with
  | XFire e => match lsoonest 0 (l_timers s) with Some (i, t) => [(e, LETick (lt_due t)); (e, LETimer i)] | None => [] end
  | XIn d e ev => [(e, LETick (l_now s + d)); (e, ev)]
  end.
Fixpoint xexpand (c : lcfg) (s : lst) (l : list xcmd) : list (lenv * levent) :=
  match l with
  | [] => []
  | x :: r => let e := xexpand1 s x in e ++ xexpand c (fst (lrun c s e)) r
  end.
Fixpoint ltimely_run (c : lcfg) (s : lst) (l : list (lenv * levent)) : bool :=
  match l with
  | [] => true
  | (e, ev) :: r => lvalid s ev && ltimely s ev && ltimely_run c (fst (lstep c e s ev)) r
  end.
Definition x_run (c : lcfg) (q0 : Z) (l : list xcmd) : list (lenv * levent) := xexpand c (linit q0) l.
Definition x_st (c : lcfg) (q0 : Z) (l : list xcmd) : lst := fst (lrun c (linit q0) (x_run c q0 l)).
Definition x_out (c : lcfg) (q0 : Z) (l : list xcmd) : list lout := snd (lrun c (linit q0) (x_run c q0 l)).
Definition x_ok (c : lcfg) (q0 : Z) (l : list xcmd) : bool := ltimely_run c (linit q0) (x_run c q0 l).

Lemma ontime_run c q0 l : forall h s o, lreach ontime c q0 h s o -> ltimely_run c s l = true ->
  lreach ontime c q0 (h ++ l) (fst (lrun c s l)) (o ++ snd (lrun c s l)).
Proof.
  induction l as [|[e ev] l IH]; intros h s o R T.
  - cbn. rewrite !app_nil_r. auto.
  - cbn [ltimely_run] in T. apply andb_true_iff in T. destruct T as [T1 T2]. apply andb_true_iff in T1. destruct T1 as [T0 T1].
    specialize (IH _ _ _ (LR1 ontime c q0 h s o e ev R T0 T1) T2). cbn [lrun].
    destruct (lstep c e s ev) as [s1 o1] eqn:E. cbn [fst snd] in IH. destruct (lrun c s1 l) as [s2 o2]. cbn [fst snd] in *.
    rewrite <- !app_assoc in IH. exact IH.
Qed.
Lemma x_reach c q0 l : x_ok c q0 l = true -> lreach ontime c q0 (x_run c q0 l) (x_st c q0 l) (x_out c q0 l).
Proof. intros T. apply (ontime_run c q0 _ _ _ _ (LR0 ontime c q0) T). Qed.
Lemma lreach_weaken (P Q : lst -> levent -> Prop) c q0 h s o : (forall s ev, P s ev -> Q s ev) -> lreach P c q0 h s o -> lreach Q c q0 h s o.
Proof. intros W R. induction R; constructor; auto. Qed.

(** A client with address 1 of an access point with address 0. Default attributes: BoSlots 5, SlotTime 2 ns,
    PropDelay 3.333 ns, PacketSize 15000, RtsRetryLimit 7, DataRetryLimit 5. The node is 5 m from the origin. *)
Definition lex (ways rl dl : Z) : lcfg :=
  Lcfg 1 ways 5 (2 * nsec) 0 (3333 * psec) (15053 * 8 * 10 ^ 15 / 148010000000)
    (fun ty => (get_size (Hdr 0 0 ty 0 0 0 0 0) + 5) * 8 * 10 ^ 15 / 148010000000)
    15000 (6666 * 5) 10000 rl dl.
Definition cl3 : lcfg := lex 3 7 5.
Definition cl1 : lcfg := lex 1 7 5.
Definition ee : lenv := Lenv 2 1 0.

(** Frames of the access point: announcement of a sector, grant, acknowledgement. *)
Definition cta (sec : Z) : kframe := Kframe T_CTA 0 bcast 0 0 0 sec 18 0.
Definition cts (a q dur : Z) : kframe := Kframe T_CTS 0 a q dur 14 0 18 0.
Definition ack (a q : Z) : kframe := Kframe T_ACK 0 a q 0 0 0 18 0.
Definition enq (dst : Z) : xcmd := XIn 0 ee (LEEnq 15000 dst).
Definition rx (d : Z) (f : kframe) : list xcmd := [XIn d ee LERxStart; XIn (1200 * psec) ee (LERxEnd f true)].
Definition fire : xcmd := XFire ee.
Definition txd (d : Z) : xcmd := XIn d ee LETxDone.
(** RTS after an announcement; the packet after a grant; the end. *)
Definition ask : list xcmd := rx (20 * nsec) (cta 0) ++ [fire; txd (1300 * psec)].
Definition tell (q dur : Z) : list xcmd := rx (20 * nsec) (cts 1 q dur) ++ [fire; txd (400 * nsec)].
Definition end_ok (q : Z) : list xcmd := rx (20 * nsec) (ack 1 q) ++ [fire; fire].
