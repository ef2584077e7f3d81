(** Scripts for concrete executions of the access point in real time. *)
From Coq Require Import ZArith List Lia Bool.
From Verif Require Import Base HeaderModel SeqModel EnergyModel MacModel ApModel ApSpec.
Import ListNotations.
Open Scope Z_scope.

(** [BFire]: the next pending event runs at its time. [BAt t ev]: at time [t] event [ev] happens.
    [BIn d ev]: after time [d] event [ev] happens. *)
Inductive bcmd := BFire | BAt (t : Z) (ev : pevent) | BIn (d : Z) (ev : pevent).

Fixpoint soonest (i : nat) (l : list ptimer) : option (nat * ptimer) :=
  match l with
  | [] => None
  | t :: r =>
    match soonest (S i) r with
    | Some (j, u) => if pt_due u <? pt_due t then Some (j, u) else Some (i, t)
    | None => Some (i, t)
    end
  end.
Definition bexpand1 (s : pst) (x : bcmd) : list pevent :=
  match x with
  | BFire => match soonest 0 (p_timers s) with Some (i, t) => [AETick (pt_due t); AETimer i] | None => [] end
  | BAt t ev => [AETick t; ev]
  | BIn d ev => [AETick (p_now s + d); ev]
  end.
Fixpoint bexpand (c : acfg) (s : pst) (l : list bcmd) : list pevent :=
  match l with
  | [] => []
  | x :: r => let e := bexpand1 s x in e ++ bexpand c (fst (prun c s e)) r
  end.
Definition b_run (c : acfg) (l : list bcmd) : list pevent := bexpand c (pinit c) l.
Definition b_st (c : acfg) (l : list bcmd) : pst := fst (prun c (pinit c) (b_run c l)).
Definition b_out (c : acfg) (l : list bcmd) : list pout := snd (prun c (pinit c) (b_run c l)).
Definition b_ok (c : acfg) (l : list bcmd) : bool := ptimely_run c (pinit c) (b_run c l).

Lemma intime_run c l : forall h s o, areach intime c h s o -> ptimely_run c s l = true ->
  areach intime c (h ++ l) (fst (prun c s l)) (o ++ snd (prun c s l)).
Proof.
  induction l as [|ev l IH]; intros h s o R T.
  - cbn. rewrite !app_nil_r. auto.
  - cbn [ptimely_run] in T. apply andb_true_iff in T. destruct T as [T1 T2]. apply andb_true_iff in T1. destruct T1 as [T0 T1].
    specialize (IH _ _ _ (AR1 intime c h s o ev R T0 T1) T2). cbn [prun].
    destruct (pstep c s ev) as [s1 o1] eqn:E. cbn [fst snd] in IH. destruct (prun c s1 l) as [s2 o2]. cbn [fst snd] in *.
    rewrite <- !app_assoc in IH. exact IH.
Qed.
Lemma b_reach c l : b_ok c l = true -> areach intime c (b_run c l) (b_st c l) (b_out c l).
Proof. intros T. apply (intime_run c _ _ _ _ (AR0 intime c) T). Qed.
Lemma areach_weaken (P Q : pst -> pevent -> Prop) c h s o : (forall s ev, P s ev -> Q s ev) -> areach P c h s o -> areach Q c h s o.
Proof. intros W R. induction R; constructor; auto. Qed.

(** An AP with the default attributes: 3-way handshake, beamwidth 6 degrees (as in the examples),
    PropDelay 33.356 ns, BoSlots * SlotTime = 10 ns, the default rates of the PHY. *)
Definition ap_rate (mcs : Z) : Z :=
  if mcs =? 10 then 52480000000 else if mcs =? 11 then 105280000000 else if mcs =? 12 then 157440000000
  else if mcs =? 13 then 210240000000 else if mcs =? 14 then 315520000000 else 148010000000.
Definition aex (ways bw : Z) (wl adapt : bool) : acfg :=
  Acfg 0 ways (10 * nsec) 0 (33356 * psec)
    (fun ty => (get_size (Hdr 0 0 ty 0 0 0 0 0) + 5) * 8 * 10 ^ 15 / 148010000000)
    (fun n m => (n + 5) * 8 * 10 ^ 15 / ap_rate m)
    15000 bw wl adapt (-48000) (-45000) (-42000) (-38000) (-32000).
(** An RTS and a data packet from a node. *)
Definition rts_from (a q : Z) : kframe := Kframe T_RTS a 0 q 0 0 0 18 0.
Definition data_from (a q : Z) : kframe := Kframe T_DATA a 0 q 0 0 0 15017 0.
