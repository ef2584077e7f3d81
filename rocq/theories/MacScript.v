(** Scripts for concrete executions of the macro MAC in real time. *)
From Coq Require Import ZArith List Lia Bool.
From Verif Require Import Base HeaderModel SeqModel EnergyModel MacModel MacSpec.
Import ListNotations.
Open Scope Z_scope.

(** [XFire]: the next pending event runs at its time. [XHold]: the same while the PHY is not idle. [XAt t ev]: at time [t] event [ev] happens.
    [XIn d ev]: after time [d] event [ev] happens. *)
Inductive xcmd := XFire | XHold | XAt (t : Z) (ev : mevent) | XIn (d : Z) (ev : mevent).

(** Index and time of the event that runs next. *)
Fixpoint earliest (i : nat) (l : list mtimer) : option (nat * mtimer) :=
  match l with
  | [] => None
  | t :: r =>
    match earliest (S i) r with
    | Some (j, u) => if mt_due u <? mt_due t then Some (j, u) else Some (i, t)
    | None => Some (i, t)
    end
  end.

(** The PHY is otherwise idle; the smallest random draws. *)
Definition calm_env : menv := Menv true (fun _ => 0).
Definition held_env : menv := Menv false (fun _ => 0).
Definition expand1 (s : mst) (x : xcmd) : list (menv * mevent) :=
  match x with
  | XFire => match earliest 0 (m_timers s) with Some (i, t) => [(calm_env, ETick (mt_due t)); (calm_env, ETimer i)] | None => [] end
  | XHold => match earliest 0 (m_timers s) with Some (i, t) => [(held_env, ETick (mt_due t)); (held_env, ETimer i)] | None => [] end
  | XAt t ev => [(calm_env, ETick t); (calm_env, ev)]
  | XIn d ev => [(calm_env, ETick (m_now s + d)); (calm_env, ev)]
  end.
Fixpoint expand (c : mcfg) (s : mst) (l : list xcmd) : list (menv * mevent) :=
  match l with
  | [] => []
  | x :: r => expand1 s x ++ expand c (fst (mrun c s (expand1 s x))) r
  end.

Definition xrun (c : mcfg) (q0 : Z) (l : list xcmd) : list (menv * mevent) := expand c (minit q0) l.
Definition x_st (c : mcfg) (q0 : Z) (l : list xcmd) : mst := fst (mrun c (minit q0) (xrun c q0 l)).
Definition x_out (c : mcfg) (q0 : Z) (l : list xcmd) : list mout := snd (mrun c (minit q0) (xrun c q0 l)).
Definition x_hist (c : mcfg) (q0 : Z) (l : list xcmd) : list mevent := map snd (xrun c q0 l).
Definition x_ok (c : mcfg) (q0 : Z) (l : list xcmd) : bool := mtimely_run c (minit q0) (xrun c q0 l).

Lemma real_run c q0 l : forall h s o, mreal c q0 h s o -> mtimely_run c s l = true ->
  mreal c q0 (h ++ map snd l) (fst (mrun c s l)) (o ++ snd (mrun c s l)).
Proof.
  induction l as [|[e ev] l IH]; intros h s o R T.
  - cbn. rewrite !app_nil_r. auto.
  - cbn [mtimely_run] in T. apply andb_true_iff in T. destruct T as [T1 T2].
    specialize (IH _ _ _ (MT1 c q0 h s o e ev R T1) T2). cbn [mrun map snd].
    destruct (mstep c e s ev) as [s1 o1] eqn:E. cbn [fst snd] in IH. destruct (mrun c s1 l) as [s2 o2]. cbn [fst snd] in *.
    rewrite <- !app_assoc in IH. exact IH.
Qed.
Lemma x_real c q0 l : x_ok c q0 l = true -> mreal c q0 (x_hist c q0 l) (x_st c q0 l) (x_out c q0 l).
Proof. intros T. apply (real_run c q0 _ _ _ _ (MT0 c q0) T). Qed.
Lemma real_reach c q0 h s o : mreal c q0 h s o -> mreach c q0 h s o.
Proof. induction 1; constructor; auto. Qed.
