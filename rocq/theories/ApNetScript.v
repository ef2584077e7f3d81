(** Scripts for concrete executions of an access point and its clients in real time. *)
From Coq Require Import ZArith List Lia Bool.
From Verif Require Import Base HeaderModel SeqModel EnergyModel MacModel ApModel ApSpec ClientModel ClientSpec ApNet ApScript ClientScript.
Import ListNotations.
Open Scope Z_scope.

(** Steps of the network. *)
Inductive zev := ZEap (ev : pevent) | ZEcl (a : addr) (e : lenv) (ev : levent).
Definition zstep (c : acfg) (cfg : addr -> lcfg) (N : anet) (z : zev) : anet :=
  match z with
  | ZEap ev => Anet (an_hist N ++ [ev]) (fst (pstep c (an_st N) ev)) (an_out N ++ snd (pstep c (an_st N) ev)) (an_cl N)
  | ZEcl a e ev =>
    Anet (an_hist N) (an_st N) (an_out N)
      (lput (an_cl N) a (Lnode (ln_hist (an_cl N a) ++ [(e, ev)]) (fst (lstep (cfg a) e (ln_st (an_cl N a)) ev))
                               (ln_out (an_cl N a) ++ snd (lstep (cfg a) e (ln_st (an_cl N a)) ev))))
  end.
Definition keqb (f g : kframe) : bool :=
  (kf_type f =? kf_type g) && (kf_src f =? kf_src g) && (kf_dst f =? kf_dst g) && (kf_seq f =? kf_seq g) && (kf_dur f =? kf_dur g) &&
  (kf_flags f =? kf_flags g) && (kf_sector f =? kf_sector g) && (kf_size f =? kf_size g) && (kf_id f =? kf_id g).
Lemma keqb_ok f g : keqb f g = true -> f = g.
Proof. unfold keqb. rewrite !andb_true_iff, !Z.eqb_eq. destruct f, g; cbn. intros (((((((( A & B) & C) & D) & E) & F) & G) & H) & I). subst. reflexivity. Qed.
(** The step is one of a network in real time whose clock is [now]; [ids]: the clients. *)
Definition zok1 (ids : list addr) (now : Z) (N : anet) (z : zev) : bool :=
  let cl f := existsb (fun b => existsb (keqb f) (lsnd_of (ln_out (an_cl N b)))) ids in
  match z with
  | ZEap ev => pvalid (an_st N) ev && ptimely (an_st N) ev &&
               match ev with AETick t => now <=? t | _ => p_now (an_st N) =? now end &&
               match ev with AERxEnd f true _ => cl f | _ => true end
  | ZEcl a e ev => lvalid (ln_st (an_cl N a)) ev && ltimely (ln_st (an_cl N a)) ev &&
               match ev with LETick t => now <=? t | _ => l_now (ln_st (an_cl N a)) =? now end &&
               match ev with LERxEnd f true => existsb (keqb f) (ksnd_of (an_out N)) || cl f | _ => true end
  end.
Definition znow (now : Z) (z : zev) : Z := match z with ZEap (AETick t) => t | ZEcl _ _ (LETick t) => t | _ => now end.

(** Commands. [ZFire], [ZFireC a]: the next pending event of the access point, of client [a], runs at its time. [ZIn d ev],
    [ZInC a d ev]: after time [d] event [ev]. [ZRx b d pw]: after [d] the access point receives the last frame
    of client [b]. [ZRxC a k d]: after [d] client [a] receives the frame that the access point sent [k] frames before its last one;
    [ZRxE] the same with the random draws [e]. *)
Inductive zcmd := ZRxE (e : lenv) (a : addr) (k : nat) (d : Z) | ZFire | ZFireC (a : addr) | ZIn (d : Z) (ev : pevent) | ZInC (a : addr) (d : Z) (ev : levent) | ZRx (b : addr) (d pw : Z) | ZRxC (a : addr) (k : nat) (d : Z).
Definition nof : kframe := Kframe 0 0 0 0 0 0 0 0 0.
Definition zexpand (now : Z) (N : anet) (x : zcmd) : list zev :=
  match x with
  | ZFire => match soonest 0 (p_timers (an_st N)) with Some (i, t) => [ZEap (AETick (pt_due t)); ZEap (AETimer i)] | None => [] end
  | ZFireC a => match lsoonest 0 (l_timers (ln_st (an_cl N a))) with Some (i, t) => [ZEcl a ee (LETick (lt_due t)); ZEcl a ee (LETimer i)] | None => [] end
  | ZIn d ev => [ZEap (AETick (now + d)); ZEap ev]
  | ZInC a d ev => [ZEcl a ee (LETick (now + d)); ZEcl a ee ev]
  | ZRx b d pw => [ZEap (AETick (now + d)); ZEap (AERxEnd (last (lsnd_of (ln_out (an_cl N b))) nof) true pw)]
  | ZRxE e a k d => [ZEcl a ee (LETick (now + d)); ZEcl a e (LERxEnd (nth k (rev (ksnd_of (an_out N))) nof) true)]
  | ZRxC a k d => [ZEcl a ee (LETick (now + d)); ZEcl a ee (LERxEnd (nth k (rev (ksnd_of (an_out N))) nof) true)]
  end.
Fixpoint zrun (ids : list addr) (c : acfg) (cfg : addr -> lcfg) (now : Z) (N : anet) (l : list zev) : Z * anet * bool :=
  match l with
  | [] => (now, N, true)
  | z :: r => let '(t, N', b) := zrun ids c cfg (znow now z) (zstep c cfg N z) r in (t, N', zok1 ids now N z && b)
  end.
Fixpoint zscript (ids : list addr) (c : acfg) (cfg : addr -> lcfg) (now : Z) (N : anet) (l : list zcmd) : Z * anet * bool :=
  match l with
  | [] => (now, N, true)
  | x :: r => let '(t, N1, b1) := zrun ids c cfg now N (zexpand now N x) in
              let '(t2, N2, b2) := zscript ids c cfg t N1 r in (t2, N2, b1 && b2)
  end.
Definition zinit (c : acfg) (q0 : addr -> Z) : anet := Anet [] (pinit c) [] (fun a => Lnode [] (linit (q0 a)) []).
Definition z_net ids c cfg q0 l : anet := snd (fst (zscript ids c cfg 0 (zinit c q0) l)).
Definition z_ok ids c cfg q0 l : bool := snd (zscript ids c cfg 0 (zinit c q0) l).

Lemma in_existsb l f : existsb (keqb f) l = true -> In f l.
Proof. intros H. apply existsb_exists in H. destruct H as (g & G & E). apply keqb_ok in E. congruence. Qed.
Lemma keqb_refl f : keqb f f = true.
Proof. unfold keqb. rewrite !Z.eqb_refl. reflexivity. Qed.
Lemma not_existsb l f : existsb (keqb f) l = false -> ~ In f l.
Proof. intros H I. assert (X : existsb (keqb f) l = true) by (apply existsb_exists; exists f; auto using keqb_refl). rewrite H in X. discriminate X. Qed.
Lemma zstep_reach ids c cfg q0 now N z : anreach intime ontime c cfg q0 N -> zok1 ids now N z = true -> anreach intime ontime c cfg q0 (zstep c cfg N z).
Proof.
  intros R O. assert (CL : forall f, existsb (fun b => existsb (keqb f) (lsnd_of (ln_out (an_cl N b)))) ids = true -> exists b, In f (lsnd_of (ln_out (an_cl N b)))).
  { intros f H. apply existsb_exists in H. destruct H as (b & _ & B). exists b. apply in_existsb. auto. }
  destruct z as [ev|a e ev]; cbn [zok1 zstep] in *; apply andb_true_iff in O; destruct O as [O O4]; apply andb_true_iff in O; destruct O as [O O3]; apply andb_true_iff in O; destruct O as [O1 O2].
  - apply ANap; auto. intros f pw ->. apply CL. exact O4.
  - apply ANcl; auto. intros f ->. apply orb_true_iff in O4. destruct O4 as [O4|O4]; [left; apply in_existsb; auto|right; auto].
Qed.
Lemma zrun_reach ids c cfg q0 l : forall now N, anreach intime ontime c cfg q0 N -> snd (zrun ids c cfg now N l) = true -> anreach intime ontime c cfg q0 (snd (fst (zrun ids c cfg now N l))).
Proof.
  induction l as [|z l IH]; intros now N R; [auto|]. cbn [zrun]. specialize (IH (znow now z) (zstep c cfg N z)). destruct (zrun ids c cfg (znow now z) (zstep c cfg N z) l) as [[t N'] b].
  cbn [fst snd] in *. intros H. apply andb_true_iff in H. destruct H. apply IH; auto. eapply zstep_reach; eauto.
Qed.
Lemma zscript_reach ids c cfg q0 l : forall now N, anreach intime ontime c cfg q0 N -> snd (zscript ids c cfg now N l) = true -> anreach intime ontime c cfg q0 (snd (fst (zscript ids c cfg now N l))).
Proof.
  induction l as [|x l IH]; intros now N R; [auto|]. cbn [zscript]. pose proof (zrun_reach ids c cfg q0 (zexpand now N x) now N R) as Z1.
  destruct (zrun ids c cfg now N (zexpand now N x)) as [[t N1] b1]. specialize (IH t N1). destruct (zscript ids c cfg t N1 l) as [[t2 N2] b2].
  cbn [fst snd] in *. intros H. apply andb_true_iff in H. destruct H. auto.
Qed.
Lemma z_reach ids c cfg q0 l : z_ok ids c cfg q0 l = true -> anreach intime ontime c cfg q0 (z_net ids c cfg q0 l).
Proof. apply zscript_reach. constructor. Qed.
Lemma anreach_weaken (P P' : pst -> pevent -> Prop) (Q Q' : lst -> levent -> Prop) c cfg q0 N : (forall s ev, P s ev -> P' s ev) -> (forall s ev, Q s ev -> Q' s ev) ->
  anreach P Q c cfg q0 N -> anreach P' Q' c cfg q0 N.
Proof. intros W1 W2 R. induction R; [constructor|apply ANap|apply ANcl]; auto. Qed.

(** A client that no command names stays as it was. *)
Definition zuses (x : addr) (z : zcmd) : bool := match z with ZFireC a | ZInC a _ _ | ZRxC a _ _ | ZRxE _ a _ _ => a =? x | _ => false end.
Lemma zrun_idle ids c cfg x l : forall now N, (forall z, In z l -> match z with ZEcl a _ _ => (a =? x) = false | _ => True end) -> an_cl (snd (fst (zrun ids c cfg now N l))) x = an_cl N x.
Proof.
  induction l as [|z l IH]; intros now N A; [auto|]. cbn [zrun]. specialize (IH (znow now z) (zstep c cfg N z) (fun z I => A z (or_intror I))).
  destruct (zrun ids c cfg (znow now z) (zstep c cfg N z) l) as [[t N'] b]. cbn [fst snd] in *. rewrite IH. specialize (A z (or_introl eq_refl)). destruct z as [ev|a e ev]; auto.
  cbn [zstep an_cl]. unfold lput. rewrite Z.eqb_sym, A. auto.
Qed.
Lemma zexpand_uses x z now N w : zuses x z = false -> In w (zexpand now N z) -> match w with ZEcl a _ _ => (a =? x) = false | _ => True end.
Proof.
  intros B W. destruct z; cbn [zexpand zuses] in *; try (destruct (soonest _ _) as [[i t]|]); try (destruct (lsoonest _ _) as [[i t]|]); cbn [In] in W; repeat (destruct W as [<-|W]; auto); destruct W.
Qed.
Lemma zscript_idle ids c cfg x l : forall now N, forallb (fun z => negb (zuses x z)) l = true -> an_cl (snd (fst (zscript ids c cfg now N l))) x = an_cl N x.
Proof.
  induction l as [|z l IH]; intros now N A; [auto|]. cbn [zscript]. cbn [forallb] in A. apply andb_true_iff in A. destruct A as [A1 A2]. apply negb_true_iff in A1.
  pose proof (zrun_idle ids c cfg x (zexpand now N z) now N (fun w => zexpand_uses x z now N w A1)) as K1. destruct (zrun ids c cfg now N (zexpand now N z)) as [[t N1] b1].
  specialize (IH t N1 A2). destruct (zscript ids c cfg t N1 l) as [[t2 N2] b2]. cbn [fst snd] in *. congruence.
Qed.
Lemma z_idle ids c cfg q0 l x : forallb (fun z => negb (zuses x z)) l = true -> an_cl (z_net ids c cfg q0 l) x = Lnode [] (linit (q0 x)) [].
Proof. intros H. unfold z_net. rewrite zscript_idle by auto. reflexivity. Qed.
