(** Scripts for concrete executions of several macro MACs in real time. *)
From Coq Require Import ZArith List Lia Bool.
From Verif Require Import Base HeaderModel SeqModel EnergyModel MacModel MacSpec MacProofs MacAcct MacNet MacScript.
Import ListNotations.
Open Scope Z_scope.

(** At node [a]: [YFire a]: the next pending event runs at its time; [YHold a]:
    the same while the PHY is not idle; [YEnq a t size dst]: at time [t] a
    packet is handed over. [YTx a d], [YStart a d]: after time [d] the transmission ends, or a
    reception begins. [YRx a b d]: after time [d] the last frame that node [b] sent is received. *)
Inductive ycmd := YFire (a : addr) | YHold (a : addr) | YEnq (a : addr) (t size : Z) (dst : addr) | YTx (a : addr) (d : Z) | YStart (a : addr) (d : Z) | YRx (a b : addr) (d : Z).

Definition y_node (x : ycmd) : addr := match x with YFire a | YHold a | YEnq a _ _ _ | YTx a _ | YStart a _ | YRx a _ _ => a end.
Fixpoint last_of {A} (l : list A) : option A := match l with [] => None | [x] => Some x | _ :: r => last_of r end.
(** Commands of MacScript. *)
Definition y_cmd (N : addr -> mnode) (x : ycmd) : list xcmd :=
  match x with
  | YFire _ => [XFire]
  | YHold _ => [XHold]
  | YEnq _ t size dst => [XAt t (EEnq size dst 0)]
  | YTx _ d => [XIn d ETxDone]
  | YStart _ d => [XIn d ERxStart]
  | YRx _ b d => match last_of (snd_of (n_out (N b))) with Some f => [XIn d (ERxEnd f true)] | None => [] end
  end.
Definition y_events (cfg : addr -> mcfg) (N : addr -> mnode) (x : ycmd) : list (menv * mevent) :=
  expand (cfg (y_node x)) (n_st (N (y_node x))) (y_cmd N x).
Definition y_put (cfg : addr -> mcfg) (N : addr -> mnode) (x : ycmd) : addr -> mnode :=
  let a := y_node x in let l := y_events cfg N x in let r := mrun (cfg a) (n_st (N a)) l in
  mput N a (Mnode (n_hist (N a) ++ map snd l) (fst r) (n_out (N a) ++ snd r)).
Fixpoint yrun (cfg : addr -> mcfg) (N : addr -> mnode) (l : list ycmd) : addr -> mnode :=
  match l with [] => N | x :: r => yrun cfg (y_put cfg N x) r end.
(** Every event runs in time, and the commands are in the order of their times. *)
Fixpoint y_ok (cfg : addr -> mcfg) (N : addr -> mnode) (now : Z) (l : list ycmd) : bool :=
  match l with
  | [] => true
  | x :: r =>
    let a := y_node x in let N' := y_put cfg N x in
    mtimely_run (cfg a) (n_st (N a)) (y_events cfg N x) && (now <=? m_now (n_st (N' a))) && y_ok cfg N' (m_now (n_st (N' a))) r
  end.
Definition y_init (q0 : addr -> Z) : addr -> mnode := fun a => Mnode [] (minit (q0 a)) [].

Lemma last_of_in {A} (l : list A) x : last_of l = Some x -> In x l.
Proof. induction l as [|y l IH]; intros H; [discriminate H|]. destruct l as [|z l]; [injection H as ->; left; auto|right; apply IH; exact H]. Qed.

Definition same (N N' : addr -> mnode) : Prop := forall a, N a = N' a.
(** Executions of the network up to pointwise equality. *)
Definition nreach' cfg q0 N := exists N', nreach cfg q0 N' /\ same N N'.

Lemma put_events cfg q0 a l : forall N, nreach' cfg q0 N ->
  (forall x f, In x l -> snd x = ERxEnd f true -> exists b, In f (snd_of (n_out (N b)))) ->
  nreach' cfg q0 (mput N a (Mnode (n_hist (N a) ++ map snd l) (fst (mrun (cfg a) (n_st (N a)) l)) (n_out (N a) ++ snd (mrun (cfg a) (n_st (N a)) l)))).
Proof.
  induction l as [|[e ev] l IH]; intros N [N' [R E]] F.
  - exists N'. split; auto. intros x. unfold mput. destruct (Z.eqb_spec x a) as [->|]; auto. cbn. rewrite !app_nil_r, <- E. destruct (N a); auto.
  - set (N1 := mput N a (Mnode (n_hist (N a) ++ [ev]) (fst (mstep (cfg a) e (n_st (N a)) ev)) (n_out (N a) ++ snd (mstep (cfg a) e (n_st (N a)) ev)))).
    assert (R1 : nreach' cfg q0 N1).
    { eexists. split; [apply (NR1 cfg q0 N' a e ev R)|].
      - intros f X. destruct (F (e, ev) f (or_introl eq_refl) X) as [b B]. exists b, f. rewrite <- E. split; auto. left. auto.
      - intros x. unfold N1, mput. destruct (x =? a); rewrite <- ?E; auto. }
    assert (NA : N1 a = Mnode (n_hist (N a) ++ [ev]) (fst (mstep (cfg a) e (n_st (N a)) ev)) (n_out (N a) ++ snd (mstep (cfg a) e (n_st (N a)) ev))).
    { unfold N1, mput. rewrite Z.eqb_refl. auto. }
    destruct (IH N1 R1) as [N2 [R2 E2]].
    { intros x f X Y. destruct (F x f (or_intror X) Y) as [b B]. exists b. unfold N1, mput. destruct (Z.eqb_spec b a) as [->|]; auto. cbn [n_out]. rewrite snd_app. apply in_or_app. auto. }
    exists N2. split; auto. intros x. rewrite <- E2. rewrite NA. cbn [n_hist n_st n_out mrun map snd]. unfold mput. destruct (Z.eqb_spec x a) as [->|NE].
    + destruct (mstep (cfg a) e (n_st (N a)) ev) as [s1 o1]. cbn [fst snd]. destruct (mrun (cfg a) s1 l) as [s2 o2]. cbn [fst snd]. rewrite <- !app_assoc. auto.
    + unfold N1, mput. destruct (Z.eqb_spec x a); [contradiction|auto].
Qed.

Lemma events_in cfg N x y f : In y (y_events cfg N x) -> snd y = ERxEnd f true -> exists b, In f (snd_of (n_out (N b))).
Proof.
  unfold y_events, y_cmd. destruct x as [a|a|a t size dst|a d|a d|a b d]; cbn [y_node].
  - cbn [expand expand1]. destruct (earliest 0 (m_timers (n_st (N a)))) as [[i t]|]; cbn; [|contradiction]. intros [<-|[<-|[]]] X; discriminate X.
  - cbn [expand expand1]. destruct (earliest 0 (m_timers (n_st (N a)))) as [[i t]|]; cbn; [|contradiction]. intros [<-|[<-|[]]] X; discriminate X.
  - cbn. intros [<-|[<-|[]]] X; discriminate X.
  - cbn. intros [<-|[<-|[]]] X; discriminate X.
  - cbn. intros [<-|[<-|[]]] X; discriminate X.
  - destruct (last_of (snd_of (n_out (N b)))) as [g|] eqn:L; cbn; [|contradiction]. intros [<-|[<-|[]]] X; [discriminate X|]. cbn in X. injection X as <-. exists b. apply last_of_in. auto.
Qed.
Lemma y_reach cfg q0 l : forall N, nreach' cfg q0 N -> nreach' cfg q0 (yrun cfg N l).
Proof. induction l as [|x l IH]; intros N R; auto. cbn [yrun]. apply IH. apply put_events; auto. intros. eapply events_in; eauto. Qed.
Lemma y_init_reach cfg q0 : nreach' cfg q0 (y_init q0).
Proof. exists (y_init q0). split; [constructor|intros a; auto]. Qed.
