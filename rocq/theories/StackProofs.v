(** The stack refines the network over an arbitrary channel (NetModel). *)
From Coq Require Import ZArith List Lia Bool.
From Verif Require Import Base HeaderModel SeqModel EnergyModel NanoModel NetModel PhyModel ChannelModel StackModel.
Import ListNotations.
Open Scope Z_scope.

Section Refine.
Variables (c : sconf) (e0 : addr -> Z).

(** The frames under way were handed over by some MAC. *)
Record Good (s : stack) : Prop := {
  g_net : net_reach (k_mac c) e0 (k_net s);
  g_sends : forall p, In p (k_sends s) -> on_air (k_net s) (ps_frame p);
  g_frames : forall f, In f (k_frames s) -> on_air (k_net s) f }.

Lemma on_air_step n a e f : on_air n f -> on_air (net_step (k_mac c) n a e) f.
Proof.
  intros [b B]. exists b. unfold net_step. destruct (b =? a) eqn:E; auto.
  apply Z.eqb_eq in E. subst. apply in_or_app. auto.
Qed.

Lemma Good_with_phy a p s : Good s -> Good (with_phy a p s).
Proof. intros [A B C]. constructor; auto. Qed.
Lemma Good_with_chan h s : Good s -> Good (with_chan h s).
Proof. intros [A B C]. constructor; auto. Qed.
Lemma Good_broken s : Good s -> Good (broken s).
Proof. intros [A B C]. constructor; auto. Qed.

Lemma Good_phy_send a f s : Good s -> on_air (k_net s) f -> Good (phy_send c a f s).
Proof.
  intros G F. unfold phy_send. destruct (place _ _ _ _); auto using Good_broken.
  destruct G as [A B C]. constructor; auto. intros p I. cbn in I. apply in_app_or in I.
  destruct I as [I|[<-|[]]]; auto.
Qed.

Lemma net_phy_send a f s : k_net (phy_send c a f s) = k_net s.
Proof. unfold phy_send. destruct (place _ _ _ _); reflexivity. Qed.

Lemma net_phy_sends a l : forall s, k_net (phy_sends c a l s) = k_net s.
Proof.
  induction l as [|o l IH]; intros s; [reflexivity|]. destruct o; cbn [phy_sends]; rewrite IH; auto using net_phy_send.
Qed.

Lemma Good_phy_sends a l : forall s, Good s -> (forall f, In (OSend f) l -> on_air (k_net s) f) -> Good (phy_sends c a l s).
Proof.
  induction l as [|o l IH]; intros s G F; [exact G|].
  destruct o; cbn [phy_sends]; apply IH; auto; try (intros g I; apply F; right; exact I).
  - apply Good_phy_send; auto. apply F. left. reflexivity.
  - intros g I. rewrite net_phy_send. apply F. right. exact I.
Qed.

Lemma Good_mac a e s : Good s -> allowed (k_net s) e -> Good (mac_event c a e s).
Proof.
  intros [A B C] X. unfold mac_event. apply Good_phy_sends.
  - constructor; cbn.
    + apply NRstep; auto.
    + intros p I. apply on_air_step. auto.
    + intros f I. apply on_air_step. auto.
  - intros f I. exists a. cbn. unfold net_step. rewrite Z.eqb_refl. cbn. apply in_or_app. auto.
Qed.

Lemma Good_phy_end k a s : Good s -> Good (phy_end c k a s).
Proof.
  intros G. unfold phy_end. destruct (find _ _); auto. destruct (nth_error _ _) as [f|] eqn:N; auto.
  apply Good_with_phy, Good_mac; auto. cbn. destruct (negb _); auto. apply (g_frames s G). eapply nth_error_In; eauto.
Qed.

Lemma Good_react pow junk dur o s : Good s -> Good (react c pow junk dur o s).
Proof. destruct o; cbn; auto using Good_phy_end, Good_broken. intros G. apply Good_with_phy. auto. Qed.

Lemma Good_fold pow junk dur l : forall s, Good s -> Good (fold_left (fun s o => react c pow junk dur o s) l s).
Proof. induction l as [|o l IH]; intros s G; cbn; auto using Good_react. Qed.

Lemma In_remove_nth A i : forall (l : list A) x, In x (remove_nth i l) -> In x l.
Proof.
  induction i as [|i IH]; intros [|y l] x H; cbn in *; auto. destruct H as [->|H]; auto.
Qed.

Lemma Good_tick t : forall l n, net_reach (k_mac c) e0 n ->
  net_reach (k_mac c) e0 (fold_left (fun n a => net_step (k_mac c) n a (EvTick t)) l n) /\
  forall f, on_air n f -> on_air (fold_left (fun n a => net_step (k_mac c) n a (EvTick t)) l n) f.
Proof.
  induction l as [|a l IH]; intros n R; cbn; auto.
  destruct (IH (net_step (k_mac c) n a (EvTick t))) as [X Y]; [apply NRstep; cbn; auto|].
  split; auto. intros f F. apply Y. apply on_air_step. auto.
Qed.

Lemma Good_step s e : Good s -> Good (kstep c s e).
Proof.
  intros G. destruct e as [a e|i delay|a i|i pow junk|t]; cbn [kstep].
  - destruct (own_event e) eqn:O; cbn; auto. destruct (existsb _ _); auto. apply Good_mac; auto.
    destruct e; try discriminate O; exact I.
  - destruct (nth_error _ _) as [p|] eqn:N; auto.
    assert (X : Good (Stack (k_net s) (k_phy s) (remove_nth i (k_sends s))
      (fst (chan_step (k_chan s) (CSend (ps_node p) (ps_dur p) delay))) (k_frames s ++ [ps_frame p]) (k_bad s))).
    { destruct G as [A B C]. constructor; cbn; auto.
      - intros q I. apply B. eapply In_remove_nth; eauto.
      - intros f I. apply in_app_or in I. destruct I as [I|[<-|[]]]; auto. apply B. eapply nth_error_In; eauto. }
    destruct (snd _); auto. apply Good_broken. auto.
  - apply Good_with_phy. auto.
  - destruct (nth_error _ _) as [[t ce]|]; auto. apply Good_fold, Good_with_chan. auto.
  - destruct G as [A B C]. destruct (Good_tick t (k_nodes c) _ A) as [X Y]. constructor; cbn; auto.
Qed.

Lemma Good0 : Good (stack0 c e0).
Proof. constructor; cbn; [apply NRinit|intros p []|intros f []]. Qed.

Lemma Good_run l : forall s, Good s -> Good (krun c s l).
Proof. induction l as [|e l IH]; intros s G; cbn; auto using Good_step. Qed.

Lemma stack_refines l : net_reach (k_mac c) e0 (k_net (krun c (stack0 c e0) l)).
Proof. apply g_net. apply Good_run, Good0. Qed.
End Refine.
