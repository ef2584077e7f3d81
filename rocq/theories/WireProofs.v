(** What one device knows while several are connected. *)
From Coq Require Import ZArith List Lia Bool.
From Verif Require Import Base DeviceModel WireModel.
Import ListNotations.
Open Scope Z_scope.

Lemma upd_same {A} (f : Z -> A) k v : upd f k v k = v.
Proof. unfold upd. rewrite Z.eqb_refl. reflexivity. Qed.
Lemma upd_other {A} (f : Z -> A) k v x : x <> k -> upd f k v x = f x.
Proof. intros H. unfold upd. apply Z.eqb_neq in H. rewrite H. reflexivity. Qed.

Section Device.
Context (d m p c a : Z).
Definition opt (b : bool) (x : Z) : option Z := if b then Some x else None.
Definition mine (e : Z * Z) : bool := (fst e =? d) || (snd e =? p).
(** Which parts the device has ([hm], [hp], [hc], [ha]) and how often the channel lists it. *)
Record Wired (hm hp hc ha : bool) (n : nat) (h : heap) : Prop := {
  w_self : h_dev h d = Wdev (opt hm m) (opt hp p) (opt hc c) (opt ha a);
  w_up : hm = true -> m_up (h_mac h m) = Some d;
  w_pair : hm = true -> hp = true -> m_phyp (h_mac h m) = Some p /\ m_devp (h_mac h m) = Some d /\ p_macp (h_phy h p) = Some m;
  w_phyd : hp = true -> p_devp (h_phy h p) = Some d;
  w_antd : ha = true -> h_ant h a = Some d;
  w_list : filter mine (h_list h c) = repeat (d, p) n;
  w_chan : p_chanp (h_phy h p) = match n with O => None | S _ => Some c end;
  w_rest : forall x, x <> d -> d_mac (h_dev h x) <> Some m /\ d_phy (h_dev h x) <> Some p }.

Definition own (o : wop) : Prop := o = WMac d (Some m) \/ o = WPhy d (Some p) \/ o = WChan d (Some c) \/ o = WAnt d (Some a).
Definition other (o : wop) : Prop := w_dev o <> d /\ o <> WMac (w_dev o) (Some m) /\ o <> WPhy (w_dev o) (Some p) /\ o <> WAnt (w_dev o) (Some a).

Ltac uw := cbn [h_dev h_mac h_phy h_list h_ant up_dev up_mac up_phy up_list up_ant attach_phy mac_device mac_forward phy_device phy_mac phy_chan add_device d_mac d_phy d_chan d_ant m_phyp m_devp m_up p_devp p_macp p_chanp opt] in *.
Ltac go := repeat (rewrite upd_same in * || (rewrite upd_other in * by congruence) || uw).

Lemma wired_mac hm hp hc ha n h : Wired hm hp hc ha n h -> Wired true hp hc ha n (wstep h (WMac d (Some m))).
Proof.
  intros [A B C D E F G H]. cbn [wstep]. rewrite A. destruct hp; uw; split; intros; go; auto; try congruence;
  match goal with X : ?x <> d |- _ => specialize (H x X); destruct (Z.eq_dec x d); [contradiction|]; go; auto | _ => idtac end.
Qed.
Lemma wired_phy hm hp hc ha n h : Wired hm hp hc ha n h -> Wired hm true hc ha n (wstep h (WPhy d (Some p))).
Proof.
  intros [A B C D E F G H]. cbn [wstep]. rewrite A. destruct hm; uw; split; intros; go; auto; try congruence;
  match goal with X : ?x <> d |- _ => specialize (H x X); destruct (Z.eq_dec x d); [contradiction|]; go; auto | _ => idtac end.
Qed.
Lemma wired_ant hm hp hc ha n h : Wired hm hp hc ha n h -> Wired hm hp hc true n (wstep h (WAnt d (Some a))).
Proof.
  intros [A B C D E F G H]. cbn [wstep]. rewrite A. uw; split; intros; go; auto; try congruence;
  match goal with X : ?x <> d |- _ => specialize (H x X); destruct (Z.eq_dec x d); [contradiction|]; go; auto | _ => idtac end.
Qed.
Lemma repeat_snoc {A} (x : A) n : repeat x n ++ [x] = repeat x (S n).
Proof. induction n; auto. cbn [repeat app] in *. rewrite IHn. reflexivity. Qed.
Lemma wired_chan hm hp hc ha n h : Wired hm hp hc ha n h -> Wired hm hp true ha (if hp then S n else n) (wstep h (WChan d (Some c))).
Proof.
  intros [A B C D E F G H]. cbn [wstep]. rewrite A. destruct hp; uw; split; intros; go; auto; try congruence;
  try match goal with X : ?x <> d |- _ => specialize (H x X); destruct (Z.eq_dec x d); [contradiction|]; go; auto | _ => idtac end.
  rewrite filter_app, F. cbn [filter mine fst snd]. unfold mine. cbn [fst]. rewrite Z.eqb_refl. cbn [orb]. apply repeat_snoc.
Qed.
Lemma wired_other hm hp hc ha n h o : Wired hm hp hc ha n h -> other o -> Wired hm hp hc ha n (wstep h o).
Proof.
  intros [A B C D E F G H] (O1 & O2 & O3 & O4). pose proof (H (w_dev o) O1) as [HM HP].
  destruct o as [x [y|]|x [y|]|x [y|]|x [y|]]; cbn [w_dev wstep] in *; try (split; assumption).
  - assert (y <> m) by congruence. destruct (d_phy (h_dev h x)) as [z|] eqn:EZ; [assert (z <> p) by congruence|];
    uw; split; intros; go; auto; destruct (Z.eq_dec x0 x) as [->|]; go; auto; split; congruence.
  - assert (y <> p) by congruence. destruct (d_mac (h_dev h x)) as [z|] eqn:EZ; [assert (z <> m) by congruence|];
    uw; split; intros; go; auto; destruct (Z.eq_dec x0 x) as [->|]; go; auto; split; congruence.
  - destruct (d_phy (h_dev h x)) as [z|] eqn:EZ; [assert (z <> p) by congruence|]; uw; split; intros; go; auto.
    + destruct (Z.eq_dec c y) as [<-|]; go; auto. rewrite filter_app, F. cbn [filter]. unfold mine. cbn [fst snd].
      apply Z.eqb_neq in O1. rewrite O1. assert (X : z =? p = false) by (apply Z.eqb_neq; auto). rewrite X. apply app_nil_r.
    + destruct (Z.eq_dec x0 x) as [->|]; go; auto.
    + destruct (Z.eq_dec x0 x) as [->|]; go; auto.
  - assert (y <> a) by congruence. uw; split; intros; go; auto. destruct (Z.eq_dec x0 x) as [->|]; go; auto.
Qed.

Definition is_m (o : wop) : bool := match o with WMac x (Some _) => x =? d | _ => false end.
Definition is_p (o : wop) : bool := match o with WPhy x (Some _) => x =? d | _ => false end.
Definition is_a (o : wop) : bool := match o with WAnt x (Some _) => x =? d | _ => false end.
Lemma wired_run l : (forall o, In o l -> own o \/ other o) -> ~ In (WChan d (Some c)) l -> forall hm hp hc ha n h, Wired hm hp hc ha n h ->
  Wired (hm || existsb is_m l) (hp || existsb is_p l) hc (ha || existsb is_a l) n (wrun h l).
Proof.
  induction l as [|o l IH]; intros OK NC hm hp hc ha n h W; cbn [existsb]; [rewrite !orb_false_r; exact W|].
  unfold wrun. cbn [fold_left]. fold (wrun (wstep h o) l). rewrite !orb_assoc.
  assert (OK' : forall o, In o l -> own o \/ other o) by (intros; apply OK; right; auto).
  assert (NC' : ~ In (WChan d (Some c)) l) by (intros X; apply NC; right; auto).
  specialize (IH OK' NC'). destruct (OK o (or_introl eq_refl)) as [[->|[->|[->| ->]]]|O].
  - cbn [is_m is_p is_a]. rewrite Z.eqb_refl, orb_true_r, !orb_false_r. apply IH, wired_mac with (hm := hm), W.
  - cbn [is_m is_p is_a]. rewrite Z.eqb_refl, orb_true_r, !orb_false_r. apply IH, wired_phy with (hp := hp), W.
  - destruct NC. left. reflexivity.
  - cbn [is_m is_p is_a]. rewrite Z.eqb_refl, orb_true_r, !orb_false_r. apply IH, wired_ant with (ha := ha), W.
  - pose proof (IH _ _ _ _ _ _ (wired_other _ _ _ _ _ _ _ W O)) as X. destruct O as (O1 & _). apply Z.eqb_neq in O1.
    assert (E : is_m o = false /\ is_p o = false /\ is_a o = false) by (destruct o as [? [?|]|? [?|]|? [?|]|? [?|]]; cbn in *; auto).
    destruct E as (-> & -> & ->). rewrite !orb_false_r. exact X.
Qed.
Lemma wired0 : Wired false false false false 0 heap0.
Proof. split; cbn; auto; try discriminate. intros. split; discriminate. Qed.
End Device.
