(** Properties C118, C119 and C120: connecting devices, state of the link, trace sources. *)
From Coq Require Import ZArith List Lia Bool.
From Verif Require Import Base DeviceModel WireModel WireProofs.
Import ListNotations.
Open Scope Z_scope.

(** * C118: connecting a device *)

(** MAC, PHY, antenna and device know one another. *)
Definition linked (h : heap) (d m p a : Z) : Prop :=
  d_mac (h_dev h d) = Some m /\ d_phy (h_dev h d) = Some p /\ d_ant (h_dev h d) = Some a /\
  h_mac h m = Wmac (Some p) (Some d) (Some d) /\ p_devp (h_phy h p) = Some d /\ p_macp (h_phy h p) = Some m /\ h_ant h a = Some d.
(** The PHY sends on the channel, and the channel lists the device and its PHY, once. *)
Definition on_channel (h : heap) (d p c : Z) : Prop :=
  d_chan (h_dev h d) = Some c /\ p_chanp (h_phy h p) = Some c /\
  filter (fun e => (fst e =? d) || (snd e =? p)) (h_list h c) = [(d, p)].
(** The PHY has no channel, and the channel does not list it. *)
Definition off_channel (h : heap) (d p c : Z) : Prop :=
  p_chanp (h_phy h p) = None /\ forall e, In e (h_list h c) -> fst e <> d /\ snd e <> p.

(** The setters of device [d] are called in any order, each once, while other devices are connected that do not share its
    MAC, PHY or antenna. *)
Definition once (d m p c a : Z) (l : list wop) : Prop :=
  (forall o, In o l -> (o = WMac d (Some m) \/ o = WPhy d (Some p) \/ o = WChan d (Some c) \/ o = WAnt d (Some a)) \/
    w_dev o <> d /\ o <> WMac (w_dev o) (Some m) /\ o <> WPhy (w_dev o) (Some p) /\ o <> WAnt (w_dev o) (Some a)) /\
  forall o, In o [WMac d (Some m); WPhy d (Some p); WChan d (Some c); WAnt d (Some a)] -> exists l1 l2, l = l1 ++ o :: l2 /\ ~ In o l1 /\ ~ In o l2.
Definition C118_full := forall d m p c a l, once d m p c a l ->
  linked (wrun heap0 l) d m p a /\ on_channel (wrun heap0 l) d p c.

(** The channel is set before the PHY: the device is never attached. *)
Definition late_phy : list wop := [WMac 1 (Some 1); WChan 1 (Some 5); WPhy 1 (Some 1); WAnt 1 (Some 1)].
Lemma late_once : once 1 1 1 5 1 late_phy.
Proof.
  split.
  - intros o [<-|[<-|[<-|[<-|[]]]]]; left; auto.
  - intros o [<-|[<-|[<-|[<-|[]]]]].
    + exists [], [WChan 1 (Some 5); WPhy 1 (Some 1); WAnt 1 (Some 1)]. split; [reflexivity|]. split; [intros []|intros [X|[X|[X|[]]]]; discriminate X].
    + exists [WMac 1 (Some 1); WChan 1 (Some 5)], [WAnt 1 (Some 1)]. split; [reflexivity|]. split; [intros [X|[X|[]]]; discriminate X|intros [X|[]]; discriminate X].
    + exists [WMac 1 (Some 1)], [WPhy 1 (Some 1); WAnt 1 (Some 1)]. split; [reflexivity|]. split; [intros [X|[]]; discriminate X|intros [X|[X|[]]]; discriminate X].
    + exists [WMac 1 (Some 1); WChan 1 (Some 5); WPhy 1 (Some 1)], []. split; [reflexivity|]. split; [intros [X|[X|[X|[]]]]; discriminate X|intros []].
Qed.
Theorem C118_wiring_refuted : ~ C118_full.
Proof. intros H. destruct (H _ _ _ _ _ _ late_once) as [_ (_ & X & _)]. vm_compute in X. discriminate X. Qed.
Print Assumptions C118_wiring_refuted.

(** In every order MAC, PHY, antenna and device get to know one another. The device is attached to the channel if and only if
    SetPhy comes before SetChannel. *)
Theorem C118_wiring_partial : forall d m p c a l, once d m p c a l ->
  linked (wrun heap0 l) d m p a /\ d_chan (h_dev (wrun heap0 l) d) = Some c /\
  forall l1 l2, l = l1 ++ WChan d (Some c) :: l2 ->
    (In (WPhy d (Some p)) l1 -> on_channel (wrun heap0 l) d p c) /\
    (~ In (WPhy d (Some p)) l1 -> off_channel (wrun heap0 l) d p c).
Proof.
  intros d m p c a l [OK ON].
  assert (X : forall l1 l2, l = l1 ++ WChan d (Some c) :: l2 -> ~ In (WChan d (Some c)) l1 /\ ~ In (WChan d (Some c)) l2).
  { intros l1 l2 E. destruct (ON (WChan d (Some c)) ltac:(cbn; auto)) as (k1 & k2 & K & K1 & K2). rewrite E in K. clear E OK ON l. revert k1 K K1. induction l1 as [|x l1 IH]; intros [|y k1] K K1; cbn [app] in K.
    - injection K as ->. auto.
    - injection K as K K'. destruct K1. left. congruence.
    - injection K as K K'. destruct K2. rewrite <- K'. apply in_or_app. right. left. reflexivity.
    - injection K as -> K. destruct (IH k1 K ltac:(intros Z; apply K1; right; auto)) as [A B]. split; auto. intros [Z|Z]; [|auto]. apply K1. left. auto. }
  assert (Y : forall l1 l2, l = l1 ++ WChan d (Some c) :: l2 ->
     Wired d m p c a true true true true (if existsb (is_p d) l1 then 1 else 0) (wrun heap0 l)).
  { intros l1 l2 E. destruct (X l1 l2 E) as [X1 X2]. assert (L : wrun heap0 l = wrun (wstep (wrun heap0 l1) (WChan d (Some c))) l2) by (rewrite E; unfold wrun; rewrite fold_left_app; reflexivity).
    assert (OK1 : forall o, In o l1 -> own d m p c a o \/ other d m p a o) by (intros o I; apply OK; rewrite E; apply in_or_app; auto).
    assert (OK2 : forall o, In o l2 -> own d m p c a o \/ other d m p a o) by (intros o I; apply OK; rewrite E; apply in_or_app; right; right; auto).
    pose proof (wired_run d m p c a l1 OK1 X1 _ _ _ _ _ _ (wired0 d m p c a)) as W1. cbn [orb] in W1.
    pose proof (wired_run d m p c a l2 OK2 X2 _ _ _ _ _ _ (wired_chan d m p c a _ _ _ _ _ _ W1)) as W2. rewrite <- L in W2.
    assert (EX : forall f o, In o [WMac d (Some m); WPhy d (Some p); WAnt d (Some a)] -> f o = true -> f (WChan d (Some c)) = false -> existsb f l1 || existsb f l2 = true).
    { intros f o I F1 F2. rewrite <- existsb_app. apply existsb_exists. exists o. split; auto. assert (IL : In o l).
      { destruct (ON o ltac:(cbn in *; intuition)) as (k1 & k2 & -> & _). apply in_or_app. right. left. auto. }
      rewrite E in IL. apply in_app_or in IL. apply in_or_app. destruct IL as [|[<-|]]; auto. congruence. }
    assert (HM : existsb (is_m d) l1 || existsb (is_m d) l2 = true) by (apply (EX _ (WMac d (Some m))); cbn [is_m]; auto using Z.eqb_refl; cbn; auto).
    assert (HP : existsb (is_p d) l1 || existsb (is_p d) l2 = true) by (apply (EX _ (WPhy d (Some p))); cbn [is_p]; auto using Z.eqb_refl; cbn; auto).
    assert (HA : existsb (is_a d) l1 || existsb (is_a d) l2 = true) by (apply (EX _ (WAnt d (Some a))); cbn [is_a]; auto using Z.eqb_refl; cbn; auto).
    rewrite HM, HP, HA in W2. exact W2. }
  destruct (ON (WChan d (Some c)) ltac:(cbn; auto)) as (l1 & l2 & E & _). pose proof (Y l1 l2 E) as W.
  destruct W as [S UP PAIR PD AD LI CH RE]. destruct (PAIR eq_refl eq_refl) as (P1 & P2 & P3).
  assert (HS : d_mac (h_dev (wrun heap0 l) d) = Some m /\ d_phy (h_dev (wrun heap0 l) d) = Some p /\ d_ant (h_dev (wrun heap0 l) d) = Some a /\ d_chan (h_dev (wrun heap0 l) d) = Some c) by (rewrite S; auto).
  destruct HS as (S1 & S2 & S3 & S4). split; [|split; auto].
  - repeat split; auto. specialize (UP eq_refl). destruct (h_mac (wrun heap0 l) m) as [x y z]. cbn in *. congruence.
  - intros k1 k2 EK. destruct (Y k1 k2 EK) as [_ _ _ _ _ LK CK _]. split; intros I.
    + assert (T : existsb (is_p d) k1 = true) by (apply existsb_exists; exists (WPhy d (Some p)); split; auto; cbn; apply Z.eqb_refl). rewrite T in LK, CK. repeat split; auto.
    + assert (T : existsb (is_p d) k1 = false).
      { destruct (existsb (is_p d) k1) eqn:T; auto. apply existsb_exists in T. destruct T as (o & O1 & O2). exfalso. apply I.
        destruct (OK o ltac:(rewrite EK; apply in_or_app; auto)) as [[->|[->|[->| ->]]]|(O3 & _)]; cbn in O2; try discriminate O2; auto.
        destruct o as [? [?|]|? [?|]|? [?|]|? [?|]]; cbn in *; try discriminate O2. apply Z.eqb_eq in O2. contradiction. }
      rewrite T in LK, CK. split; auto. intros e IE. assert (M : mine d p e = false).
      { destruct (mine d p e) eqn:M; auto. assert (Z : In e (filter (mine d p) (h_list (wrun heap0 l) c))) by (apply filter_In; auto). rewrite LK in Z. destruct Z. }
      unfold mine in M. apply orb_false_iff in M. destruct M as [M1 M2]. apply Z.eqb_neq in M1, M2. auto.
Qed.
Print Assumptions C118_wiring_partial.
Example C118_example : once 1 1 1 5 1 late_phy /\ off_channel (wrun heap0 late_phy) 1 1 5 /\
  on_channel (wrun heap0 [WAnt 1 (Some 1); WPhy 1 (Some 1); WPhy 2 (Some 2); WChan 2 (Some 5); WChan 1 (Some 5); WMac 1 (Some 1)]) 1 1 5.
Proof. split; [apply late_once|]. split; [split; [reflexivity|intros e []]|]. repeat split; reflexivity. Qed.

(** THzHelper::Install connects all devices: after it, the channel lists the new devices once each, in the order of the nodes, after those it had. *)
Theorem C118_install : forall c l h, NoDup (map k_dev l) -> NoDup (map k_mac l) -> NoDup (map k_phy l) -> NoDup (map k_ant l) ->
  (forall k, In k l -> h_dev h (k_dev k) = bare /\ p_chanp (h_phy h (k_phy k)) = None /\
     (forall x, d_mac (h_dev h x) <> Some (k_mac k) /\ d_phy (h_dev h x) <> Some (k_phy k)) /\
     (forall e, In e (h_list h c) -> fst e <> k_dev k /\ snd e <> k_phy k)) ->
  h_list (wrun h (install c l)) c = h_list h c ++ map (fun k => (k_dev k, k_phy k)) l /\
  forall k, In k l -> linked (wrun h (install c l)) (k_dev k) (k_mac k) (k_phy k) (k_ant k) /\ on_channel (wrun h (install c l)) (k_dev k) (k_phy k) c.
Proof.
  intros c l h ND NM NP NA FR. split.
  - assert (B : forall k, In k l -> h_dev h (k_dev k) = bare) by (intros k K; apply (FR k K)). clear NM NP NA FR. revert h B. induction l as [|k l IH]; intros h B; [symmetry; apply app_nil_r|].
    cbn [map] in *. apply NoDup_cons_iff in ND. destruct ND as [N1 N2]. unfold wrun. cbn [install flat_map app fold_left]. fold (install c l).
    match goal with |- h_list (fold_left wstep _ ?g) c = _ => set (h1 := g) end. change (fold_left wstep (install c l) h1) with (wrun h1 (install c l)).
    pose proof (B k (or_introl eq_refl)) as BK.
    assert (L1 : h_list h1 c = h_list h c ++ [(k_dev k, k_phy k)] /\ forall x, x <> k_dev k -> h_dev h1 x = h_dev h x).
    { subst h1. cbn [wstep]. rewrite BK. cbn. rewrite ?upd_same. cbn. rewrite ?upd_same. cbn. split; [apply upd_same|]. intros x X. rewrite !upd_other by auto. reflexivity. }
    destruct L1 as [L1 L2]. rewrite IH; auto.
    + rewrite L1, <- app_assoc. reflexivity.
    + intros k' K'. rewrite L2; [apply B; right; auto|]. intros E. apply N1. rewrite <- E. apply in_map. auto.
  - intros k K. destruct (in_split _ _ K) as (l1 & l2 & E). destruct (FR k K) as (F1 & F2 & F3 & F4).
    assert (OT : forall k', In k' (l1 ++ l2) -> k_dev k' <> k_dev k /\ k_mac k' <> k_mac k /\ k_phy k' <> k_phy k /\ k_ant k' <> k_ant k).
    { rewrite E in ND, NM, NP, NA. rewrite map_app in ND, NM, NP, NA. cbn [map] in *. apply NoDup_remove_2 in ND, NM, NP, NA. rewrite <- map_app in ND, NM, NP, NA. intros k' K'.
      repeat split; intros Q; [apply ND|apply NM|apply NP|apply NA]; rewrite <- Q; apply in_map; auto. }
    assert (OO : forall l0, (forall k', In k' l0 -> In k' (l1 ++ l2)) -> forall hm hp hc ha n g, Wired (k_dev k) (k_mac k) (k_phy k) c (k_ant k) hm hp hc ha n g ->
       Wired (k_dev k) (k_mac k) (k_phy k) c (k_ant k) hm hp hc ha n (wrun g (install c l0))).
    { induction l0 as [|k' l0 IH]; intros S hm hp hc ha n g W; [exact W|]. unfold wrun. cbn [install flat_map app fold_left]. apply IH; [intros; apply S; right; auto|].
      destruct (OT k' (S k' (or_introl eq_refl))) as (O1 & O2 & O3 & O4).
      repeat (apply wired_other; [|repeat split; cbn [w_dev]; congruence]). exact W. }
    assert (W0 : Wired (k_dev k) (k_mac k) (k_phy k) c (k_ant k) false false false false 0 h).
    { split; try discriminate; auto. destruct (h_list h c) as [|e r] eqn:EL; [reflexivity|]. cbn [repeat].
      assert (G : forall r0, (forall e0, In e0 r0 -> In e0 (e :: r)) -> filter (mine (k_dev k) (k_phy k)) r0 = []).
      { induction r0 as [|e0 r0 IH]; intros S; auto. cbn [filter]. destruct (F4 e0 (S e0 (or_introl eq_refl))) as [G1 G2]. unfold mine at 1. apply Z.eqb_neq in G1, G2. rewrite G1, G2. apply IH. intros; apply S; right; auto. }
      apply G. auto. }
    pose proof (OO l1 ltac:(intros; apply in_or_app; auto) _ _ _ _ _ _ W0) as W1.
    assert (W2 : Wired (k_dev k) (k_mac k) (k_phy k) c (k_ant k) true true true true 1 (wrun h (install c l))).
    { rewrite E. unfold wrun, install. rewrite flat_map_app, fold_left_app. cbn [flat_map app fold_left]. apply OO; [intros; apply in_or_app; auto|].
      eapply wired_ant. apply (wired_chan _ _ _ _ _ true true false false 0). eapply wired_phy, wired_mac. exact W1. }
    destruct W2 as [S UP PAIR PD AD LI CH RE]. destruct (PAIR eq_refl eq_refl) as (P1 & P2 & P3). specialize (UP eq_refl).
    assert (HS : d_mac (h_dev (wrun h (install c l)) (k_dev k)) = Some (k_mac k) /\ d_phy (h_dev (wrun h (install c l)) (k_dev k)) = Some (k_phy k) /\
                 d_ant (h_dev (wrun h (install c l)) (k_dev k)) = Some (k_ant k) /\ d_chan (h_dev (wrun h (install c l)) (k_dev k)) = Some c) by (rewrite S; auto).
    destruct HS as (S1 & S2 & S3 & S4). split; [|repeat split; auto]. repeat split; auto. destruct (h_mac (wrun h (install c l)) (k_mac k)) as [x y z]. cbn in *. congruence.
Qed.
Print Assumptions C118_install.
Example C118_install_example : let l := [Kit 1 1 1 1; Kit 2 2 2 2; Kit 3 3 3 3] in
  h_list (wrun heap0 (install 5 l ++ install 5 [Kit 4 4 4 4])) 5 = [(1, 1); (2, 2); (3, 3); (4, 4)].
Proof. reflexivity. Qed.

(** * C119: state of the link *)

(** A device with a PHY reports that its link is up. *)
Definition C119_full := forall u h d p, d_phy (h_dev h d) = Some p -> is_link_up u (h_dev h d) = true.
(** Nothing sets m_linkup. *)
Theorem C119_link_refuted : ~ C119_full.
Proof. intros H. specialize (H false (wrun heap0 [WPhy 1 (Some 1)]) 1 1 eq_refl). discriminate H. Qed.
Print Assumptions C119_link_refuted.
(** Without PHY it is down; with PHY the answer is whatever the memory contained. *)
Theorem C119_link_partial : forall u h d,
  (d_phy (h_dev h d) = None -> is_link_up u (h_dev h d) = false) /\
  (forall p, d_phy (h_dev h d) = Some p -> is_link_up u (h_dev h d) = u).
Proof. intros u h d. unfold is_link_up. split; [intros ->|intros p ->]; [apply andb_false_r|apply andb_true_r]. Qed.
Print Assumptions C119_link_partial.
Example C119_example : d_phy (h_dev (wrun heap0 late_phy) 1) = Some 1 /\ d_phy (h_dev heap0 1) = None.
Proof. split; reflexivity. Qed.

(** * C120: trace sources *)

(** Each packet that the device passes to its MAC is reported by the trace source Tx, each packet handed up by Rx, exactly once. *)
Definition tx_traced (o : list sout) : nat := length (filter (fun x => match x with STx _ _ => true | _ => false end) o).
Definition passed_down (o : list sout) : nat := length (filter (fun x => match x with SEnq _ _ => true | _ => false end) o).
Definition rx_traced (o : list fout) : list (list Z * Z) := flat_map (fun x => match x with FTraceRx p s => [(p, s)] | _ => [] end) o.
Definition handed_up (o : list fout) : list (list Z * Z) := flat_map (fun x => match x with FUp p _ s => [(p, s)] | _ => [] end) o.
Definition C120_full := (forall proto p dst, tx_traced (send_out proto p dst) = passed_down (send_out proto p dst)) /\
  (forall a p src dst, rx_traced (dev_forward a p src dst) = handed_up (dev_forward a p src dst)).
Theorem C120_traces_refuted : ~ C120_full.
Proof. intros [H _]. specialize (H 2048 [1; 2; 3] 9). vm_compute in H. discriminate H. Qed.
Print Assumptions C120_traces_refuted.
(** Tx reports nothing at all; Rx is right. *)
Theorem C120_traces_partial :
  (forall proto p dst, tx_traced (send_out proto p dst) = 0%nat /\ passed_down (send_out proto p dst) = 1%nat /\
     tx_traced (send_from_out proto p dst) = 0%nat /\ passed_down (send_from_out proto p dst) = 1%nat) /\
  (forall a p src dst, rx_traced (dev_forward a p src dst) = handed_up (dev_forward a p src dst)).
Proof.
  split; [intros; repeat split; reflexivity|]. intros a p src dst. unfold dev_forward. destruct (remove_llc p) as [[pr r]|]; [|reflexivity]. destruct (packet_type a dst); reflexivity.
Qed.
Print Assumptions C120_traces_partial.
Example C120_example : handed_up (dev_forward 9 (add_llc 2048 [1; 2; 3]) 7 9) = [([1; 2; 3], 7)].
Proof. reflexivity. Qed.
