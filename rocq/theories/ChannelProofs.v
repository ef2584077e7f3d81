(** Proofs about the channel. *)
From Coq Require Import ZArith List Lia Bool Permutation.
From Verif Require Import Base EnergyModel NanoModel ChannelModel ChannelSpec.
Import ListNotations.
Open Scope Z_scope.

Lemma cnt_app {A} (f : A -> bool) a b : cnt f (a ++ b) = (cnt f a + cnt f b)%nat.
Proof. unfold cnt. rewrite filter_app, app_length. reflexivity. Qed.
Lemma cnt_cons {A} (f : A -> bool) x l : cnt f (x :: l) = ((if f x then 1 else 0) + cnt f l)%nat.
Proof. unfold cnt. cbn. destruct (f x); reflexivity. Qed.
Lemma cnt_remove {A} (f : A -> bool) l : forall i x, nth_error l i = Some x ->
  cnt f l = ((if f x then 1 else 0) + cnt f (remove_nth i l))%nat.
Proof.
  induction l as [|y l IH]; intros [|i] x; cbn [nth_error]; try discriminate.
  - intros [= ->]. cbn [remove_nth]. apply cnt_cons.
  - intros H. cbn [remove_nth]. rewrite !cnt_cons, (IH i x H). lia.
Qed.
Lemma cnt_zero {A} (f : A -> bool) l : (forall x, In x l -> f x = false) -> cnt f l = 0%nat.
Proof.
  induction l as [|y l IH]; intros H; auto. rewrite cnt_cons, (H y (or_introl eq_refl)), IH; auto.
  intros x X. apply H. right. auto.
Qed.
Lemma in_remove {A} (l : list A) : forall i x, In x (remove_nth i l) -> In x l.
Proof.
  induction l as [|y l IH]; intros [|i] x; cbn; auto. intros [->|H]; eauto.
Qed.
Lemma in_erase {A} (f : A -> bool) l x : In x (erase_first f l) -> In x l.
Proof. induction l as [|y l IH]; cbn; auto. destruct (f y); cbn; auto. intros [->|H]; auto. Qed.

Definition wants (l : list txrec) (k j : nat) : nat :=
  match nth_error l k with Some r => target r j | None => 0%nat end.
Definition known (l : list txrec) (k : nat) : nat := match nth_error l k with Some _ => 1%nat | None => 0%nat end.

Definition ne_ok (l : list txrec) (ne : nentry) (r : txrec) : Prop :=
  nth_error l (n_k ne) = Some r /\ nth_error (t_devs r) (n_j ne) = Some (n_phy ne) /\ n_phy ne <> t_phy r /\ n_dur ne = t_dur r.
Definition ev_ok (l : list txrec) (t : Z) (e : cev) : Prop :=
  match e with
  | ESendDone k p => exists r, nth_error l k = Some r /\ p = t_phy r /\ t = t_time r + t_dur r
  | ERecv j ne => exists r, ne_ok l ne r /\ n_j ne = j /\ t = t_time r + t_delay r j
  | ERecvDone j ne => exists r, ne_ok l ne r /\ n_j ne = j /\ t = t_time r + t_delay r j + t_dur r
  | EDelete ne => exists r, ne_ok l ne r
  end.
Definition out_ok (l : list txrec) (o : cout) : Prop :=
  match o with
  | CStart k j d t => exists r, nth_error l k = Some r /\ nth_error (t_devs r) j = Some d /\ d <> t_phy r /\
                        t = t_time r + t_delay r j
  | CEnd k j d t => exists r, nth_error l k = Some r /\ nth_error (t_devs r) j = Some d /\ d <> t_phy r /\
                        t = t_time r + t_delay r j + t_dur r
  | CSent k p t => exists r, nth_error l k = Some r /\ p = t_phy r /\ t = t_time r + t_dur r
  | CUB => True
  end.

Record J (s : chan) (tr : list cout) : Prop := mkJ {
  j_devs : forall k r, nth_error (c_log s) k = Some r -> exists ext, c_devs s = t_devs r ++ ext;
  j_pend : forall t e, In (t, e) (c_pend s) -> ev_ok (c_log s) t e;
  j_noise : forall ne, In ne (c_noise s) -> exists r, ne_ok (c_log s) ne r;
  j_out : forall o, In o tr -> out_ok (c_log s) o;
  j_start : forall k j, (cnt (out_start k j) tr + cnt (p_recv k j) (c_pend s) = wants (c_log s) k j)%nat;
  j_end : forall k j, (cnt (out_end k j) tr + cnt (p_done k j) (c_pend s) = cnt (out_start k j) tr)%nat;
  j_sent : forall k, (cnt (out_sent k) tr + cnt (p_sent k) (c_pend s) = known (c_log s) k)%nat;
  j_list : forall k j, cnt (is_kj k j) (c_noise s) = (cnt (p_done k j) (c_pend s) + cnt (p_del k j) (c_pend s))%nat }.

Lemma nth_app_old {A} (l : list A) x k r : nth_error l k = Some r -> nth_error (l ++ [x]) k = Some r.
Proof. intros H. rewrite nth_error_app1; auto. apply nth_error_Some. congruence. Qed.

Lemma nth_app_new {A} (l : list A) x k r : nth_error (l ++ [x]) k = Some r ->
  nth_error l k = Some r \/ k = length l /\ r = x.
Proof.
  intros H. destruct (Nat.lt_ge_cases k (length l)) as [L|L].
  - rewrite nth_error_app1 in H; auto.
  - rewrite nth_error_app2 in H; auto. destruct (k - length l)%nat as [|m] eqn:E; cbn in H.
    + injection H as <-. right. split; auto. lia.
    + destruct m; discriminate.
Qed.

Lemma ev_ok_app l x t e : ev_ok l t e -> ev_ok (l ++ [x]) t e.
Proof.
  assert (N : forall ne r, ne_ok l ne r -> ne_ok (l ++ [x]) ne r).
  { intros ne r [A B]. split; auto. apply nth_app_old. exact A. }
  destruct e; cbn.
  - intros [r [A B]]. exists r. split; auto. apply nth_app_old. exact A.
  - intros [r [A B]]. eauto.
  - intros [r [A B]]. eauto.
  - intros [r A]. eauto.
Qed.
Lemma out_ok_app l x o : out_ok l o -> out_ok (l ++ [x]) o.
Proof.
  destruct o; cbn; auto; intros [r H]; exists r; destruct H; split; auto; apply nth_app_old; auto.
Qed.

Lemma announce_in now k phy dur delay devs : forall j0 t e, In (t, e) (announce now k phy dur delay j0 devs) ->
  exists j d, (j0 <= j)%nat /\ nth_error devs (j - j0) = Some d /\ d <> phy /\ t = now + delay j /\ e = ERecv j (NEntry k j d dur).
Proof.
  induction devs as [|d devs IH]; intros j0 t e; cbn [announce]; [intros []|].
  rewrite in_app_iff. intros [H|H].
  - destruct (Z.eqb_spec phy d) as [E|E]; [destruct H|]. destruct H as [H|[]]. injection H as <- <-.
    exists j0, d. rewrite Nat.sub_diag. repeat split; auto.
  - destruct (IH _ _ _ H) as [j [d' [L [N [D [T E]]]]]]. exists j, d'. repeat split; auto; try lia.
    replace (j - j0)%nat with (S (j - S j0)) by lia. exact N.
Qed.

Lemma announce_cnt now k phy dur delay devs : forall j0 k' j,
  cnt (p_recv k' j) (announce now k phy dur delay j0 devs) =
  if Nat.eqb k k' && Nat.leb j0 j then
    match nth_error devs (j - j0) with Some d => if phy =? d then 0%nat else 1%nat | None => 0%nat end
  else 0%nat.
Proof.
  induction devs as [|d devs IH]; intros j0 k' j; cbn [announce].
  - destruct (_ && _); [|reflexivity]. rewrite (proj2 (nth_error_None _ _)); [reflexivity|cbn; lia].
  - rewrite cnt_app, IH.
    assert (H : cnt (p_recv k' j) (if phy =? d then [] else [(now + delay j0, ERecv j0 (NEntry k j0 d dur))]) =
      if Nat.eqb k k' && Nat.eqb j0 j then (if phy =? d then 0%nat else 1%nat) else 0%nat).
    { destruct (phy =? d); [destruct (_ && _); reflexivity|]. rewrite cnt_cons. unfold p_recv, is_kj. cbn [snd n_k n_j].
      destruct (_ && _); reflexivity. }
    rewrite H. destruct (Nat.eqb k k'); cbn [andb]; [|reflexivity].
    destruct (Nat.eqb_spec j0 j) as [->|NE].
    + rewrite Nat.leb_refl, Nat.sub_diag. cbn [nth_error]. rewrite (proj2 (Nat.leb_gt (S j) j)) by lia. lia.
    + destruct (Nat.leb_spec j0 j) as [L|L].
      * rewrite (proj2 (Nat.leb_le (S j0) j)) by lia. replace (j - j0)%nat with (S (j - S j0)) by lia. reflexivity.
      * rewrite (proj2 (Nat.leb_gt (S j0) j)) by lia. reflexivity.
Qed.

Lemma announce_other now k phy dur delay devs j0 (f : Z * cev -> bool) :
  (forall t j ne, f (t, ERecv j ne) = false) -> cnt f (announce now k phy dur delay j0 devs) = 0%nat.
Proof.
  intros F. apply cnt_zero. intros [t e] I. destruct (announce_in _ _ _ _ _ _ _ _ _ I) as [j [d [_ [_ [_ [_ ->]]]]]]. apply F.
Qed.

Lemma is_kj_spec k j ne : is_kj k j ne = true <-> n_k ne = k /\ n_j ne = j.
Proof. unfold is_kj. rewrite andb_true_iff, !Nat.eqb_eq. tauto. Qed.

Lemma wants_new l x k j : wants (l ++ [x]) k j = (wants l k j + (if Nat.eqb (length l) k then target x j else 0))%nat.
Proof.
  unfold wants. destruct (Nat.eqb_spec (length l) k) as [<-|NE].
  - rewrite nth_error_app2, Nat.sub_diag by lia. cbn [nth_error].
    rewrite (proj2 (nth_error_None l (length l))) by lia. reflexivity.
  - destruct (Nat.lt_ge_cases k (length l)).
    + rewrite nth_error_app1 by auto. destruct (nth_error l k); lia.
    + rewrite (proj2 (nth_error_None l k)) by lia. rewrite (proj2 (nth_error_None (l ++ [x]) k)); [reflexivity|].
      rewrite app_length. cbn. lia.
Qed.
Lemma known_new l x k : known (l ++ [x]) k = (known l k + (if Nat.eqb (length l) k then 1 else 0))%nat.
Proof.
  unfold known. destruct (Nat.eqb_spec (length l) k) as [<-|NE].
  - rewrite nth_error_app2, Nat.sub_diag by lia. cbn [nth_error].
    rewrite (proj2 (nth_error_None l (length l))) by lia. reflexivity.
  - destruct (Nat.lt_ge_cases k (length l)).
    + rewrite nth_error_app1 by auto. destruct (nth_error l k); lia.
    + rewrite (proj2 (nth_error_None l k)) by lia. rewrite (proj2 (nth_error_None (l ++ [x]) k)); [reflexivity|].
      rewrite app_length. cbn. lia.
Qed.

Lemma erase_cnt (f g : nentry -> bool) l x : find f l = Some x ->
  cnt g l = ((if g x then 1 else 0) + cnt g (erase_first f l))%nat.
Proof.
  induction l as [|y l IH]; cbn [find erase_first]; [discriminate|]. destruct (f y).
  - intros [= ->]. apply cnt_cons.
  - intros H. rewrite !cnt_cons, (IH H). lia.
Qed.

(** Evaluates the selectors on given events and outputs. *)
Ltac red1 x := let v := eval cbv [p_recv p_done p_del p_sent out_start out_end out_sent is_kj snd] in x in change x with v in *.
Ltac sel :=
  repeat match goal with
  | |- context [p_recv ?k ?j (?t, ?e)] => red1 (p_recv k j (t, e))
  | H : context [p_recv ?k ?j (?t, ?e)] |- _ => red1 (p_recv k j (t, e))
  | |- context [p_done ?k ?j (?t, ?e)] => red1 (p_done k j (t, e))
  | H : context [p_done ?k ?j (?t, ?e)] |- _ => red1 (p_done k j (t, e))
  | |- context [p_del ?k ?j (?t, ?e)] => red1 (p_del k j (t, e))
  | H : context [p_del ?k ?j (?t, ?e)] |- _ => red1 (p_del k j (t, e))
  | |- context [p_sent ?k (?t, ?e)] => red1 (p_sent k (t, e))
  | |- context [out_start ?k ?j ?e] => red1 (out_start k j e)
  | |- context [out_end ?k ?j ?e] => red1 (out_end k j e)
  | |- context [is_kj ?k ?j ?e] => red1 (is_kj k j e)
  | H : context [is_kj ?k ?j ?e] |- _ => red1 (is_kj k j e)
  | |- context [out_sent ?k ?e] => red1 (out_sent k e)
  end;
  repeat match goal with
  | |- context [cnt ?f []] => change (cnt f []) with 0%nat
  | |- context [if false then ?a else ?b] => change (if false then a else b) with b
  | H : context [if false then ?a else ?b] |- _ => change (if false then a else b) with b in H
  end.

Lemma J_step s tr i : J s tr -> ctimely s i = true -> i <> CClear ->
  J (fst (chan_step s i)) (tr ++ snd (chan_step s i)).
Proof.
  intros H T NC. destruct i as [phy|phy dur delay|i|t|]; cbn [chan_step]; [| | | |congruence].
  - (* AddDevice *)
    cbn [fst snd]. rewrite app_nil_r. destruct H. constructor; cbn; auto.
    intros k r K. destruct (j_devs0 k r K) as [ext E]. exists (ext ++ [phy]). rewrite E, app_assoc. reflexivity.
  - (* SendPacket *)
    unfold chan_send. destruct (_ && _).
    { cbn [fst snd]. destruct H. constructor; auto.
      - intros o. rewrite in_app_iff. intros [O|[<-|[]]]; cbn; auto.
      - intros k j. rewrite cnt_app. cbn. rewrite Nat.add_0_r. auto.
      - intros k j. rewrite !cnt_app. cbn. rewrite !Nat.add_0_r. auto.
      - intros k. rewrite cnt_app. cbn. rewrite Nat.add_0_r. auto. }
    cbn [fst snd]. rewrite app_nil_r. set (x := TxRec _ _ _ _ _). destruct H.
    constructor; cbn [c_devs c_log c_pend c_noise].
    + intros k r K. apply nth_app_new in K. destruct K as [K|[_ ->]]; eauto. exists []. rewrite app_nil_r. reflexivity.
    + intros t e. rewrite in_app_iff. intros [I|[I|I]].
      * apply ev_ok_app. auto.
      * injection I as <- <-. cbn. exists x. rewrite nth_error_app2, Nat.sub_diag by lia. auto.
      * destruct (announce_in _ _ _ _ _ _ _ _ _ I) as [j [d [_ [N [D [-> ->]]]]]]. cbn. exists x. unfold ne_ok. cbn.
        rewrite nth_error_app2, Nat.sub_diag by lia. rewrite Nat.sub_0_r in N. repeat split; auto.
    + intros ne I. destruct (j_noise0 ne I) as [r [R1 R2]]. exists r. split; auto. apply nth_app_old. auto.
    + intros o O. apply out_ok_app. auto.
    + intros k j. rewrite wants_new, cnt_app, cnt_cons, announce_cnt. cbn [p_recv snd].
      rewrite <- j_start0. rewrite Nat.sub_0_r. unfold target. cbn [t_devs t_phy x].
      destruct (Nat.eqb (length (c_log s)) k); cbn [andb Nat.leb]; lia.
    + intros k j. rewrite cnt_app, cnt_cons, announce_other by (intros; reflexivity). cbn [p_done snd]. rewrite <- j_end0. lia.
    + intros k. rewrite known_new, cnt_app, cnt_cons, announce_other by (intros; reflexivity). cbn [p_sent snd].
      rewrite <- j_sent0. destruct (Nat.eqb (length (c_log s)) k); lia.
    + intros k j. rewrite !cnt_app, !cnt_cons, !announce_other by (intros; reflexivity). cbn [p_done p_del snd]. rewrite j_list0. lia.
  - (* an event *)
    cbn [ctimely] in T. destruct (nth_error (c_pend s) i) as [[t e]|] eqn:N; [|discriminate].
    apply Z.eqb_eq in T. subst t.
    assert (OK := j_pend _ _ H _ _ (nth_error_In _ _ N)).
    assert (CR : forall f, cnt f (c_pend s) = ((if f (c_now s, e) then 1 else 0) + cnt f (remove_nth i (c_pend s)))%nat)
      by (intros f; apply cnt_remove; exact N).
    assert (PE : forall t e, In (t, e) (remove_nth i (c_pend s)) -> ev_ok (c_log s) t e)
      by (intros t e' I; apply (j_pend _ _ H); eapply in_remove; exact I).
    assert (DEV : forall k r j d, nth_error (c_log s) k = Some r -> nth_error (t_devs r) j = Some d -> nth_error (c_devs s) j = Some d).
    { intros k r j d K D. destruct (j_devs _ _ H k r K) as [ext E]. rewrite E, nth_error_app1; auto.
      apply nth_error_Some. congruence. }
    destruct e as [k p|j ne|j ne|ne]; cbn [ev_ok] in OK; cbn [chan_run c_devs c_now c_noise c_pend c_log].
    + (* SendPacketDone *)
      destruct OK as [r [R1 [R2 R3]]]. destruct H. constructor; cbn [fst snd c_devs c_now c_noise c_pend c_log]; auto.
      * intros o. rewrite in_app_iff. intros [O|[<-|[]]]; auto. exists r. auto.
      * intros k' j. rewrite cnt_app. rewrite cnt_cons. rewrite <- j_start0, (CR (p_recv k' j)). sel. sel. lia.
      * intros k' j. rewrite !cnt_app. rewrite !cnt_cons.
        specialize (j_end0 k' j). rewrite (CR (p_done k' j)) in j_end0. sel. lia.
      * intros k'. rewrite cnt_app, cnt_cons.  rewrite <- j_sent0, (CR (p_sent k')). sel. lia.
      * intros k' j. rewrite j_list0, (CR (p_done k' j)), (CR (p_del k' j)). sel. lia.
    + (* ReceivePacket *)
      destruct OK as [r [[R1 [R2 [R3 R4]]] [<- R6]]]. rewrite (DEV _ _ _ _ R1 R2). destruct H.
      constructor; cbn [fst snd c_devs c_now c_noise c_pend c_log]; auto.
      * intros t e. rewrite in_app_iff. intros [I|[I|[]]]; auto. injection I as <- <-. cbn. exists r. unfold ne_ok. rewrite R4. repeat split; auto. lia.
      * intros ne'. rewrite in_app_iff. intros [I|[<-|[]]]; auto. exists r. unfold ne_ok. auto.
      * intros o. rewrite in_app_iff. intros [O|[<-|[]]]; auto. exists r. auto.
      * intros k' j. rewrite !cnt_app, !cnt_cons.  rewrite <- j_start0, (CR (p_recv k' j)). sel. lia.
      * intros k' j. rewrite !cnt_app, !cnt_cons.  specialize (j_end0 k' j). rewrite (CR (p_done k' j)) in j_end0. sel. lia.
      * intros k'. rewrite !cnt_app, !cnt_cons.  rewrite <- j_sent0, (CR (p_sent k')). sel. lia.
      * intros k' j. rewrite !cnt_app, !cnt_cons, j_list0, (CR (p_done k' j)), (CR (p_del k' j)). sel. lia.
    + (* ReceivePacketDone *)
      destruct OK as [r [[R1 [R2 [R3 R4]]] [<- R6]]]. rewrite (DEV _ _ _ _ R1 R2). destruct H.
      constructor; cbn [fst snd c_devs c_now c_noise c_pend c_log]; auto.
      * intros t e. rewrite in_app_iff. intros [I|[I|[]]]; auto. injection I as <- <-. cbn. exists r. unfold ne_ok. auto.
      * intros o. rewrite in_app_iff. intros [O|[<-|[]]]; auto. exists r. auto.
      * intros k' j. rewrite !cnt_app, !cnt_cons.  rewrite <- j_start0, (CR (p_recv k' j)). sel. lia.
      * intros k' j. rewrite !cnt_app, !cnt_cons.  specialize (j_end0 k' j). rewrite (CR (p_done k' j)) in j_end0. sel. lia.
      * intros k'. rewrite !cnt_app, !cnt_cons.  rewrite <- j_sent0, (CR (p_sent k')). sel. lia.
      * intros k' j. rewrite !cnt_app, !cnt_cons, j_list0, (CR (p_done k' j)), (CR (p_del k' j)). sel. lia.
    + (* DeleteNoiseEntry *)
      destruct OK as [r [R1 [R2 [R3 R4]]]].
      assert (F : exists x, find (fun x => same_entry x ne) (c_noise s) = Some x /\ n_k x = n_k ne /\ n_j x = n_j ne).
      { destruct (find (fun x => same_entry x ne) (c_noise s)) as [x|] eqn:F.
        - exists x. split; auto. apply find_some in F. destruct F as [_ F]. unfold same_entry in F.
          apply andb_prop in F. destruct F as [F _]. apply andb_prop in F. destruct F as [F1 F2].
          apply Nat.eqb_eq in F1. apply Nat.eqb_eq in F2. auto.
        - exfalso. pose proof (j_list _ _ H (n_k ne) (n_j ne)) as L. rewrite (CR (p_del (n_k ne) (n_j ne))) in L.
          unfold p_del at 1 in L. cbn [snd] in L. rewrite (proj2 (is_kj_spec _ _ ne)) in L by auto.
          rewrite cnt_zero in L; [lia|]. intros x X. destruct (is_kj _ _ x) eqn:K; auto. exfalso.
          apply is_kj_spec in K. destruct K as [K1 K2]. pose proof (find_none _ _ F _ X) as Y. cbv beta in Y.
          destruct (j_noise _ _ H x X) as [r' [Q1 [Q2 _]]]. rewrite K1, R1 in Q1. injection Q1 as <-.
          rewrite K2, R2 in Q2. injection Q2 as Q2. unfold same_entry in Y. rewrite K1, K2, Q2, !Nat.eqb_refl, Z.eqb_refl in Y. discriminate. }
      destruct F as [x [F [X1 X2]]]. cbn [fst snd]. rewrite app_nil_r. destruct H.
      constructor; cbn [c_devs c_now c_noise c_pend c_log]; auto.
      * intros ne' I. apply in_erase in I. auto.
      * intros k' j. rewrite <- j_start0, (CR (p_recv k' j)). sel. lia.
      * intros k' j. specialize (j_end0 k' j). rewrite (CR (p_done k' j)) in j_end0. sel. lia.
      * intros k'. rewrite <- j_sent0, (CR (p_sent k')). sel. lia.
      * intros k' j. specialize (j_list0 k' j). rewrite (erase_cnt _ _ _ _ F), (CR (p_done k' j)), (CR (p_del k' j)) in j_list0.
        sel. rewrite X1, X2 in j_list0. lia.
  - (* clock *)
    cbn [fst snd]. rewrite app_nil_r. destruct H. constructor; auto.
Qed.

Lemma J_run l : forall s tr, J s tr -> ctimely_run s l = true -> ~ In CClear l ->
  J (fst (chan_steps s l)) (tr ++ snd (chan_steps s l)).
Proof.
  induction l as [|i l IH]; intros s tr H T NC; cbn [chan_steps ctimely_run] in *.
  - rewrite app_nil_r. exact H.
  - apply andb_prop in T. destruct T as [T1 T2].
    pose proof (J_step s tr i H T1 ltac:(intros ->; apply NC; left; auto)) as H1.
    destruct (chan_step s i) as [s1 o1]. cbn [fst snd] in *.
    specialize (IH s1 _ H1 T2 ltac:(intros X; apply NC; right; auto)).
    destruct (chan_steps s1 l) as [s2 o2]. cbn [fst snd] in *. rewrite app_assoc. exact IH.
Qed.

Lemma J0 : J chan0 [].
Proof.
  constructor; cbn; try tauto.
  - intros k r. destruct k; discriminate.
  - intros k j. unfold wants. cbn. destruct k; reflexivity.
  - intros k. unfold known. destruct k; reflexivity.
Qed.

(** No undefined behaviour as long as every sender is attached. *)
Lemma fire_safe s tr i : J s tr -> ctimely s (CFire i) = true -> ~ In CUB (snd (chan_step s (CFire i))).
Proof.
  intros H T. cbn [ctimely chan_step] in *. destruct (nth_error (c_pend s) i) as [[t e]|] eqn:N; [|discriminate].
  pose proof (j_pend _ _ H _ _ (nth_error_In _ _ N)) as OK.
  assert (DEV : forall k r j d, nth_error (c_log s) k = Some r -> nth_error (t_devs r) j = Some d -> nth_error (c_devs s) j = Some d).
  { intros k r j d K D. destruct (j_devs _ _ H k r K) as [ext E]. rewrite E, nth_error_app1; auto.
    apply nth_error_Some. congruence. }
  destruct e as [k p|j ne|j ne|ne]; cbn [ev_ok] in OK; cbn [chan_run c_devs].
  - cbn. intros [X|[]]. discriminate.
  - destruct OK as [r [[R1 [R2 _]] [<- _]]]. rewrite (DEV _ _ _ _ R1 R2). cbn. intros [X|[]]. discriminate.
  - destruct OK as [r [[R1 [R2 _]] [<- _]]]. rewrite (DEV _ _ _ _ R1 R2). cbn. intros [X|[]]. discriminate.
  - cbn. auto.
Qed.

Lemma devs_step s i p : i <> CClear -> In p (c_devs (fst (chan_step s i))) <-> In p (c_devs s) \/ i = CAdd p.
Proof.
  intros NC. destruct i as [q|q dur delay|i|t|]; cbn [chan_step]; [| | | |congruence].
  - cbn. rewrite in_app_iff. cbn. split; [intros [X|[->|[]]]; auto|intros [X|[= ->]]; auto].
  - unfold chan_send. destruct (_ && _); cbn; split; auto; intros [X|X]; auto; discriminate.
  - destruct (nth_error (c_pend s) i) as [[t e]|]; [|cbn; split; auto; intros [X|X]; auto; discriminate].
    destruct e; cbn [chan_run c_devs]; try (destruct (nth_error _ _)); cbn; split; auto; intros [X|X]; auto; discriminate.
  - cbn. split; auto. intros [X|X]; auto; discriminate.
Qed.

Lemma safe_run l : forall s tr, J s tr -> ctimely_run s l = true -> ~ In CClear l ->
  (forall l1 p d f l2, l = l1 ++ CSend p d f :: l2 -> In p (c_devs s) \/ In (CAdd p) l1) ->
  ~ In CUB (snd (chan_steps s l)).
Proof.
  induction l as [|i l IH]; intros s tr H T NC A; cbn [chan_steps ctimely_run] in *; [auto|].
  apply andb_prop in T. destruct T as [T1 T2]. assert (NI : i <> CClear) by (intros ->; apply NC; left; auto).
  pose proof (J_step s tr i H T1 NI) as H1.
  assert (S1 : ~ In CUB (snd (chan_step s i))).
  { destruct i as [q|q dur delay|i|t|]; try (cbn; auto; fail); [|eapply fire_safe; eauto].
    cbn [chan_step]. unfold chan_send. specialize (A [] q dur delay l eq_refl). destruct A as [A|[]].
    replace (existsb (Z.eqb q) (c_devs s)) with true; [cbn; auto|].
    symmetry. apply existsb_exists. exists q. split; auto. apply Z.eqb_refl. }
  assert (S2 : ~ In CUB (snd (chan_steps (fst (chan_step s i)) l))).
  { eapply IH; eauto. { intros X. apply NC. right. auto. }
    intros l1 p d f l2 E. rewrite (devs_step s i p NI). specialize (A (i :: l1) p d f l2 ltac:(rewrite E; reflexivity)).
    destruct A as [A|[A|A]]; auto. }
  destruct (chan_step s i) as [s1 o1]. cbn [fst snd] in *. destruct (chan_steps s1 l) as [s2 o2]. cbn [fst snd] in *.
  rewrite in_app_iff. tauto.
Qed.
