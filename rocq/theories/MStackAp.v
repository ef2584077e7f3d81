(** The macro stack with an access point (ApModel) and clients (ClientModel). *)
From Coq Require Import ZArith List Lia Bool.
From Verif Require Import Base HeaderModel SeqModel EnergyModel MacModel ApModel ApSpec ApProofs ApInv ClientModel ClientSpec ClientCase ClientAcct ClientInv ApNet
  MacroPhyModel ChannelModel MStackModel MStackProofs.
Import ListNotations.
Open Scope Z_scope.

(** Events of a MAC layer that do not come from its PHY: a pending event runs; the application calls Enqueue. *)
Inductive xev := XTimer (i : nat) | XEnq (size : Z) (dst : addr).

(** Enqueue of the access point does nothing (thz-mac-macro-ap.cc:220-223). *)
Definition ap_event (e : nev xev kframe) : option pevent :=
  match e with
  | NOwn (XTimer i) => Some (AETimer i)
  | NOwn (XEnq _ _) => None
  | NTxDone => Some AETxDone
  | NRxStart => Some AERxStart
  | NRxEnd f ok pw => Some (AERxEnd f ok pw)
  | NTick t => Some (AETick t)
  end.
Definition cl_event (e : nev xev kframe) : levent :=
  match e with
  | NOwn (XTimer i) => LETimer i
  | NOwn (XEnq size dst) => LEEnq size dst
  | NTxDone => LETxDone
  | NRxStart => LERxStart
  | NRxEnd f ok _ => LERxEnd f ok
  | NTick t => LETick t
  end.

(** The access point has the address [ac_addr c]; all other nodes are clients. [dur f mcs] is the duration of a
    frame (CalTxDuration, thz-phy-macro.cc:252-259); the access point sends with MCS 0
    (thz-mac-macro-ap.cc:578). *)
Definition ap_sends (dur : kframe -> Z -> Z) (o : list pout) : list (kframe * Z) :=
  flat_map (fun x => match x with PSnd f => [(f, dur f 0)] | _ => [] end) o.
Definition cl_sends (dur : kframe -> Z -> Z) (o : list lout) : list (kframe * Z) :=
  flat_map (fun x => match x with LSnd f m => [(f, dur f m)] | _ => [] end) o.
Definition cell_step (c : acfg) (cfg : addr -> lcfg) (dur : kframe -> Z -> Z) (N : anet) (a : addr) (e : lenv) (idle : bool) (x : nev xev kframe) : anet * list (kframe * Z) :=
  if a =? ac_addr c then
    match ap_event x with
    | Some ev =>
      let r := pstep c (an_st N) ev in
      (Anet (an_hist N ++ [ev]) (fst r) (an_out N ++ snd r) (an_cl N), ap_sends dur (snd r))
    | None => (N, [])
    end
  else
    let n := an_cl N a in
    let r := lstep (cfg a) e (ln_st n) (cl_event x) in
    let n' := Lnode (ln_hist n ++ [(e, cl_event x)]) (fst r) (ln_out n ++ snd r) in
    (Anet (an_hist N) (an_st N) (an_out N) (lput (an_cl N) a n'), cl_sends dur (snd r)).
Definition cell_conf (c : acfg) (cfg : addr -> lcfg) (dur : kframe -> Z -> Z) (sense : addr -> Z -> bool) (good : addr -> Z -> Z -> bool) (nodes : list addr) : mconf anet xev kframe lenv :=
  MConf (cell_step c cfg dur) sense good nodes.
Definition cell0 (c : acfg) (q0 : addr -> Z) : anet := Anet [] (pinit c) [] (fun a => Lnode [] (linit (q0 a)) []).

(** Real time for the pending events of the MAC layers. *)
Definition cell_due (nodes : list addr) (N : anet) : list Z :=
  map pt_due (p_timers (an_st N)) ++ flat_map (fun a => map lt_due (l_timers (ln_st (an_cl N a)))) nodes.
Definition cell_own (c : acfg) (N : anet) (a : addr) (x : xev) : bool :=
  match x with
  | XTimer i => if a =? ac_addr c then ptimely (an_st N) (AETimer i) else ltimely (ln_st (an_cl N a)) (LETimer i)
  | XEnq _ _ => true
  end.

(** ** One step of a MAC layer *)
Definition some_air (o : option kframe) : bool := match o with Some _ => true | None => false end.
Definition ap_air0 (s : pst) (ev : pevent) : bool := match ev with AETxDone => false | _ => some_air (p_air s) end.
Definition cl_air0 (s : lst) (ev : levent) : bool := match ev with LETxDone => false | _ => some_air (l_air s) end.

Lemma ap_one c s ev s' o dur : pcase c s ev s' o ->
  ap_sends dur o = [] /\ some_air (p_air s') = ap_air0 s ev \/
  (exists x, ap_sends dur o = [x]) /\ ap_air0 s ev = false /\ some_air (p_air s') = true.
Proof.
  assert (UP : forall f s0, ap_sends dur (upif f s0) = []).
  { intros f s0. unfold upif. destruct (fst _); reflexivity. }
  assert (TR : forall g s0, ap_sends dur (sndif g s0) = [] /\ some_air (p_air (trysend g s0)) = some_air (p_air s0) \/
     (exists x, ap_sends dur (sndif g s0) = [x]) /\ some_air (p_air s0) = false /\ some_air (p_air (trysend g s0)) = true).
  { intros g s0. unfold sndif, trysend. destruct (cansend s0) eqn:E; [|left; auto]. right. apply cansend_air in E. destruct E as [E _]. rewrite E.
    split; [exists (g, dur g 0); reflexivity|auto]. }
  intros C. destruct C; cbn [ap_air0].
  - left. auto.
  - left. auto.
  - left. auto.
  - left. auto.
  - left. auto.
  - left. split; [reflexivity|]. cbn [pset_state p_air]. rewrite (proj1 (proj2 (cancel_proj _ _))). reflexivity.
  - left. auto.
  - left. auto.
  - left. split; [apply UP|reflexivity].
  - right. split; [|rewrite H; auto]. exists (g, dur g 0). unfold ap_sends. cbn [flat_map app]. fold (ap_sends dur (upif f s)). rewrite UP. reflexivity.
  - change (ap_sends dur (PTurn (p_angle (pturn c s0)) :: sndif (pcta c s0) (pturn c s0))) with (ap_sends dur (sndif (pcta c s0) (pturn c s0))).
    assert (E : p_air (pturn c s0) = p_air s).
    { rewrite (proj1 (proj2 (pturn_proj c s0))), (proj1 (proj2 (toturn_proj _ _ _ _ H0))). reflexivity. }
    rewrite <- E. apply TR.
  - left. auto.
  - left. auto.
  - right. apply cansend_air in H2. destruct H2 as [H2 _]. rewrite H2. split; [exists (g, dur g 0)|]; auto.
  - left. auto.
  - left. auto.
  - apply (TR f s1).
  - apply (TR f s1).
Qed.

Lemma decrease_air s : l_air (decrease s) = l_air s.
Proof. unfold decrease. destruct (find1 _ _); auto. destruct (_ =? 0); reflexivity. Qed.
Lemma lcancel_air u s : l_air (lcancel u s) = l_air s.
Proof. destruct u; reflexivity. Qed.
Lemma tcase_air limit life ack sq s s1 o dur : tcase limit life ack sq s s1 o -> l_air s1 = l_air s /\ cl_sends dur o = [].
Proof. intros C. destruct C; split; auto. cbn. destruct (_ >=? 32); reflexivity. Qed.
Lemma cts_loop_air f l : forall s, l_air (cts_loop f l s) = l_air s.
Proof. induction l as [|r l IH]; intros s; cbn [cts_loop]; auto. rewrite IH. destruct (_ =? _); reflexivity. Qed.
Lemma ltimes_air n : forall s, l_air (ltimes n (lsched 0 LKResult) s) = l_air s.
Proof. induction n as [|n IH]; intros s; cbn [ltimes]; auto. rewrite IH. reflexivity. Qed.
Lemma done_air ok sq s dur : l_air (fst (l_done ok sq s)) = l_air s /\ cl_sends dur (snd (l_done ok sq s)) = [].
Proof.
  unfold l_done. destruct (ldone_loop _ _ _ _) as [[[[[l q] d] k] em] ub]. destruct (k =? 0); auto. cbn [fst snd]. split.
  - set (s1 := ltimes _ _ _). assert (E : l_air s1 = l_air s) by (unfold s1; rewrite ltimes_air; reflexivity). destruct ok; exact E.
  - unfold cl_sends. rewrite flat_map_app. assert (E : forall d, flat_map (fun x => match x with LSnd f m => [(f, dur f m)] | _ => [] end) (map (LRep ok) d) = []).
    { induction d0; auto. }
    rewrite E. destruct ub; reflexivity.
Qed.

Lemma cl_one c e s ev s' o dur : lcase c e s ev s' o ->
  cl_sends dur o = [] /\ some_air (l_air s') = cl_air0 s ev \/
  (exists x, cl_sends dur o = [x]) /\ cl_air0 s ev = false /\ some_air (l_air s') = true.
Proof.
  assert (TR : forall g m s0 s1, l_air s1 = l_air s0 -> lready s1 = lready s0 -> cl_sends dur (lsnt g m s0) = [] /\ some_air (l_air (ltry g s1)) = some_air (l_air s0) \/
     (exists x, cl_sends dur (lsnt g m s0) = [x]) /\ some_air (l_air s0) = false /\ some_air (l_air (ltry g s1)) = true).
  { intros g m s0 s1 E1 E2. unfold lsnt, ltry, lcan. rewrite E1, E2. destruct (lready s0), (l_air s0) as [y|] eqn:E; cbn [andb].
    - left. rewrite <- E1. auto.
    - right. split; [exists (g, dur g m); reflexivity|auto].
    - left. rewrite E1. auto.
    - left. rewrite E1. auto. }
  intros C. destruct C; cbn [cl_air0]; try (left; split; reflexivity).
  - left. split; auto. cbn [lset_state l_air]. rewrite lcancel_air. reflexivity.
  - left. assert (A1 : l_air s1 = l_air s /\ cl_sends dur o1 = []).
    { destruct H5; [auto|]. destruct (tcase_air _ _ _ _ _ _ _ dur H7). auto. }
    assert (A2 : l_air s2 = l_air s1 /\ cl_sends dur o2 = []).
    { destruct H6; auto. split; auto. apply decrease_air. }
    unfold cl_sends. rewrite flat_map_app. fold (cl_sends dur o1). fold (cl_sends dur o2). rewrite (proj2 A1), (proj2 A2), (proj1 A2), (proj1 A1). auto.
  - left. assert (A2 : l_air s2 = l_air (lset_state LIdle s) /\ cl_sends dur o2 = []).
    { destruct H3; auto. - split; auto. apply decrease_air. - split; auto. destruct (_ <? 0); reflexivity. }
    rewrite (proj2 A2), (proj1 A2). auto.
  - left. rewrite cts_loop_air. auto.
  - subst s0. change (l_air s) with (l_air (lset_timers (remove_nth i (l_timers s)) s)). apply TR; reflexivity.
  - subst s0. change (l_air s) with (l_air (lset_timers (remove_nth i (l_timers s)) s)). apply TR; reflexivity.
  - subst s0. left. auto.
  - subst s0. left. auto.
  - subst s0. right. rewrite H3. split; auto. exists (p, dur p m). cbn. destruct (_ <? 0); reflexivity.
  - subst s0. destruct (tcase_air _ _ _ _ _ _ _ dur H2) as [A B]. left. rewrite A, B. auto.
  - subst s0. destruct (done_air ok sq (lset_timers (remove_nth i (l_timers s)) s) dur) as [A B]. left. rewrite A, B. auto.
  - subst s0. left. split; auto. destruct (l_res s); reflexivity.
Qed.

(** ** The stack *)
Section Cell.
Context (c : acfg) (cfg : addr -> lcfg) (q0 : addr -> Z) (dur : kframe -> Z -> Z) (sense : addr -> Z -> bool) (good : addr -> Z -> Z -> bool) (nodes : list addr).
Let K := cell_conf c cfg dur sense good nodes.
Definition cell_reach (N : anet) : Prop := anreach (fun _ _ => True) (fun _ _ => True) c cfg q0 N.
Definition cell_sent (N : anet) (a : addr) (f : kframe) : Prop :=
  if a =? ac_addr c then In f (ksnd_of (an_out N)) else In f (lsnd_of (ln_out (an_cl N a))).
Definition cell_air (N : anet) (a : addr) : bool :=
  if a =? ac_addr c then some_air (p_air (an_st N)) else some_air (l_air (ln_st (an_cl N a))).

Lemma ap_sends_in o x : In x (ap_sends dur o) -> In (fst x) (ksnd_of o).
Proof.
  unfold ap_sends, ksnd_of. rewrite !in_flat_map. intros (y & Y & X). exists y. split; auto. destruct y; try contradiction. destruct X as [<-|[]]. left. reflexivity.
Qed.
Lemma cl_sends_in o x : In x (cl_sends dur o) -> In (fst x) (lsnd_of o).
Proof.
  unfold cl_sends, lsnd_of. rewrite !in_flat_map. intros (y & Y & X). exists y. split; auto. destruct y; try contradiction. destruct X as [<-|[]]. left. reflexivity.
Qed.

(** What the PHY does is what the models of the MAC layers take it to do. *)
Lemma fits_ap N e ev : fits K cell_sent cell_air N (ac_addr c) e -> ap_event e = Some ev -> pvalid (an_st N) ev = true /\
  (forall f pw, ev = AERxEnd f true pw -> exists b, In f (lsnd_of (ln_out (an_cl N b)))).
Proof.
  unfold fits, cell_air. rewrite Z.eqb_refl. intros F E. destruct e as [[i|sz d]| | |f ok pw|t]; cbn in E; try discriminate E; injection E as <-.
  - split; [unfold pvalid; destruct (p_air (an_st N)); reflexivity|intros ? ? X; discriminate X].
  - split; [unfold pvalid; destruct (p_air (an_st N)); [reflexivity|discriminate F]|intros ? ? X; discriminate X].
  - split; [unfold pvalid; destruct (p_air (an_st N)); [discriminate F|reflexivity]|intros ? ? X; discriminate X].
  - destruct F as [F1 F2]. split; [unfold pvalid; destruct (p_air (an_st N)); [discriminate F1|reflexivity]|].
    intros g p X. injection X as -> -> ->. destruct (F2 eq_refl) as (b & B1 & B2 & B3). exists b. unfold cell_sent in B3. apply Z.eqb_neq in B1. rewrite B1 in B3. exact B3.
  - split; [unfold pvalid; destruct (p_air (an_st N)); reflexivity|intros ? ? X; discriminate X].
Qed.
Lemma fits_cl N a e : a <> ac_addr c -> fits K cell_sent cell_air N a e -> lvalid (ln_st (an_cl N a)) (cl_event e) = true /\
  (forall f, cl_event e = LERxEnd f true -> In f (ksnd_of (an_out N)) \/ exists b, In f (lsnd_of (ln_out (an_cl N b)))).
Proof.
  intros NE. apply Z.eqb_neq in NE. unfold fits, cell_air. rewrite NE. intros F. destruct e as [[i|sz d]| | |f ok pw|t]; cbn [cl_event].
  - split; [unfold lvalid; destruct (l_air (ln_st (an_cl N a))); reflexivity|intros ? X; discriminate X].
  - split; [unfold lvalid; destruct (l_air (ln_st (an_cl N a))); reflexivity|intros ? X; discriminate X].
  - split; [unfold lvalid; destruct (l_air (ln_st (an_cl N a))); [reflexivity|discriminate F]|intros ? X; discriminate X].
  - split; [unfold lvalid; destruct (l_air (ln_st (an_cl N a))); [discriminate F|reflexivity]|intros ? X; discriminate X].
  - destruct F as [F1 F2]. split; [unfold lvalid; destruct (l_air (ln_st (an_cl N a))); [discriminate F1|reflexivity]|].
    intros g X. injection X as -> ->. destruct (F2 eq_refl) as (b & B1 & B2 & B3). unfold cell_sent in B3. destruct (b =? ac_addr c); eauto.
  - split; [unfold lvalid; destruct (l_air (ln_st (an_cl N a))); reflexivity|intros ? X; discriminate X].
Qed.

Lemma cell_run o0 l : let s := qrun K o0 (qinit K (cell0 c q0)) l in
  Inv K cell_reach cell_sent s /\ forall a, agree cell_air s a.
Proof.
  apply run_ok.
  - intros n a o i e R _ F. cbn [K q_step cell_conf]. unfold cell_step. destruct (Z.eqb_spec a (ac_addr c)) as [->|NE].
    + destruct (ap_event e) as [ev|] eqn:E; auto. destruct (fits_ap _ _ _ F E) as [V G]. cbn [fst]. apply ANap; auto.
    + destruct (fits_cl _ _ _ NE F) as [V G]. cbn [fst]. apply ANcl; auto.
  - intros n a o i e b f. cbn [K q_step cell_conf]. unfold cell_step, cell_sent. destruct (Z.eqb_spec a (ac_addr c)) as [->|NE].
    + destruct (ap_event e) as [ev|] eqn:E; auto. cbn [fst an_out an_cl]. destruct (b =? ac_addr c); auto. rewrite ksnd_app. intros H. apply in_or_app. auto.
    + cbn [fst an_out an_cl]. destruct (b =? ac_addr c); auto. unfold lput. destruct (Z.eqb_spec b a) as [->|]; auto. cbn [ln_out]. rewrite lsnd_app. intros H. apply in_or_app. auto.
  - intros n a o i e x R _ F. cbn [K q_step cell_conf]. unfold cell_step, cell_sent. destruct (a =? ac_addr c) eqn:NE.
    + destruct (ap_event e) as [ev|] eqn:E; [|intros []]. cbn [fst snd an_out]. intros H. apply ap_sends_in in H. rewrite ksnd_app. apply in_or_app. auto.
    + cbn [fst snd an_cl]. intros H. apply cl_sends_in in H. unfold lput. rewrite Z.eqb_refl. cbn [ln_out]. rewrite lsnd_app. apply in_or_app. auto.
  - intros n a o i e b NE. cbn [K q_step cell_conf]. unfold cell_step, cell_air. destruct (Z.eqb_spec a (ac_addr c)) as [->|N2].
    + apply Z.eqb_neq in NE. rewrite NE. destruct (ap_event e); reflexivity.
    + destruct (b =? ac_addr c); [reflexivity|]. cbn [fst an_cl]. unfold lput. apply Z.eqb_neq in NE. rewrite NE. reflexivity.
  - intros n a o i e R _ F. cbn [K q_step cell_conf]. unfold cell_step, cell_air, air0. destruct (Z.eqb_spec a (ac_addr c)) as [->|NE].
    + assert (A : ap_event e = None -> match e with NTxDone => false | _ => some_air (p_air (an_st n)) end = some_air (p_air (an_st n))).
      { destruct e as [[?|? ?]| | | |]; auto; discriminate. }
      destruct (ap_event e) as [ev|] eqn:E; [|left; cbn [fst snd]; rewrite A; auto]. destruct (fits_ap _ _ _ F E) as [V G]. cbn [fst snd an_st].
      pose proof (ap_one c (an_st n) ev _ _ dur (step_case _ _ _ (inv0_reach _ _ _ _ _ (an_ap _ _ _ _ _ _ R)) V)) as X.
      assert (Y : match e with NTxDone => false | _ => cell_air n (ac_addr c) end = ap_air0 (an_st n) ev).
      { unfold cell_air. rewrite Z.eqb_refl. destruct e as [[?|? ?]| | | |]; cbn in E; try discriminate E; injection E as <-; reflexivity. }
      unfold cell_air in Y. rewrite Z.eqb_refl in Y. rewrite Y. exact X.
    + destruct (fits_cl _ _ _ NE F) as [V G]. cbn [fst snd an_cl]. unfold lput. rewrite Z.eqb_refl. cbn [ln_st].
      pose proof (cl_one (cfg a) o _ _ _ _ dur (step_lcase (cfg a) o (ln_st (an_cl n a)) _ V)) as X.
      assert (Y : match e with NTxDone => false | _ => some_air (l_air (ln_st (an_cl n a))) end = cl_air0 (ln_st (an_cl n a)) (cl_event e)).
      { destruct e as [[?|? ?]| | | |]; reflexivity. }
      rewrite Y. exact X.
  - intros n a o i f pow R _ F. cbn [K q_step cell_conf]. unfold cell_step. destruct (a =? ac_addr c).
    + reflexivity.
    + cbn [snd cl_event lstep]. unfold l_rx_end. destruct (_ || _); reflexivity.
  - apply AN0.
  - intros b. unfold cell_air. destruct (b =? ac_addr c); reflexivity.
Qed.
End Cell.
