(** Progress of the macro MAC when packets are enqueued one at a time. *)
From Coq Require Import ZArith List Lia Bool Permutation.
From Verif Require Import Base HeaderModel SeqModel SeqProofs EnergyModel MacModel MacSpec MacProofs MacAcct MacSteps MacInv MacResp.
Import ListNotations.
Open Scope Z_scope.

(** ** Event identifiers *)
Definition points (s : mst) (u : Z) (K : mkind -> Prop) : Prop :=
  u < m_uid s /\ forall t, In t (m_timers s) -> mt_id t = u -> K (mt_kind t).
Record Ids (s : mst) : Prop := {
  i_lt : forall t, In t (m_timers s) -> mt_id t < m_uid s;
  i_cts : forall x, In x (m_cts s) -> points s (snd x) (fun k => k = MKCts (fst x));
  i_ack : forall x, In x (m_ack s) -> points s (snd x) (fun k => k = MKAck (fst x));
  i_bo : forall u, m_bo s = Some u -> points s u (fun k => k = MKGrant);
  i_cca : forall u, m_cca s = Some u -> points s u idle_kind;
  i_rot : forall u, m_rot s = Some u -> points s u (fun k => k = MKRot) }.

Lemma points_mono s s' u K : points s u K -> m_uid s <= m_uid s' ->
  (forall t, In t (m_timers s') -> In t (m_timers s) \/ m_uid s <= mt_id t) -> points s' u K.
Proof.
  intros [P1 P2] U T. split; [lia|]. intros t I E. destruct (T t I); auto. lia.
Qed.

(** The state changes, identifiers stay what they are or are dropped. *)
Lemma ids_sub s s' : Ids s -> m_uid s <= m_uid s' ->
  (forall t, In t (m_timers s') -> In t (m_timers s) \/ m_uid s <= mt_id t < m_uid s') ->
  (forall x, In x (m_cts s') -> In x (m_cts s)) -> (forall x, In x (m_ack s') -> In x (m_ack s)) ->
  m_bo s' = m_bo s -> m_cca s' = m_cca s -> m_rot s' = m_rot s -> Ids s'.
Proof.
  intros I U T C A B CC R.
  assert (P : forall u K, points s u K -> points s' u K).
  { intros u K P. eapply points_mono; eauto. intros t X. destruct (T t X); auto. lia. }
  split.
  - intros t X. destruct (T t X) as [Y|Y]; [|lia]. pose proof (i_lt _ I t Y). lia.
  - intros x X. apply P, (i_cts _ I); auto.
  - intros x X. apply P, (i_ack _ I); auto.
  - rewrite B. intros u X. apply P, (i_bo _ I); auto.
  - rewrite CC. intros u X. apply P, (i_cca _ I); auto.
  - rewrite R. intros u X. apply P, (i_rot _ I); auto.
Qed.

Lemma ids_tail s s' : Ids s -> tail s s' -> Ids s'.
Proof.
  intros I T. pose proof (tail_uid _ _ T) as U. pose proof T as T0.
  destruct T as [S [_ [_ [A [C [_ [B [_ [[l [L1 L2]] CC]]]]]]]]]. assert (R : m_rot s' = m_rot s) by apply S.
  assert (TN : forall t, In t (m_timers s') -> In t (m_timers s) \/ m_uid s <= mt_id t < m_uid s').
  { intros t X. destruct (tail_timers _ _ _ T0 X) as [Y|[_ Y]]; auto. }
  assert (P : forall u K, points s u K -> points s' u K).
  { intros u K P. eapply points_mono; eauto. intros t X. destruct (TN t X); auto. lia. }
  split.
  - intros t X. destruct (TN t X) as [Y|Y]; [|lia]. pose proof (i_lt _ I t Y). lia.
  - rewrite C. intros x X. apply P, (i_cts _ I); auto.
  - rewrite A. intros x X. apply P, (i_ack _ I); auto.
  - rewrite B. intros u X. apply P, (i_bo _ I); auto.
  - intros u X. destruct CC as [CC|[v [V1 V2]]].
    + rewrite CC in X. apply P, (i_cca _ I); auto.
    + rewrite V1 in X. injection X as ->. split; [lia|]. intros t Y E. destruct (tail_timers _ _ _ T0 Y) as [Z|[Z _]]; auto.
      pose proof (i_lt _ I t Z). lia.
  - rewrite R. intros u X. apply P, (i_rot _ I); auto.
Qed.

Ltac isub H := apply (ids_sub _ _ H); ss; auto; try lia.

Lemma ids_sched d k s : Ids s -> Ids (msched d k s).
Proof. intros I. isub I. intros t X. apply in_app_or in X. destruct X as [X|[<-|[]]]; auto. right. cbn. lia. Qed.
Lemma ids_cancel u s : Ids s -> Ids (mcancel u s).
Proof. intros I. isub I. intros t X. apply filter_In in X. left. apply X. Qed.
Lemma ids_fired i s : Ids s -> Ids (set_timers (remove_nth i (m_timers s)) s).
Proof. intros I. isub I. intros t X. left. eapply in_remove; eauto. Qed.
Lemma ids_after f s : Ids s -> Ids (after f s).
Proof. intros I. unfold after. isub I. Qed.
Lemma ids_data p s : Ids s -> Ids (MacModel.set_data p s).
Proof. intros I. isub I. Qed.
Lemma ids_ids n s : Ids s -> Ids (set_ids n s).
Proof. intros I. isub I. Qed.
Lemma ids_state n s : Ids s -> Ids (set_state n s).
Proof. intros I. isub I. Qed.
Lemma ids_air n s : Ids s -> Ids (set_air n s).
Proof. intros I. isub I. Qed.
Lemma ids_fwd f s : Ids s -> Ids (fst (forward_new f s)).
Proof. intros I. destruct (forward_out f s) as [_ ->]. isub I. Qed.
Lemma ids_sdd ok sq s : Ids s -> Ids (fst (send_data_done ok sq s)).
Proof.
  intros I. destruct (sdd_keeps ok sq s) as [C [A [_ [_ [_ [CC [B [R [U _]]]]]]]]].
  apply (ids_sub _ _ I); auto; try (intros x X; congruence).
  destruct (sdd_spec ok sq s) as [l [q [d [k [em [ub D]]]]]]. destruct D as [_ [_ [_ [_ [_ [_ [_ [_ [_ [_ [_ [_ [_ [_ [_ [_ [_ [_ [_ [_ [_ [TM _]]]]]]]]]]]]]]]]]]]]]].
  intros t X. destruct (TM t X) as [|[_ Y]]; auto.
Qed.
Lemma ids_tmo e sq s : Ids s -> Ids (fst (timeout e sq s)).
Proof.
  intros I. destruct (tmo_keeps e sq s) as [C [A [_ [_ [_ [CC [B [R [U _]]]]]]]]].
  apply (ids_sub _ _ I); auto; try (intros x X; congruence).
  destruct (timeout_spec e sq s) as [_ [_ [_ [_ [_ [_ [_ [_ [_ [_ [_ [_ [_ [_ [_ [_ [_ [_ [_ [_ [_ [TM _]]]]]]]]]]]]]]]]]]]]]].
  intros t X. destruct (TM t X) as [|[Y _]]; auto.
Qed.

(** A new event is remembered under its identifier. *)
Lemma new_points d k s (K : mkind -> Prop) s1 : Ids s -> K k -> m_timers s1 = m_timers s -> m_uid s1 = m_uid s -> points (msched d k s1) (m_uid s) K.
Proof.
  intros I X T U. split; [ss; lia|]. ss. rewrite T. intros t Y E. apply in_app_or in Y. destruct Y as [Y|[<-|[]]]; auto.
  pose proof (i_lt _ I t Y). lia.
Qed.
Lemma old_points d k s u K s1 : points s u K -> m_timers s1 = m_timers s -> m_uid s1 = m_uid s -> points (msched d k s1) u K.
Proof.
  intros P T U. eapply points_mono; [exact P|ss; lia|]. ss. rewrite T, U. intros t X. apply in_app_or in X. destruct X as [X|[<-|[]]]; auto. right. cbn. lia.
Qed.
Lemma ids_new_lt d k s s1 : Ids s -> m_timers s1 = m_timers s -> m_uid s1 = m_uid s -> forall t, In t (m_timers (msched d k s1)) -> mt_id t < m_uid (msched d k s1).
Proof. intros I T U t. ss. rewrite T, U. intros X. apply in_app_or in X. destruct X as [X|[<-|[]]]; [pose proof (i_lt _ I t X); lia|cbn; lia]. Qed.

Lemma ids_step c e s ev s' o : scase c e s ev s' o -> Ids s -> Ids s'.
Proof.
  intros C I. pose proof (fun i => ids_fired i s I) as IF.
  scd C; cbn [fst snd] in *; auto using ids_sched, ids_cancel, ids_after, ids_data, ids_ids, ids_state, ids_air, ids_fwd, ids_sdd, ids_tmo.
  - destruct (enq_keeps c size dst junk s L) as [E1 [E2 [_ [_ [_ [E3 [E4 [E5 [E6 _]]]]]]]]].
    apply (ids_sub _ _ I); rewrite ?E1, ?E2; auto; try lia.
    destruct (enq_spec c size dst junk s L) as [_ [_ [_ [_ [_ [_ [_ [_ [_ [_ [_ [_ [_ [_ [_ [_ [_ [_ [_ [_ TM]]]]]]]]]]]]]]]]]]]].
    rewrite TM, E6. intros t X. apply in_app_or in X. destruct X as [X|[<-|[]]]; [|right; cbn; lia].
    destruct (m_rot s); auto. apply filter_In in X. left. apply X.
  - isub I.
  - eapply ids_tail; [|exact TL]. auto using ids_air.
  - eapply ids_tail; [|exact TL]. subst s1. auto using ids_sdd, ids_state, ids_air.
  - eapply ids_tail; [|exact TL]. destruct TB as [TB|[u [_ [_ TB]]]]; (eapply ids_tail; [|exact TB]); auto using ids_cancel.
  - eapply ids_tail; [|exact TL]. auto.
  - apply ids_sched, ids_state. eapply ids_tail; eauto.
  - eapply ids_tail; [|exact TL]. auto using ids_data.
  - apply ids_sched. assert (I1 : Ids (set_state MWaitTx (mcancel u s1))) by (apply ids_state, ids_cancel; eapply ids_tail; [|exact TL]; auto using ids_data).
    isub I1. intros x X. eapply in_erase1; eauto.
  - assert (I1 : Ids (set_state MWaitTx (mcancel u s1))) by (apply ids_state, ids_cancel; eapply ids_tail; [|exact TL]; auto using ids_data).
    isub I1. intros x X. eapply in_erase1; eauto.
  - eapply ids_tail; [|exact TL]. subst s1. auto using ids_fwd, ids_state.
  - subst s2. apply ids_fwd, ids_sched, ids_state. eapply ids_tail; eauto.
  - assert (I1 : Ids (msched psec (MKDone true (mf_seq f)) (mcancel u (set_state MIdle (set_state MIdle s))))) by (apply ids_sched, ids_cancel; auto using ids_state).
    apply (ids_sub _ _ I1); ss; auto; try lia. intros x X. eapply in_erase1; eauto.
  - destruct (mild_cca c e (set_timers (remove_nth i (m_timers s)) s)) as [TL _]. exact (ids_tail _ _ (IF i) TL).
  - specialize (IF i). set (s0 := set_timers (remove_nth i (m_timers s)) s) in *. clearbody s0. clear FN K.
    unfold backoff_start. cbv zeta. set (s2 := if m_borem s0 =? 0 then _ else _).
    assert (X : m_timers s2 = m_timers s0 /\ m_uid s2 = m_uid s0 /\ m_cts s2 = m_cts s0 /\ m_ack s2 = m_ack s0 /\ m_bo s2 = m_bo s0 /\ m_cca s2 = m_cca s0 /\ m_rot s2 = m_rot s0).
    { unfold s2. destruct (_ =? _); ss; repeat split; auto. }
    destruct X as [X1 [X2 [X3 [X4 [X5 [X6 X7]]]]]]. clearbody s2.
    destruct (_ || _); cbn [fst]; split.
    + apply (ids_new_lt _ _ s0); auto.
    + intros y X. apply old_points with (s := s0); auto. apply (i_cts _ IF). revert X. ss. rewrite X3. auto.
    + intros y X. apply old_points with (s := s0); auto. apply (i_ack _ IF). revert X. ss. rewrite X4. auto.
    + intros y X. apply old_points with (s := s0); auto. apply (i_bo _ IF). revert X. ss. rewrite X5. auto.
    + intros y X. revert X. ss. intros X. injection X as <-. apply new_points; auto. left. auto.
    + intros y X. apply old_points with (s := s0); auto. apply (i_rot _ IF). revert X. ss. rewrite X7. auto.
    + apply (ids_new_lt _ _ s0); auto.
    + intros y X. apply old_points with (s := s0); auto. apply (i_cts _ IF). revert X. ss. rewrite X3. auto.
    + intros y X. apply old_points with (s := s0); auto. apply (i_ack _ IF). revert X. ss. rewrite X4. auto.
    + intros y X. revert X. ss. intros X. injection X as <-. apply new_points; auto.
    + intros y X. apply old_points with (s := s0); auto. apply (i_cca _ IF). revert X. ss. rewrite X6. auto.
    + intros y X. apply old_points with (s := s0); auto. apply (i_rot _ IF). revert X. ss. rewrite X7. auto.
  - eapply ids_tail; [|exact TL]. auto using ids_data.
  - assert (I1 : Ids s1) by (eapply ids_tail; [|exact TL]; auto using ids_ids, ids_after, ids_data).
    split.
    + apply (ids_new_lt _ _ s1); auto.
    + intros y Y. revert Y. ss. intros Y. apply in_app_or in Y. destruct Y as [Y|[<-|[]]]; [apply old_points with (s := s1); auto; apply (i_cts _ I1); auto|].
      cbn [fst snd]. apply new_points; auto.
    + intros y Y. apply old_points with (s := s1); auto. apply (i_ack _ I1). auto.
    + intros y Y. apply old_points with (s := s1); auto. apply (i_bo _ I1). auto.
    + intros y Y. apply old_points with (s := s1); auto. apply (i_cca _ I1). auto.
    + intros y Y. apply old_points with (s := s1); auto. apply (i_rot _ I1). auto.
  - eapply ids_tail; [|exact TL]. auto using ids_after, ids_data.
  - assert (I1 : Ids s1) by (eapply ids_tail; [|exact TL]; auto using ids_after, ids_data).
    split.
    + apply (ids_new_lt _ _ s1); auto.
    + intros y Y. apply old_points with (s := s1); auto. apply (i_cts _ I1). auto.
    + intros y Y. revert Y. ss. intros Y. apply in_app_or in Y. destruct Y as [Y|[<-|[]]]; [apply old_points with (s := s1); auto; apply (i_ack _ I1); auto|].
      cbn [fst snd]. apply new_points; auto.
    + intros y Y. apply old_points with (s := s1); auto. apply (i_bo _ I1). auto.
    + intros y Y. apply old_points with (s := s1); auto. apply (i_cca _ I1). auto.
    + intros y Y. apply old_points with (s := s1); auto. apply (i_rot _ I1). auto.
  - eapply ids_tail; [|exact TL]. auto using ids_after, ids_data.
  - eapply ids_tail; [|exact TL]. auto using ids_data.
  - apply ids_tmo. specialize (IF i). destruct K as [[_ ->]|[_ ->]]; isub IF; intros y Y; eapply in_erase1; eauto.
  - eapply ids_tail; [|exact TL]. auto using ids_after, ids_ids.
  - eapply ids_tail; [|exact TL]. auto using ids_after, ids_ids.
  - eapply ids_tail; [|exact TL]. auto using ids_ids.
  - specialize (IF i). set (s0 := set_timers (remove_nth i (m_timers s)) s) in *. change (m_uid s) with (m_uid s0). clearbody s0.
    split.
    + apply (ids_new_lt _ _ s0); auto.
    + intros y Y. apply old_points with (s := s0); auto. apply (i_cts _ IF). auto.
    + intros y Y. apply old_points with (s := s0); auto. apply (i_ack _ IF). auto.
    + intros y Y. apply old_points with (s := s0); auto. apply (i_bo _ IF). auto.
    + intros y Y. apply old_points with (s := s0); auto. apply (i_cca _ IF). auto.
    + intros y Y. revert Y. ss. intros Y. injection Y as <-. apply new_points; auto.
Qed.

Lemma ids_init q0 : Ids (minit q0).
Proof. split; cbn; try contradiction; try discriminate. intros t [<-|[]]. cbn. lia. Qed.

(** ** One packet at a time *)
Definition all_reported (o : list mout) : Prop := (length (acc_of o) = length (rep_of true o) + length (rep_of false o))%nat.
Inductive mreach1 (c : mcfg) (q0 : Z) : list mevent -> mst -> list mout -> Prop :=
| MO0 : mreach1 c q0 [] (minit q0) []
| MO1 h s o e ev : mreach1 c q0 h s o -> (forall size dst junk, ev = EEnq size dst junk -> dst <> bcast /\ all_reported o) ->
    mreach1 c q0 (h ++ [ev]) (fst (mstep c e s ev)) (o ++ snd (mstep c e s ev)).
Lemma reach1 c q0 h s o : mreach1 c q0 h s o -> mreach c q0 h s o.
Proof. induction 1; constructor; auto. Qed.

(** Events that continue the work on packet [p]. *)
Definition carries (p : mframe) (k : mkind) : Prop :=
  idle_kind k \/ k = MKGrant \/ k = MKCts (mf_seq p) \/ k = MKAck (mf_seq p) \/ k = MKSendData p \/ k = MKDone true (mf_seq p).
Definition live (s : mst) (p : mframe) : Prop := exists t, In t (m_timers s) /\ carries p (mt_kind t).

Record One (s : mst) : Prop := {
  o_shape : (m_rec s = [] /\ m_queue s = []) \/ exists r, m_rec s = [r] /\ mf_dst (mr_pkt r) <> bcast /\ (m_queue s = [] \/ m_queue s = [mr_pkt r]);
  o_drop : forall t sq p, In t (m_timers s) -> mt_kind t = MKDone false sq -> In p (m_queue s) -> mf_seq p <> sq;
  o_live : forall p, In p (m_queue s) -> live s p }.

Lemma in_not_removed {A} i : forall (l : list A) t x, In t l -> nth_error l i = Some x -> t = x \/ In t (remove_nth i l).
Proof. induction i as [|i IH]; intros [|y l] t x; cbn; try contradiction.
  - intros [->|H] E; auto. injection E as ->. auto.
  - intros [->|H] E; auto. destruct (IH l t x H E); auto.
Qed.

Lemma tail_in s s' t : tail s s' -> In t (m_timers s) -> In t (m_timers s').
Proof. intros [_ [_ [_ [_ [_ [_ [_ [_ [[l [L1 L2]] _]]]]]]]]] T. rewrite L1. apply in_or_app. auto. Qed.

(** SendDataDone with at most one record. *)
Lemma sdd_shape ok sq s :
  (m_rec s = [] /\ m_queue s = []) \/ (exists r, m_rec s = [r] /\ mf_dst (mr_pkt r) <> bcast /\ (m_queue s = [] \/ m_queue s = [mr_pkt r])) ->
  (ok = false -> forall p, In p (m_queue s) -> mf_seq p <> sq) ->
  let s' := fst (send_data_done ok sq s) in
  ((m_rec s' = [] /\ m_queue s' = []) \/ exists r, m_rec s' = [r] /\ mf_dst (mr_pkt r) <> bcast /\ (m_queue s' = [] \/ m_queue s' = [mr_pkt r])) /\
  (forall p, In p (m_queue s') -> In p (m_queue s) /\ mf_seq p <> sq).
Proof.
  intros SH NF s'. destruct (sdd_spec ok sq s) as [l [q [d [k [em [ub [DL [R [Q _]]]]]]]]]. fold s' in R, Q.
  destruct SH as [[SR SQ]|[r [SR [D SQ]]]]; rewrite SR in DL; cbn [done_loop] in DL.
  - injection DL as <- <- _ _ _ _. rewrite R, Q, SQ. split; [left; auto|]. intros p [].
  - destruct (Z.eqb_spec (mf_seq (mr_pkt r)) sq) as [E|E].
    + destruct ok.
      * destruct SQ as [SQ|SQ]; rewrite SQ in DL.
        { injection DL as <- <- _ _ _ _. rewrite R, Q. split; [right; exists r; auto|]. intros p []. }
        unfold mremove in DL. cbn [filter] in DL. rewrite Z.eqb_refl in DL. cbn [negb] in DL. injection DL as <- <- _ _ _ _. rewrite R, Q. split; [left; auto|]. intros p [].
      * assert (m_queue s = []) as SQ'.
        { destruct SQ as [SQ|SQ]; auto. exfalso. apply (NF eq_refl (mr_pkt r)); auto. rewrite SQ. left. auto. }
        rewrite SQ' in DL. injection DL as <- <- _ _ _ _. rewrite R, Q. split; [left; auto|]. intros p [].
    + injection DL as <- <- _ _ _ _. rewrite R, Q. split; [right; exists r; auto|]. intros p P. split; auto.
      destruct SQ as [SQ|SQ]; rewrite SQ in P; [destruct P|destruct P as [<-|[]]; auto].
Qed.

Definition kept (s s' : mst) : Prop := m_rec s' = m_rec s /\ m_queue s' = m_queue s.
Lemma kept_tail s a b : kept s a -> tail a b -> kept s b.
Proof. intros [R Q] T. split; [rewrite (tail_rec _ _ T)|rewrite (tail_queue _ _ T)]; auto. Qed.

Lemma live_fired s s' i t p : live s p -> nth_error (m_timers s) i = Some t -> (forall x, In x (remove_nth i (m_timers s)) -> In x (m_timers s')) ->
  (carries p (mt_kind t) -> live s' p) -> live s' p.
Proof.
  intros [x [X1 X2]] N S L. destruct (in_not_removed i _ x t X1 N) as [->|Y]; auto. exists x. auto.
Qed.
Lemma live_new d k s p : carries p k -> live (msched d k s) p.
Proof. intros K. exists (Mtimer (m_uid s) (m_now s + d) k). split; auto. ss. apply in_or_app. right. left. auto. Qed.
Lemma carries_idle p k : idle_kind k -> carries p k. Proof. left. auto. Qed.

Lemma tmo_queue c e s ev s' o nq : scase c e s ev s' o -> In (OTmo nq) o -> m_queue s' = filter (keep (given_up nq (m_rec s))) (m_queue s).
Proof.
  intros C IN.
  assert (HH : forall l, hush c l -> In (OTmo nq) l -> False) by (intros l [H _] I; specialize (H _ I); discriminate).
  assert (FW : forall g y, In (OTmo nq) (snd (forward_new g y)) -> False).
  { intros g y. destruct (forward_out g y) as [-> _]. destruct (fst (is_new _ _ _)); [intros [X|[]]; discriminate X|intros []]. }
  assert (SD : forall b n y, In (OTmo nq) (snd (send_data_done b n y)) -> False).
  { intros b n y. destruct (sdd_spec b n y) as [l [qq [d [k [em [ub D]]]]]]. do 22 destruct D as [_ D]. rewrite D.
    intros I. apply in_app_or in I. destruct I as [I|I]; [|destruct ub; [destruct I as [I|[]]; discriminate I|destruct I]].
    apply in_map_iff in I. destruct I as [z [Z1 _]]. discriminate Z1. }
  scd C; cbn [fst snd] in *; try (exfalso; eapply HH; eassumption); try destruct IN as [IN|IN]; try discriminate IN; try contradiction; try (exfalso; eapply HH; eassumption).
  - destruct (enq_spec c size dst junk s L) as [E1 _]. rewrite E1 in IN. destruct IN as [X|[X|[]]]; discriminate X.
  - exfalso. apply in_app_or in IN. destruct IN as [IN|IN]; eauto.
  - exfalso. apply in_app_or in IN. destruct IN as [IN|IN]; [eapply HH; eassumption|destruct IN as [X|[]]; discriminate X].
  - exfalso. apply in_app_or in IN. destruct IN as [IN|IN]; [|eapply HH; eassumption]. subst. eauto.
  - exfalso. apply in_app_or in IN. destruct IN as [IN|IN]; [eapply HH; eassumption|]. eauto.
  - destruct (timeout_spec e sq s1) as [T1 [_ [T2 _]]]. rewrite T1 in IN. destruct IN as [X|[]]. injection X as <-.
    rewrite T2. destruct K as [[_ ->]|[_ ->]]; reflexivity.
  - destruct IN as [X|X]; [discriminate X|]. exfalso; eapply HH; eassumption.
  - exfalso; eauto.
  - exfalso. destruct (m_res s); [destruct IN|destruct IN as [X|[]]; discriminate X].
Qed.


(** A new assessment leaves an assessment pending. *)
Lemma cca_lives c e s p : Ids (fst (cca c e s)) -> In p (m_queue s) -> live (fst (cca c e s)) p.
Proof.
  intros I Q. assert (QN : m_queue s <> []) by (intros X; rewrite X in Q; destruct Q).
  assert (X : exists t, In t (m_timers (fst (cca c e s))) /\ m_cca (fst (cca c e s)) = Some (mt_id t)).
  { unfold cca. destruct (m_queue s); [contradiction|]. destruct (mrunning (m_cca s) s) eqn:R.
    - cbn [fst]. unfold mrunning in R. destruct (m_cca s) as [u|]; [|discriminate]. apply existsb_exists in R. destruct R as [t [T1 T2]].
      apply Z.eqb_eq in T2. exists t. subst. auto.
    - destruct (_ >? _); [|destruct (_ || _)]; cbn [fst]; (eexists; split; [ss; apply in_or_app; right; left; reflexivity|]); ss; reflexivity. }
  destruct X as [t [T1 T2]]. exists t. split; auto. apply carries_idle. apply (i_cca _ I _ T2); auto.
Qed.
Lemma over_lives c e s p : Ids (fst (start_over c e s)) -> In p (m_queue s) -> live (fst (start_over c e s)) p.
Proof. intros I Q. unfold start_over in *. rewrite mseq_eq in *. cbn [fst mlift] in *. apply cca_lives; auto. Qed.

(** As scd, with the facts about new assessments. *)
Ltac scl C := destruct C as
    [size dst junk L|size dst junk L|t0|ev N1 N2 N3 N4 N5 N6|f s' o A NB [TL HU]|f s1 s' o A D B ST TX E1 [TL HU]|s1 s' o A TB [TL HU] CL CE|f ok s' o A [TL HU] IGN
    |f s1 o A TY D [TL HU] NV|f s' o A TY D [TL HU] F|f q u p s1 o A TY D [TL HU] F SC|f q u s1 o A TY D [TL HU] F SC
    |f s1 s' o1 o2 A TY D E1 E2 [TL HU]|f s1 s2 o1 A TY D NB [TL HU] E2|f q u A TY D F
    |i x s0 [FN ->] K|i x s0 [FN ->] K|i x s0 [FN ->] K Q|i x s0 p q s' o [FN ->] K Q [TL HU] A SO|i x s0 p q f s1 o [FN ->] K Q A B RT FE [TL HU]|i x s0 p q s' o [FN ->] K Q A B [TL HU]
    |i x s0 p s1 o [FN ->] Q A B K [TL HU]|i x s0 p s' o [FN ->] K Q A B [TL HU]|i x s0 p [FN ->] K Q|i x s0 p s' o [FN ->] K Q [TL HU] SO
    |i x s0 s1 sq [FN ->] K|i x s0 f s' o [FN ->] A K SR ID [TL HU]|i x s0 f s' o dst sq [FN ->] A SL K TY D SQ SR ID [TL HU]|i x s0 s' o [FN ->] K [TL HU]
    |i x s0 ok sq [FN ->] K|i x s0 [FN ->] K|i x s0 [FN ->] K].

Lemma live_step c e s ev s' o pk : scase c e s ev s' o -> Ids s -> Ids s' -> One s ->
  In pk (m_queue s') -> live s' pk.
Proof.
  intros C I I2 O1 P. pose proof (o_shape _ O1) as SH. pose proof (o_live _ O1) as LV.
  assert (OLD : forall r, m_rec s = [r] -> In pk (m_queue s) -> pk = mr_pkt r).
  { intros r R Q. destruct SH as [[_ S]|[r' [R' [_ [S|S]]]]]; rewrite S in Q; [destruct Q|destruct Q|]. rewrite R in R'. injection R' as <-. destruct Q as [<-|[]]; auto. }
  assert (ONE : In pk (m_queue s) -> exists r, m_rec s = [r] /\ pk = mr_pkt r /\ mf_dst pk <> bcast).
  { intros Q. destruct SH as [[_ S]|[r [R [D _]]]]; [rewrite S in Q; destruct Q|]. exists r. rewrite (OLD r R Q). auto. }
  assert (IN1 : forall g, tail s g -> live s pk -> live g pk) by (intros g T [t [T1 T2]]; exists t; split; auto; eapply tail_in; eauto).
  assert (FI : forall i t g, nth_error (m_timers s) i = Some t -> m_queue g = m_queue s -> In pk (m_queue g) -> (forall y, In y (remove_nth i (m_timers s)) -> In y (m_timers g)) ->
    (carries pk (mt_kind t) -> live g pk) -> live g pk).
  { intros i t g N Q PG S L. eapply live_fired; eauto. rewrite Q in PG. auto. }
  scl C; cbn [fst snd] in *; auto.
  - destruct (enq_spec c size dst junk s L) as [_ [_ [Q E]]]. do 17 destruct E as [_ E]. exists (Mtimer (m_uid s) (m_now s + psec) MKCca).
    rewrite E. split; [apply in_or_app; right; left; auto|]. apply carries_idle. left. auto.
  - exact (LV pk P).
  - (* sent *) rewrite (tail_queue _ _ TL) in P. destruct (LV pk P) as [t [T1 T2]]. exists t. split; auto. eapply tail_in; eauto.
  - (* cast *) rewrite (tail_queue _ _ TL) in P. subst s1. apply sdd_queue in P. destruct (LV pk P) as [t [T1 T2]]. exists t. split; auto.
    eapply tail_in; eauto. destruct (sdd_spec true (mf_seq f) (set_state MIdle (set_air None s))) as [l [q [d [k [em [ub D']]]]]]. do 20 destruct D' as [_ D']. apply D'. auto.
  - (* busy *) assert (QS : m_queue s1 = m_queue s) by (destruct TB as [TB|[u [_ [_ TB]]]]; rewrite (tail_queue _ _ TB); auto).
    rewrite (tail_queue _ _ TL), QS in P. destruct CL as [t [T1 T2]]; [intros X; rewrite X in P; destruct P|]. exists t. split; auto. apply carries_idle.
    destruct T2 as [T2|T2]; auto. rewrite CE in T2. destruct (tail_timers _ _ _ TL T1) as [X|[X _]]; auto. apply (i_cca _ I _ T2); auto.
    destruct TB as [TB|[u [_ [_ TB]]]]; destruct (tail_timers _ _ _ TB X) as [Y|[Y1 Y2]]; auto.
    + exfalso. destruct (i_cca _ I _ T2) as [Z _]. lia.
    + revert Y. ss. intros Y. apply filter_In in Y. apply Y.
    + exfalso. destruct (i_cca _ I _ T2) as [Z _]. revert Y2. ss. lia.
  - (* ignore *) rewrite (tail_queue _ _ TL) in P. auto.
  - (* rts *) assert (Q : m_queue s1 = m_queue s) by (apply tail_queue; auto). revert P. ss. rewrite Q. intros P. destruct (LV pk P) as [t [T1 T2]]. exists t. split; auto. ss. apply in_or_app. left. eapply tail_in; eauto.
  - (* ctsno *) rewrite (tail_queue _ _ TL) in P. destruct (LV pk P) as [t [T1 T2]]. exists t. split; auto. eapply tail_in; eauto.
  - (* cts *) revert P. ss. rewrite (tail_queue _ _ TL). ss. intros P. destruct (ONE P) as [r [R [E _]]].
    destruct (find_fst _ _ _ _ F) as [-> FI']. destruct (LV pk P) as [t [T1 T2]].
    destruct (Z.eq_dec (mt_id t) u) as [EU|NU].
    + destruct (i_cts _ I _ FI') as [_ X]. cbn [fst snd] in X. specialize (X t T1 EU). rewrite X in T2.
      assert (mf_seq f = mf_seq pk). { destruct T2 as [[Y|Y]|[Y|[Y|[Y|[Y|Y]]]]]; try discriminate Y. injection Y; auto. }
      rewrite R in SC. cbn [scan] in SC. rewrite <- E, H, Z.eqb_refl in SC. injection SC as <-. apply live_new. unfold carries. auto 10.
    + exists t. split; auto. ss. apply in_or_app. left. apply filter_In. split; [eapply tail_in; eauto|]. apply negb_true_iff, Z.eqb_neq. auto.
  - (* ctsub *) revert P. ss. rewrite (tail_queue _ _ TL). ss. intros P. destruct (ONE P) as [r [R _]]. exfalso.
    rewrite R in SC. cbn [scan] in SC. destruct (_ =? _) in SC; discriminate.
  - (* all *) rewrite (tail_queue _ _ TL) in P. rewrite E1 in *. destruct (forward_out f (set_state MIdle s)) as [_ FO]. rewrite FO in *. revert P. ss. intros P. destruct (LV pk P) as [t [T1 T2]]. exists t. split; auto. eapply tail_in; eauto.
  - (* data *) destruct (forward_out f s2) as [_ FO]. rewrite FO in *. revert P. ss. subst s2. ss. rewrite (tail_queue _ _ TL). intros P. destruct (LV pk P) as [t [T1 T2]]. exists t. split; auto. ss. apply in_or_app. left. eapply tail_in; eauto.
  - (* ack *) destruct (find_fst _ _ _ _ F) as [-> FI']. revert P. ss. intros P. destruct (LV pk P) as [t [T1 T2]].
    destruct (Z.eq_dec (mt_id t) u) as [EU|NU].
    + destruct (i_ack _ I _ FI') as [_ X]. cbn [fst snd] in X. specialize (X t T1 EU). rewrite X in T2.
      assert (mf_seq f = mf_seq pk). { destruct T2 as [[Y|Y]|[Y|[Y|[Y|[Y|Y]]]]]; try discriminate Y. injection Y; auto. }
      rewrite H. eexists. split; [ss; apply in_or_app; right; left; reflexivity|]. cbn [mt_kind]. unfold carries. auto 10.
    + exists t. split; auto. ss. apply in_or_app. left. apply filter_In. split; auto. apply negb_true_iff, Z.eqb_neq. auto.
  - (* cca *) apply cca_lives; auto. destruct (mild_cca c e (set_timers (remove_nth i (m_timers s)) s)) as [TL _]. rewrite (tail_queue _ _ TL) in P. auto.
  - (* bo *) unfold backoff_start. cbv zeta. destruct (_ || _); cbn [fst]; apply live_new; unfold carries, idle_kind; auto.
  - (* grantno *) revert P. ss. rewrite Q. intros [].
  - (* grant *) destruct SO as [y [Y1 Y2]]. assert (X : s' = fst (start_over c e y)) by (rewrite <- Y1; auto). assert (PQ : In pk (m_queue y)) by (rewrite Y2; rewrite (tail_queue _ _ TL) in P; exact P). rewrite X in I2 |- *. apply over_lives; auto.
  - (* grantrts *) assert (QS : m_queue s1 = m_queue s) by exact (tail_queue _ _ TL). assert (PQ : In pk (m_queue s)) by (rewrite <- QS; exact P). clear P. rename PQ into P. destruct (ONE P) as [r [R [E _]]]. rewrite Q in P.
    assert (pk = p). { destruct SH as [[_ S]|[r' [R' [_ [S|S]]]]]; rewrite Q in S; try discriminate S. injection S as -> ->. destruct P as [<-|[]]; auto. }
    subst. apply live_new. unfold carries. auto 10.
  - (* grantcast *) rewrite (tail_queue _ _ TL) in P. exfalso. destruct (ONE P) as [r [R [E D]]].
    destruct SH as [[_ S]|[r' [R' [_ [S|S]]]]]; rewrite Q in S; try discriminate S. injection S as -> ->. rewrite R in R'. injection R' as <-. congruence.
  - (* datasent *) assert (QS : m_queue s1 = m_queue s) by exact (tail_queue _ _ TL). assert (PQ : In pk (m_queue s)) by (rewrite <- QS; exact P). clear P. rename PQ into P. destruct (LV pk P) as [t [T1 T2]].
    destruct (in_not_removed i _ t _ T1 FN) as [->|Y]; [|exists t; split; auto; ss; apply in_or_app; left; eapply tail_in; eauto].
    assert (pk = p).
    { destruct K as [[K [_ [q Q']]]|K].
      - destruct SH as [[_ S]|[r' [R' [_ [S|S]]]]]; rewrite Q' in S; try discriminate S. injection S as -> ->. rewrite Q' in P. destruct P as [<-|[]]; auto.
      - rewrite K in T2. destruct T2 as [[Y|Y]|[Y|[Y|[Y|[Y|Y]]]]]; try discriminate Y. injection Y; auto. }
    subst. apply live_new. unfold carries. auto 10.
  - (* datacast *) rewrite (tail_queue _ _ TL) in P. destruct (ONE P) as [r [R [E D]]]. destruct (LV pk P) as [t [T1 T2]].
    destruct (in_not_removed i _ t _ T1 FN) as [->|Y]; [|exists t; split; auto; eapply tail_in; eauto].
    exfalso. rewrite K in T2. destruct T2 as [[Y|Y]|[Y|[Y|[Y|[Y|Y]]]]]; try discriminate Y. injection Y as ->. congruence.
  - (* datano *) revert P. ss. rewrite Q. intros [].
  - (* datafail *) destruct SO as [y [Y1 Y2]]. assert (X : s' = fst (start_over c e y)) by (rewrite <- Y1; auto). assert (PQ : In pk (m_queue y)) by (rewrite Y2; rewrite (tail_queue _ _ TL) in P; exact P). rewrite X in I2 |- *. apply over_lives; auto.
  - (* tmo *) destruct (timeout_spec e sq s1) as [_ [_ [Q TS]]]. do 17 destruct TS as [_ TS]. destruct TS as [KP [_ TS]].
    assert (S1 : m_rec s1 = m_rec s /\ m_queue s1 = m_queue s /\ m_timers s1 = remove_nth i (m_timers s)) by (destruct K as [[_ ->]|[_ ->]]; auto).
    destruct S1 as [S1 [S2 S3]]. rewrite Q, S2 in P. pose proof P as P2. apply filter_In in P2. destruct P2 as [P2 P3].
    destruct (LV pk P2) as [t [T1 T2]].
    destruct (in_not_removed i _ t _ T1 FN) as [->|Y]; [|exists t; split; auto; apply KP; rewrite S3; auto].
    assert (mf_seq pk = sq).
    { destruct K as [[K _]|[K _]]; rewrite K in T2; destruct T2 as [[Y|Y]|[Y|[Y|[Y|[Y|Y]]]]]; try discriminate Y; injection Y; auto. }
    destruct (ONE P2) as [r [R [E D]]]. specialize (TS r). rewrite S1, R in TS. specialize (TS (or_introl eq_refl)). rewrite <- E in TS. specialize (TS H).
    destruct (5 <=? wrap16 (mr_retry r + 1)) eqn:G.
    + exfalso. rewrite S1, R in P3. unfold given_up in P3. cbn [filter] in P3. rewrite <- E, H, Z.eqb_refl, G in P3. cbn [andb map] in P3. rewrite <- E in P3. unfold keep in P3. cbn [existsb] in P3. rewrite Z.eqb_refl in P3. discriminate P3.
    + destruct TS as [t [T3 T4]]. exists t. split; auto. rewrite T4. apply carries_idle. left. auto.
  - (* send *) rewrite (tail_queue _ _ TL) in P. destruct (LV pk P) as [t [T1 T2]].
    destruct (in_not_removed i _ t _ T1 FN) as [->|Y]; [|exists t; split; auto; eapply tail_in; eauto].
    exfalso. destruct K as [[? [? [? [K _]]]]|[? [? [K _]]]]; destruct T2 as [[Y|Y]|[Y|[Y|[Y|[Y|Y]]]]]; congruence.
  - (* sendub *) rewrite (tail_queue _ _ TL) in P. destruct (LV pk P) as [t [T1 T2]].
    destruct (in_not_removed i _ t _ T1 FN) as [->|Y]; [|exists t; split; auto; eapply tail_in; eauto].
    exfalso.  destruct T2 as [[Y|Y]|[Y|[Y|[Y|[Y|Y]]]]]; congruence.
  - (* sendno *) rewrite (tail_queue _ _ TL) in P. destruct (LV pk P) as [t [T1 T2]].
    destruct (in_not_removed i _ t _ T1 FN) as [->|Y]; [|exists t; split; auto; eapply tail_in; eauto].
    exfalso. destruct K as [[? [? [? K]]]|[? [? K]]]; destruct T2 as [[Y|Y]|[Y|[Y|[Y|[Y|Y]]]]]; congruence.
  - (* done *) pose proof (sdd_queue _ _ _ _ P) as P2. revert P2. ss. intros P2. destruct (LV pk P2) as [t [T1 T2]].
    destruct (in_not_removed i _ t _ T1 FN) as [->|Y].
    + exfalso. rewrite K in T2. destruct T2 as [[Y|Y]|[Y|[Y|[Y|[Y|Y]]]]]; try discriminate Y. injection Y as -> ->.
      destruct (sdd_shape true (mf_seq pk) (set_timers (remove_nth i (m_timers s)) s)) as [_ X]; auto; [discriminate|]. destruct (X pk P) as [_ Z]. auto.
    + exists t. split; auto. destruct (sdd_spec ok sq (set_timers (remove_nth i (m_timers s)) s)) as [l [q [d [k [em [ub D']]]]]]. do 20 destruct D' as [_ D']. apply D'. auto.
  - (* result *) revert P. ss. intros P. destruct (LV pk P) as [t [T1 T2]].
    destruct (in_not_removed i _ t _ T1 FN) as [->|Y]; [|exists t; split; auto].
    exfalso. destruct T2 as [[Y|Y]|[Y|[Y|[Y|[Y|Y]]]]]; congruence.
  - (* rot *) revert P. ss. intros P. destruct (LV pk P) as [t [T1 T2]].
    destruct (in_not_removed i _ t _ T1 FN) as [->|Y]; [|exists t; split; auto; ss; apply in_or_app; left; auto].
    exfalso. destruct T2 as [[Y|Y]|[Y|[Y|[Y|[Y|Y]]]]]; congruence.
Qed.

Definition shape (s : mst) : Prop :=
  (m_rec s = [] /\ m_queue s = []) \/ exists r, m_rec s = [r] /\ mf_dst (mr_pkt r) <> bcast /\ (m_queue s = [] \/ m_queue s = [mr_pkt r]).
Lemma shape_kept s s' : shape s -> m_rec s' = m_rec s -> m_queue s' = m_queue s -> shape s'.
Proof. unfold shape. intros H -> ->. auto. Qed.
Lemma shape_tail s s' : shape s -> tail s s' -> shape s'.
Proof. intros H T. eapply shape_kept; eauto; [apply tail_rec|apply tail_queue]; auto. Qed.

Lemma shape_step c e s ev s' o : scase c e s ev s' o -> One s ->
  (forall size dst junk, ev = EEnq size dst junk -> dst <> bcast /\ m_rec s = []) -> shape s'.
Proof.
  intros C O1 NE. pose proof (o_shape _ O1) as SH. fold (shape s) in SH.
  assert (KT : forall a b, m_rec a = m_rec s -> m_queue a = m_queue s -> tail a b -> shape b) by (intros a b X Y T; eapply shape_tail; [eapply shape_kept; eauto|auto]).
  assert (KU : forall a b y, m_rec a = m_rec s -> m_queue a = m_queue s -> tail a b -> m_rec y = m_rec b -> m_queue y = m_queue b -> shape y) by (intros a b y X Y T Z1 Z2; apply (shape_kept b); auto; eapply KT; eauto).
  scl C; cbn [fst snd] in *; auto;
    try (eapply KT; [| |exact TL]; reflexivity); try (eapply KU; [| |exact TL| |]; reflexivity);
    try (apply (shape_kept s); auto; reflexivity).
  - destruct (enq_spec c size dst junk s L) as [_ [R [Q _]]]. destruct (NE _ _ _ eq_refl) as [D N]. right.
    exists (Mrec (enq_pkt c size dst junk s) 0 (m_now s)). rewrite R, Q, N. split; auto. split; auto. right.
    destruct SH as [[_ S]|[r [X _]]]; [rewrite S; auto|congruence].
  - eapply shape_tail; [|exact TL]. subst s1. apply sdd_shape; auto. discriminate.
  - destruct TB as [TB|[u [_ [_ TB]]]]; (eapply shape_tail; [|exact TL]); eapply KT; try exact TB; reflexivity.
  - eapply shape_tail; [|exact TL]. subst s1. destruct (forward_out f (set_state MIdle s)) as [_ ->]. apply (shape_kept s); auto.
  - destruct (forward_out f s2) as [_ ->]. subst s2. eapply KU; [| |exact TL| |]; reflexivity.
  - destruct (mild_cca c e (set_timers (remove_nth i (m_timers s)) s)) as [TL _]. eapply KT; [| |exact TL]; reflexivity.
  - unfold backoff_start. cbv zeta. destruct (_ =? _), (_ || _); apply (shape_kept s); auto.
  - destruct (timeout_spec e sq s1) as [_ [R [Q _]]]. assert (S1 : m_rec s1 = m_rec s /\ m_queue s1 = m_queue s) by (destruct K as [[_ ->]|[_ ->]]; auto).
    destruct S1 as [S1 S2]. rewrite S1 in R, Q. rewrite S2 in Q.
    destruct SH as [[X Y]|[r [X [D Y]]]]; rewrite X in R, Q; [left; rewrite R, Q, Y; auto|]. right. exists (bumped sq r).
    assert (BP : mr_pkt (bumped sq r) = mr_pkt r) by (unfold bumped; destruct (_ =? _); auto). rewrite R, Q, BP. split; auto. split; auto.
    destruct Y as [Y|Y]; rewrite Y; [left; auto|]. cbn [filter]. destruct (keep _ _); auto.
  - apply sdd_shape; auto. intros ->. revert K. ss. intros K p P. apply (o_drop _ O1 x sq); auto. eapply nth_in; eauto.
Qed.

Lemma NoDup_app_not {A} (a b : list A) : NoDup (a ++ b) -> forall x, In x a -> In x b -> False.
Proof.
  induction a as [|y a IH]; cbn [app]; intros N x X Y; [destruct X|]. inversion N as [|z l N1 N2]; subst.
  destruct X as [->|X]; [apply N1; apply in_or_app; auto|eauto].
Qed.

(** Packets given up have been accepted. *)
Lemma drop_acc c q0 h s o : u16 q0 -> mreach c q0 h s o -> forall t sq, In t (m_timers s) -> mt_kind t = MKDone false sq -> exists p, In p (acc_of o) /\ mf_seq p = sq.
Proof.
  intros U R. induction R as [|h s o e ev R IH]; intros t sq T K.
  - destruct T as [<-|[]]. discriminate K.
  - rewrite acc_app. destruct (timer_new _ _ _ _ _ _ t (cases c e s ev) T) as [X|[X _]].
    + destruct (IH t sq X K) as [p [P1 P2]]. exists p. split; auto. apply in_or_app. auto.
    + inversion X as [Y|Y|Y|Y|ri rt R2 R3 R4 Y|p q Q D Y|p Q D S Y|f Q D S Y|f Q D S Z W Y|f p u Q D S Z W Y|f u Q D S Z Y|r O1 R1 L1 Y]; rewrite <- Y in K; try discriminate K.
      injection K as <-. exists (mr_pkt r). split; auto. apply in_or_app. left.
      eapply Permutation_in; [apply Permutation_sym, (ac_perm _ _ _ _ (acct_reach _ _ _ _ _ U R))|]. apply in_or_app. right. apply in_or_app. right. apply in_map. auto.
Qed.

Lemma reported_rec c q0 s o : Acct c q0 s o -> all_reported o -> m_rec s = [].
Proof.
  intros A E. pose proof (Permutation_length (ac_perm _ _ _ _ A)) as L. unfold all_reported in E. rewrite !app_length, map_length in L.
  destruct (m_rec s); auto. cbn [length] in L. lia.
Qed.

Lemma one_reach c q0 h s o : u16 q0 -> mreach1 c q0 h s o -> Z.of_nat (length (acc_of o)) <= 65536 -> Ids s /\ One s.
Proof.
  intros U R. induction R as [|h s o e ev R IH NE]; intros L.
  - split; [apply ids_init|]. split; [left; auto| |]; cbn; intros; contradiction.
  - rewrite acc_app, app_length, Nat2Z.inj_add in L. destruct IH as [I O1]; [lia|].
    pose proof (acct_reach _ _ _ _ _ U (reach1 _ _ _ _ _ R)) as A.
    pose proof (acct_reach _ _ _ _ _ U (MR1 _ _ _ _ _ e ev (reach1 _ _ _ _ _ R))) as A2.
    pose proof (cases c e s ev) as C. pose proof (ids_step _ _ _ _ _ _ C I) as I2. split; auto. split.
    + eapply shape_step; eauto. intros size dst junk E. destruct (NE size dst junk E) as [N1 N2]. split; auto. eapply reported_rec; eauto.
    + intros t sq p T K P E. destruct (timer_new _ _ _ _ _ _ t C T) as [X|[X _]].
      * destruct (queue_new _ _ _ _ _ _ p C P) as [Y|Y]; [eapply (o_drop _ O1 t sq p); eauto|].
        destruct (drop_acc _ _ _ _ _ U (reach1 _ _ _ _ _ R) t sq X K) as [x [X1 X2]].
        assert (Y' : In p (acc_of (snd (mstep c e s ev)))) by (apply in_flat_map; exists (OAcc p); split; auto; left; auto).
        assert (x = p).
        { eapply (unique_num _ _ _ _ x p A2); [rewrite acc_app, app_length, Nat2Z.inj_add; auto| | |congruence]; rewrite acc_app; apply in_or_app; auto. }
        subst x. pose proof (ac_nodup _ _ _ _ A2) as ND. rewrite acc_app, map_app in ND. 
        apply (NoDup_app_not _ _ ND (mf_id p)); apply in_map; auto.
      * inversion X as [Y|Y|Y|Y|ri rt R2 R3 R4 Y|p' q Q D Y|p' Q D S Y|f Q D S Y|f Q D S Z W Y|f p' u Q D S Z W Y|f u Q D S Z Y|r O2 R1 L1 Y]; rewrite <- Y in K; try discriminate K.
        injection K as <-. rewrite (tmo_queue _ _ _ _ _ _ _ C O2) in P. apply filter_In in P. destruct P as [P1 P2].
        assert (p = mr_pkt r).
        { destruct (o_shape _ O1) as [[S _]|[r' [S [_ S']]]]; rewrite S in R1; [destruct R1|]. destruct R1 as [<-|[]].
          destruct S' as [S'|S']; rewrite S' in P1; [destruct P1|destruct P1 as [<-|[]]; auto]. }
        subst p. unfold keep in P2. apply negb_true_iff in P2. assert (existsb (fun p => mf_id (mr_pkt r) =? mf_id p) (given_up (mf_seq (mr_pkt r)) (m_rec s)) = true); [|congruence].
        apply existsb_exists. exists (mr_pkt r). split; [|apply Z.eqb_refl]. apply in_map. apply filter_In. split; auto. rewrite Z.eqb_refl. apply Z.leb_le. auto.
    + intros p P. eapply live_step; eauto.
Qed.
