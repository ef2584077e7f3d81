(** The packets a macro node is responsible for: what SendDataDone, the timeouts and Enqueue do
    to them. *)
From Coq Require Import ZArith List Lia Bool Permutation.
From Verif Require Import Base HeaderModel SeqModel SeqProofs EnergyModel MacModel MacSpec MacProofs.
Import ListNotations.
Open Scope Z_scope.

(** ** SendDataDone *)
Definition keep (d : list mframe) (x : mframe) : bool := negb (existsb (fun p => mf_id x =? mf_id p) d).

Lemma filter_filter {A} (f g : A -> bool) l : filter f (filter g l) = filter (fun x => g x && f x) l.
Proof. induction l as [|x l IH]; auto. cbn. destruct (g x); cbn; [destruct (f x); rewrite IH; auto|auto]. Qed.

Lemma done_spec ok sq : forall n l q l' q' d k em ub, (length l <= n)%nat -> done_loop ok sq q l = (l', q', d, k, em, ub) ->
  Permutation (map mr_pkt l) (d ++ map mr_pkt l') /\ (forall r, In r l' -> In r l) /\
  (forall p, In p d -> mf_seq p = sq) /\ q' = (if ok then filter (keep d) q else q) /\
  0 <= k /\ (k = 0 -> l' = l /\ q' = q /\ d = []) /\ (em = true -> ok = true /\ q' = []) /\ (ub = true -> d <> []) /\
  (k <> 0 <-> exists r, In r l /\ mf_seq (mr_pkt r) = sq).
Proof.
  induction n as [|n IH]; intros l q l' q' d k em ub L E.
  { destruct l; [|cbn in L; lia]. cbn in E. injection E as <- <- <- <- <- <-. cbn.
    assert (X : q = filter (keep []) q) by (induction q; cbn; f_equal; auto).
    repeat split; auto; try contradiction; try discriminate; try lia; try (destruct ok; auto; fail); try (intros []; auto; fail); try (intros [? [[] _]]). }
  destruct l as [|r t].
  { cbn in E. injection E as <- <- <- <- <- <-. cbn.
    assert (X : q = filter (keep []) q) by (induction q; cbn; f_equal; auto).
    repeat split; auto; try contradiction; try discriminate; try lia; try (destruct ok; auto; fail); try (intros []; auto; fail); try (intros [? [[] _]]). }
  cbn [done_loop] in E. cbn [length] in L. destruct (Z.eqb_spec (mf_seq (mr_pkt r)) sq) as [S|S].
  - assert (EX : exists r0, In r0 (r :: t) /\ mf_seq (mr_pkt r0) = sq) by (exists r; split; [left|]; auto).
    assert (C : (ok = true /\ q = []) \/ match ok, q with true, [] => False | _, _ => True end) by (destruct ok, q; auto).
    destruct C as [[-> ->]|C].
    { injection E as <- <- <- <- <- <-. cbn. repeat split; auto; try contradiction; try discriminate; try lia. }
    set (q1 := if ok then mremove (mr_pkt r) q else q) in *.
    assert (E' : match t with [] => ([], q1, [mr_pkt r], 1, false, true)
      | n0 :: t' => let '(l'0, q2, d0, k0, em0, ub0) := done_loop ok sq q1 t' in (n0 :: l'0, q2, mr_pkt r :: d0, k0 + 1, em0, ub0) end
      = (l', q', d, k, em, ub)) by (unfold q1; destruct ok, q; try contradiction; exact E).
    clear E. destruct t as [|n0 t'].
    { injection E' as <- <- <- <- <- <-. cbn. repeat split; auto; try contradiction; try discriminate; try lia.
      - intros p [<-|[]]. auto.
      - unfold q1. destruct ok; auto. unfold mremove, keep. cbn. apply filter_ext. intros x. rewrite orb_false_r. auto. }
    destruct (done_loop ok sq q1 t') as [[[[[l0 q2] d0] k0] em0] ub0] eqn:D. injection E' as <- <- <- <- <- <-.
    cbn in L. destruct (IH t' q1 l0 q2 d0 k0 em0 ub0 ltac:(lia) D) as [A1 [A2 [A3 [A4 [A5 [A6 [A7 [A8 A9]]]]]]]].
    repeat split; auto; try lia.
    + cbn [map app]. apply perm_skip. rewrite A1. apply Permutation_middle.
    + intros x [<-|X]; [right; left; auto|right; right; auto].
    + intros p [<-|P]; auto.
    + rewrite A4. unfold q1. destruct ok; auto. unfold mremove. rewrite filter_filter. apply filter_ext. intros x.
      unfold keep. cbn. rewrite negb_orb. auto.
    + apply A7; auto.
    + apply A7; auto.
    + discriminate.
  - destruct (done_loop ok sq q t) as [[[[[l0 q2] d0] k0] em0] ub0] eqn:D. injection E as <- <- <- <- <- <-.
    destruct (IH t q l0 q2 d0 k0 em0 ub0 ltac:(lia) D) as [A1 [A2 [A3 [A4 [A5 [A6 [A7 [A8 A9]]]]]]]].
    repeat split; auto; try lia.
    + cbn [map app]. rewrite A1. apply Permutation_middle.
    + intros x [<-|X]; [left; auto|right; auto].
    + destruct (A6 H) as [-> _]. auto.
    + destruct (A6 H) as [_ [X _]]. auto.
    + destruct (A6 H) as [_ [_ X]]. auto.
    + apply A7; auto.
    + apply A7; auto.
    + intros X. apply A9 in X. destruct X as [x [X1 X2]]. exists x. split; auto. right. auto.
    + intros [x [[<-|X1] X2]]; [contradiction|]. apply A9. eauto.
Qed.

Lemma times_fields n : forall s, let s' := times n (msched 0 MKResult) s in
  m_rec s' = m_rec s /\ m_queue s' = m_queue s /\ m_sent s' = m_sent s /\ m_disc s' = m_disc s /\
  m_seq s' = m_seq s /\ m_filter s' = m_filter s /\ m_mode s' = m_mode s /\ m_rot s' = m_rot s /\ m_now s' = m_now s /\
  m_ids s' = m_ids s /\ m_uid s <= m_uid s' /\ m_cts s' = m_cts s /\ m_ack s' = m_ack s /\ m_data s' = m_data s /\ m_air s' = m_air s /\
  m_tx s' = m_tx s /\ m_state s' = m_state s /\ m_cca s' = m_cca s /\ m_bo s' = m_bo s /\
  (forall t, In t (m_timers s) -> In t (m_timers s')) /\
  (forall t, In t (m_timers s') -> In t (m_timers s) \/ (mt_kind t = MKResult /\ m_uid s <= mt_id t < m_uid s')).
Proof.
  induction n as [|n IH]; intros s; cbn [times].
  - repeat split; auto; try lia.
  - destruct (IH (msched 0 MKResult s)) as [A1 [A2 [A3 [A4 [A5 [A6 [A7 [A8 [A9 [A10 [A11 [A12 [A13 [A14 [A15 [A16 [A17 [A18 [A19 [A20 A21]]]]]]]]]]]]]]]]]]]].
    cbv zeta. rewrite A1, A2, A3, A4, A5, A6, A7, A8, A9, A10, A12, A13, A14, A15, A16, A17, A18, A19.
    repeat split; auto.
    + revert A11. ss. lia.
    + intros t T. apply A20. ss. apply in_or_app. auto.
    + intros t T. destruct (A21 t T) as [X|[X1 X2]].
      * revert X. ss. intros X. apply in_app_or in X. destruct X as [X|[<-|[]]]; auto. right. cbn. split; auto.
        revert A11. ss. lia.
      * right. split; auto. revert X2. ss. lia.
Qed.

(** What SendDataDone does, with the records [l], the queue [q] and the packets [d] of
    [done_spec]. *)
Lemma sdd_spec ok sq s : let r := send_data_done ok sq s in
  exists l q d k em ub, done_loop ok sq (m_queue s) (m_rec s) = (l, q, d, k, em, ub) /\
  m_rec (fst r) = l /\ m_queue (fst r) = q /\
  m_sent (fst r) = (if ok then m_sent s + Z.of_nat (length d) else m_sent s) /\
  m_disc (fst r) = (if ok then m_disc s else m_disc s + Z.of_nat (length d)) /\
  m_seq (fst r) = m_seq s /\ m_filter (fst r) = m_filter s /\ m_mode (fst r) = m_mode s /\ m_rot (fst r) = m_rot s /\
  m_now (fst r) = m_now s /\ m_ids (fst r) = m_ids s /\ m_uid s <= m_uid (fst r) /\
  m_cts (fst r) = m_cts s /\ m_ack (fst r) = m_ack s /\ m_data (fst r) = m_data s /\ m_air (fst r) = m_air s /\
  m_tx (fst r) = m_tx s /\ m_cca (fst r) = m_cca s /\ m_bo (fst r) = m_bo s /\
  m_state (fst r) = (if k =? 0 then m_state s else MIdle) /\
  (forall t, In t (m_timers s) -> In t (m_timers (fst r))) /\
  (forall t, In t (m_timers (fst r)) -> In t (m_timers s) \/ (mt_kind t = MKResult /\ m_uid s <= mt_id t < m_uid (fst r))) /\
  snd r = map (ORep ok) d ++ (if ub then [OUb] else []).
Proof.
  cbv zeta. unfold send_data_done.
  destruct (done_loop ok sq (m_queue s) (m_rec s)) as [[[[[l q] d] k] em] ub] eqn:D.
  exists l, q, d, k, em, ub. split; auto.
  destruct (done_spec ok sq (length (m_rec s)) _ _ _ _ _ _ _ _ (le_n _) D) as [A1 [A2 [A3 [A4 [A5 [A6 [A7 [A8 A9]]]]]]]].
  destruct (Z.eqb_spec k 0) as [->|K].
  - destruct (A6 eq_refl) as [-> [X ->]]. cbn [fst snd map length app]. rewrite !Z.add_0_r.
    assert (ub = false) as -> by (destruct ub; auto; destruct (A8 eq_refl); auto).
    repeat split; auto; try lia; destruct ok; auto.
  - pose proof (times_fields (Z.to_nat k) s) as T. cbv zeta in T.
    destruct T as [T1 [T2 [T3 [T4 [T5 [T6 [T7 [T8 [T9 [T10 [T11 [T12 [T13 [T14 [T15 [T16 [T17 [T18 [T19 [T20 T21]]]]]]]]]]]]]]]]]]]].
    set (s1 := times (Z.to_nat k) (msched 0 MKResult) s) in *. clearbody s1.
    destruct (Z.of_nat (length d) =? 0), ok; ss; repeat split; auto.
Qed.

Lemma done_out ok sq s d (ub : bool) : snd (send_data_done ok sq s) = map (ORep ok) d ++ (if ub then [OUb] else []) ->
  acc_of (snd (send_data_done ok sq s)) = [] /\ up_of (snd (send_data_done ok sq s)) = [] /\
  rep_of ok (snd (send_data_done ok sq s)) = d /\ rep_of (negb ok) (snd (send_data_done ok sq s)) = [] /\
  (forall q, tmo_of q (snd (send_data_done ok sq s)) = 0%nat) /\ snd_of (snd (send_data_done ok sq s)) = [].
Proof.
  intros ->. rewrite acc_app, up_app, !rep_app, snd_app.
  assert (X : forall o : list mout, o = (if ub then [OUb] else []) -> acc_of o = [] /\ up_of o = [] /\ (forall b, rep_of b o = []) /\ (forall q, tmo_of q o = 0%nat) /\ snd_of o = []).
  { intros o ->. destruct ub; repeat split; auto. }
  destruct (X _ eq_refl) as [X1 [X2 [X3 [X4 X5]]]]. rewrite X1, X2, !X3, X5, !app_nil_r.
  repeat split.
  - induction d; auto.
  - induction d; auto.
  - induction d as [|p d IH]; auto. cbn. rewrite eqb_reflx. cbn. f_equal. auto.
  - induction d as [|p d IH]; auto. cbn. destruct ok; auto.
  - intros q. rewrite tmo_app, X4. induction d; auto.
  - induction d; auto.
Qed.

(** ** Timeouts *)
Definition bumped (sq : Z) (r : mrec) : mrec :=
  if mf_seq (mr_pkt r) =? sq then Mrec (mr_pkt r) (wrap16 (mr_retry r + 1)) (mr_time r) else r.
(** Packets given up: those whose counter reaches the limit. *)
Definition given_up (sq : Z) (l : list mrec) : list mframe :=
  map mr_pkt (filter (fun r => (mf_seq (mr_pkt r) =? sq) && (5 <=? wrap16 (mr_retry r + 1))) l).

Lemma bump_spec e sq : forall l s l' s', bump e sq l s = (l', s') ->
  l' = map (bumped sq) l /\ m_queue s' = filter (keep (given_up sq l)) (m_queue s) /\
  m_rec s' = m_rec s /\ m_sent s' = m_sent s /\ m_disc s' = m_disc s /\ m_seq s' = m_seq s /\ m_filter s' = m_filter s /\
  m_mode s' = m_mode s /\ m_rot s' = m_rot s /\ m_now s' = m_now s /\ m_ids s' = m_ids s /\ m_uid s <= m_uid s' /\
  m_cts s' = m_cts s /\ m_ack s' = m_ack s /\ m_data s' = m_data s /\ m_air s' = m_air s /\ m_tx s' = m_tx s /\
  m_state s' = m_state s /\ m_cca s' = m_cca s /\ m_bo s' = m_bo s /\
  (forall t, In t (m_timers s) -> In t (m_timers s')) /\
  (forall t, In t (m_timers s') -> In t (m_timers s) \/
     ((m_uid s <= mt_id t < m_uid s') /\ (mt_kind t = MKCca \/ (mt_kind t = MKDone false sq /\ given_up sq l <> [])))) /\
  (forall r, In r l -> mf_seq (mr_pkt r) = sq ->
     if 5 <=? wrap16 (mr_retry r + 1) then exists t, In t (m_timers s') /\ mt_kind t = MKDone false sq
     else exists t, In t (m_timers s') /\ mt_kind t = MKCca).
Proof.
  induction l as [|r l IH]; intros s l' s' E; cbn [bump] in E.
  { injection E as <- <-. cbn.
    assert (X : m_queue s = filter (keep []) (m_queue s)) by (induction (m_queue s); cbn; f_equal; auto).
    repeat split; auto; try lia; try (intros ? []). }
  unfold given_up. cbn [filter map]. unfold bumped at 1. destruct (Z.eqb_spec (mf_seq (mr_pkt r)) sq) as [S|S]; cbn [andb].
  - destruct (5 <=? wrap16 (mr_retry r + 1)) eqn:F.
    + destruct (bump e sq l (msched psec (MKDone false sq) (set_queue (mremove (mr_pkt r) (m_queue s)) s))) as [t' s2] eqn:B.
      injection E as <- <-. apply IH in B. fold (given_up sq l).
      destruct B as [B1 [B2 [B3 [B4 [B5 [B6 [B7 [B8 [B9 [B10 [B11 [B12 [B13 [B14 [B15 [B16 [B17 [B18 [B19 [B20 [B21 [B22 B23]]]]]]]]]]]]]]]]]]]]]].
      revert B2 B12 B21 B22. ss. intros. repeat split; auto.
      * f_equal; auto.
      * rewrite B2. unfold mremove. rewrite filter_filter. apply filter_ext. intros x. unfold keep. cbn [map existsb].
        rewrite negb_orb. auto.
      * lia.
      * intros t T. apply B21, in_or_app. auto.
      * intros t T. destruct (B22 t T) as [X|[X1 [X2|[X2 X3]]]].
        -- apply in_app_or in X. destruct X as [X|[<-|[]]]; auto. right. cbn. split; [lia|]. right. split; auto. discriminate.
        -- right. split; [lia|]. auto.
        -- right. split; [lia|]. right. split; auto. discriminate.
      * intros x [<-|X] Y.
        -- rewrite F. exists (Mtimer (m_uid s) (m_now s + psec) (MKDone false sq)). split; auto. apply B21, in_or_app. right. left. auto.
        -- apply B23; auto.
    + destruct (bump e sq l (msched (mdraw (wrap16 (mr_retry r + 1)) (e_draw e (mf_id (mr_pkt r))) * tdata) MKCca (set_retry (wrap16 (mr_retry r + 1)) s))) as [t' s2] eqn:B.
      injection E as <- <-. apply IH in B. fold (given_up sq l).
      destruct B as [B1 [B2 [B3 [B4 [B5 [B6 [B7 [B8 [B9 [B10 [B11 [B12 [B13 [B14 [B15 [B16 [B17 [B18 [B19 [B20 [B21 [B22 B23]]]]]]]]]]]]]]]]]]]]]].
      revert B2 B12 B21 B22. ss. intros. repeat split; auto.
      * f_equal; auto.
      * lia.
      * intros t T. apply B21, in_or_app. auto.
      * intros t T. destruct (B22 t T) as [X|[X1 [X2|[X2 X3]]]].
        -- apply in_app_or in X. destruct X as [X|[<-|[]]]; auto. right. cbn. split; [lia|]. auto.
        -- right. split; [lia|]. auto.
        -- right. split; [lia|]. auto.
      * intros x [<-|X] Y.
        -- rewrite F. eexists. split; [apply B21, in_or_app; right; left; reflexivity|]. auto.
        -- apply B23; auto.
  - destruct (bump e sq l s) as [t' s2] eqn:B. injection E as <- <-. apply IH in B. fold (given_up sq l).
    destruct B as [B1 [B2 [B3 [B4 [B5 [B6 [B7 [B8 [B9 [B10 [B11 [B12 [B13 [B14 [B15 [B16 [B17 [B18 [B19 [B20 [B21 [B22 B23]]]]]]]]]]]]]]]]]]]]]].
    repeat split; auto.
    + f_equal; auto.
    + intros x [<-|X] Y; [contradiction|]. apply B23; auto.
Qed.

Lemma timeout_spec e sq s : let s' := fst (timeout e sq s) in snd (timeout e sq s) = [OTmo sq] /\
  m_rec s' = map (bumped sq) (m_rec s) /\ m_queue s' = filter (keep (given_up sq (m_rec s))) (m_queue s) /\
  m_sent s' = m_sent s /\ m_disc s' = m_disc s /\ m_seq s' = m_seq s /\ m_filter s' = m_filter s /\
  m_mode s' = m_mode s /\ m_rot s' = m_rot s /\ m_now s' = m_now s /\ m_ids s' = m_ids s /\ m_uid s <= m_uid s' /\
  m_cts s' = m_cts s /\ m_ack s' = m_ack s /\ m_data s' = m_data s /\ m_air s' = m_air s /\ m_tx s' = m_tx s /\
  m_state s' = MIdle /\ m_cca s' = m_cca s /\ m_bo s' = m_bo s /\
  (forall t, In t (m_timers s) -> In t (m_timers s')) /\
  (forall t, In t (m_timers s') -> In t (m_timers s) \/
     ((m_uid s <= mt_id t < m_uid s') /\ (mt_kind t = MKCca \/ (mt_kind t = MKDone false sq /\ given_up sq (m_rec s) <> [])))) /\
  (forall r, In r (m_rec s) -> mf_seq (mr_pkt r) = sq ->
     if 5 <=? wrap16 (mr_retry r + 1) then exists t, In t (m_timers s') /\ mt_kind t = MKDone false sq
     else exists t, In t (m_timers s') /\ mt_kind t = MKCca).
Proof.
  cbv zeta. unfold timeout. destruct (bump e sq (m_rec s) (set_state MIdle s)) as [l s'] eqn:B.
  apply bump_spec in B. cbn [fst snd]. 
  destruct B as [B1 [B2 [B3 [B4 [B5 [B6 [B7 [B8 [B9 [B10 [B11 [B12 [B13 [B14 [B15 [B16 [B17 [B18 [B19 [B20 [B21 [B22 B23]]]]]]]]]]]]]]]]]]]]]].
  revert B2 B3 B4 B5 B6 B7 B8 B9 B10 B11 B12 B13 B14 B15 B16 B17 B18 B19 B20 B21 B22. ss. intros. repeat split; auto.
Qed.

(** ** Accounting *)
Lemma sub_refl {A} (l : list A) : sublist l l.
Proof. induction l; constructor; auto. Qed.
Lemma sub_trans {A} (b d : list A) : sublist b d -> forall a, sublist a b -> sublist a d.
Proof.
  induction 1 as [l|x l l' H IH|x l l' H IH]; intros a S.
  - inversion S; subst. constructor.
  - inversion S; subst; [constructor|apply sub_keep; auto|apply sub_drop; auto].
  - apply sub_drop. auto.
Qed.
Lemma sub_filter {A} (f : A -> bool) l : sublist (filter f l) l.
Proof. induction l as [|x l IH]; cbn; [constructor|]. destruct (f x); constructor; auto. Qed.
Lemma sub_app {A} (a b d : list A) : sublist a b -> sublist (a ++ d) (b ++ d).
Proof.
  induction 1 as [l|x l l' H IH|x l l' H IH]; cbn.
  - induction l; cbn; [apply sub_refl|apply sub_drop; auto].
  - constructor; auto.
  - constructor; auto.
Qed.
Lemma sub_in {A} (a b : list A) x : sublist a b -> In x a -> In x b.
Proof. induction 1 as [l|y l l' H IH|y l l' H IH]; intros I; [destruct I| |right; auto]. destruct I; [left|right]; auto. Qed.

Record Acct (c : mcfg) (q0 : Z) (s : mst) (o : list mout) : Prop := {
  ac_perm : Permutation (acc_of o) (rep_of true o ++ rep_of false o ++ map mr_pkt (m_rec s));
  ac_nodup : NoDup (map mf_id (acc_of o));
  ac_ids : forall p, In p (acc_of o) -> mf_id p < m_ids s;
  ac_sent : m_sent s = Z.of_nat (length (rep_of true o));
  ac_disc : m_disc s = Z.of_nat (length (rep_of false o));
  ac_queue : sublist (m_queue s) (acc_of o);
  ac_data : forall p, In p (acc_of o) -> mf_type p = T_DATA /\ mf_src p = mc_addr c;
  ac_num : forall i p, nth_error (acc_of o) i = Some p -> mf_seq p = wrap16 (q0 + 1 + Z.of_nat i);
  ac_seq : m_seq s = wrap16 (q0 + Z.of_nat (length (acc_of o))) }.

Lemma wrap16_add a b : wrap16 (wrap16 a + b) = wrap16 (a + b).
Proof. unfold wrap16. apply Zplus_mod_idemp_l. Qed.

Lemma bumped_pkt sq l : map mr_pkt (map (bumped sq) l) = map mr_pkt l.
Proof. rewrite map_map. apply map_ext. intros r. unfold bumped. destruct (_ =? _); auto. Qed.

Lemma acct_calm c q0 s o s' o' : Acct c q0 s o -> m_rec s' = m_rec s -> m_queue s' = m_queue s -> m_sent s' = m_sent s ->
  m_disc s' = m_disc s -> m_seq s' = m_seq s -> m_ids s <= m_ids s' -> acc_of o' = [] -> (forall b, rep_of b o' = []) -> Acct c q0 s' (o ++ o').
Proof.
  intros [A1 A2 A3 A4 A5 A6 A7 A8 A9] R Q S D N I AO RO.
  split; rewrite ?acc_app, ?rep_app, ?AO, ?RO, ?app_nil_r, ?R, ?Q, ?S, ?D, ?N; auto.
  intros p P. specialize (A3 p P). lia.
Qed.

Definition enq_pkt (c : mcfg) (size : Z) (dst : addr) (junk : Z) (s : mst) : mframe :=
  Mframe T_DATA (mc_addr c) dst (wrap16 (m_seq s + 1)) junk (size + 17) (m_ids s).
Lemma enq_spec c size dst junk s : 15000 <= wrap16 size ->
  let p := enq_pkt c size dst junk s in let s' := fst (menqueue c size dst junk s) in
  snd (menqueue c size dst junk s) = [OAcc p; ORet false] /\
  m_rec s' = m_rec s ++ [Mrec p 0 (m_now s)] /\ m_queue s' = m_queue s ++ [p] /\ m_sent s' = m_sent s /\ m_disc s' = m_disc s /\
  m_seq s' = wrap16 (m_seq s + 1) /\ m_filter s' = m_filter s /\ m_mode s' = 0 /\ m_rot s' = m_rot s /\ m_now s' = m_now s /\
  m_ids s' = m_ids s + 1 /\ m_uid s' = m_uid s + 1 /\ m_cts s' = m_cts s /\ m_ack s' = m_ack s /\ m_data s' = Some p /\
  m_air s' = m_air s /\ m_tx s' = m_tx s /\ m_state s' = m_state s /\ m_cca s' = m_cca s /\ m_bo s' = m_bo s /\
  m_timers s' = match m_rot s with Some u => filter (fun t => negb (mt_id t =? u)) (m_timers s) | None => m_timers s end ++
    [Mtimer (m_uid s) (m_now s + psec) MKCca].
Proof.
  intros L. cbv zeta. unfold menqueue. destruct (Z.ltb_spec (wrap16 size) 15000) as [B|B]; [lia|]. cbv zeta. fold (enq_pkt c size dst junk s).
  destruct (m_rot s) as [u|] eqn:R; ss; rewrite ?R; repeat split; auto.
Qed.

Lemma acct_step c q0 e s o ev : Acct c q0 s o -> Acct c q0 (fst (mstep c e s ev)) (o ++ snd (mstep c e s ev)).
Proof.
  intros A. destruct (classify c e s ev) as [size dst junk ->|f -> _ T D R1 R2 R3 R4 R5 R6 R7 R8 R9 R10 R11 R12 R13 R14 R15|s0 ok sq g S E G W|i t s0 sq -> N K S TM E|i t -> N K E|t ->|S O].
  - cbn [mstep]. destruct (Z.lt_ge_cases (wrap16 size) 15000) as [L|L].
    { unfold menqueue. apply Z.ltb_lt in L. rewrite L. apply (acct_calm c q0 s o); auto; reflexivity || (cbn [fst]; lia). }
    destruct (enq_spec c size dst junk s L) as [E1 [E2 [E3 [E4 [E5 [E6 [_ [_ [_ [_ [E7 _]]]]]]]]]]]. set (p := enq_pkt c size dst junk s) in *.
    destruct A as [A1 A2 A3 A4 A5 A6 A7 A8 A9].
    split; rewrite ?E1, ?acc_app, ?rep_app; cbn [acc_of rep_of flat_map app]; rewrite ?app_nil_r, ?E4, ?E5; auto.
    + rewrite E2, map_app. cbn [map]. rewrite A1, <- !app_assoc. reflexivity.
    + rewrite map_app. cbn [map]. apply Permutation_NoDup with (mf_id p :: map mf_id (acc_of o)).
      * apply Permutation_cons_append.
      * constructor; auto. intros H. apply in_map_iff in H. destruct H as [x [H1 H2]]. specialize (A3 x H2). cbn in H1. lia.
    + intros x H. rewrite E7. apply in_app_or in H. destruct H as [H|[<-|[]]]; [specialize (A3 x H); lia|]. cbn. lia.
    + rewrite E3. apply sub_app. auto.
    + intros x H. apply in_app_or in H. destruct H as [H|[<-|[]]]; auto.
    + intros i x H. destruct (Nat.lt_ge_cases i (length (acc_of o))) as [L'|L'].
      * rewrite nth_error_app1 in H by auto. eauto.
      * rewrite nth_error_app2 in H by auto. destruct (i - length (acc_of o))%nat as [|[|j]] eqn:J; cbn in H; try discriminate.
        injection H as <-. cbn [mf_seq p enq_pkt]. rewrite A9, wrap16_add. f_equal. lia.
    + rewrite app_length. cbn [length]. rewrite E6, A9, wrap16_add. f_equal. lia.
  - eapply acct_calm; eauto.
  - destruct S as [S1 [S2 [S3 [S4 [S5 [S6 [S7 [S8 [S9 [S10 S11]]]]]]]]]].
    rewrite E, mseq_eq. cbn [fst snd]. rewrite app_assoc.
    pose proof (sdd_spec ok sq s0) as D. cbv zeta in D. set (r := send_data_done ok sq s0) in *.
    destruct (G (fst r)) as [GS GO].
    assert (B : Acct c q0 (fst r) (o ++ snd r)).
    { destruct D as [l [q [d [k [em [ub [DL [D1 [D2 [D3 [D4 [D5 [_ [_ [_ [_ [D6 [_ [_ [_ [_ [_ [_ [_ [_ [_ [_ [_ DO]]]]]]]]]]]]]]]]]]]]]]]]]]]].
      destruct (done_out ok sq s0 d ub DO) as [O1 [O2 [O3 [O4 [_ _]]]]]. fold r in O1, O2, O3, O4.
      destruct (done_spec ok sq _ _ _ _ _ _ _ _ _ (le_n _) DL) as [P1 [_ [_ [P4 _]]]].
      destruct A as [A1 A2 A3 A4 A5 A6 A7 A8 A9].
      split; rewrite ?acc_app, ?rep_app, ?O1, ?app_nil_r; auto.
      - rewrite D1, A1. rewrite S1 in P1. rewrite P1. destruct ok; cbn [negb] in O4; rewrite O3, O4, ?app_nil_r.
        + rewrite <- !app_assoc. apply Permutation_app_head. rewrite !app_assoc. apply Permutation_app_tail, Permutation_app_comm.
        + rewrite <- !app_assoc. reflexivity.
      - intros p P. rewrite D6. specialize (A3 p P). lia.
      - rewrite D3, S3, A4. destruct ok; cbn [negb] in O4; rewrite ?O3, ?O4, ?app_nil_r, ?app_length; lia.
      - rewrite D4, S4, A5. destruct ok; cbn [negb] in O4; rewrite ?O3, ?O4, ?app_nil_r, ?app_length; lia.
      - rewrite D2, P4, S2. destruct ok; auto. eapply sub_trans; [exact A6|apply sub_filter].
      - rewrite D5, S5. auto. }
    destruct GS as [G1 [G2 [G3 [G4 [G5 [G6 [G7 [G8 [G9 [G10 G11]]]]]]]]]]. destruct GO as [GA [_ [GR _]]].
    apply (acct_calm c q0 (fst r) (o ++ snd r)); auto.
  - pose proof (timeout_spec e sq s0) as T. cbv zeta in T. rewrite <- E in T. destruct S as [S1 [S2 [S3 [S4 [S5 [S6 [S7 [S8 [S9 [S10 S11]]]]]]]]]].
    destruct T as [T1 [T2 [T3 [T4 [T5 [T6 [_ [_ [_ [_ [T7 _]]]]]]]]]]].
    destruct A as [A1 A2 A3 A4 A5 A6 A7 A8 A9]. rewrite T1.
    split; rewrite ?acc_app, ?rep_app; cbn [acc_of rep_of flat_map]; rewrite ?app_nil_r; auto.
    + rewrite T2, bumped_pkt, S1. auto.
    + intros p P. rewrite T7. specialize (A3 p P). lia.
    + congruence.
    + congruence.
    + rewrite T3, S2. eapply sub_trans; [exact A6|apply sub_filter].
    + congruence.
  - rewrite E. apply (acct_calm c q0 s o); auto. unfold rotate. ss. lia.
  - cbn [mstep]. apply (acct_calm c q0 s o); auto. ss. lia.
  - destruct S as [S1 [S2 [S3 [S4 [S5 [S6 [S7 [S8 [S9 [S10 S11]]]]]]]]]]. destruct O as [O1 [_ [O2 _]]].
    apply (acct_calm c q0 s o); auto.
Qed.

Lemma acct_reach c q0 h s o : u16 q0 -> mreach c q0 h s o -> Acct c q0 s o.
Proof.
  intros U R. induction R as [|h s o e ev R IH].
  - split; cbn; auto; try contradiction; try constructor.
    + intros i p H. destruct i; discriminate.
    + rewrite Z.add_0_r, wrap16_id; auto.
  - apply acct_step, IH.
Qed.
