(** Case analysis of the steps of the macro MAC. *)
From Coq Require Import ZArith List Lia Bool Permutation.
From Verif Require Import Base HeaderModel SeqModel SeqProofs EnergyModel MacModel MacSpec MacProofs MacAcct.
Import ListNotations.
Open Scope Z_scope.

Definition idle_kind (k : mkind) : Prop := k = MKCca \/ k = MKBo.

(** What a channel assessment, the NAV updates and changes of the state do: at most events for
    further assessments are added. *)
Definition tail (s s' : mst) : Prop :=
  same s s' /\ m_air s' = m_air s /\ m_tx s' = m_tx s /\ m_ack s' = m_ack s /\ m_cts s' = m_cts s /\ m_data s' = m_data s /\
  m_bo s' = m_bo s /\ m_res s' = m_res s /\
  (exists l, m_timers s' = m_timers s ++ l /\ Forall (fun t => idle_kind (mt_kind t) /\ m_uid s <= mt_id t < m_uid s') l) /\
  (m_cca s' = m_cca s \/ exists u, m_cca s' = Some u /\ m_uid s <= u < m_uid s').
(** Nothing comes out, except for undefined behaviour if the slot is below a nanosecond. *)
Definition hush (c : mcfg) (o : list mout) : Prop := (forall x, In x o -> x = OUb) /\ (nsec <= mc_slot c -> o = []).
Definition tails (c : mcfg) (s : mst) (r : mst * list mout) : Prop := tail s (fst r) /\ hush c (snd r).
Definition mild (c : mcfg) (a : mact) : Prop := forall s, tails c s (a s).

Lemma hush_nil c : hush c [].
Proof. split; auto. intros x []. Qed.
Lemma hush_app c a b : hush c a -> hush c b -> hush c (a ++ b).
Proof.
  intros [A1 A2] [B1 B2]. split.
  - intros x X. apply in_app_or in X. destruct X; auto.
  - intros L. rewrite A2, B2; auto.
Qed.
Lemma hush_facts c o : hush c o -> acc_of o = [] /\ up_of o = [] /\ snd_of o = [] /\ (forall b, rep_of b o = []) /\ (forall q, tmo_of q o = 0%nat).
Proof.
  intros [H _]. induction o as [|x o IH]; [repeat split; auto|].
  assert (x = OUb) as -> by (apply H; left; auto). destruct IH as [A [B [C [D E]]]]; [intros; apply H; right; auto|].
  repeat split; auto.
Qed.
Lemma tail_refl s : tail s s.
Proof. unfold tail. split; [apply same_refl|]. do 7 (split; [reflexivity|]). split; [exists []; rewrite app_nil_r; auto|auto]. Qed.
Lemma tail_trans a b d : tail a b -> tail b d -> tail a d.
Proof.
  intros [S1 [A1 [A2 [A3 [A4 [A5 [A6 [A7 [[l [L1 L2]] CA]]]]]]]]] [S2 [B1 [B2 [B3 [B4 [B5 [B6 [B7 [[k [K1 K2]] CB]]]]]]]]].
  split; [eapply same_trans; eauto|]. do 7 (split; [congruence|]).
  assert (U1 : m_uid a <= m_uid b) by apply S1. assert (U2 : m_uid b <= m_uid d) by apply S2.
  split; [exists (l ++ k); split|].
  - rewrite K1, L1, app_assoc. auto.
  - apply Forall_app. split; [eapply Forall_impl; [|exact L2]|eapply Forall_impl; [|exact K2]]; cbn; intros t [T1 T2]; split; auto; lia.
  - destruct CB as [CB|[u [CB1 CB2]]]; [rewrite CB; destruct CA as [CA|[u [CA1 CA2]]]; [auto|]|]; right; exists u; split; auto; lia.
Qed.
Lemma mild_skip c : mild c mskip.
Proof. intros s. split; [apply tail_refl|apply hush_nil]. Qed.
Lemma mild_seq c a b : mild c a -> mild c b -> mild c (a ;; b).
Proof.
  intros A B s. unfold tails. rewrite mseq_eq. cbn [fst snd]. destruct (A s), (B (fst (a s))).
  split; [eapply tail_trans; eauto|apply hush_app; auto].
Qed.
Ltac tail0 := unfold tail; ss; repeat match goal with |- _ /\ _ => split end; try reflexivity; try lia; try (left; reflexivity); exists []; rewrite app_nil_r; split; [reflexivity|constructor].
Lemma mild_lift c f : (forall s, tail s (f s)) -> mild c (mlift f).
Proof. intros F s. split; [apply F|apply hush_nil]. Qed.
Lemma mild_state c st : mild c (mlift (set_state st)).
Proof. apply mild_lift. intros s. tail0. Qed.

Lemma round_some c t : nsec <= mc_slot c -> round_off c t <> None.
Proof.
  intros L. unfold round_off. destruct (Z.eqb_spec (Z.quot (mc_slot c) nsec) 0) as [E|E].
  - assert (X := Z.quot_le_mono nsec (mc_slot c) nsec). unfold nsec in *. rewrite E in X. specialize (X ltac:(lia) L).
    change (1000000 ÷ 1000000) with 1 in X. lia.
  - cbv zeta. destruct (_ <=? _); discriminate.
Qed.
Lemma mild_nav c d : mild c (update_nav c d).
Proof.
  intros s. unfold update_nav. pose proof (round_some c (m_now s + d)) as R. destruct (round_off _ _).
  - split; [cbn [fst]; destruct (_ >? _); tail0|apply hush_nil].
  - split; [apply tail_refl|]. split; [intros x [<-|[]]; auto|]. intros L. exfalso. apply R; auto.
Qed.
Lemma mild_lnav c d : mild c (update_lnav c d).
Proof.
  intros s. unfold update_lnav. pose proof (round_some c (m_now s + d)) as R. destruct (round_off _ _).
  - split; [tail0|apply hush_nil].
  - split; [apply tail_refl|]. split; [intros x [<-|[]]; auto|]. intros L. exfalso. apply R; auto.
Qed.
Lemma cca_cases c e s : cca c e s = (s, []) /\ (m_queue s = [] \/ mrunning (m_cca s) s = true) \/
  exists d k, idle_kind k /\ cca c e s = (msched d k (set_cca (Some (m_uid s)) s), []).
Proof.
  unfold cca. destruct (m_queue s) eqn:Q; [left; auto|]. destruct (mrunning (m_cca s) s) eqn:R; [left; auto|]. right. cbv zeta. unfold idle_kind.
  destruct (_ >? _); [exists (Z.max (m_nav s) (m_lnav s) - m_now s), MKCca; auto|].
  destruct (_ || _); [exists 0, MKBo; auto|exists (mc_difs c), MKBo; auto].
Qed.
Lemma mild_cca c e : mild c (cca c e).
Proof.
  intros s. destruct (cca_cases c e s) as [[-> _]|[d [k [K ->]]]]; split; auto using tail_refl, hush_nil.
  unfold tail; ss; repeat match goal with |- _ /\ _ => split end; try reflexivity; try lia.
  - eexists; split; [reflexivity|]. constructor; auto. cbn. split; auto. lia.
  - right. eexists. split; [reflexivity|]. lia.
Qed.
Lemma mild_over c e : mild c (start_over c e).
Proof. apply mild_seq; [|apply mild_cca]. apply mild_lift. intros s. tail0. Qed.

Lemma tails_pre c f a s : (forall s, tail s (f s)) -> mild c a -> tails c s (a (f s)).
Proof. intros F A. destruct (A (f s)) as [X Y]. split; auto. eapply tail_trans; eauto. Qed.

(** Sending a packet. [after] is the state right after the PHY took it. *)
Definition after (f : mframe) (s : mst) : mst := set_tx (Some (mf_id f)) (set_state MTx (set_air (Some f) s)).
Lemma packet_cases c f k s : mild c (k false) ->
  tails c s (send_packet f k s) \/
  (m_air s = None /\ send_packet f k s = (fst (k true (after f s)), OSnd f :: snd (k true (after f s)))).
Proof.
  intros K. unfold send_packet. destruct (_ || _); [|left; apply K]. destruct (m_air s).
  - left. apply tails_pre; auto. intros. tail0.
  - right. split; auto. rewrite mseq_eq. cbn [fst snd app]. reflexivity.
Qed.

(** ** Cases *)
Definition fired (i : nat) (t : mtimer) (s s0 : mst) : Prop :=
  nth_error (m_timers s) i = Some t /\ s0 = set_timers (remove_nth i (m_timers s)) s.
Definition rx_ready (s : mst) (ev : mevent) (f : mframe) : Prop := ev = ERxEnd f true /\ m_air s = None.

(** The state after a reception of a DATA packet, apart from the filter. *)
Inductive scase (c : mcfg) (e : menv) (s : mst) : mevent -> mst -> list mout -> Prop :=
| SCrefuse size dst junk : wrap16 size < 15000 -> scase c e s (EEnq size dst junk) s [ORet false]
| SCenq size dst junk : 15000 <= wrap16 size ->
    scase c e s (EEnq size dst junk) (fst (menqueue c size dst junk s)) (snd (menqueue c size dst junk s))
| SCtick t : scase c e s (ETick t) (set_now t s) []
| SCnone ev : (forall size dst junk, ev <> EEnq size dst junk) -> (forall t, ev <> ETick t) ->
    (forall i t, ev = ETimer i -> nth_error (m_timers s) i <> Some t) -> (forall f ok, ev = ERxEnd f ok -> m_air s <> None) ->
    (ev = ERxStart -> m_air s <> None) -> (ev = ETxDone -> m_air s = None) -> scase c e s ev s []
| SCsent f s' o : m_air s = Some f ->
    ~ (mf_type f = T_DATA /\ mf_dst f = bcast /\ m_state s = MTx /\ m_tx s = Some (mf_id f)) ->
    tails c (set_air None s) (s', o) -> scase c e s ETxDone s' o
| SCcast f s1 s' o : m_air s = Some f -> mf_type f = T_DATA -> mf_dst f = bcast -> m_state s = MTx -> m_tx s = Some (mf_id f) ->
    s1 = fst (send_data_done true (mf_seq f) (set_state MIdle (set_air None s))) ->
    tails c s1 (s', o) ->
    scase c e s ETxDone s' (snd (send_data_done true (mf_seq f) (set_state MIdle (set_air None s))) ++ o)
| SCbusy s1 s' o : m_air s = None ->
    (tail s s1 \/ exists u, m_bo s = Some u /\ mrunning (Some u) s = true /\ tail (mcancel u s) s1) ->
    tails c s1 (s', o) -> (m_queue s <> [] -> exists t, In t (m_timers s') /\ (m_cca s1 = Some (mt_id t) \/ idle_kind (mt_kind t))) ->
    m_cca s1 = m_cca s -> scase c e s ERxStart s' o
| SCignore f ok s' o : m_air s = None -> tails c s (s', o) ->
    (ok = true -> mf_type f = T_DATA -> mf_dst f <> bcast /\ mf_dst f <> mc_addr c) -> scase c e s (ERxEnd f ok) s' o
| SCrts f s1 o : m_air s = None -> mf_type f = T_RTS -> mf_dst f = mc_addr c -> tails c s (s1, o) ->
    Z.max (m_nav s) (m_lnav s) <= m_now s ->
    scase c e s (ERxEnd f true) (msched psec (MKSendCts (mf_src f) (mf_dur f) (mf_seq f)) (set_state MWaitTx s1)) o
| SCctsno f s' o : m_air s = None -> mf_type f = T_CTS -> mf_dst f = mc_addr c ->
    tails c (MacModel.set_data (scan (mf_seq f) (m_data s) (m_rec s)) s) (s', o) ->
    find (fun x => fst x =? mf_seq f) (m_cts s) = None -> scase c e s (ERxEnd f true) s' o
| SCcts f q u p s1 o : m_air s = None -> mf_type f = T_CTS -> mf_dst f = mc_addr c ->
    tails c (MacModel.set_data (scan (mf_seq f) (m_data s) (m_rec s)) s) (s1, o) ->
    find (fun x => fst x =? mf_seq f) (m_cts s) = Some (q, u) -> scan (mf_seq f) (m_data s) (m_rec s) = Some p ->
    scase c e s (ERxEnd f true)
      (msched psec (MKSendData p) (set_cts (erase1 (fun x => fst x =? mf_seq f) (m_cts s1)) (set_state MWaitTx (mcancel u s1)))) o
| SCctsub f q u s1 o : m_air s = None -> mf_type f = T_CTS -> mf_dst f = mc_addr c ->
    tails c (MacModel.set_data (scan (mf_seq f) (m_data s) (m_rec s)) s) (s1, o) ->
    find (fun x => fst x =? mf_seq f) (m_cts s) = Some (q, u) -> scan (mf_seq f) (m_data s) (m_rec s) = None ->
    scase c e s (ERxEnd f true)
      (set_cts (erase1 (fun x => fst x =? mf_seq f) (m_cts s1)) (set_state MWaitTx (mcancel u s1))) (o ++ [OUb])
| SCall f s1 s' o1 o2 : m_air s = None -> mf_type f = T_DATA -> mf_dst f = bcast ->
    s1 = fst (forward_new f (set_state MIdle s)) -> o1 = snd (forward_new f (set_state MIdle s)) ->
    tails c s1 (s', o2) -> scase c e s (ERxEnd f true) s' (o1 ++ o2)
| SCdata f s1 s2 o1 : m_air s = None -> mf_type f = T_DATA -> mf_dst f = mc_addr c -> mf_dst f <> bcast ->
    tails c s (s1, o1) -> s2 = msched (mc_sifs c) (MKSendAck (mf_src f) (mf_seq f)) (set_state MWaitTx s1) ->
    scase c e s (ERxEnd f true) (fst (forward_new f s2)) (o1 ++ snd (forward_new f s2))
| SCack f q u : m_air s = None -> mf_type f = T_ACK -> mf_dst f = mc_addr c ->
    find (fun x => fst x =? mf_seq f) (m_ack s) = Some (q, u) ->
    scase c e s (ERxEnd f true)
      (set_ack (erase1 (fun x => fst x =? mf_seq f) (m_ack s)) (msched psec (MKDone true (mf_seq f)) (mcancel u (set_state MIdle (set_state MIdle s))))) []
| SCcca i t s0 : fired i t s s0 -> mt_kind t = MKCca ->
    scase c e s (ETimer i) (fst (cca c e s0)) []
| SCbo i t s0 : fired i t s s0 -> mt_kind t = MKBo -> scase c e s (ETimer i) (fst (backoff_start e s0)) []
| SCgrantno i t s0 : fired i t s s0 -> mt_kind t = MKGrant -> m_queue s = [] -> scase c e s (ETimer i) s0 []
| SCgrant i t s0 p q s' o : fired i t s s0 -> mt_kind t = MKGrant -> m_queue s = p :: q ->
    tails c (MacModel.set_data (Some p) s0) (s', o) -> m_air s <> None ->
    (exists x, (s', o) = start_over c e x /\ m_queue x = m_queue s) -> scase c e s (ETimer i) s' o
| SCgrantrts i t s0 p q f s1 o : fired i t s s0 -> mt_kind t = MKGrant -> m_queue s = p :: q -> m_air s = None -> mf_dst p <> bcast ->
    mc_rts c = true -> f = mctrl c T_RTS (mf_dst p) (mf_seq p) 0 s ->
    tails c (set_ids (m_ids s + 1) (after f (MacModel.set_data (Some p) s0))) (s1, o) ->
    scase c e s (ETimer i)
      (msched (mc_ctrl c T_RTS + prop + mc_sifs c + mc_ctrl c T_CTS + prop + mc_slot c) (MKCts (mf_seq p)) (set_cts (m_cts s1 ++ [(mf_seq p, m_uid s1)]) s1)) (OSnd f :: o)
| SCgrantcast i t s0 p q s' o : fired i t s s0 -> mt_kind t = MKGrant -> m_queue s = p :: q -> m_air s = None -> mf_dst p = bcast ->
    tails c (after p (MacModel.set_data (Some p) s0)) (s', o) -> scase c e s (ETimer i) s' (OSnd p :: o)
| SCdatasent i t s0 p s1 o : fired i t s s0 -> m_queue s <> [] -> m_air s = None -> mf_dst p <> bcast ->
    ((mt_kind t = MKGrant /\ mc_rts c = false /\ exists q, m_queue s = p :: q) \/ mt_kind t = MKSendData p) ->
    tails c (after p (MacModel.set_data (Some p) s0)) (s1, o) ->
    scase c e s (ETimer i)
      (msched (mc_data c (mf_size p) + prop + mc_sifs c + mc_ctrl c T_ACK + prop + mc_slot c) (MKAck (mf_seq p)) (set_ack (m_ack s1 ++ [(mf_seq p, m_uid s1)]) s1)) (OSnd p :: o)
| SCdatacast i t s0 p s' o : fired i t s s0 -> mt_kind t = MKSendData p -> m_queue s <> [] -> m_air s = None -> mf_dst p = bcast ->
    tails c (after p (MacModel.set_data (Some p) s0)) (s', o) -> scase c e s (ETimer i) s' (OSnd p :: o)
| SCdatano i t s0 p : fired i t s s0 -> mt_kind t = MKSendData p -> m_queue s = [] -> scase c e s (ETimer i) (set_state MIdle s0) []
| SCdatafail i t s0 p s' o : fired i t s s0 -> mt_kind t = MKSendData p -> m_queue s <> [] ->
    tails c (MacModel.set_data (Some p) s0) (s', o) ->
    (exists x, (s', o) = start_over c e x /\ m_queue x = m_queue s) -> scase c e s (ETimer i) s' o
| SCtmo i t s0 s1 sq : fired i t s s0 ->
    ((mt_kind t = MKCts sq /\ s1 = set_cts (erase1 (fun x => fst x =? sq) (m_cts s)) s0) \/
     (mt_kind t = MKAck sq /\ s1 = set_ack (erase1 (fun x => fst x =? sq) (m_ack s)) s0)) ->
    scase c e s (ETimer i) (fst (timeout e sq s1)) (snd (timeout e sq s1))
| SCsend i t s0 f s' o : fired i t s s0 -> m_air s = None ->
    ((exists dst dur sq, mt_kind t = MKSendCts dst dur sq /\ mf_type f = T_CTS /\ mf_dst f = dst /\ mf_seq f = sq) \/
     (exists dst sq, mt_kind t = MKSendAck dst sq /\ mf_type f = T_ACK /\ mf_dst f = dst /\ mf_seq f = sq)) ->
    mf_src f = mc_addr c -> mf_id f = m_ids s ->
    tails c (set_ids (m_ids s + 1) (after f s0)) (s', o) -> scase c e s (ETimer i) s' (OSnd f :: o)
| SCsendub i t s0 f s' o dst sq : fired i t s s0 -> m_air s = None -> mc_slot c < nsec ->
    mt_kind t = MKSendAck dst sq -> mf_type f = T_ACK -> mf_dst f = dst -> mf_seq f = sq ->
    mf_src f = mc_addr c -> mf_id f = m_ids s ->
    tails c (set_ids (m_ids s + 1) (after f s0)) (s', o) -> scase c e s (ETimer i) s' (OUb :: OSnd f :: o)
| SCsendno i t s0 s' o : fired i t s s0 ->
    ((exists dst dur sq, mt_kind t = MKSendCts dst dur sq) \/ (exists dst sq, mt_kind t = MKSendAck dst sq)) ->
    tails c (set_ids (m_ids s + 1) s0) (s', o) -> scase c e s (ETimer i) s' o
| SCdone i t s0 ok sq : fired i t s s0 -> mt_kind t = MKDone ok sq ->
    scase c e s (ETimer i) (fst (send_data_done ok sq s0)) (snd (send_data_done ok sq s0))
| SCresult i t s0 : fired i t s s0 -> mt_kind t = MKResult -> scase c e s (ETimer i) s0 (if m_res s then [] else [OUb])
| SCrot i t s0 : fired i t s s0 -> mt_kind t = MKRot ->
    scase c e s (ETimer i) (msched (mc_sector c) MKRot (set_rot (Some (m_uid s)) (set_mode 1 s0))) [].

Lemma tails_eta c s r : tails c s r -> tails c s (fst r, snd r).
Proof. destruct r. auto. Qed.
Lemma tails_from c a b r : tail a b -> tails c b r -> tails c a r.
Proof. intros T [X Y]. split; auto. eapply tail_trans; eauto. Qed.
Lemma cca_live c e s : m_queue s <> [] ->
  exists t, In t (m_timers (fst (cca c e s))) /\ (m_cca s = Some (mt_id t) \/ idle_kind (mt_kind t)).
Proof.
  intros Q. destruct (cca_cases c e s) as [[-> [X|X]]|[d [k [K ->]]]].
  - contradiction.
  - unfold mrunning in X. destruct (m_cca s) as [u|]; [|discriminate]. apply existsb_exists in X. destruct X as [t [T1 T2]].
    apply Z.eqb_eq in T2. exists t. subst. auto.
  - eexists. split; [ss; apply in_or_app; right; left; reflexivity|]. auto.
Qed.

(** A failed attempt ends in StartOver. *)
Lemma packet_fail c e f k s : k false = start_over c e ->
  (exists x, send_packet f k s = start_over c e x /\ m_queue x = m_queue s /\ tail s x /\ (is_state MIdle s || is_state MWaitTx s = true -> m_air s <> None)) \/
  (m_air s = None /\ send_packet f k s = (fst (k true (after f s)), OSnd f :: snd (k true (after f s)))).
Proof.
  intros K. unfold send_packet. destruct (_ || _) eqn:E.
  - destruct (m_air s) eqn:A.
    + left. exists (set_state MIdle s). rewrite K. split; [auto|split; [auto|split; [tail0|]]]. intros _. discriminate.
    + right. split; auto. rewrite mseq_eq. reflexivity.
  - left. exists s. rewrite K. split; [auto|split; [auto|split; [apply tail_refl|discriminate]]].
Qed.

Lemma forward_out f s : snd (forward_new f s) = (if fst (is_new (m_filter s) (mf_src f) (mf_seq f)) then [OUp f] else []) /\
  fst (forward_new f s) = set_filter (snd (is_new (m_filter s) (mf_src f) (mf_seq f))) s.
Proof. unfold forward_new. destruct (is_new _ _ _). auto. Qed.

Lemma cases c e s ev : scase c e s ev (fst (mstep c e s ev)) (snd (mstep c e s ev)).
Proof.
  destruct ev as [size dst junk| | |f ok|i|t].
  - cbn [mstep]. destruct (Z.lt_ge_cases (wrap16 size) 15000) as [L|L]; [|apply SCenq; auto].
    unfold menqueue. rewrite (proj2 (Z.ltb_lt _ _) L). cbn. apply SCrefuse; auto.
  - cbn [mstep]. unfold tx_done. destruct (m_air s) as [f|] eqn:A; [|apply SCnone; intros; cbn [fst]; try discriminate; congruence].
    destruct (is_state MTx s && match m_tx s with Some i => i =? mf_id f | None => false end) eqn:T.
    2: { apply (SCsent c e s f); auto.
         - intros [_ [_ [S X]]]. unfold is_state in T. rewrite S, X, Z.eqb_refl in T. discriminate.
         - apply (mild_skip c). }
    assert (M : mild c (mlift (set_state MIdle) ;; cca c e)) by (apply mild_seq; [apply mild_state|apply mild_cca]).
    destruct (Z.eqb_spec (mf_type f) T_DATA) as [D|D].
    + rewrite D. change ((T_DATA =? T_RTS) || (T_DATA =? T_CTS)) with false. cbn iota.
      destruct (Z.eqb_spec (mf_dst f) bcast) as [B|B].
      * rewrite mseq_eq. cbn [fst snd]. apply andb_true_iff in T. destruct T as [T1 T2].
        destruct (m_tx s) as [x|] eqn:X; [|discriminate]. apply Z.eqb_eq in T2. subst x.
        unfold is_state in T1. destruct (m_state s) eqn:S; try discriminate.
        eapply (SCcast c e s f); auto. apply tails_eta, mild_cca.
      * apply (SCsent c e s f); auto; [tauto|]. apply (mild_state c MIdle).
    + apply (SCsent c e s f); auto; [tauto|]. destruct (_ || _); [apply (mild_state c MIdle)|]. apply tails_eta, (tails_pre c (set_state MIdle)); [intros; tail0|apply mild_cca].
  - cbn [mstep]. unfold when_silent. destruct (m_air s) as [f|] eqn:A; [apply SCnone; intros; cbn [fst]; try discriminate; congruence|].
    unfold rx_start, becomes_busy. rewrite !mseq_eq. cbn [fst snd mlift]. rewrite !app_nil_r.
    match goal with |- context [cca c e (fst ?x)] => set (r := x) end.
    assert (R : (tail s (fst r) \/ exists u, m_bo s = Some u /\ mrunning (Some u) s = true /\ tail (mcancel u s) (fst r)) /\ hush c (snd r) /\ m_queue (fst r) = m_queue s /\ m_cca (fst r) = m_cca s).
    { unfold r. destruct (m_bo s) as [u|] eqn:B; [|cbn; auto using tail_refl, hush_nil]. destruct (mrunning (Some u) s) eqn:RU; [|cbn; auto using tail_refl, hush_nil].
      cbv zeta. pose proof (round_some c (m_borem s - (if m_now s >? m_bostart s then m_now s - m_bostart s else 0))) as RS.
      destruct (_ <? _); [destruct (round_off _ _)|]; cbn [fst snd]; (split; [right; exists u; split; [auto|split; [auto|tail0]]|split; [|auto]]); try apply hush_nil.
      split; [intros x [<-|[]]; auto|]. intros L. exfalso. apply RS; auto. }
    destruct R as [R1 [R2 [R3 R4]]]. destruct (mild_cca c e (fst r)) as [C1 C2].
    eapply (SCbusy c e s (fst r)); auto.
    + split; cbn [fst snd]; [eapply tail_trans; [exact C1|destruct (is_state _ _); [apply tail_refl|tail0]]|apply hush_app; auto].
    + intros Q. destruct (cca_live c e (fst r)) as [t [T1 T2]]; [congruence|]. exists t. split; auto. destruct (is_state _ _); auto.
  - cbn [mstep]. unfold when_silent. destruct (m_air s) as [g|] eqn:A; [apply SCnone; intros; cbn [fst]; try discriminate; congruence|].
    unfold rx_end. rewrite mseq_eq. cbn [fst snd mlift app].
    assert (P : forall a, mild c a -> tails c s (fst (a (set_state MIdle s)), snd (a (set_state MIdle s)))).
    { intros a M. apply tails_eta, (tails_pre c (set_state MIdle)); auto. intros. tail0. }
    destruct ok; cbn [negb].
    2: { apply SCignore; auto; [apply P, mild_skip|discriminate]. }
    assert (N : mild c (update_nav c (mf_dur f * nsec) ;; mlift (set_state MIdle) ;; cca c e)).
    { apply mild_seq; [apply mild_nav|]. apply mild_seq; [apply mild_state|apply mild_cca]. }
    destruct (Z.eqb_spec (mf_type f) T_RTS) as [T|T1].
    { unfold receive_rts. destruct (Z.eqb_spec (mf_dst f) (mc_addr c)) as [D|D]; cbn [negb].
      - destruct (_ >? _) eqn:G.
        + apply SCignore; [auto|apply P, mild_cca|]. rewrite T. discriminate.
        + rewrite mseq_eq. cbn [fst snd mlift]. rewrite app_nil_r.
          apply (SCrts c e s f); auto; [apply P, mild_lnav|]. rewrite Z.gtb_ltb in G. apply Z.ltb_ge in G. exact G.
      - apply SCignore; [auto|apply P, N|]. rewrite T. discriminate. }
    destruct (Z.eqb_spec (mf_type f) T_CTS) as [T|T2].
    { unfold receive_cts. destruct (Z.eqb_spec (mf_dst f) (mc_addr c)) as [D|D]; cbn [negb].
      2: { apply SCignore; [auto|apply P, N|]. rewrite T. discriminate. }
      rewrite !mseq_eq. cbn [fst snd mlift app].
      set (s1 := MacModel.set_data (scan (mf_seq f) (m_data (set_state MIdle s)) (m_rec (set_state MIdle s))) (set_state MIdle s)).
      assert (X : tails c (MacModel.set_data (scan (mf_seq f) (m_data s) (m_rec s)) s) (fst (update_lnav c (mf_dur f * nsec) s1), snd (update_lnav c (mf_dur f * nsec) s1))).
      { apply tails_eta. eapply tails_from; [|apply mild_lnav]. unfold s1. tail0. }
      set (r := update_lnav c (mf_dur f * nsec) s1) in *.
      assert (C : m_cts (fst r) = m_cts s) by (destruct X as [[_ [_ [_ [_ [Y _]]]]] _]; exact Y).
      assert (DT : m_data (fst r) = scan (mf_seq f) (m_data s) (m_rec s)) by (destruct X as [[_ [_ [_ [_ [_ [Y _]]]]]] _]; exact Y).
      rewrite C, DT. destruct (find _ (m_cts s)) as [[q u]|] eqn:F; cbn [fst snd].
      - destruct (scan (mf_seq f) (m_data s) (m_rec s)) as [p|] eqn:SC; cbn [fst snd].
        + rewrite app_nil_r, <- C. eapply (SCcts c e s f q u p); eauto; rewrite SC; auto.
        + rewrite <- C. eapply (SCctsub c e s f q u); eauto; rewrite SC; auto.
      - rewrite app_nil_r. eapply (SCctsno c e s f); eauto. }
    destruct (Z.eqb_spec (mf_type f) T_DATA) as [T|T3].
    { unfold receive_data. destruct (Z.eqb_spec (mf_dst f) bcast) as [B|B].
      - rewrite !mseq_eq. cbn [fst snd mlift app].
        eapply (SCall c e s f); eauto. apply tails_eta, mild_cca.
      - destruct (Z.eqb_spec (mf_dst f) (mc_addr c)) as [D|D]; cbn [negb].
        + rewrite !mseq_eq. cbn [fst snd mlift app].
          eapply (SCdata c e s f); auto. apply P, mild_lnav.
        + apply SCignore; [auto|apply P, N|auto]. }
    destruct (Z.eqb_spec (mf_type f) T_ACK) as [T|T4].
    2: { apply SCignore; [auto|apply P, mild_cca|]. intros; contradiction. }
    unfold receive_ack. cbv zeta. change (m_ack (set_state MIdle s)) with (m_ack s).
    assert (G : tails c s (fst (cca c e (set_state MIdle (set_state MIdle s))), snd (cca c e (set_state MIdle (set_state MIdle s))))).
    { apply tails_eta, (tails_pre c (fun s => set_state MIdle (set_state MIdle s))); [intros; tail0|apply mild_cca]. }
    destruct (Z.eqb_spec (mf_dst f) (mc_addr c)) as [D|D].
    2: { apply SCignore; auto; intros; contradiction. }
    destruct (find _ (m_ack s)) as [[q u]|] eqn:F; [|apply SCignore; auto; intros; contradiction].
    cbn [fst snd]. eapply (SCack c e s f q u); auto.
  - cbn [mstep]. destruct (nth_error (m_timers s) i) as [t|] eqn:T.
    2: { apply SCnone; intros; cbn [fst]; try discriminate; congruence. }
    set (s0 := set_timers (remove_nth i (m_timers s)) s).
    assert (FI : fired i t s s0) by (split; auto).
    destruct (mt_kind t) as [| | |sq|sq|dst dur sq|dst sq|p|ok sq| |] eqn:K; cbn [mfire].
    + replace (snd (cca c e s0)) with (@nil mout). eapply SCcca; eauto.
      destruct (cca_cases c e s0) as [[-> _]|[d [k [_ ->]]]]; auto.
    + replace (snd (backoff_start e s0)) with (@nil mout). eapply SCbo; eauto.
      unfold backoff_start. cbv zeta. destruct (_ || _); auto.
    + unfold granted. change (m_queue s0) with (m_queue s). destruct (m_queue s) as [|p q] eqn:Q; [eapply SCgrantno; eauto|]. cbv zeta.
      set (s2 := set_state MWaitTx (MacModel.set_data (Some p) (set_borem 0 (set_bostart 0 s0)))).
      assert (T2 : tail (MacModel.set_data (Some p) s0) s2) by (unfold s2; tail0).
      assert (A2 : m_air s2 = m_air s) by reflexivity.
      assert (Q2 : m_queue s2 = m_queue s) by reflexivity.
      assert (W : is_state MIdle s2 || is_state MWaitTx s2 = true) by reflexivity.
      destruct (negb (mf_dst p =? bcast) && mc_rts c) eqn:RT.
      * apply andb_true_iff in RT. destruct RT as [R1 R2]. apply negb_true_iff, Z.eqb_neq in R1.
        unfold send_rts. cbv zeta.
        match goal with |- context [send_packet ?f ?k ?x] => destruct (packet_fail c e f k x eq_refl) as [[x0 [X1 [X2 [X3 X4]]]]|[X1 X2]] end.
        -- rewrite X1. eapply (SCgrant c e s i t s0 p q); eauto.
           ++ apply tails_eta. apply (tails_from c _ x0); [|apply mild_over]. eapply tail_trans; [|exact X3]. unfold s2. tail0.
           ++ exists x0. split; [destruct (start_over c e x0); auto|]. rewrite X2. exact Q2.
        -- rewrite X2. cbn [fst snd]. rewrite mseq_eq. cbn [fst snd mlift]. rewrite app_nil_r.
           eapply (SCgrantrts c e s i t s0 p q); eauto.
           match goal with |- tails c _ (fst (update_lnav c ?d ?y), _) => apply tails_eta; apply (tails_from c _ y); [|apply mild_lnav] end.
           change (mctrl c T_RTS (mf_dst p) (mf_seq p) 0 s2) with (mctrl c T_RTS (mf_dst p) (mf_seq p) 0 s).
           unfold s2, after. tail0.
      * unfold send_data. rewrite Q2, Q. 
        match goal with |- context [send_packet ?f ?k ?x] => destruct (packet_fail c e f k x eq_refl) as [[x0 [X1 [X2 [X3 X4]]]]|[X1 X2]] end.
        -- rewrite X1. eapply (SCgrant c e s i t s0 p q); eauto.
           ++ apply tails_eta. apply (tails_from c _ x0); [|apply mild_over]. eapply tail_trans; [|exact X3]. unfold s2. tail0.
           ++ exists x0. split; [destruct (start_over c e x0); auto|]. rewrite X2. exact Q2.
        -- rewrite X2. cbn [fst snd]. destruct (Z.eqb_spec (mf_dst p) bcast) as [B|B].
           ++ eapply (SCgrantcast c e s i t s0 p q); eauto.
              match goal with |- tails c _ (fst (update_lnav c ?d ?y), _) => apply tails_eta; apply (tails_from c _ y); [|apply mild_lnav] end.
              unfold s2, after. tail0.
           ++ rewrite mseq_eq. cbn [fst snd mlift]. rewrite app_nil_r.
              eapply (SCdatasent c e s i t s0 p _ _ FI); [congruence|exact X1|exact B| |].
              ** left. apply andb_false_iff in RT. cbn in RT. repeat split; eauto. destruct RT; [discriminate|auto].
              ** match goal with |- tails c _ (fst (update_lnav c ?d ?y), _) => apply tails_eta; apply (tails_from c _ y); [|apply mild_lnav] end.
                 unfold s2, after. tail0.
    + unfold cts_timeout. rewrite mseq_eq. cbn [fst snd mlift app]. eapply (SCtmo c e s i t s0); eauto.
    + unfold ack_timeout. rewrite mseq_eq. cbn [fst snd mlift app]. eapply (SCtmo c e s i t s0); eauto.
    + unfold send_cts. cbv zeta.
      match goal with |- context [send_packet ?f ?k ?x] => destruct (packet_cases c f k x (mild_skip c)) as [X|[X1 X2]] end.
      * eapply (SCsendno c e s i t s0 _ _ FI); [left; eauto|apply tails_eta, X].
      * rewrite X2. cbn [fst snd]. eapply (SCsend c e s i t s0); eauto.
        -- left. exists dst, dur, sq. auto.
        -- match goal with |- tails c _ (fst (update_lnav c ?d ?y), _) => apply tails_eta; apply (tails_from c _ y); [|apply mild_lnav] end.
           unfold after. tail0.
    + unfold send_ack. cbv zeta. rewrite mseq_eq. cbn [fst snd].
      set (x0 := set_ids (m_ids s0 + 1) s0). set (d := mc_ctrl c T_ACK + prop + mc_slot c).
      destruct (mild_lnav c d x0) as [LT LH]. set (r := update_lnav c d x0) in *.
      match goal with |- context [send_packet ?f ?k (fst r)] => destruct (packet_cases c f k (fst r) (mild_skip c)) as [X|[X1 X2]]; set (fr := f) in * end.
      * eapply (SCsendno c e s i t s0 _ _ FI); [right; eauto|]. destruct X as [XA XB]. split; cbn [fst snd]; [|apply hush_app; auto].
        eapply tail_trans; [exact LT|exact XA].
      * rewrite X2. cbn [fst snd mskip].
        assert (TT : tails c (set_ids (m_ids s + 1) (after fr s0)) (after fr (fst r), [])).
        { split; [|apply hush_nil]. unfold r, update_lnav. destruct (round_off _ _); cbn [fst snd]; unfold x0, after; tail0. }
        assert (AN : m_air s = None).
        { destruct LT as [_ [AA _]]. rewrite AA in X1. exact X1. }
        destruct (snd r) as [|y l] eqn:SR.
        -- cbn [app]. eapply (SCsend c e s i t s0); eauto. right. exists dst, sq. auto.
        -- assert (y = OUb /\ l = []) as [-> ->].
           { unfold r, update_lnav in SR. destruct (round_off _ _); cbn in SR; [discriminate|]. injection SR as <- <-. auto. }
           cbn [app]. eapply (SCsendub c e s i t s0); eauto. destruct (Z.lt_ge_cases (mc_slot c) nsec) as [|G]; auto.
           destruct LH as [_ LH]. specialize (LH G). discriminate.
    + unfold send_data. change (m_queue s0) with (m_queue s). destruct (m_queue s) as [|q0 q] eqn:Q; [eapply SCdatano; eauto|].
      match goal with |- context [send_packet ?f ?k ?x] => destruct (packet_fail c e f k x eq_refl) as [[x0 [X1 [X2 [X3 X4]]]]|[X1 X2]] end.
      * rewrite X1. eapply (SCdatafail c e s i t s0 p); eauto; try congruence.
        ++ apply tails_eta. apply (tails_from c _ x0); [|apply mild_over]. exact X3.
        ++ exists x0. split; [destruct (start_over c e x0); auto|]. rewrite X2. auto.
      * rewrite X2. cbn [fst snd]. destruct (Z.eqb_spec (mf_dst p) bcast) as [B|B].
        ++ eapply (SCdatacast c e s i t s0 p); eauto; try congruence. apply tails_eta, mild_lnav.
        ++ rewrite mseq_eq. cbn [fst snd mlift]. rewrite app_nil_r.
           eapply (SCdatasent c e s i t s0 p); eauto; try congruence. apply tails_eta, mild_lnav.
    + eapply (SCdone c e s i t s0); eauto.
    + unfold results. cbn [fst snd]. change (m_res s0) with (m_res s). eapply (SCresult c e s i t s0); eauto.
    + unfold rotate. cbn [fst snd]. change (m_uid s0) with (m_uid s). eapply (SCrot c e s i t s0); eauto.
  - cbn [mstep]. apply SCtick.
Qed.
