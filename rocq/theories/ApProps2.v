(** More properties of the access point (C84, C100), and of an access point with its clients (C101, C102). *)
From Coq Require Import ZArith List Lia Bool Permutation.
From Verif Require Import Base HeaderModel SeqModel EnergyModel MacModel ApModel ApSpec ApProofs ApInv ApLive ApMore ApWhite ApSlots ApGrant ApScript ApProps
  ClientModel ClientSpec ClientAcct ClientFifo ClientScript ApNet ApNetScript.
Import ListNotations.
Open Scope Z_scope.

(** * C84: grants *)

(** However the events run: a node gets at most as many CTS with a number as the AP received RTS with this number from it. For
    each CTS there was a moment [h1] at which the RTS it answers was in the list. Its duration field is the number of RTS in the list
    times the duration of a CTS, plus the data and the backoff of every RTS before it, in nanoseconds modulo 2^16.
    Its flags name the rate for the power of that RTS. *)
Theorem C84_grants : forall c h s o, areach anyhow c h s o ->
  (forall a q, (n_cts a q (ksnd_of o) <= n_rts a q (krcv_of h))%nat) /\
  (forall f, In f (ksnd_of o) -> kf_type f = T_CTS -> kf_src f = ac_addr c /\
     exists h1 h2 s1 o1 l g pw r, h = h1 ++ h2 /\ areach anyhow c h1 s1 o1 /\ p_rts s1 = l ++ (g, pw) :: r /\
       (forall x y, In (x, y) (l ++ (g, pw) :: r) -> In (AERxEnd x true y) h1 /\ kf_type x = T_RTS) /\
       kf_dst f = kf_src g /\ kf_seq f = kf_seq g /\
       kf_flags f = (if ac_adapt c then select_mcs c pw else 0) /\
       kf_dur f = (Z.of_nat (length (l ++ (g, pw) :: r)) * ac_ctrl c T_CTS +
         fold_right Z.add 0 (map (fun x => ac_data c (ac_size c) (if ac_adapt c then select_mcs c (snd x) else 0) + ac_maxbo c) l)) ÷ 1000000 mod 65536).
Proof.
  intros c h s o R. split.
  - intros a q. pose proof (cts_reach _ _ _ _ _ a q R). lia.
  - intros f F T. destruct (proj2 (granted_reach _ _ _ _ _ R) f F T) as (dur & (h1 & h2 & s1 & o1 & l & g & pw & r & A1 & A2 & A3 & A4 & A5 & A6 & A7 & A8) & B & C).
    split; auto. exists h1, h2, s1, o1, l, g, pw, r. split; auto. split; auto. split; auto. split.
    { intros x y X. rewrite <- A3 in X. destruct (w_rts _ _ _ (wl_reach _ _ _ _ _ A2) x y X). auto. }
    split; auto. split; auto. split; auto. rewrite B, A8, A3. unfold wrap16. change (2 ^ 16) with 65536. change nsec with 1000000.
    assert (E : wait_sum c l = fold_right Z.add 0 (map (fun x => ac_data c (ac_size c) (if ac_adapt c then select_mcs c (snd x) else 0) + ac_maxbo c) l)).
    { clear. induction l as [|x l IH]; auto. cbn [wait_sum map fold_right]. rewrite IH. unfold flag_of. lia. }
    rewrite E. reflexivity.
Qed.
Print Assumptions C84_grants.
(** Two RTS: the second node waits for the data and the backoff of the first one. *)
Definition two_script : list bcmd :=
  [BFire; BIn 1189108 AETxDone; BIn (10 * nsec) AERxStart; BIn 1243159 (AERxEnd (rts_from 1 5) true (-30000));
   BIn (10 * nsec) AERxStart; BIn 1243159 (AERxEnd (rts_from 2 7) true (-47000)); BFire; BFire; BIn 1297209 AETxDone; BFire; BIn 1297209 AETxDone].
Example C84_example : b_ok ap3 two_script = true /\
  map (fun f => (kf_dst f, kf_seq f, kf_flags f, kf_dur f)) (filter (fun f => kf_type f =? T_CTS) (ksnd_of (b_out ap3 two_script))) = [(1, 5, 14, 2); (2, 7, 10, 393)].
Proof. vm_compute. auto. Qed.

(** * C100: every RTS is answered *)

(** Without UseWhiteList: once no RTS is in the list and no CTS is scheduled, every RTS received was answered. *)
Definition C100_full := forall c h s o a q, ac_wl c = false -> areach intime c h s o -> p_rts s = [] ->
  (forall t, In t (p_timers s) -> match pt_kind t with PKCts _ _ _ _ => False | _ => True end) ->
  n_cts a q (ksnd_of o) = n_rts a q (krcv_of h).
(** An RTS is received when the time to wait for RTS ends, so that the AP does not send its CTS. *)
Definition deaf_script : list bcmd :=
  [BFire; BIn 1189108 AETxDone; BIn (10 * nsec) AERxStart; BIn 1243159 (AERxEnd (rts_from 1 5) true (-30000));
   BAt (78200 * psec) AERxStart; BFire; BFire; BIn 1243159 (AERxEnd (rts_from 2 7) false (-47000))].
Theorem C100_answered_refuted : ~ C100_full.
Proof.
  intros H. assert (T : b_ok ap3 deaf_script = true) by (vm_compute; reflexivity).
  specialize (H ap3 _ _ _ 1 5 eq_refl (b_reach _ _ T)). assert (E : p_rts (b_st ap3 deaf_script) = []) by (vm_compute; reflexivity).
  assert (K : forallb (fun t => match pt_kind t with PKCts _ _ _ _ => false | _ => true end) (p_timers (b_st ap3 deaf_script)) = true) by (vm_compute; reflexivity).
  specialize (H E). rewrite forallb_forall in K. assert (X : n_cts 1 5 (ksnd_of (b_out ap3 deaf_script)) = 0%nat) by (vm_compute; reflexivity).
  assert (Y : n_rts 1 5 (krcv_of (b_run ap3 deaf_script)) = 1%nat) by (vm_compute; reflexivity). rewrite X, Y in H.
  assert (0 = 1)%nat; [|lia]. apply H. intros t I'. specialize (K t I'). destruct (pt_kind t); (exact I || discriminate K).
Qed.
Print Assumptions C100_answered_refuted.
(** It holds if the AP never receives or transmits when it is about to send a CTS. *)
Theorem C100_answered_partial : forall (P : pst -> pevent -> Prop) c h s o a q,
  (forall s i t, P s (AETimer i) -> nth_error (p_timers s) i = Some t -> (exists d k u m, pt_kind t = PKCts d k u m) -> p_state s = PIdle \/ p_state s = PWaitTx) ->
  ac_wl c = false -> areach P c h s o -> p_rts s = [] ->
  (forall t, In t (p_timers s) -> match pt_kind t with PKCts _ _ _ _ => False | _ => True end) ->
  n_cts a q (ksnd_of o) = n_rts a q (krcv_of h).
Proof.
  intros P c h s o a q HP W R E K.
  assert (B : (n_cts a q (ksnd_of o) + num (cts_to a q) (p_timers s) + n_rts a q (map fst (p_rts s)) = n_rts a q (krcv_of h))%nat).
  { eapply cts_all; [|exact W|exact R]. intros s0 ev X. destruct ev; cbn; auto. intros t T C. eapply HP; eauto. unfold is_cts in C. destruct (pt_kind t); try contradiction. eauto. }
  rewrite E in B. cbn [map n_rts filter length] in B. change (n_rts a q []) with 0%nat in B.
  assert (Z : num (cts_to a q) (p_timers s) = 0%nat).
  { clear -K. induction (p_timers s) as [|t l IH]; [reflexivity|]. rewrite num_cons, IH by (intros; apply K; right; auto). specialize (K t (or_introl eq_refl)). unfold cts_to. destruct (pt_kind t); auto. contradiction. }
  lia.
Qed.
Print Assumptions C100_answered_partial.
Example C100_example : p_rts (b_st ap3 two_script) = [] /\ map pt_kind (p_timers (b_st ap3 two_script)) = [PKSec] /\
  n_cts 2 7 (ksnd_of (b_out ap3 two_script)) = 1%nat /\ n_rts 2 7 (krcv_of (b_run ap3 two_script)) = 1%nat.
Proof. vm_compute. auto. Qed.

(** * C101: success means delivery, and nothing is lost silently *)

(** In a network of an access point and clients that receive only what was sent, as long as no number is used twice: a packet that a client
    reports as sent was handed up by the AP. *)
Definition C101_full := forall c cfg q0 N a p, (forall x, lc_addr (cfg x) = x) -> (forall x, 0 <= q0 x < 65536) -> anreach intime ontime c cfg q0 N ->
  (forall x, Z.of_nat (length (lacc_of (ln_out (an_cl N x)))) <= 65536) ->
  In p (lrep_of true (ln_out (an_cl N a))) -> In p (kup_of (an_out N)).

(** Clients 16.667 ns from the AP. *)
Definition cfg1 (a : addr) : lcfg :=
  Lcfg a 3 5 (2 * nsec) 0 (3333 * psec) (15053 * 8 * 10 ^ 15 / 148010000000)
    (fun ty => (get_size (Hdr 0 0 ty 0 0 0 0 0) + 5) * 8 * 10 ^ 15 / 148010000000) 15000 (6666 * 5) 10000 7 5.
Definition air : Z := 16667 * psec.
(** CTA, RTS, CTS, data and ACK; the next CTA is sent before the ACK arrives. *)
Definition exchange : list zcmd :=
  [ZInC 1 (nsec - psec) LERxStart; ZRxC 1 0 1189108;
   ZFireC 1; ZInC 1 1243159 LETxDone; ZIn (air - 1243159) AERxStart; ZRx 1 1243159 (-30000);
   ZFire; ZFire; ZIn 1297209 AETxDone; ZInC 1 (air - 1297209) LERxStart; ZRxC 1 0 1297209;
   ZFireC 1; ZIn air AERxStart; ZInC 1 (380882334 - air) LETxDone; ZRx 1 air (-30000);
   ZIn 1189108 AETxDone; ZFire; ZIn 1189108 AETxDone; ZInC 1 (air - 3378216) LERxStart; ZRxC 1 1 1189108; ZFireC 1; ZFireC 1].
Definition cell_script : list zcmd :=
  [ZInC 1 0 (LEEnq 15000 0); ZInC 1 0 (LEEnq 15000 0); ZFire; ZIn 1189108 AETxDone] ++ exchange ++ exchange.
(** The counter of client 1 happens to start at 65534, its packets have the numbers 65535 and 0. The second one is acknowledged,
    but taken for a repetition. *)
Definition cell_q0 (a : addr) : Z := if a =? 1 then 65534 else 0.
Theorem C101_delivered_refuted : ~ C101_full.
Proof.
  intros H. assert (T : z_ok [1] ap3 cfg1 cell_q0 cell_script = true) by (vm_compute; reflexivity).
  set (p := Kframe T_DATA 1 0 0 0 0 0 15017 1).
  specialize (H ap3 cfg1 cell_q0 _ 1 p (fun _ => eq_refl) ltac:(intros x; unfold cell_q0; destruct (x =? 1); lia) (z_reach _ _ _ _ _ T)).
  assert (L : length (lacc_of (ln_out (an_cl (z_net [1] ap3 cfg1 cell_q0 cell_script) 1))) = 2%nat) by (vm_compute; reflexivity).
  assert (O : forall x, x <> 1 -> an_cl (z_net [1] ap3 cfg1 cell_q0 cell_script) x = Lnode [] (linit (cell_q0 x)) []).
  { intros x X. apply z_idle. apply Z.eqb_neq in X. rewrite Z.eqb_sym in X. cbn [cell_script exchange app forallb zuses]. rewrite X. reflexivity. }
  assert (X : ~ In p (kup_of (an_out (z_net [1] ap3 cfg1 cell_q0 cell_script)))).
  { apply not_existsb. vm_compute. reflexivity. }
  apply X, H.
  - intros x. destruct (Z.eq_dec x 1) as [->|NE]; [rewrite L; cbn; lia|rewrite O by auto; cbn; lia].
  - apply in_existsb. vm_compute. reflexivity.
Qed.
Print Assumptions C101_delivered_refuted.

(** As long as no counter wraps, however the events run: it was received and handed up. So every packet
    accepted was handed up, is reported as discarded, or is still held by the client. With UseWhiteList this holds if the (not initialised)
    sequence number of an answer to a CTA with flags 1 is never that of a packet of the client (ApProps3 shows that this is needed). *)
Theorem C101_delivered_partial : forall c cfg q0 N, (forall x, lc_addr (cfg x) = x) -> (forall x, 0 <= q0 x) ->
  ac_wl c = false \/ (forall a f p, In f (lsnd_of (ln_out (an_cl N a))) -> kf_type f = T_RTS -> kf_flags f = 1 ->
     In p (lacc_of (ln_out (an_cl N a))) -> kf_seq p <> kf_seq f) ->
  anreach (fun _ _ => True) (fun _ _ => True) c cfg q0 N ->
  (forall x, q0 x + Z.of_nat (length (lacc_of (ln_out (an_cl N x)))) < 65536) ->
  (forall a p, In p (lrep_of true (ln_out (an_cl N a))) -> In p (kup_of (an_out N))) /\
  (forall a p, In p (lacc_of (ln_out (an_cl N a))) ->
     In p (kup_of (an_out N)) \/ In p (lrep_of false (ln_out (an_cl N a))) \/ In p (map lr_pkt (l_rec (ln_st (an_cl N a))))).
Proof.
  intros c cfg q0 N AD U W0 R NW.
  assert (U' : forall x, 0 <= q0 x < 65536) by (intros x; specialize (NW x); specialize (U x); lia).
  assert (W : dummies_differ N) by (destruct W0 as [W0|W0]; [eapply no_white; eauto|exact W0]).
  assert (X : forall a p, In p (lrep_of true (ln_out (an_cl N a))) -> In p (kup_of (an_out N))) by (intros; eapply net_delivered; eauto).
  split; auto. intros a p I. pose proof (la_perm _ _ _ _ (lacct_reach _ _ _ _ _ _ (U' a) (an_client _ _ _ _ _ _ a R))) as PM.
  apply (Permutation_in _ PM) in I. apply in_app_or in I. destruct I as [I|I]; [left; eauto|]. apply in_app_or in I. destruct I; auto.
Qed.
Print Assumptions C101_delivered_partial.
Example C101_example : let N := z_net [1] ap3 cfg1 (fun _ => 0) cell_script in
  z_ok [1] ap3 cfg1 (fun _ => 0) cell_script = true /\ map kf_seq (lrep_of true (ln_out (an_cl N 1))) = [1; 2] /\ map kf_seq (kup_of (an_out N)) = [1; 2].
Proof. vm_compute. auto. Qed.

(** * C102: what the access point hands up *)

(** However the events run and with any configuration, as long as no counter wraps: a packet handed up is one that the
    client of its source accepted and that was received; no packet is handed up twice; packets of a
    client are handed up in the order in which it accepted them. *)
Theorem C102_genuine : forall c cfg q0 N, (forall x, lc_addr (cfg x) = x) -> (forall x, 0 <= q0 x) ->
  anreach (fun _ _ => True) (fun _ _ => True) c cfg q0 N ->
  (forall x, q0 x + Z.of_nat (length (lacc_of (ln_out (an_cl N x)))) < 65536) ->
  (forall f, In f (kup_of (an_out N)) -> In f (krcv_of (an_hist N)) /\ In f (lacc_of (ln_out (an_cl N (kf_src f))))) /\
  NoDup (kup_of (an_out N)) /\
  (forall i j f g, nth_error (kup_of (an_out N)) i = Some f -> nth_error (kup_of (an_out N)) j = Some g -> (i < j)%nat -> kf_src f = kf_src g ->
     exists m n, (m < n)%nat /\ nth_error (lacc_of (ln_out (an_cl N (kf_src f)))) m = Some f /\ nth_error (lacc_of (ln_out (an_cl N (kf_src f)))) n = Some g).
Proof.
  intros c cfg q0 N AD U R NW. assert (U' : forall x, 0 <= q0 x < 65536) by (intros x; specialize (NW x); specialize (U x); lia).
  assert (G : forall f, In f (kup_of (an_out N)) -> In f (krcv_of (an_hist N)) /\ In f (lacc_of (ln_out (an_cl N (kf_src f))))) by (intros; eapply up_genuine; eauto).
  split; auto. split.
  - apply NoDup_nth_error. intros i j LI E. destruct (nth_error (kup_of (an_out N)) i) as [f|] eqn:EI; [|apply nth_error_None in EI; lia]. symmetry in E.
    destruct (Nat.lt_trichotomy i j) as [L|[L|L]]; auto; exfalso.
    + pose proof (up_sorted _ _ _ _ _ _ _ _ _ _ R EI E L eq_refl). lia.
    + pose proof (up_sorted _ _ _ _ _ _ _ _ _ _ R E EI L eq_refl). lia.
  - intros i j f g EI EJ L S. pose proof (up_sorted _ _ _ _ _ _ _ _ _ _ R EI EJ L S) as Q.
    destruct (G f (nth_error_In _ _ EI)) as [_ F]. destruct (G g (nth_error_In _ _ EJ)) as [_ F']. rewrite <- S in F'.
    apply In_nth_error in F, F'. destruct F as [m M], F' as [n N']. exists m, n. split; auto.
    pose proof (nowrap_num _ _ _ _ _ U' _ _ _ _ R NW M). pose proof (nowrap_num _ _ _ _ _ U' _ _ _ _ R NW N'). lia.
Qed.
Print Assumptions C102_genuine.
Example C102_example : let N := z_net [1] ap3 cfg1 (fun _ => 0) cell_script in
  map (fun f => (kf_src f, kf_seq f, kf_id f)) (kup_of (an_out N)) = [(1, 1, 0); (1, 2, 1)] /\
  map (fun f => (kf_type f, kf_src f)) (krcv_of (an_hist N)) = [(T_RTS, 1); (T_DATA, 1); (T_RTS, 1); (T_DATA, 1)].
Proof. vm_compute. auto. Qed.
