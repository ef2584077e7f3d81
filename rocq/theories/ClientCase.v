(** The steps of the client, case by case. *)
From Coq Require Import ZArith List Lia Bool.
From Verif Require Import Base HeaderModel SeqModel EnergyModel MacModel ApModel ClientModel ClientSpec.
Import ListNotations.
Open Scope Z_scope.

Ltac dl s := destruct s as [s_now s_seq s_queue s_rec s_state s_sector s_answered s_boact s_boseq s_ctsn s_last s_ctsrx s_acks s_sde s_tx s_air s_sent s_disc s_res s_timers s_uid s_ids].
Ltac lproj := cbn [lset_now lset_seq lset_queue lset_rec lset_state lset_sector lset_answered lset_boact lset_boseq lset_ctsn lset_last lset_ctsrx lset_acks lset_sde lset_tx lset_air lset_sent lset_disc lset_res lset_timers lset_uid lset_ids l_now l_seq l_queue l_rec l_state l_sector l_answered l_boact l_boseq l_ctsn l_last l_ctsrx l_acks l_sde l_tx l_air l_sent l_disc l_res l_timers l_uid l_ids lsched] in *.

Definition lready (s : lst) : bool := is_lstate LIdle s || is_lstate LWaitTx s.
Definition lcan (s : lst) : bool := lready s && match l_air s with None => true | Some _ => false end.
(** SendPacket. *)
Definition ltry (f : kframe) (s : lst) : lst :=
  if lcan s then lset_tx (Some (kf_id f)) (lset_state LTx (lset_air (Some f) s))
  else if lready s then lset_state LIdle s else s.
Definition lsnt (f : kframe) (mcs : Z) (s : lst) : list lout := if lcan s then [LSnd f mcs] else [].

Lemma lsend_eq f mcs k s : lsend f mcs k s = (fst (k (lcan s) (ltry f s)), lsnt f mcs s ++ snd (k (lcan s) (ltry f s))).
Proof.
  unfold lsend, lcan, ltry, lsnt, lcan, lready. destruct (is_lstate LIdle s || is_lstate LWaitTx s); cbn [andb].
  - destruct (l_air s) as [g|]; cbn [app]; [apply surjective_pairing|].
    unfold lseq, lemit. destruct (k true _) as [s2 o2]; reflexivity.
  - cbn [app]. apply surjective_pairing.
Qed.
Lemma lsend_eq_ f s : lsend_ f s = (ltry f s, lsnt f 0 s).
Proof. unfold lsend_. rewrite lsend_eq. cbn. rewrite app_nil_r. reflexivity. Qed.
Lemma lseq_eq a b s : (a ;+ b) s = (fst (b (fst (a s))), snd (a s) ++ snd (b (fst (a s)))).
Proof. unfold lseq. destruct (a s) as [s1 o1]. cbn. destruct (b s1). reflexivity. Qed.

Definition the_rts (c : lcfg) (p : kframe) (s : lst) : kframe :=
  Kframe T_RTS (lc_addr c) (kf_dst p) (kf_seq p) 0 0 0 (get_size (Hdr 0 0 T_RTS 0 0 0 0 0)) (l_ids s).
Definition the_dummy (c : lcfg) (e : lenv) (f : kframe) (s : lst) : kframe :=
  Kframe T_RTS (lc_addr c) (kf_src f) (le_junk e) 0 1 0 (get_size (Hdr 0 0 T_RTS 0 0 0 0 0)) (l_ids s).
Definition the_data (c : lcfg) (size : Z) (dst : addr) (s : lst) : kframe :=
  Kframe T_DATA (lc_addr c) dst (wrap16 (l_seq s + 1)) 0 0 0 (size + get_size (Hdr 0 0 T_DATA 0 0 0 0 0)) (l_ids s).

(** CtsTimeout and AckTimeout. *)
Inductive tcase (limit life : Z) (ack : bool) (sq : Z) (s : lst) : lst -> list lout -> Prop :=
| TC0 : find1 sq (l_rec s) = None -> tcase limit life ack sq s s [LTmo ack sq]
| TC1 r : find1 sq (l_rec s) = Some r -> limit <= wrap16 (lr_retry r + 1) ->
    tcase limit life ack sq s
      (lsched psec (LKDone false sq) (lset_queue (kremove (lr_pkt r) (l_queue s))
         (lset_rec (update1 sq (fun x => Lrec (lr_pkt x) (wrap16 (lr_retry r + 1)) (lr_life x)) (l_rec s))
            (lset_ctsn (if ack then l_ctsn s else 0) s))))
      [LTmo ack sq]
| TC2 r : find1 sq (l_rec s) = Some r -> wrap16 (lr_retry r + 1) < limit ->
    tcase limit life ack sq s
      (lset_boact true (lset_boseq sq
         (lset_rec (update1 sq (fun x => Lrec (lr_pkt x) (wrap16 (lr_retry r + 1)) (wrap16 (draw1 (2 ^ wrap16 (lr_retry r + 1)) life))) (l_rec s))
            (lset_ctsn (if ack then l_ctsn s else 0) s))))
      (LTmo ack sq :: if wrap16 (lr_retry r + 1) >=? 32 then [LUb] else []).

Lemma timeout_case limit life ack sq s : tcase limit life ack sq s (fst (l_timeout limit life ack sq s)) (snd (l_timeout limit life ack sq s)).
Proof.
  unfold l_timeout. destruct (find1 sq (l_rec s)) as [r|] eqn:F; [|apply TC0; auto].
  assert (X : (if ack then s else lset_ctsn 0 s) = lset_ctsn (if ack then l_ctsn s else 0) s) by (destruct ack; destruct s; reflexivity).
  rewrite X. destruct (wrap16 (lr_retry r + 1) >=? limit) eqn:L.
  - cbn [fst snd]. apply (TC1 _ _ _ _ _ _ F). rewrite Z.geb_leb in L. apply Z.leb_le in L. auto.
  - cbn [fst snd]. apply (TC2 _ _ _ _ _ _ F). rewrite Z.geb_leb in L. apply Z.leb_gt in L. auto.
Qed.

(** What ReceiveCta3 does before it looks at the backoff. *)
Inductive prec (c : lcfg) (e : lenv) (s : lst) : lst -> list lout -> Prop :=
| PC0 : l_answered s = true -> prec c e s (lset_state LIdle s) []
| PC1 s1 o1 : l_answered s = false -> tcase (lc_rts_retry c) (le_life e) false (l_last s) (lset_state LIdle s) s1 o1 ->
    prec c e s (lset_answered true s1) o1.

(** The rest of ReceiveCta3. *)
Definition boslots (c : lcfg) (e : lenv) : Z := lc_slot c * draw1 (lc_slots c) (le_cw e).
Inductive cta3 (c : lcfg) (e : lenv) (f : kframe) (s : lst) : lst -> list lout -> Prop :=
| C3bo : l_boact s = true -> cta3 c e f s (decrease s) []
| C3sec : l_boact s = false -> -1 < l_sector s -> kf_sector f <> l_sector s -> cta3 c e f s (lset_ctsn 0 s) []
| C3ub : l_boact s = false -> l_rec s = [] -> cta3 c e f s (lset_ctsn 0 s) [LUb]
| C3rts r t : l_boact s = false -> (l_sector s <= -1 \/ kf_sector f = l_sector s) -> l_rec s = r :: t ->
    cta3 c e f s (lset_answered false (lset_last (kf_seq (lr_pkt r))
      (lsched (boslots c e) (LKRts (lr_pkt r)) (lset_state LWaitTx (lset_ctsn 0 s))))) [].

(** The rest of ReceiveCta1. *)
Definition fair (c : lcfg) (e : lenv) : Z := 2 * lc_prop c - lc_far c * psec + boslots c e.
Inductive cta1 (c : lcfg) (e : lenv) (s : lst) : lst -> list lout -> Prop :=
| C1bo : l_boact s = true -> cta1 c e s (decrease s) []
| C1ub : l_boact s = false -> l_rec s = [] -> cta1 c e s s [LUb]
| C1data r t : l_boact s = false -> l_rec s = r :: t ->
    cta1 c e s (lsched (fair c e) (LKData (lr_pkt r) 0) (lset_sde (Some (l_uid s)) (lset_ctsrx (l_now s) (lset_state LWaitTx s))))
      (if fair c e <? 0 then [LNeg] else []).

Definition hears (s : lst) (f : kframe) : bool := is_lstate LRx s || is_lstate LWaitAck s && (kf_type f =? T_ACK).

Inductive lcase (c : lcfg) (e : lenv) (s : lst) : levent -> lst -> list lout -> Prop :=
| L_small size dst : size < lc_min c -> lcase c e s (LEEnq size dst) s [LRet false]
| L_enq size dst : lc_min c <= size -> lcase c e s (LEEnq size dst)
    (lset_ids (l_ids s + 1) (lset_rec (l_rec s ++ [Lrec (the_data c size dst s) 0 0])
       (lset_queue (l_queue s ++ [the_data c size dst s]) (lset_seq (wrap16 (l_seq s + 1)) s))))
    [LAcc (the_data c size dst s); LRet false]
| L_tx f st : l_air s = Some f -> (st = l_state s \/ l_state s = LTx /\ st = (if kf_type f =? T_DATA then LWaitAck else LIdle)) ->
    lcase c e s LETxDone (lset_state st (lset_air None s)) []
| L_rx st : (st = l_state s \/ st = LRx) -> lcase c e s LERxStart (lset_state st (lcancel (l_sde s) s)) []
| L_ign f ok : lcase c e s (LERxEnd f ok) s []
| L_dummy f : lc_ways c = 3 -> hears s f = true -> kf_type f = T_CTA -> kf_flags f = 1 ->
    lcase c e s (LERxEnd f true)
      (lsched (boslots c e) (LKDummy (the_dummy c e f s)) (lset_ids (l_ids s + 1) (lset_state LIdle s))) []
| L_feed f : lc_ways c = 3 -> hears s f = true -> kf_type f = T_CTA -> kf_flags f = 2 -> kf_dst f = lc_addr c ->
    lcase c e s (LERxEnd f true) (lset_sector (kf_sector f) (lset_state LIdle s)) []
| L_empty f : kf_type f = T_CTA -> l_queue s = [] -> lcase c e s (LERxEnd f true) (lset_state LIdle s) []
| L_cta3 f s1 o1 s2 o2 : lc_ways c = 3 -> hears s f = true -> kf_type f = T_CTA -> kf_flags f <> 1 ->
    (kf_flags f = 2 -> kf_dst f <> lc_addr c) -> l_queue s <> [] ->
    prec c e s s1 o1 -> cta3 c e f s1 s2 o2 -> lcase c e s (LERxEnd f true) s2 (o1 ++ o2)
| L_cta1 f s2 o2 : lc_ways c = 1 -> hears s f = true -> kf_type f = T_CTA -> l_queue s <> [] ->
    cta1 c e (lset_state LIdle s) s2 o2 -> lcase c e s (LERxEnd f true) s2 o2
| L_cts0 f : kf_type f = T_CTS -> kf_dst f <> lc_addr c ->
    lcase c e s (LERxEnd f true) (lset_ctsn (wrap16 (l_ctsn s + 1)) (lset_state LIdle s)) []
| L_cts f : hears s f = true -> kf_type f = T_CTS -> kf_dst f = lc_addr c ->
    lcase c e s (LERxEnd f true) (cts_loop f (l_rec s) (lset_ctsn (wrap16 (l_ctsn s + 1)) (lset_state LIdle s))) []
| L_ack0 f : kf_type f = T_ACK -> kf_dst f = lc_addr c -> lcase c e s (LERxEnd f true) (lset_state LIdle s) []
| L_ack f q u : hears s f = true -> kf_type f = T_ACK -> kf_dst f = lc_addr c -> find (fun x => fst x =? kf_seq f) (l_acks s) = Some (q, u) ->
    lcase c e s (LERxEnd f true)
      (lset_acks (erase1 (fun x => fst x =? kf_seq f) (l_acks s)) (lsched psec (LKDone true (kf_seq f)) (lcancel (Some u) (lset_state LIdle s)))) []
| L_fdummy i t f s0 : nth_error (l_timers s) i = Some t -> s0 = lset_timers (remove_nth i (l_timers s)) s -> lt_kind t = LKDummy f ->
    lcase c e s (LETimer i) (ltry f s0) (lsnt f 0 s0)
| L_frts i t p s0 : nth_error (l_timers s) i = Some t -> s0 = lset_timers (remove_nth i (l_timers s)) s -> lt_kind t = LKRts p ->
    lcase c e s (LETimer i) (ltry (the_rts c p s) (lset_ids (l_ids s + 1) s0)) (lsnt (the_rts c p s) 0 s0)
| L_fbc i t p m s0 : nth_error (l_timers s) i = Some t -> s0 = lset_timers (remove_nth i (l_timers s)) s -> lt_kind t = LKData p m -> kf_dst p = bcast ->
    lcase c e s (LETimer i) (lset_state LWaitTx s0) []
| L_fdata0 i t p m s0 : nth_error (l_timers s) i = Some t -> s0 = lset_timers (remove_nth i (l_timers s)) s -> lt_kind t = LKData p m -> kf_dst p <> bcast ->
    l_air s <> None -> lcase c e s (LETimer i) (lset_state LIdle s0) []
| L_fdata i t p m s0 : nth_error (l_timers s) i = Some t -> s0 = lset_timers (remove_nth i (l_timers s)) s -> lt_kind t = LKData p m -> kf_dst p <> bcast ->
    l_air s = None ->
    lcase c e s (LETimer i)
      (lset_acks (l_acks s ++ [(kf_seq p, l_uid s)]) (lsched (ack_wait c s) (LKAck (kf_seq p))
         (lset_tx (Some (kf_id p)) (lset_state LTx (lset_air (Some p) s0)))))
      (LSnd p m :: if ack_wait c s <? 0 then [LNeg] else [])
| L_fack i t sq s0 s1 o1 : nth_error (l_timers s) i = Some t -> s0 = lset_timers (remove_nth i (l_timers s)) s -> lt_kind t = LKAck sq ->
    tcase (lc_data_retry c) (le_life e) true sq (lset_acks (erase1 (fun x => fst x =? sq) (l_acks s)) (lset_state LIdle s0)) s1 o1 ->
    lcase c e s (LETimer i) s1 o1
| L_fdone i t ok sq s0 : nth_error (l_timers s) i = Some t -> s0 = lset_timers (remove_nth i (l_timers s)) s -> lt_kind t = LKDone ok sq ->
    lcase c e s (LETimer i) (fst (l_done ok sq s0)) (snd (l_done ok sq s0))
| L_fres i t s0 : nth_error (l_timers s) i = Some t -> s0 = lset_timers (remove_nth i (l_timers s)) s -> lt_kind t = LKResult ->
    lcase c e s (LETimer i) s0 (if l_res s then [] else [LUb])
| L_late i : nth_error (l_timers s) i = None -> lcase c e s (LETimer i) s []
| L_tick t : lcase c e s (LETick t) (lset_now t s) [].

Lemma same_state st s : st = l_state s -> lset_state st s = s.
Proof. intros ->. destruct s; reflexivity. Qed.
Lemma is_lstate_eq st s : is_lstate st s = true -> l_state s = st.
Proof. unfold is_lstate. destruct st, (l_state s); intros; auto; discriminate. Qed.

Lemma step_lcase c e s ev : lvalid s ev = true -> lcase c e s ev (fst (lstep c e s ev)) (snd (lstep c e s ev)).
Proof.
  intros V. destruct ev as [size dst| | |f ok|i|t]; cbn [lstep].
  - unfold lenqueue. destruct (size <? lc_min c) eqn:E; cbn [fst snd].
    + apply L_small. lia.
    + apply (L_enq c e s size dst). lia.
  - unfold l_tx_done. cbn [lvalid] in V. destruct (l_air s) as [f|] eqn:A; [|discriminate].
    destruct (is_lstate LTx s && _) eqn:B; cbn [fst snd].
    + apply (L_tx c e s f); auto. right. apply andb_true_iff in B. destruct B as [B _]. apply is_lstate_eq in B. auto.
    + rewrite <- (same_state (l_state s) (lset_air None s)) by (destruct s; reflexivity). apply (L_tx c e s f); auto.
  - unfold l_rx_start. destruct (is_lstate LTx s || is_lstate LWaitAck s); cbn [fst snd].
    + rewrite <- (same_state (l_state s) (lcancel (l_sde s) s)) by (dl s; destruct s_sde; reflexivity). apply L_rx. auto.
    + apply L_rx. auto.
  - unfold l_rx_end. fold (hears s f). destruct (hears s f) eqn:H; [|apply L_ign]. destruct ok; cbn [negb]; [|apply L_ign].
    destruct (Z.eqb_spec (kf_type f) T_CTA) as [E|E].
    { destruct (Z.eqb_spec (lc_ways c) 1) as [W|W].
      - unfold receive_cta1. rewrite lseq_eq. cbn [llift fst snd app].
        destruct (l_queue (lset_state LIdle s)) as [|p q] eqn:Q; cbn [fst snd].
        { apply L_empty; auto. }
        destruct (l_boact (lset_state LIdle s)) eqn:B; cbn [fst snd].
        { apply L_cta1; auto; [destruct s; cbn in *; congruence|]. apply C1bo; auto. }
        destruct (l_rec (lset_state LIdle s)) as [|r t] eqn:R; cbn [fst snd].
        { apply L_cta1; auto; [destruct s; cbn in *; congruence|]. apply C1ub; auto. }
        unfold lsched_neg. fold (boslots c e). fold (fair c e). cbn [fst snd].
        apply L_cta1; auto; [destruct s; cbn in *; congruence|]. eapply C1data; eauto.
      - destruct (Z.eqb_spec (lc_ways c) 3) as [W3|W3]; [|apply L_ign].
        unfold receive_cta3. rewrite lseq_eq. cbn [llift fst snd app].
        destruct (Z.eqb_spec (kf_flags f) 1) as [F1|F1].
        { cbn [fst snd]. fold (boslots c e). replace (l_ids (lset_state LIdle s)) with (l_ids s) by (destruct s; reflexivity).
          apply L_dummy; auto. }
        destruct (Z.eqb_spec (kf_flags f) 2) as [F2|F2]; cbn [andb].
        { destruct (Z.eqb_spec (kf_dst f) (lc_addr c)) as [D|D]; [apply L_feed; auto|].
          destruct (l_queue (lset_state LIdle s)) as [|p q] eqn:Q; cbn [fst snd].
          { apply L_empty; auto. }
          assert (Q' : l_queue s <> []) by (destruct s; cbn in *; congruence).
          rewrite lseq_eq.
          set (r1 := if l_answered (lset_state LIdle s) then _ else _).
          assert (P : prec c e s (fst r1) (snd r1)).
          { unfold r1. replace (l_answered (lset_state LIdle s)) with (l_answered s) by (destruct s; reflexivity).
            destruct (l_answered s) eqn:A; [apply PC0; auto|]. rewrite lseq_eq. unfold l_cts_timeout. rewrite lseq_eq. cbn [llift fst snd app].
            rewrite app_nil_r. replace (l_last (lset_state LIdle s)) with (l_last s) by (destruct s; reflexivity).
            replace (lset_state LIdle (lset_state LIdle s)) with (lset_state LIdle s) by (destruct s; reflexivity).
            apply PC1; auto. apply timeout_case. }
          cbn [fst snd]. eapply L_cta3; eauto. fold (boslots c e).
          destruct (l_boact (fst r1)) eqn:B; cbn [fst snd]; [apply C3bo; auto|].
          destruct ((l_sector (fst r1) >? -1) && negb (kf_sector f =? l_sector (fst r1))) eqn:S; cbn [fst snd].
          { apply andb_true_iff in S. destruct S as [S1 S2]. rewrite Z.gtb_ltb in S1. apply Z.ltb_lt in S1. apply negb_true_iff, Z.eqb_neq in S2. apply C3sec; auto. }
          destruct (l_rec (fst r1)) as [|x y] eqn:R; cbn [fst snd]; [apply C3ub; auto|].
          apply C3rts with (t := y); auto. rewrite Z.gtb_ltb in S. destruct (Z.ltb_spec (-1) (l_sector (fst r1))); cbn in S; [right|left; lia].
          apply negb_false_iff, Z.eqb_eq in S. auto. }
        { destruct (l_queue (lset_state LIdle s)) as [|p q] eqn:Q; cbn [fst snd].
          { apply L_empty; auto. }
          assert (Q' : l_queue s <> []) by (destruct s; cbn in *; congruence).
          rewrite lseq_eq.
          set (r1 := if l_answered (lset_state LIdle s) then _ else _).
          assert (P : prec c e s (fst r1) (snd r1)).
          { unfold r1. replace (l_answered (lset_state LIdle s)) with (l_answered s) by (destruct s; reflexivity).
            destruct (l_answered s) eqn:A; [apply PC0; auto|]. rewrite lseq_eq. unfold l_cts_timeout. rewrite lseq_eq. cbn [llift fst snd app].
            rewrite app_nil_r. replace (l_last (lset_state LIdle s)) with (l_last s) by (destruct s; reflexivity).
            replace (lset_state LIdle (lset_state LIdle s)) with (lset_state LIdle s) by (destruct s; reflexivity).
            apply PC1; auto. apply timeout_case. }
          cbn [fst snd]. eapply L_cta3; eauto; try (intros; contradiction). fold (boslots c e).
          destruct (l_boact (fst r1)) eqn:B; cbn [fst snd]; [apply C3bo; auto|].
          destruct ((l_sector (fst r1) >? -1) && negb (kf_sector f =? l_sector (fst r1))) eqn:S; cbn [fst snd].
          { apply andb_true_iff in S. destruct S as [S1 S2]. rewrite Z.gtb_ltb in S1. apply Z.ltb_lt in S1. apply negb_true_iff, Z.eqb_neq in S2. apply C3sec; auto. }
          destruct (l_rec (fst r1)) as [|x y] eqn:R; cbn [fst snd]; [apply C3ub; auto|].
          apply C3rts with (t := y); auto. rewrite Z.gtb_ltb in S. destruct (Z.ltb_spec (-1) (l_sector (fst r1))); cbn in S; [right|left; lia].
          apply negb_false_iff, Z.eqb_eq in S. auto. } }
    destruct (Z.eqb_spec (kf_type f) T_CTS) as [E2|E2].
    { unfold l_receive_cts. rewrite lseq_eq. cbn [llift fst snd app]. destruct (Z.eqb_spec (kf_dst f) (lc_addr c)) as [D|D]; cbn [lskip llift fst snd].
      - replace (l_rec (lset_ctsn (wrap16 (l_ctsn s + 1)) (lset_state LIdle s))) with (l_rec s) by (destruct s; reflexivity).
        apply L_cts; auto.
      - apply L_cts0; auto. }
    destruct (Z.eqb_spec (kf_type f) T_ACK) as [E3|E3]; [|apply L_ign].
    unfold l_receive_ack. destruct (Z.eqb_spec (kf_dst f) (lc_addr c)) as [D|D]; [|apply L_ign].
    destruct (find (fun x => fst x =? kf_seq f) (l_acks s)) as [[q u]|] eqn:F; cbn [fst snd].
    + apply L_ack with (q := q); auto.
    + apply L_ack0; auto.
  - destruct (nth_error (l_timers s) i) as [t|] eqn:N; [|apply L_late; auto].
    destruct (lt_kind t) as [f|p|p m|sq|ok sq|] eqn:K; cbn [lfire].
    + rewrite lsend_eq_. cbn [fst snd]. eapply L_fdummy; eauto.
    + unfold l_send_rts. rewrite lsend_eq_. cbn [fst snd].
      set (s0 := lset_timers (remove_nth i (l_timers s)) s).
      replace (Kframe _ _ _ _ _ _ _ _ (l_ids s0)) with (the_rts c p s) by (unfold s0; destruct s; reflexivity).
      replace (l_ids s0) with (l_ids s) by (unfold s0; destruct s; reflexivity).
      replace (lsnt (the_rts c p s) 0 (lset_ids (l_ids s + 1) s0)) with (lsnt (the_rts c p s) 0 s0) by (unfold s0; destruct s; reflexivity).
      eapply L_frts; eauto.
    + unfold l_send_data. rewrite lseq_eq. cbn [llift fst snd app].
      set (s0 := lset_timers (remove_nth i (l_timers s)) s).
      destruct (Z.eqb_spec (kf_dst p) bcast) as [D|D]; cbn [lskip fst snd]; [eapply L_fbc; eauto|].
      rewrite lsend_eq. cbn [fst snd].
      destruct (l_air s) as [g|] eqn:A.
      * assert (X : lcan (lset_state LWaitTx s0) = false) by (unfold s0; dl s; cbn in *; subst; reflexivity).
        rewrite X. unfold lsnt. rewrite X. cbn [app llift fst snd].
        replace (lset_state LIdle (ltry p (lset_state LWaitTx s0))) with (lset_state LIdle s0)
          by (unfold ltry; rewrite X; unfold s0; dl s; cbn in *; reflexivity).
        eapply L_fdata0; eauto. congruence.
      * assert (X : lcan (lset_state LWaitTx s0) = true) by (unfold s0; dl s; cbn in *; subst; reflexivity).
        rewrite X. unfold lsnt, ltry. rewrite X. rewrite lseq_eq. unfold lsched_neg. cbn [app llift fst snd].
        rewrite app_nil_r.
        assert (Y : forall x, ack_wait c (lset_tx x (lset_state LTx (lset_air (Some p) (lset_state LWaitTx s0)))) = ack_wait c s) by (intros; unfold s0; destruct s; reflexivity).
        rewrite Y.
        replace (lset_tx (Some (kf_id p)) (lset_state LTx (lset_air (Some p) (lset_state LWaitTx s0))))
          with (lset_tx (Some (kf_id p)) (lset_state LTx (lset_air (Some p) s0))) by (unfold s0; dl s; reflexivity).
        set (s3 := lset_tx (Some (kf_id p)) (lset_state LTx (lset_air (Some p) s0))).
        replace (l_acks s3) with (l_acks s) by (unfold s3, s0; dl s; reflexivity).
        replace (l_uid s3) with (l_uid s) by (unfold s3, s0; dl s; reflexivity).
        eapply L_fdata; eauto.
    + unfold l_ack_timeout. rewrite lseq_eq. cbn [llift fst snd app].
      set (s0 := lset_timers (remove_nth i (l_timers s)) s).
      replace (l_acks s0) with (l_acks s) by (unfold s0; dl s; reflexivity).
      eapply L_fack; eauto. apply timeout_case.
    + eapply L_fdone; eauto.
    + unfold l_results. cbn [fst snd]. replace (l_res (lset_timers _ s)) with (l_res s) by (destruct s; reflexivity). eapply L_fres; eauto.
  - apply L_tick.
Qed.
