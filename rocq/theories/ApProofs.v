(** Lemmas about the model of the access point: normal forms of a step, and invariants. *)
From Coq Require Import ZArith List Lia Bool.
From Verif Require Import Base HeaderModel SeqModel EnergyModel MacModel ApModel ApSpec.
Import ListNotations.
Open Scope Z_scope.

Ltac ds s := destruct s as [s_now s_state s_angle s_cycles s_record s_rts s_acks s_expect s_map s_white s_sec s_dto s_filter s_tx s_air s_timers s_uid s_ids].

Ltac pcb := cbv beta iota zeta delta [pset_now pset_state pset_angle pset_cycles pset_record pset_rts pset_acks pset_expect pset_map pset_white pset_sec pset_dto pset_filter pset_tx pset_air pset_timers pset_uid pset_ids p_now p_state p_angle p_cycles p_record p_rts p_acks p_expect p_map p_white p_sec p_dto p_filter p_tx p_air p_timers p_uid p_ids psched].

(** ** Loops as lists of events *)
Fixpoint gtimers (c : acfg) (now i w uid : Z) (l : list (kframe * Z)) : list ptimer :=
  match l with
  | [] => []
  | (f, pw) :: r =>
    let flag := if ac_adapt c then select_mcs c pw else 0 in
    Ptimer uid (now + (ac_ctrl c T_CTS + psec) * i) (PKCts (kf_src f) (kf_seq f) w flag)
    :: gtimers c now (i + 1) (w + ac_data c (ac_size c) flag + ac_maxbo c) (uid + 1) r
  end.
Lemma grant_eq c l : forall i w s,
  grant c i w l s = pset_uid (p_uid s + Z.of_nat (length l)) (pset_timers (p_timers s ++ gtimers c (p_now s) i w (p_uid s) l) s).
Proof.
  induction l as [|[f pw] r IH]; intros i w s.
  - cbn [grant gtimers length]. rewrite app_nil_r, Z.add_0_r. ds s; reflexivity.
  - cbn [grant gtimers]. rewrite IH. ds s; pcb; cbn [length].
    rewrite <- app_assoc. cbn [app]. f_equal. lia.
Qed.

Fixpoint atimers (c : acfg) (now i uid : Z) (l : list (Z * list (Z * Z))) : list ptimer :=
  match l with
  | [] => [Ptimer uid (now + i * (ac_ctrl c T_CTS + nsec)) PKTurn]
  | (node, v) :: r =>
    Ptimer uid (now + i * (ac_ctrl c T_CTS + nsec)) (PKFeed (best_sector v) node) :: atimers c now (i + 1) (uid + 1) r
  end.
Definition awhite (l : list (Z * list (Z * Z))) (w : list (Z * list addr)) : list (Z * list addr) :=
  fold_left (fun w x => push (best_sector (snd x)) (fst x) w) l w.
Lemma announce_eq c l : forall i s,
  announce c i l s = pset_white (awhite l (p_white s))
    (pset_uid (p_uid s + Z.of_nat (length l) + 1) (pset_timers (p_timers s ++ atimers c (p_now s) i (p_uid s) l) s)).
Proof.
  induction l as [|[n v] r IH]; intros i s.
  - cbn [announce atimers length awhite fold_left]. ds s. pcb; cbn [length].
    f_equal. cbn. lia.
  - cbn [announce atimers]. rewrite IH. ds s; pcb; cbn [length].
    rewrite <- app_assoc. cbn [app awhite fold_left fst snd]. f_equal. lia.
Qed.

(** ** Unfolding a step *)
Ltac pred := cbv beta iota zeta delta [pset_now pset_state pset_angle pset_cycles pset_record pset_rts pset_acks pset_expect pset_map pset_white pset_sec pset_dto pset_filter pset_tx pset_air pset_timers pset_uid pset_ids p_now p_state p_angle p_cycles p_record p_rts p_acks p_expect p_map p_white p_sec p_dto p_filter p_tx p_air p_timers p_uid p_ids psched pseq plift pemit pskip pcancel is_pstate pnew psend psend_ send_cta1 send_cta3 turn data_timeout p_send_cts feedback fst snd orb andb negb p_send_ack p_receive_data p_rx_end p_rx_start p_tx_done sector_timeout init_node_map wait_expired pfire pstep pctrl].
Ltac pdm1 := match goal with
  | |- context [match ?x with _ => _ end] =>
    lazymatch x with context [match _ with _ => _ end] => fail | _ => destruct x eqn:? end
  end.
Ltac pgo := pred; repeat (rewrite grant_eq || rewrite announce_eq); pred; repeat (pdm1; pred; repeat (rewrite grant_eq || rewrite announce_eq; pred)).

(** ** Cases of a step *)
Definition inv0 (s : pst) : Prop :=
  (forall f, p_air s = Some f -> p_state s = PTx /\ p_tx s = Some (kf_id f) /\ kf_id f < p_ids s) /\
  (p_air s = None -> p_state s <> PTx) /\
  (forall f, In f (p_acks s) -> kf_id f < p_ids s /\ kf_type f = T_ACK) /\
  NoDup (map kf_id (p_acks s)).

Definition cansend (s : pst) : bool :=
  match p_state s, p_air s with PIdle, None | PWaitTx, None => true | _, _ => false end.
Definition sent (f : kframe) (s : pst) : pst := pset_tx (Some (kf_id f)) (pset_state PTx (pset_air (Some f) s)).
Definition trysend (f : kframe) (s : pst) : pst := if cansend s then sent f s else s.
Definition sndif (f : kframe) (s : pst) : list pout := if cansend s then [PSnd f] else [].

Lemma send_eq f k s : (forall g, p_air s = Some g -> p_state s = PTx) ->
  psend f k s = if cansend s then (fst (k true (sent f s)), PSnd f :: snd (k true (sent f s))) else k false s.
Proof.
  intros A. unfold psend, cansend, is_pstate, pseq, pemit. destruct (p_state s) eqn:E, (p_air s) as [g|] eqn:F; cbn [orb]; auto;
    try (specialize (A g eq_refl); discriminate A).
  all: fold (sent f s); destruct (k true (sent f s)); reflexivity.
Qed.
Lemma send_eq_ f s : (forall g, p_air s = Some g -> p_state s = PTx) -> psend_ f s = (trysend f s, sndif f s).
Proof. intros A. unfold psend_, trysend, sndif. rewrite send_eq by auto. unfold pskip. destruct (cansend s); reflexivity. Qed.

(** TurnRxAntenna up to the CTA. *)
Definition pturn (c : acfg) (s : pst) : pst :=
  let '(a, k) := norm_angle (p_angle s + ac_bw c) in
  let s0 := pset_angle a (pset_cycles (p_cycles s + k) s) in
  if ac_ways c =? 3 then psched (t_wait c) PKWait (pset_ids (p_ids s0 + 1) s0)
  else
    let s1 := psched (t_sector c) PKSec (pset_sec (Some (p_uid s0)) s0) in
    psched (t_data_timeout c) PKData (pset_dto (Some (p_uid s1)) (pset_ids (p_ids s1 + 1) s1)).
Definition pcta (c : acfg) (s : pst) : kframe :=
  let a := fst (norm_angle (p_angle s + ac_bw c)) in
  if ac_ways c =? 3 then pctrl c T_CTA bcast 0 0 (if p_record s then 1 else 0) (wrap16 a) s
  else pctrl c T_CTA bcast 0 0 0 0 s.

Lemma turn_eq c s : (forall g, p_air s = Some g -> p_state s = PTx) ->
  turn c s = (trysend (pcta c s) (pturn c s), PTurn (p_angle (pturn c s)) :: sndif (pcta c s) (pturn c s)).
Proof.
  intros A. unfold turn, pturn, pcta. destruct (norm_angle (p_angle s + ac_bw c)) as [a k].
  ds s. cbn [fst]. destruct (ac_ways c =? 3).
  - unfold send_cta3, pnew, plift, pemit. pcb. unfold pseq. rewrite send_eq_ by exact A. reflexivity.
  - unfold send_cta1, pnew, plift, pemit. pcb. unfold pseq. rewrite send_eq_ by exact A. reflexivity.
Qed.

(** A step that leads to TurnRxAntenna: the state in which it is called. *)
Inductive toturn (c : acfg) (s : pst) : pkind -> pst -> Prop :=
| TT_turn : toturn c s PKTurn s
| TT_none : p_rts s = [] -> toturn c s PKWait s
| TT_rec : p_rts s <> [] -> p_record s = true -> p_cycles s < 3 ->
    toturn c s PKWait (pset_rts [] (pset_map (fold_left (record1 (p_angle s)) (p_rts s) (p_map s)) s))
| TT_sec : p_acks s = [] -> toturn c s PKSec s
| TT_data : toturn c s PKData (pcancel (p_sec s) s).

(** A step that leads to SendAck with a packet to send. *)
Inductive toack (k : pkind) : Prop := TA_ack : k = PKAck -> toack k | TA_sec : k = PKSec -> toack k.

Definition newack (c : acfg) (f : kframe) (s : pst) : kframe := pctrl c T_ACK (kf_src f) (kf_seq f) 0 0 0 s.
Definition upif (f : kframe) (s : pst) : list pout := if fst (is_new (p_filter s) (kf_src f) (kf_seq f)) then [PUp f] else [].
Definition gotdata (c : acfg) (f : kframe) (s : pst) : pst :=
  pset_filter (snd (is_new (p_filter s) (kf_src f) (kf_seq f))) (pset_ids (p_ids s + 1) s).

Inductive pcase (c : acfg) (s : pst) : pevent -> pst -> list pout -> Prop :=
| PC_tick t : pcase c s (AETick t) (pset_now t s) []
| PC_none i : nth_error (p_timers s) i = None -> pcase c s (AETimer i) s []
| PC_tx f : p_air s = Some f -> kf_type f <> T_ACK -> pcase c s AETxDone (pset_state PIdle (pset_air None s)) []
| PC_txlast f : p_air s = Some f -> kf_type f = T_ACK -> p_acks s = [] ->
    pcase c s AETxDone (psched nsec PKTurn (pset_state PIdle (pset_air None s))) []
| PC_txmore f : p_air s = Some f -> kf_type f = T_ACK -> p_acks s <> [] ->
    pcase c s AETxDone (psched psec PKAck (pset_state PIdle (pset_air None s))) []
| PC_rxstart : p_air s = None -> pcase c s AERxStart (pset_state PRx (pcancel (p_dto s) s)) []
| PC_rxnone f ok pw : p_air s = None -> (ok = true -> kf_type f <> T_RTS /\ kf_type f <> T_DATA) ->
    pcase c s (AERxEnd f ok pw) (pset_state PIdle s) []
| PC_rxrts f pw : p_air s = None -> kf_type f = T_RTS ->
    pcase c s (AERxEnd f true pw) (pset_rts (p_rts s ++ [(f, pw)]) (pset_state PIdle s)) []
| PC_data f pw : p_air s = None -> kf_type f = T_DATA -> ac_ways c = 3 -> p_expect s <> Z.of_nat (length (p_acks s)) + 1 ->
    pcase c s (AERxEnd f true pw) (gotdata c f (pset_acks (p_acks s ++ [newack c f s]) (pset_state PIdle s))) (upif f s)
| PC_dataack f pw g r : p_air s = None -> kf_type f = T_DATA ->
    (ac_ways c <> 3 \/ p_expect s = Z.of_nat (length (p_acks s)) + 1) -> p_acks s ++ [newack c f s] = g :: r ->
    pcase c s (AERxEnd f true pw) (gotdata c f (pset_acks r (sent g (pcancel (p_sec s) s)))) (PSnd g :: upif f s)
| PC_turn i t s0 : nth_error (p_timers s) i = Some t ->
    toturn c (pset_timers (remove_nth i (p_timers s)) s) (pt_kind t) s0 ->
    pcase c s (AETimer i) (trysend (pcta c s0) (pturn c s0)) (PTurn (p_angle (pturn c s0)) :: sndif (pcta c s0) (pturn c s0))
| PC_map i t : nth_error (p_timers s) i = Some t -> pt_kind t = PKWait -> p_rts s <> [] -> p_record s = true -> 3 <= p_cycles s ->
    let m := fold_left (record1 (p_angle s)) (p_rts s) (p_map s) in
    pcase c s (AETimer i)
      (pset_white (awhite (node_map m) (p_white s))
        (pset_uid (p_uid s + Z.of_nat (length (node_map m)) + 1)
          (pset_timers (remove_nth i (p_timers s) ++ atimers c (p_now s) 0 (p_uid s) (node_map m))
            (pset_record false (pset_rts [] (pset_map m s)))))) []
| PC_grant i t : nth_error (p_timers s) i = Some t -> pt_kind t = PKWait -> p_rts s <> [] -> p_record s = false ->
    let n := Z.of_nat (length (p_rts s)) in
    pcase c s (AETimer i)
      (pset_rts [] (pset_sec (Some (p_uid s + n)) (pset_uid (p_uid s + n + 1) (pset_expect n
        (pset_timers (remove_nth i (p_timers s) ++ gtimers c (p_now s) 0 (n * ac_ctrl c T_CTS) (p_uid s) (p_rts s)
           ++ [Ptimer (p_uid s + n) (p_now s + sector_time c n) PKSec]) s))))) []
| PC_ack i t g r : nth_error (p_timers s) i = Some t -> toack (pt_kind t) -> p_acks s = g :: r -> cansend s = true ->
    pcase c s (AETimer i) (pset_acks r (sent g (pset_timers (remove_nth i (p_timers s)) s))) [PSnd g]
| PC_lost i t g r : nth_error (p_timers s) i = Some t -> toack (pt_kind t) -> p_acks s = g :: r -> cansend s = false ->
    pcase c s (AETimer i) (pset_acks r (pset_timers (remove_nth i (p_timers s)) s)) [PLost g]
| PC_ub i t : nth_error (p_timers s) i = Some t -> pt_kind t = PKAck -> p_acks s = [] ->
    pcase c s (AETimer i) (pset_timers (remove_nth i (p_timers s)) s) [PUb]
| PC_cts i t dst sq dur flag : nth_error (p_timers s) i = Some t -> pt_kind t = PKCts dst sq dur flag ->
    let f := pctrl c T_CTS dst sq (wrap16 (Z.quot dur nsec)) flag 0 s in
    let s1 := pset_ids (p_ids s + 1) (pset_timers (remove_nth i (p_timers s)) s) in
    pcase c s (AETimer i) (trysend f s1) (sndif f s1)
| PC_feed i t a dst : nth_error (p_timers s) i = Some t -> pt_kind t = PKFeed a dst ->
    let f := pctrl c T_CTA dst 0 0 2 (wrap16 a) s in
    let s1 := pset_ids (p_ids s + 1) (pset_timers (remove_nth i (p_timers s)) s) in
    pcase c s (AETimer i) (trysend f s1) (sndif f s1).

Lemma kremove_head f l : NoDup (map kf_id (f :: l)) -> kremove f (f :: l) = l.
Proof.
  intros N. inversion N as [|? ? Hn Hd]; subst. unfold kremove. cbn [filter]. rewrite Z.eqb_refl. cbn [negb].
  clear N Hd. induction l as [|g l IH]; auto. cbn [filter]. assert (kf_id g <> kf_id f) by (intros E; apply Hn; rewrite <- E; left; auto).
  apply Z.eqb_neq in H. rewrite H. cbn [negb]. f_equal. apply IH. intros I; apply Hn; right; auto.
Qed.

Lemma send_ack_eq s : (forall g, p_air s = Some g -> p_state s = PTx) -> NoDup (map kf_id (p_acks s)) ->
  p_send_ack s = match p_acks s with
                 | [] => (s, [PUb])
                 | g :: r => if cansend s then (pset_acks r (sent g s), [PSnd g]) else (pset_acks r s, [PLost g])
                 end.
Proof.
  intros A N. unfold p_send_ack. destruct (p_acks s) as [|g r] eqn:E; auto. rewrite send_eq by auto.
  unfold pseq, plift, pskip, pemit. destruct (cansend s) eqn:C; cbn [fst snd app].
  - replace (p_acks (sent g s)) with (g :: r) by (rewrite <- E; destruct s; reflexivity). rewrite kremove_head; auto.
  - rewrite E, kremove_head; auto.
Qed.

Lemma inv0_air s : inv0 s -> forall g, p_air s = Some g -> p_state s = PTx.
Proof. intros I g E. apply I in E. apply E. Qed.

Lemma fire_wait c s i t : inv0 s -> nth_error (p_timers s) i = Some t -> pt_kind t = PKWait ->
  pcase c s (AETimer i) (fst (pstep c s (AETimer i))) (snd (pstep c s (AETimer i))).
Proof.
  intros I E K. pose proof (inv0_air s I) as A. unfold pstep. rewrite E, K. cbn [pfire].
  destruct (p_rts s) as [|x l] eqn:R.
  - replace (wait_expired c (pset_timers (remove_nth i (p_timers s)) s)) with (turn c (pset_timers (remove_nth i (p_timers s)) s))
      by (unfold wait_expired; destruct s; cbn in R |- *; rewrite R; reflexivity).
    rewrite turn_eq by (destruct s; exact A). cbn [fst snd]. eapply PC_turn; [exact E|]. rewrite K. apply TT_none. destruct s; exact R.
  - assert (W : wait_expired c (pset_timers (remove_nth i (p_timers s)) s) =
      (let s' := pset_timers (remove_nth i (p_timers s)) s in
       if p_record s then
        let s1 := pset_rts [] (pset_map (fold_left (record1 (p_angle s)) (x :: l) (p_map s)) s') in
        if p_cycles s >=? 3 then init_node_map c (pset_record false s1) else turn c s1
       else
        let n := Z.of_nat (length (x :: l)) in
        let s1 := pset_expect n (grant c 0 (n * ac_ctrl c T_CTS) (x :: l) s') in
        (pset_rts [] (psched (sector_time c n) PKSec (pset_sec (Some (p_uid s1)) s1)), []))).
    { unfold wait_expired. ds s. cbn [p_rts pset_timers p_timers p_record] in *. rewrite R. reflexivity. }
    rewrite W. clear W. cbv zeta. destruct (p_record s) eqn:P.
    + destruct (p_cycles s >=? 3) eqn:Y.
      * unfold init_node_map, plift. rewrite announce_eq. cbn [fst snd].
        assert (Q := PC_map c s i t E K). rewrite R in Q. specialize (Q ltac:(discriminate) P ltac:(apply Z.geb_le in Y; exact Y)). cbv zeta in Q.
        ds s. exact Q.
      * rewrite turn_eq by (destruct s; exact A). cbn [fst snd]. eapply PC_turn; [exact E|]. rewrite K.
        assert (Q := TT_rec c (pset_timers (remove_nth i (p_timers s)) s)). ds s. cbn [p_rts pset_timers p_timers p_record p_cycles p_angle p_map] in *. subst s_rts.
        apply Q; auto; [discriminate|]. rewrite Z.geb_leb in Y. apply Z.leb_gt in Y. exact Y.
    + rewrite grant_eq. cbn [fst snd].
      assert (Q := PC_grant c s i t E K). rewrite R in Q. specialize (Q ltac:(discriminate) P). cbv zeta in Q.
      ds s. cbn [p_rts pset_timers p_timers p_record p_uid p_now] in *. revert Q. pcb. rewrite <- app_assoc. auto.
Qed.

Lemma nodup_snoc (l : list kframe) f : NoDup (map kf_id l) -> (forall g, In g l -> kf_id g < kf_id f) -> NoDup (map kf_id (l ++ [f])).
Proof.
  induction l as [|g l IH]; intros N H; cbn [app map] in *.
  - constructor; [intros []|constructor].
  - inversion N as [|? ? N1 N2]; subst. constructor; [|apply IH; [auto|intros x X; apply H; right; auto]].
    rewrite map_app. intros I. apply in_app_or in I. destruct I as [I|[I|[]]]; [contradiction|]. cbn in I. specialize (H g (or_introl eq_refl)). lia.
Qed.

Lemma receive_eq c f s : p_receive_data c f (pset_state PIdle s) =
  let s1 := pset_state PIdle (pset_acks (p_acks s ++ [newack c f s]) (pset_ids (p_ids s + 1) s)) in
  let r := if (p_expect s =? Z.of_nat (length (p_acks s)) + 1) || negb (ac_ways c =? 3)
           then p_send_ack (pset_state PWaitTx (pcancel (p_sec s) s1)) else (s1, []) in
  (pset_filter (snd (is_new (p_filter (fst r)) (kf_src f) (kf_seq f))) (fst r),
   snd r ++ if fst (is_new (p_filter (fst r)) (kf_src f) (kf_seq f)) then [PUp f] else []).
Proof.
  unfold p_receive_data, pnew, pseq, plift. cbv zeta.
  replace (pctrl c T_ACK (kf_src f) (kf_seq f) 0 0 0 (pset_state PIdle s)) with (newack c f s) by (destruct s; reflexivity).
  replace (pset_ids (p_ids (pset_state PIdle s) + 1) (pset_state PIdle s)) with (pset_state PIdle (pset_ids (p_ids s + 1) s)) by (destruct s; reflexivity).
  replace (p_acks (pset_state PIdle (pset_ids (p_ids s + 1) s))) with (p_acks s) by (destruct s; reflexivity).
  set (ack := newack c f s).
  replace (pset_state PIdle (pset_acks (p_acks s ++ [ack]) (pset_state PIdle (pset_ids (p_ids s + 1) s))))
    with (pset_state PIdle (pset_acks (p_acks s ++ [ack]) (pset_ids (p_ids s + 1) s))) by (destruct s; reflexivity).
  replace (p_expect (pset_state PIdle (pset_acks (p_acks s ++ [ack]) (pset_ids (p_ids s + 1) s)))) with (p_expect s) by (destruct s; reflexivity).
  replace (p_sec (pset_state PIdle (pset_acks (p_acks s ++ [ack]) (pset_ids (p_ids s + 1) s)))) with (p_sec s) by (destruct s; reflexivity).
  replace (Z.of_nat (length (p_acks (pset_state PIdle (pset_acks (p_acks s ++ [ack]) (pset_ids (p_ids s + 1) s))))))
    with (Z.of_nat (length (p_acks s)) + 1)
    by (ds s; cbn [p_acks pset_state pset_acks pset_ids]; rewrite app_length; cbn [length]; lia).
  match goal with |- context [if ?b then ?x else ?y] => destruct (if b then x else y) as [s2 o2] end.
  cbn [fst snd]. destruct (is_new (p_filter s2) (kf_src f) (kf_seq f)) as [b l]. reflexivity.
Qed.

Lemma step_case c s ev : inv0 s -> pvalid s ev = true -> pcase c s ev (fst (pstep c s ev)) (snd (pstep c s ev)).
Proof.
  intros I V. pose proof (inv0_air s I) as A. destruct I as (I1 & I2 & I3 & I4).
  destruct ev as [| |f ok pw|i|t].
  - unfold pvalid in V. cbn [pstep]. unfold p_tx_done. destruct (p_air s) as [f|] eqn:F; [|discriminate V].
    destruct (I1 f eq_refl) as (S & T & _). unfold is_pstate. rewrite S, T, Z.eqb_refl. cbn [andb].
    destruct (kf_type f =? T_ACK) eqn:K.
    + apply Z.eqb_eq in K. destruct (p_acks s) as [|g r] eqn:G; cbn [fst snd].
      * eapply PC_txlast; eauto.
      * eapply PC_txmore; eauto. rewrite G. discriminate.
    + apply Z.eqb_neq in K. cbn [fst snd]. eapply PC_tx; eauto.
  - unfold pvalid in V. cbn [pstep]. unfold p_rx_start. destruct (p_air s) as [f|] eqn:F; [discriminate V|]. specialize (I2 eq_refl).
    replace (is_pstate PTx s) with false by (unfold is_pstate; destruct (p_state s); auto; contradiction).
    cbn [fst snd]. apply PC_rxstart. auto.
  - unfold pvalid in V. cbn [pstep]. destruct (p_air s) as [g|] eqn:F; [discriminate V|]. specialize (I2 eq_refl).
    unfold p_rx_end, pseq, plift.
    destruct ok; cbn [negb]; [|unfold pskip; cbn [fst snd app]; apply PC_rxnone; auto; discriminate].
    destruct (kf_type f =? T_RTS) eqn:K1.
    + apply Z.eqb_eq in K1. cbn [fst snd app]. replace (p_rts (pset_state PIdle s)) with (p_rts s) by (destruct s; reflexivity).
      apply PC_rxrts; auto.
    + apply Z.eqb_neq in K1. destruct (kf_type f =? T_DATA) eqn:K2.
      2:{ apply Z.eqb_neq in K2. unfold pskip; cbn [fst snd app]; apply PC_rxnone; auto. }
      apply Z.eqb_eq in K2.
      assert (N : NoDup (map kf_id (p_acks s ++ [newack c f s]))).
      { apply nodup_snoc; auto. intros g G. apply I3 in G. cbn. lia. }
      rewrite receive_eq. cbv zeta. cbn [fst snd app].
      assert (P : forall g, p_air (pset_state PWaitTx (pcancel (p_sec s) (pset_state PIdle (pset_acks (p_acks s ++ [newack c f s]) (pset_ids (p_ids s + 1) s))))) = Some g ->
        p_state (pset_state PWaitTx (pcancel (p_sec s) (pset_state PIdle (pset_acks (p_acks s ++ [newack c f s]) (pset_ids (p_ids s + 1) s))))) = PTx).
      { intros g G. exfalso. ds s. destruct s_sec; cbn in G, F; congruence. }
      destruct ((p_expect s =? Z.of_nat (length (p_acks s)) + 1) || negb (ac_ways c =? 3)) eqn:X.
      * assert (X' : ac_ways c <> 3 \/ p_expect s = Z.of_nat (length (p_acks s)) + 1).
        { apply orb_true_iff in X. destruct X as [X|X]; [right; apply Z.eqb_eq; auto|left; apply negb_true_iff in X; apply Z.eqb_neq; auto]. }
        destruct (p_acks s ++ [newack c f s]) as [|g r] eqn:L; [destruct (p_acks s); discriminate L|].
        pose proof (PC_dataack c s f pw g r F K2 X' L) as Q.
        rewrite send_ack_eq; [|exact P|ds s; destruct s_sec; exact N].
        replace (p_acks (pset_state PWaitTx (pcancel (p_sec s) (pset_state PIdle (pset_acks (g :: r) (pset_ids (p_ids s + 1) s)))))) with (g :: r)
          by (ds s; destruct s_sec; reflexivity).
        replace (cansend (pset_state PWaitTx (pcancel (p_sec s) (pset_state PIdle (pset_acks (g :: r) (pset_ids (p_ids s + 1) s)))))) with true
          by (ds s; destruct s_sec; cbn in F |- *; rewrite F; reflexivity).
        cbn [fst snd]. revert Q. unfold gotdata, upif. clear. unfold sent, pcancel. ds s; destruct s_sec; pcb; cbn [fst snd app]; intros Q; exact Q.
      * apply orb_false_iff in X. destruct X as [X1 X2]. apply Z.eqb_neq in X1. apply negb_false_iff, Z.eqb_eq in X2.
        cbn [fst snd app]. pose proof (PC_data c s f pw F K2 X2 X1) as Q. revert Q. unfold gotdata, upif. clear. ds s; pcb; intros Q; exact Q.
  - cbn [pstep]. destruct (nth_error (p_timers s) i) as [t|] eqn:E; [|apply PC_none; auto].
    assert (I : inv0 s) by (split; [|split]; auto).
    assert (AC : p_acks (pset_timers (remove_nth i (p_timers s)) s) = p_acks s) by (destruct s; reflexivity).
    assert (A' : forall g, p_air (pset_timers (remove_nth i (p_timers s)) s) = Some g -> p_state (pset_timers (remove_nth i (p_timers s)) s) = PTx) by (destruct s; exact A).
    assert (CS : cansend (pset_timers (remove_nth i (p_timers s)) s) = cansend s) by (destruct s; reflexivity).
    destruct (pt_kind t) as [ | | | |dst sq dur flag| |a dst] eqn:K; cbn [pfire].
    + rewrite turn_eq by exact A'. cbn [fst snd]. eapply PC_turn; [exact E|]. rewrite K. apply TT_turn.
    + pose proof (fire_wait c s i t I E K) as Q. cbn [pstep] in Q. rewrite E, K in Q. exact Q.
    + unfold sector_timeout. rewrite AC. destruct (p_acks s) as [|g r] eqn:G.
      * rewrite turn_eq by exact A'. cbn [fst snd]. eapply PC_turn; [exact E|]. rewrite K. apply TT_sec. exact AC.
      * rewrite send_ack_eq by (auto; rewrite AC; exact I4). rewrite AC, CS. destruct (cansend s) eqn:C; cbn [fst snd].
        -- eapply PC_ack; eauto. apply TA_sec; auto.
        -- eapply PC_lost; eauto. apply TA_sec; auto.
    + unfold data_timeout, pseq, plift. rewrite turn_eq. 2:{ ds s; destruct s_sec; exact A'. } cbn [fst snd app].
      eapply PC_turn; [exact E|]. rewrite K. replace (p_sec (pset_timers (remove_nth i (p_timers s)) s)) with (p_sec (pset_timers (remove_nth i (p_timers s)) s)) by reflexivity. apply TT_data.
    + unfold p_send_cts, pnew. rewrite send_eq_. 2:{ ds s; exact A'. } cbn [fst snd].
      pose proof (PC_cts c s i t dst sq dur flag E K) as Q. cbv zeta in Q. ds s. exact Q.
    + rewrite send_ack_eq by (auto; rewrite AC; exact I4). rewrite AC, CS. destruct (p_acks s) as [|g r] eqn:G.
      * cbn [fst snd]. eapply PC_ub; eauto.
      * destruct (cansend s) eqn:C; cbn [fst snd].
        -- eapply PC_ack; eauto. apply TA_ack; auto.
        -- eapply PC_lost; eauto. apply TA_ack; auto.
    + unfold feedback, pnew. rewrite send_eq_. 2:{ ds s; exact A'. } cbn [fst snd].
      pose proof (PC_feed c s i t a dst E K) as Q. cbv zeta in Q. ds s. exact Q.
  - cbn [pstep fst snd]. apply PC_tick.
Qed.
