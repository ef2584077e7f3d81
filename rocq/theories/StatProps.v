(** * Properties of the results file and of the traced throughput of a client *)
From Coq Require Import ZArith QArith List Bool Lia Lqa Permutation.
From Verif Require Import Base HeaderModel SeqModel EnergyModel MacModel ApModel ClientModel ClientSpec ClientCase ClientAcct ClientScript StatModel StatProofs StatClient.
Import ListNotations.
Open Scope Z_scope.

(** Packets reported, as sent or not, with the time of the report; packets accepted, with the time. *)
Definition reported (c : lcfg) (q0 : Z) (h : list (lenv * levent)) : list (bool * kframe * Z) := reps (llog c (linit q0) h).
Definition accepted (c : lcfg) (q0 : Z) (h : list (lenv * levent)) : list (kframe * Z) := accs (llog c (linit q0) h).

(** * C123: the results file has a line for each packet reported *)
(** The line of a report: bytes of the packet less 53 bytes of headers; delay in ns if it was sent. *)
Definition line_of (c : lcfg) (q0 : Z) (h : list (lenv * levent)) (l : line) (r : bool * kframe * Z) : Prop :=
  let '(ok, p, t) := r in
  exists t0, In (p, t0) (accepted c q0 h) /\ ln_size l = kf_size p - 53 /\ ln_ok l = ok /\ ln_delay l = (if ok then Z.quot (t - t0) 1000000 else 0).
Definition C123_full := forall c q0 h s o, 0 <= q0 < 65536 -> lreach ontime c q0 h s o ->
  (forall p t, In (p, t) (accepted c q0 h) -> 53 <= kf_size p < 65536) -> (forall t, In t (l_timers s) -> lt_kind t <> LKResult) ->
  Forall2 (line_of c q0 h) (lines_of (lstats c q0 h)) (reported c q0 h).

(** Two packets of which both timeouts for the acknowledgement come at the same instant: the line of the second is written twice. *)
Definition enqs (n : Z) : xcmd := XIn 0 ee (LEEnq n 0).
Definition twice : list xcmd := [enqs 15000; enqs 16000; enqs 17000] ++ ask ++ rx (20 * nsec) (cts 1 1 30) ++ rx 0 (cts 1 2 1000) ++
  [fire; txd (400 * nsec); fire; txd (400 * nsec); fire; fire; fire; fire; fire; fire].
Lemma C123_inst c q0 l : C123_full -> x_ok c q0 l = true -> 0 <= q0 < 65536 ->
  forallb (fun x => (53 <=? kf_size (fst x)) && (kf_size (fst x) <? 65536)) (accepted c q0 (x_run c q0 l)) = true ->
  forallb (fun t => match lt_kind t with LKResult => false | _ => true end) (l_timers (x_st c q0 l)) = true ->
  forall x y, In x (firstn 1 (lines_of (lstats c q0 (x_run c q0 l)))) -> In y (firstn 1 (reported c q0 (x_run c q0 l))) -> ln_size x = kf_size (snd (fst y)) - 53.
Proof.
  intros H T U A B. specialize (H c q0 _ _ _ U (x_reach _ _ _ T)).
  assert (F : Forall2 (line_of c q0 (x_run c q0 l)) (lines_of (lstats c q0 (x_run c q0 l))) (reported c q0 (x_run c q0 l))).
  { apply H.
    - intros p t I. rewrite forallb_forall in A. apply A in I. apply andb_true_iff in I. destruct I as [I1 I2]. apply Z.leb_le in I1. apply Z.ltb_lt in I2. auto.
    - intros t I E. rewrite forallb_forall in B. apply B in I. rewrite E in I. discriminate I. }
  intros x y I J. destruct F as [|a b L R X F]; [contradiction|]. destruct I as [<-|[]], J as [<-|[]]. destruct b as [[ok p] t]. destruct X as (t0 & _ & X & _). exact X.
Qed.
Theorem C123_results_refuted : ~ C123_full.
Proof.
  intros H.
  pose proof (C123_inst (lex 3 7 1) 0 twice H ltac:(vm_compute; reflexivity) ltac:(lia) ltac:(vm_compute; reflexivity) ltac:(vm_compute; reflexivity)) as X.
  assert (E1 : firstn 1 (lines_of (lstats (lex 3 7 1) 0 (x_run (lex 3 7 1) 0 twice))) = [Line 15964 0 false]) by (vm_compute; reflexivity).
  assert (E2 : exists y, firstn 1 (reported (lex 3 7 1) 0 (x_run (lex 3 7 1) 0 twice)) = [y] /\ kf_size (snd (fst y)) = 15017).
  { eexists. split; [vm_compute; reflexivity|reflexivity]. }
  destruct E2 as (y & E2 & E3). rewrite E1, E2 in X. specialize (X _ y (or_introl eq_refl) (or_introl eq_refl)). rewrite E3 in X. cbn [ln_size] in X. lia.
Qed.
Print Assumptions C123_results_refuted.
(** There is no undefined behaviour in that execution: the two lines are written, the first with the data of the second packet. *)
Example C123_refuted_clean : ~ In LUb (x_out (lex 3 7 1) 0 twice) /\
  map (fun l => ln_size l) (lines_of (lstats (lex 3 7 1) 0 (x_run (lex 3 7 1) 0 twice))) = [15964; 15964] /\
  map (fun r => kf_size (snd (fst r)) - 53) (reported (lex 3 7 1) 0 (x_run (lex 3 7 1) 0 twice)) = [14964; 15964].
Proof. vm_compute. repeat split. intuition discriminate. Qed.

(** It holds if SendDataDone finds records at different instants only; the reports are those of the outputs. *)
Theorem C123_results_partial : forall c q0 h s o, 0 <= q0 < 65536 -> lreach ontime c q0 h s o ->
  (forall p t, In (p, t) (accepted c q0 h) -> 53 <= kf_size p < 65536) -> (forall t, In t (l_timers s) -> lt_kind t <> LKResult) ->
  NoDup (marks (llog c (linit q0) h)) ->
  Forall2 (line_of c q0 h) (lines_of (lstats c q0 h)) (reported c q0 h).
Proof.
  intros c q0 h s o U R SZ NT ND. destruct (log_ok _ _ _ _ _ _ U R) as [K D]. destruct (ww_reach _ _ _ _ _ R ND) as (W & _ & PN).
  pose proof (lines_ww kf_id kf_size _ K D W) as X. destruct (pnd false (llog c (linit q0) h)).
  - exfalso. destruct PN as [PN _]. destruct (rtm s) as [|t l] eqn:E; [discriminate PN|]. assert (I : In t (rtm s)) by (rewrite E; left; auto).
    apply filter_In in I. destruct I as [I J]. apply (NT t I). unfold isres in J. destruct (lt_kind t); try discriminate J. reflexivity.
  - unfold lstats, reported. revert X. generalize (lines_of (snd (srun kf_id kf_size stat0 (llog c (linit q0) h)))), (reps (llog c (linit q0) h)).
    intros L Rp X. induction X as [|l [[ok p] t] L Rp (t0 & I & E) X IH]; constructor; auto. subst l. exists t0. split; [exact I|]. cbn [ln_size ln_ok ln_delay].
    pose proof (SZ p t0 I) as B. unfold wrap16. change (2 ^ 16) with 65536. rewrite (Z.mod_small (kf_size p)) by lia. rewrite Z.mod_small by lia. auto.
Qed.
Print Assumptions C123_results_partial.
(** The reports of the log are those of the outputs. *)
Theorem C123_reports : forall c q0 h s o, lreach ontime c q0 h s o -> forall b, map (fun r => snd (fst r)) (filter (fun r => eqb b (fst (fst r))) (reported c q0 h)) = lrep_of b o.
Proof.
  intros c q0 h s o R b. unfold reported. induction R as [|h s o e ev R IH V HP]; [reflexivity|].
  rewrite (llog_snoc _ _ _ _ _ _ _ _ R), reps_app, filter_app, map_app, IH, lrep_app. f_equal.
  unfold llogx. rewrite !reps_app.
  assert (X : reps match ekind s ev with Some LKResult => [@SWrite kframe] | _ => [] end = []) by (destruct (ekind s ev) as [[]|]; reflexivity). rewrite X. cbn [app].
  assert (Y : reps (match ekind s ev with Some (LKDone _ sq) => if existsb (fun r => kf_seq (lr_pkt r) =? sq) (l_rec s) && negb (l_res (fst (lstep c e s ev))) then [@SEmpty kframe (l_now s)] else [] | _ => [] end) = [])
    by (destruct (ekind s ev) as [[]|]; try reflexivity; destruct (_ && _); reflexivity).
  rewrite Y, app_nil_r. clear. induction (snd (lstep c e s ev)) as [|x o IH]; [reflexivity|].
  cbn [flat_map]. rewrite reps_app, filter_app, map_app, IH. destruct x; try reflexivity. cbn. destruct b, ok; reflexivity.
Qed.
Print Assumptions C123_reports.
(** Two packets sent one after the other. *)
Definition good : list xcmd := [enqs 15000; enqs 16000; enqs 17000] ++ ask ++ tell 1 30 ++ end_ok 1 ++ ask ++ tell 2 30 ++ end_ok 2.
Example C123_example : x_ok cl3 0 good = true /\ NoDup (marks (llog cl3 (linit 0) (x_run cl3 0 good))) /\
  map (fun l => (ln_size l, ln_ok l)) (lines_of (lstats cl3 0 (x_run cl3 0 good))) = [(14964, true); (15964, true)] /\
  existsb isres (l_timers (x_st cl3 0 good)) = false.
Proof.
  split; [vm_compute; reflexivity|]. split; [|split; vm_compute; reflexivity].
  assert (E : exists a b, marks (llog cl3 (linit 0) (x_run cl3 0 good)) = [a; b] /\ (a =? b) = false) by (do 2 eexists; split; [vm_compute; reflexivity|reflexivity]).
  destruct E as (a & b & -> & E). apply Z.eqb_neq in E. repeat constructor; cbn; intuition.
Qed.

(** * C124: the size on a line is that of the payload *)
(** A packet handed to the client has [hd] bytes of headers: UDP 8, IP 20 or 40 (version 6), LLC/SNAP 8; no fragments. *)
Definition C124_full := forall hd c q0 h s o l, hd = 8 + 20 + 8 \/ hd = 8 + 40 + 8 -> 0 <= q0 < 65536 -> lreach ontime c q0 h s o ->
  (forall e size dst, In (e, LEEnq size dst) h -> hd <= size <= 60008) -> In l (lines_of (lstats c q0 h)) ->
  exists e n dst, In (e, LEEnq (n + hd) dst) h /\ ln_size l = n.
(** The client always takes off 53 bytes. *)
Lemma C124_inst c q0 xs : C124_full -> x_ok c q0 xs = true -> 0 <= q0 < 65536 ->
  forallb (fun x => match snd x with LEEnq size _ => (56 <=? size) && (size <=? 60008) | _ => true end) (x_run c q0 xs) = true ->
  forall l, In l (lines_of (lstats c q0 (x_run c q0 xs))) ->
  existsb (fun x => match snd x with LEEnq size _ => size =? ln_size l + 56 | _ => false end) (x_run c q0 xs) = true.
Proof.
  intros H T U A l I. destruct (H 56 c q0 _ _ _ l (or_intror eq_refl) U (x_reach _ _ _ T)) as (e & n & dst & J & E); auto.
  - intros e size dst J. rewrite forallb_forall in A. apply A in J. cbn [snd] in J. apply andb_true_iff in J. destruct J as [J1 J2]. apply Z.leb_le in J1, J2. lia.
  - apply existsb_exists. exists (e, LEEnq (n + 56) dst). split; auto. cbn [snd]. rewrite E. apply Z.eqb_refl.
Qed.
Theorem C124_payload_refuted : ~ C124_full.
Proof.
  intros H.
  pose proof (C124_inst cl3 0 good H ltac:(vm_compute; reflexivity) ltac:(lia) ltac:(vm_compute; reflexivity)) as X.
  assert (E : exists l r, lines_of (lstats cl3 0 (x_run cl3 0 good)) = l :: r /\
    existsb (fun x => match snd x with LEEnq size _ => size =? ln_size l + 56 | _ => false end) (x_run cl3 0 good) = false).
  { do 2 eexists. split; [vm_compute; reflexivity|vm_compute; reflexivity]. }
  destruct E as (l & r & E1 & E2). rewrite E1 in X. rewrite (X l (or_introl eq_refl)) in E2. discriminate E2.
Qed.
Print Assumptions C124_payload_refuted.
(** It holds for UDP over IPv4, with no restriction on times. *)
Theorem C124_payload_partial : forall c q0 h s o l, 0 <= q0 < 65536 -> lreach freely c q0 h s o ->
  (forall e size dst, In (e, LEEnq size dst) h -> 36 <= size <= 60008) -> In l (lines_of (lstats c q0 h)) ->
  exists e n dst, In (e, LEEnq (n + (8 + 20 + 8)) dst) h /\ ln_size l = n.
Proof.
  intros c q0 h s o l U R SZ I. destruct (lines_size kf_id kf_size (llog c (linit q0) h) l (or_introl I)) as (p & t0 & A & E).
  destruct (accs_from _ _ _ _ _ _ _ _ R A) as (e & size & dst & J & _ & K). pose proof (SZ _ _ _ J) as B.
  exists e, (size - 36), dst. split; [replace (size - 36 + (8 + 20 + 8)) with size by lia; auto|].
  rewrite E, K. unfold wrap16. change (2 ^ 16) with 65536. rewrite (Z.mod_small (size + 17)) by lia. rewrite Z.mod_small by lia. lia.
Qed.
Print Assumptions C124_payload_partial.
Example C124_example : map (fun l => ln_size l) (lines_of (lstats cl3 0 (x_run cl3 0 good))) = [15000 - 36; 16000 - 36].
Proof. vm_compute. reflexivity. Qed.

(** * C125: the traced throughput is the mean of the rates of the packets sent *)
(** Packets reported as sent, with the time of the report. *)
Definition sent_at (c : lcfg) (q0 : Z) (h : list (lenv * levent)) : list (kframe * Z) := sents (llog c (linit q0) h).
Theorem C125_traced : forall c q0 h s o, 0 <= q0 < 65536 -> lreach freely c q0 h s o -> (forall p t, In (p, t) (accepted c q0 h) -> 0 <= kf_size p < 65536) ->
  exists X, Forall2 (fun x r => exists t0, In (fst r, t0) (accepted c q0 h) /\ (x == inject_Z ((kf_size (fst r) - 53) * 8 * 10 ^ 15) / inject_Z (snd r - t0))%Q) X (sent_at c q0 h) /\
    length (traced_of (lstats c q0 h)) = length X /\
    forall n, (n < length X)%nat -> (nth n (traced_of (lstats c q0 h)) 0 == qsum (firstn (S n) X) / inject_Z (Z.of_nat (S n)))%Q.
Proof.
  intros c q0 h s o U R SZ. destruct (log_ok _ _ _ _ _ _ U R) as [K D]. destruct (traced kf_id kf_size _ K D) as (X & A1 & _ & _ & A4 & A5).
  exists X. split; [|auto]. unfold sent_at. clear A4 A5. induction A1 as [|x r L Rp (t0 & I & E) A1 IH]; constructor; auto.
  exists t0. split; [exact I|]. rewrite E. unfold rate. pose proof (SZ _ _ I) as B. unfold wrap16. change (2 ^ 16) with 65536. rewrite (Z.mod_small (kf_size (fst r))) by lia. reflexivity.
Qed.
Print Assumptions C125_traced.
Example C125_example : length (sent_at cl3 0 (x_run cl3 0 good)) = 2%nat /\ length (traced_of (lstats cl3 0 (x_run cl3 0 good))) = 2%nat /\
  forallb (fun q => Qle_bool 1 q) (traced_of (lstats cl3 0 (x_run cl3 0 good))) = true.
Proof. vm_compute. auto. Qed.

(** * C126: the traced throughput is what has been delivered by the time that has passed *)
(** Bits of payload of the packets reported as sent; what they make per second since the start. *)
Definition bits (l : list (kframe * Z)) : Z := fold_right (fun r a => (kf_size (fst r) - 53) * 8 + a) 0 l.
Definition goodput (c : lcfg) (q0 : Z) (h : list (lenv * levent)) (now : Z) : Q := (inject_Z (bits (sent_at c q0 h) * 10 ^ 15) / inject_Z now)%Q.
Definition C126_over_full := forall c q0 h s o a l, 0 <= q0 < 65536 -> lreach ontime c q0 h s o ->
  (forall p t, In (p, t) (accepted c q0 h) -> 53 <= kf_size p < 65536) -> traced_of (lstats c q0 h) = l ++ [a] -> 0 < l_now s ->
  (a <= goodput c q0 h (l_now s))%Q.
Definition C126_under_full := forall c q0 h s o a l, 0 <= q0 < 65536 -> lreach ontime c q0 h s o ->
  (forall p t, In (p, t) (accepted c q0 h) -> 53 <= kf_size p < 65536) -> traced_of (lstats c q0 h) = l ++ [a] -> 0 < l_now s ->
  (goodput c q0 h (l_now s) <= a)%Q.
Lemma C126_inst c q0 xs : x_ok c q0 xs = true -> 0 <= q0 < 65536 ->
  forallb (fun x => (53 <=? kf_size (fst x)) && (kf_size (fst x) <? 65536)) (accepted c q0 (x_run c q0 xs)) = true -> 0 <? l_now (x_st c q0 xs) = true ->
  forall l a, traced_of (lstats c q0 (x_run c q0 xs)) = l ++ [a] ->
  (C126_over_full -> Qle_bool a (goodput c q0 (x_run c q0 xs) (l_now (x_st c q0 xs))) = true) /\
  (C126_under_full -> Qle_bool (goodput c q0 (x_run c q0 xs) (l_now (x_st c q0 xs))) a = true).
Proof.
  intros T U A N l a E. apply Z.ltb_lt in N.
  assert (SZ : forall p t, In (p, t) (accepted c q0 (x_run c q0 xs)) -> 53 <= kf_size p < 65536).
  { intros p t I. rewrite forallb_forall in A. apply A in I. apply andb_true_iff in I. destruct I as [I1 I2]. apply Z.leb_le in I1. apply Z.ltb_lt in I2. auto. }
  split; intros H; apply Qle_bool_iff; apply (H c q0 _ _ _ a l U (x_reach _ _ _ T)); auto.
Qed.
(** A source that is idle after its packet. *)
Definition idle : list xcmd := [enqs 15000; enqs 16000] ++ ask ++ tell 1 30 ++ end_ok 1 ++ [XIn (10 ^ 12) ee (LEEnq 15000 0)].
Theorem C126_over_refuted : ~ C126_over_full.
Proof.
  intros H.
  assert (E : exists a, traced_of (lstats cl3 0 (x_run cl3 0 idle)) = [] ++ [a] /\ Qle_bool a (goodput cl3 0 (x_run cl3 0 idle) (l_now (x_st cl3 0 idle))) = false).
  { eexists. split; [vm_compute; reflexivity|vm_compute; reflexivity]. }
  destruct E as (a & E1 & E2).
  destruct (C126_inst cl3 0 idle ltac:(vm_compute; reflexivity) ltac:(lia) ltac:(vm_compute; reflexivity) ltac:(vm_compute; reflexivity) _ _ E1) as [X _].
  rewrite (X H) in E2. discriminate E2.
Qed.
Print Assumptions C126_over_refuted.
(** A source that always has packets: the time spent in the queue counts for each. *)
Theorem C126_under_refuted : ~ C126_under_full.
Proof.
  intros H.
  assert (E : exists b a, traced_of (lstats cl3 0 (x_run cl3 0 good)) = [b] ++ [a] /\ Qle_bool (goodput cl3 0 (x_run cl3 0 good) (l_now (x_st cl3 0 good))) a = false).
  { do 2 eexists. split; [vm_compute; reflexivity|vm_compute; reflexivity]. }
  destruct E as (b & a & E1 & E2).
  destruct (C126_inst cl3 0 good ltac:(vm_compute; reflexivity) ltac:(lia) ltac:(vm_compute; reflexivity) ltac:(vm_compute; reflexivity) _ _ E1) as [_ X].
  rewrite (X H) in E2. discriminate E2.
Qed.
Print Assumptions C126_under_refuted.

(** Times of the log are between the start and now. *)
Lemma log_times c q0 h s o : lreach ontime c q0 h s o -> 0 <= l_now s /\
  (forall p t, In (p, t) (accepted c q0 h) -> 0 <= t <= l_now s) /\ (forall p t, In (p, t) (sent_at c q0 h) -> t <= l_now s).
Proof.
  unfold accepted, sent_at. intros R. induction R as [|h s o e ev R (IH0 & IH1 & IH2) V HP]; [cbn; repeat split; intros; try contradiction; lia|].
  assert (LE : l_now s <= l_now (fst (lstep c e s ev))).
  { destruct (ClientNeg.step_rx _ _ _ _ _ _ (step_lcase c e s ev V)) as [[->|E] _]; [lia|].
    rewrite E in HP. unfold ontime, ltimely in HP. apply andb_true_iff in HP. destruct HP as [HP _]. apply Z.leb_le in HP. auto. }
  rewrite (llog_snoc _ _ _ _ _ _ _ _ R), accs_app, sents_app. set (s' := fst (lstep c e s ev)) in *. set (o' := snd (lstep c e s ev)).
  assert (A : forall x, In x (llogx s ev s' o') -> match x with SAcc _ t => t = l_now s | SRep _ _ t => t = l_now s | _ => True end).
  { intros x I. unfold llogx in I. rewrite !in_app_iff in I. destruct I as [I|[I|I]].
    - destruct (ekind s ev) as [[]|]; try contradiction. destruct I as [<-|[]]. auto.
    - apply in_flat_map in I. destruct I as [y [_ I]]. destruct y; cbn in I; try contradiction; destruct I as [<-|[]]; auto.
    - destruct (ekind s ev) as [[]|]; try contradiction. destruct (_ && _); [destruct I as [<-|[]]; auto|contradiction]. }
  repeat split; try lia.
  - apply in_app_or in H. destruct H as [H|H]; [apply IH1 in H; lia|]. unfold accs in H. apply in_flat_map in H. destruct H as [x [H X]]. apply A in H.
    destruct x; try contradiction. destruct X as [X|[]]. injection X as -> ->. lia.
  - apply in_app_or in H. destruct H as [H|H]; [apply IH1 in H; lia|]. unfold accs in H. apply in_flat_map in H. destruct H as [x [H X]]. apply A in H.
    destruct x; try contradiction. destruct X as [X|[]]. injection X as -> ->. lia.
  - intros p t H. apply in_app_or in H. destruct H as [H|H]; [apply IH2 in H; lia|]. unfold sents in H. apply in_flat_map in H. destruct H as [x [H X]]. apply A in H.
    destruct x as [|[]| |]; try contradiction. destruct X as [X|[]]. injection X as -> ->. lia.
Qed.
Lemma rate_le (b t T : Z) : 0 <= b -> 0 < t <= T -> (inject_Z b / inject_Z T <= inject_Z b / inject_Z t)%Q.
Proof.
  intros B [T1 T2]. unfold Qdiv. rewrite (Qmult_comm (inject_Z b)), (Qmult_comm (inject_Z b)). apply Qmult_le_compat_r; [|change 0%Q with (inject_Z 0); rewrite <- Zle_Qle; auto].
  destruct t as [|t|t]; try lia. destruct T as [|T|T]; try lia. change ((1 # T) <= (1 # t))%Q. unfold Qle. cbn [Qnum Qden]. lia.
Qed.

(** What holds: the traced value, times the number of packets sent, is at least what has been delivered by the time that has passed.
    A delay of 0 gives an infinite rate in the code. *)
Theorem C126_under_partial : forall c q0 h s o a l, 0 <= q0 < 65536 -> lreach ontime c q0 h s o ->
  (forall p t, In (p, t) (accepted c q0 h) -> 53 <= kf_size p < 65536) ->
  (forall p t t0, In (p, t) (sent_at c q0 h) -> In (p, t0) (accepted c q0 h) -> t0 < t) ->
  traced_of (lstats c q0 h) = l ++ [a] ->
  (goodput c q0 h (l_now s) <= inject_Z (Z.of_nat (length (sent_at c q0 h))) * a)%Q.
Proof.
  intros c q0 h s o a l U R SZ POS TR.
  destruct (C125_traced c q0 h s o U (lreach_weaken ontime freely _ _ _ _ _ (fun _ _ _ => I) R)) as (X & F & L & M).
  { intros p t I0. apply SZ in I0. lia. }
  destruct (log_times _ _ _ _ _ R) as (N0 & N1 & N2).
  assert (LX : length X = length (sent_at c q0 h)) by (clear - F; induction F; cbn; auto).
  assert (LL : length X = S (length l)) by (rewrite <- L, TR, app_length; cbn; lia).
  assert (EA : (a == qsum X / inject_Z (Z.of_nat (length X)))%Q).
  { specialize (M (length l) ltac:(lia)). rewrite TR in M. rewrite app_nth2, Nat.sub_diag in M by lia. cbn [nth] in M. rewrite <- LL, firstn_all in M. exact M. }
  assert (EM : (inject_Z (Z.of_nat (length (sent_at c q0 h))) * a == qsum X)%Q).
  { rewrite EA, <- LX. field. intros E. unfold Qeq, inject_Z in E. cbn [Qnum Qden] in E. lia. }
  rewrite EM. clear M EA EM TR L LL LX. unfold goodput.
  assert (G : forall Y S, Forall2 (fun x r => exists t0, In (fst r, t0) (accepted c q0 h) /\ (x == inject_Z ((kf_size (fst r) - 53) * 8 * 10 ^ 15) / inject_Z (snd r - t0))%Q) Y S ->
    incl S (sent_at c q0 h) -> (inject_Z (bits S * 10 ^ 15) / inject_Z (l_now s) <= qsum Y)%Q).
  { intros Y S FF. induction FF as [|x r Y S (t0 & J & E) FF IH]; intros INC.
    - cbn [bits fold_right qsum]. unfold Qdiv. change (inject_Z (0 * 10 ^ 15)) with 0%Q. rewrite Qmult_0_l. apply Qle_refl.
    - cbn [qsum]. change (bits (r :: S)) with ((kf_size (fst r) - 53) * 8 + bits S). rewrite Z.mul_add_distr_r, inject_Z_plus.
      unfold Qdiv. rewrite Qmult_plus_distr_l. apply Qplus_le_compat.
      + rewrite E. assert (J' : In (fst r, snd r) (sent_at c q0 h)) by (rewrite <- surjective_pairing; apply INC; left; auto).
        apply rate_le; [pose proof (SZ _ _ J); lia|]. pose proof (POS _ _ _ J' J). pose proof (N1 _ _ J). pose proof (N2 _ _ J'). lia.
      + apply IH. intros y I0. apply INC. right. auto. }
  apply (G X _ F). intros y I0. exact I0.
Qed.
Print Assumptions C126_under_partial.
Example C126_example : exists b a, traced_of (lstats cl3 0 (x_run cl3 0 good)) = [b; a] /\
  Qle_bool (goodput cl3 0 (x_run cl3 0 good) (l_now (x_st cl3 0 good))) (2 * a) = true /\
  forallb (fun x => forallb (fun y => negb (kf_id (fst x) =? kf_id (fst y)) || (snd y <? snd x)) (accepted cl3 0 (x_run cl3 0 good))) (sent_at cl3 0 (x_run cl3 0 good)) = true.
Proof. do 2 eexists. split; [vm_compute; reflexivity|]. split; [vm_compute; reflexivity|vm_compute; reflexivity]. Qed.
