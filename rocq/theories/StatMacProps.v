(** * Properties of the results file and of the traced throughput of the macro MAC *)
From Coq Require Import ZArith QArith List Bool Lia.
From Verif Require Import Base HeaderModel SeqModel EnergyModel MacModel MacSpec MacAcct MacScript MacProps StatModel StatProofs StatMac.
Import ListNotations.
Open Scope Z_scope.

(** Packets reported, as sent or not, with the time of the report; packets accepted, with the time. *)
Definition m_reported (c : mcfg) (q0 : Z) (h : list (menv * mevent)) : list (bool * mframe * Z) := reps (mlog c (minit q0) h).
Definition m_accepted (c : mcfg) (q0 : Z) (h : list (menv * mevent)) : list (mframe * Z) := accs (mlog c (minit q0) h).

(** * C127: the results file has a line for each packet reported *)
Definition m_line (c : mcfg) (q0 : Z) (h : list (menv * mevent)) (l : line) (r : bool * mframe * Z) : Prop :=
  let '(ok, p, t) := r in
  exists t0, In (p, t0) (m_accepted c q0 h) /\ ln_size l = mf_size p - 53 /\ ln_ok l = ok /\ ln_delay l = (if ok then Z.quot (t - t0) 1000000 else 0).
(** ... and it is written without dereferencing the end of an empty list. *)
Definition C127_full := forall c q0 h s o, 0 <= q0 < 65536 -> mway true c q0 h s o ->
  (forall p t, In (p, t) (m_accepted c q0 h) -> 53 <= mf_size p < 65536) -> (forall t, In t (m_timers s) -> mt_kind t <> MKResult) ->
  Forall2 (m_line c q0 h) (lines_of (mstats c q0 h)) (m_reported c q0 h) /\ ~ In OBad (mstats c q0 h).

(** The fifth attempt: a second RTS while the timeout of the first is running; the CTS cancels the first timeout. The ACK comes half a picosecond
    before the second timeout, which takes the packet off the queue before SendDataDone runs. *)
Definition mslow : mcfg := Mcfg 1 true (4000 * nsec) 0 0 (fun _ => 2 * nsec) (fun _ => 812 * nsec) (1000000000 * nsec) 10000 7 5.
Definition miss : list xcmd := [XFire; XFire; XFire; XIn (2 * nsec) ETxDone; XFire].
Definition late : list xcmd := [XFire; XAt (2200 * nsec) (EEnq 15000 2 0)] ++ miss ++ miss ++ miss ++ miss ++
  [XFire; XFire; XFire; XIn (2 * nsec) ETxDone; XIn nsec ERxStart; XIn 0 (ERxEnd (Mframe T_ACK 2 9 1 0 17 77) false); XFire; XFire; XIn (2 * nsec) ETxDone;
   XIn (66 * nsec) ERxStart; XIn (2 * nsec) (ERxEnd (Mframe T_CTS 2 1 1 0 17 77) true); XFire; XIn (812 * nsec) ETxDone;
   XIn nsec ERxStart; XAt 30656560500 (ERxEnd (Mframe T_ACK 2 1 1 0 17 78) true); XFire; XFire; XFire; XFire; XFire].
Lemma C127_inst c q0 l : C127_full -> x_ok c q0 l = true -> 0 <= q0 < 65536 ->
  forallb (fun x => (53 <=? mf_size (fst x)) && (mf_size (fst x) <? 65536)) (m_accepted c q0 (xrun c q0 l)) = true ->
  forallb (fun t => match mt_kind t with MKResult => false | _ => true end) (m_timers (x_st c q0 l)) = true ->
  existsb (fun x => match x with OBad => true | _ => false end) (mstats c q0 (xrun c q0 l)) = false.
Proof.
  intros H T U A B. destruct (H c q0 _ _ _ U (x_way _ _ _ T)) as [_ X].
  - intros p t I. rewrite forallb_forall in A. apply A in I. apply andb_true_iff in I. destruct I as [I1 I2]. apply Z.leb_le in I1. apply Z.ltb_lt in I2. auto.
  - intros t I E. rewrite forallb_forall in B. apply B in I. rewrite E in I. discriminate I.
  - destruct (existsb _ _) eqn:E; auto. exfalso. apply X. apply existsb_exists in E. destruct E as [x [E1 E2]]. destruct x; try discriminate E2. exact E1.
Qed.
Theorem C127_results_refuted : ~ C127_full.
Proof.
  intros H.
  pose proof (C127_inst mslow 0 late H ltac:(vm_compute; reflexivity) ltac:(lia) ltac:(vm_compute; reflexivity) ltac:(vm_compute; reflexivity)) as X.
  assert (E : existsb (fun x => match x with OBad => true | _ => false end) (mstats mslow 0 (xrun mslow 0 late)) = true) by (vm_compute; reflexivity).
  rewrite E in X. discriminate X.
Qed.
Print Assumptions C127_results_refuted.
(** The packet, though acknowledged, is then reported as discarded. *)
Example C127_refuted_report : map (fun r => (fst (fst r), mf_seq (snd (fst r)))) (m_reported mslow 0 (xrun mslow 0 late)) = [(false, 1)] /\
  lines_of (mstats mslow 0 (xrun mslow 0 late)) = [Line 14964 0 false].
Proof. vm_compute. auto. Qed.

(** It holds if packets are reported at different instants and SendDataDone does not find the queue empty. *)
Theorem C127_results_partial : forall c q0 h s o, 0 <= q0 < 65536 -> mway true c q0 h s o ->
  (forall p t, In (p, t) (m_accepted c q0 h) -> 53 <= mf_size p < 65536) -> (forall t, In t (m_timers s) -> mt_kind t <> MKResult) ->
  NoDup (map snd (m_reported c q0 h)) -> (forall t, ~ In (SEmpty t) (mlog c (minit q0) h)) ->
  Forall2 (m_line c q0 h) (lines_of (mstats c q0 h)) (m_reported c q0 h) /\ ~ In OBad (mstats c q0 h).
Proof.
  intros c q0 h s o U R SZ NT ND NE. destruct (mlog_ok _ _ _ _ _ _ U R) as [K D]. destruct (ww_mway _ _ _ _ _ R ND NE) as (W & PN).
  split; [|apply (ww_good mf_id mf_size); auto].
  pose proof (lines_ww mf_id mf_size _ K D W) as X. destruct (pnd false (mlog c (minit q0) h)).
  - exfalso. destruct PN as [PN _]. destruct (mrt s) as [|t l] eqn:E; [discriminate PN|]. assert (I : In t (mrt s)) by (rewrite E; left; auto).
    apply filter_In in I. destruct I as [I J]. apply (NT t I). unfold mres in J. destruct (mt_kind t); try discriminate J. reflexivity.
  - unfold mstats, m_reported. revert X. generalize (lines_of (snd (srun mf_id mf_size stat0 (mlog c (minit q0) h)))), (reps (mlog c (minit q0) h)).
    intros L Rp X. induction X as [|l [[ok p] t] L Rp (t0 & I & E) X IH]; constructor; auto. subst l. exists t0. split; [exact I|]. cbn [ln_size ln_ok ln_delay].
    pose proof (SZ p t0 I) as B. unfold wrap16. change (2 ^ 16) with 65536. rewrite (Z.mod_small (mf_size p)) by lia. rewrite Z.mod_small by lia. auto.
Qed.
Print Assumptions C127_results_partial.
(** The reports of the log are those of the outputs. *)
Theorem C127_reports : forall c q0 h s o, mway true c q0 h s o -> forall b, map (fun r => snd (fst r)) (filter (fun r => eqb b (fst (fst r))) (m_reported c q0 h)) = rep_of b o.
Proof. intros c q0 h s o R b. exact (reps_mlog _ _ _ _ _ _ R b). Qed.
Print Assumptions C127_reports.

(** Two packets, the second for all nodes. *)
Definition two : list xcmd := [XFire; XAt 0 (EEnq 15000 2 0); XAt 0 (EEnq 16000 bcast 0); XFire; XFire; XFire; XFire; XIn (812 * nsec) ETxDone; XIn (34 * nsec) ERxStart;
   XIn (2 * nsec) (ERxEnd (Mframe T_ACK 2 1 1 0 17 77) true); XFire; XFire; XFire; XFire; XFire; XIn (812 * nsec) ETxDone; XFire].
Example C127_example : x_ok (mex false 1) 0 two = true /\ map (fun r => (fst (fst r), mf_seq (snd (fst r)))) (m_reported (mex false 1) 0 (xrun (mex false 1) 0 two)) = [(true, 1); (true, 2)] /\
  map (fun l => (ln_size l, ln_ok l)) (lines_of (mstats (mex false 1) 0 (xrun (mex false 1) 0 two))) = [(14964, true); (15964, true)] /\
  existsb (fun x => match x with SEmpty _ => true | _ => false end) (mlog (mex false 1) (minit 0) (xrun (mex false 1) 0 two)) = false /\
  existsb mres (m_timers (x_st (mex false 1) 0 two)) = false /\
  match map snd (m_reported (mex false 1) 0 (xrun (mex false 1) 0 two)) with [a; b] => a <? b | _ => false end = true.
Proof. vm_compute. auto 10. Qed.

(** * C128: the traced throughput is the mean of the rates of the packets sent *)
Definition m_sent_at (c : mcfg) (q0 : Z) (h : list (menv * mevent)) : list (mframe * Z) := sents (mlog c (minit q0) h).
Theorem C128_traced : forall c q0 h s o, 0 <= q0 < 65536 -> mway false c q0 h s o -> (forall p t, In (p, t) (m_accepted c q0 h) -> 0 <= mf_size p < 65536) ->
  exists X, Forall2 (fun x r => exists t0, In (fst r, t0) (m_accepted c q0 h) /\ (x == inject_Z ((mf_size (fst r) - 53) * 8 * 10 ^ 15) / inject_Z (snd r - t0))%Q) X (m_sent_at c q0 h) /\
    length (traced_of (mstats c q0 h)) = length X /\
    forall n, (n < length X)%nat -> (nth n (traced_of (mstats c q0 h)) 0 == qsum (firstn (S n) X) / inject_Z (Z.of_nat (S n)))%Q.
Proof.
  intros c q0 h s o U R SZ. destruct (mlog_ok _ _ _ _ _ _ U R) as [K D]. destruct (traced mf_id mf_size _ K D) as (X & A1 & _ & _ & A4 & A5).
  exists X. split; [|auto]. unfold m_sent_at. clear A4 A5. induction A1 as [|x r L Rp (t0 & I & E) A1 IH]; constructor; auto.
  exists t0. split; [exact I|]. rewrite E. unfold rate. pose proof (SZ _ _ I) as B. unfold wrap16. change (2 ^ 16) with 65536. rewrite (Z.mod_small (mf_size (fst r))) by lia. reflexivity.
Qed.
Print Assumptions C128_traced.
Theorem C128_sent : forall c q0 h s o, mway false c q0 h s o -> map fst (m_sent_at c q0 h) = rep_of true o.
Proof.
  intros c q0 h s o R. rewrite <- (reps_mlog _ _ _ _ _ _ R true). unfold m_sent_at. induction (mlog c (minit q0) h) as [|x g IH]; [reflexivity|].
  change (x :: g) with ([x] ++ g). rewrite sents_app, reps_app, filter_app, !map_app, IH. f_equal. destruct x as [|[]| |]; reflexivity.
Qed.
Print Assumptions C128_sent.
Example C128_example : length (m_sent_at (mex false 1) 0 (xrun (mex false 1) 0 two)) = 2%nat /\
  map (fun q => Qle_bool 1 q) (traced_of (mstats (mex false 1) 0 (xrun (mex false 1) 0 two))) = [true; true].
Proof. vm_compute. auto. Qed.
