(** What the statistics are, given the order in which packets are reported and lines written. *)
From Coq Require Import ZArith QArith List Bool Lia.
From Verif Require Import Base SeqModel EnergyModel MacModel StatModel.
Import ListNotations.
Open Scope Z_scope.

Section Stat.
Context {F : Type} (fid fsize : F -> Z).
Local Notation sev := (sev F).
Local Notation sstep := (sstep fid fsize).
Local Notation srun := (srun fid fsize).

Definition reps (g : list sev) : list (bool * F * Z) := flat_map (fun x => match x with SRep ok p t => [(ok, p, t)] | _ => [] end) g.
Definition accs (g : list sev) : list (F * Z) := flat_map (fun x => match x with SAcc p t => [(p, t)] | _ => [] end) g.
Lemma reps_app a b : reps (a ++ b) = reps a ++ reps b. Proof. apply flat_map_app. Qed.
Lemma accs_app a b : accs (a ++ b) = accs a ++ accs b. Proof. apply flat_map_app. Qed.
Lemma lines_app a b : lines_of (a ++ b) = lines_of a ++ lines_of b. Proof. apply flat_map_app. Qed.

Lemma srun_app g1 : forall st g2, srun st (g1 ++ g2) =
  (fst (srun (fst (srun st g1)) g2), snd (srun st g1) ++ snd (srun (fst (srun st g1)) g2)).
Proof.
  induction g1 as [|x g1 IH]; intros st g2; cbn [app StatModel.srun fst snd].
  - destruct (srun st g2); auto.
  - destruct (sstep st x) as [st1 o1]. rewrite IH. destruct (srun st1 g1) as [st2 o2]. cbn [fst snd].
    destruct (srun st2 g2) as [st3 o3]. cbn [fst snd]. rewrite app_assoc. auto.
Qed.

(** Every line is written before the next result comes: [b] tells whether one is to be written. *)
Fixpoint ww (b : bool) (g : list sev) : bool :=
  match g with
  | [] => true
  | SAcc _ _ :: r => ww b r
  | SRep _ _ _ :: r => negb b && ww true r
  | SEmpty _ :: r => negb b && ww b r
  | SWrite :: r => b && ww false r
  end.
Fixpoint pnd (b : bool) (g : list sev) : bool :=
  match g with
  | [] => b
  | SRep _ _ _ :: r => pnd true r
  | SWrite :: r => pnd false r
  | _ :: r => pnd b r
  end.
Lemma ww_app g1 : forall b g2, ww b (g1 ++ g2) = ww b g1 && ww (pnd b g1) g2.
Proof.
  induction g1 as [|[p t|ok p t|t|] g1 IH]; intros b g2; cbn [app ww pnd]; auto; rewrite IH, ?andb_assoc; auto.
Qed.
Lemma pnd_app g1 : forall b g2, pnd b (g1 ++ g2) = pnd (pnd b g1) g2.
Proof. induction g1 as [|[p t|ok p t|t|] g1 IH]; intros b g2; cbn [app pnd]; auto. Qed.

(** The record that is found is that of an earlier Enqueue. *)
Definition recs_of (g : list sev) : list (@srec F) := map (fun x => Srec (fst x) (wrap16 (fsize (fst x))) (snd x)) (accs g).
Lemma srun_rec g : st_rec (fst (srun stat0 g)) = recs_of g.
Proof.
  induction g as [|x g IH] using rev_ind; auto. rewrite srun_app. cbn [fst]. unfold recs_of in *. rewrite accs_app, map_app, <- IH.
  destruct x as [p t|ok p t|t|]; cbn [StatModel.srun StatModel.sstep]; try (cbn; rewrite ?app_nil_r; reflexivity).
  destruct (find _ _); [|cbn; rewrite app_nil_r; reflexivity]. destruct ok; cbn; rewrite app_nil_r; reflexivity.
Qed.

(** Every report concerns a packet that was recorded before. *)
Definition known (g : list sev) : Prop := forall a ok p t b, g = a ++ SRep ok p t :: b -> exists t0, In (p, t0) (accs a).
(** Recorded packets are different. *)
Definition distinct (g : list sev) : Prop := NoDup (map (fun x => fid (fst x)) (accs g)).

Lemma find_rec g p t0 : distinct g -> In (p, t0) (accs g) -> find (fun r => fid (sr_pkt r) =? fid p) (recs_of g) = Some (Srec p (wrap16 (fsize p)) t0).
Proof.
  unfold distinct, recs_of. induction (accs g) as [|[q u] l IH]; intros N I; [contradiction|]. cbn [map fst snd] in *. inversion N as [|? ? N1 N2]; subst.
  cbn [find sr_pkt]. destruct I as [E|I].
  - injection E as -> ->. rewrite Z.eqb_refl. reflexivity.
  - destruct (Z.eqb_spec (fid q) (fid p)) as [E|E]; [|auto]. exfalso. apply N1. rewrite E. apply (in_map (fun x => fid (fst x)) _ _ I).
Qed.

Definition line_for (g : list sev) (l : line) (r : bool * F * Z) : Prop :=
  let '(ok, p, t) := r in
  exists t0, In (p, t0) (accs g) /\ l = Line (wrap16 (wrap16 (fsize p) - 53)) (if ok then Z.quot (t - t0) nsec else 0) ok.

Lemma line_for_mono g g' l r : line_for g l r -> line_for (g ++ g') l r.
Proof. destruct r as [[ok p] t]. intros (t0 & I & E). exists t0. rewrite accs_app. split; auto. apply in_or_app; auto. Qed.
Lemma known_app a b : known (a ++ b) -> known a.
Proof. intros K x ok p t y E. apply (K x ok p t (y ++ b)). rewrite E, <- app_assoc. reflexivity. Qed.
Lemma distinct_app a b : distinct (a ++ b) -> distinct a.
Proof.
  unfold distinct. rewrite accs_app, map_app. generalize (map (fun x => fid (fst x)) (accs a)). intros l. induction l as [|x l IH]; intros N; [constructor|].
  inversion N as [|? ? N1 N2]; subst. constructor; [intros X; apply N1; apply in_or_app; auto|auto].
Qed.

(** The lines are those of the reports, but perhaps for the last one. *)
Lemma lines_ww g : known g -> distinct g -> ww false g = true ->
  if pnd false g
  then exists R r l, reps g = R ++ [r] /\ Forall2 (line_for g) (lines_of (snd (srun stat0 g))) R /\ st_res (fst (srun stat0 g)) = Some l /\ line_for g l r
  else Forall2 (line_for g) (lines_of (snd (srun stat0 g))) (reps g).
Proof.
  induction g as [|x g IH] using rev_ind; intros K D W; [constructor|].
  specialize (IH (known_app _ _ K) (distinct_app _ _ D)). rewrite ww_app in W. apply andb_true_iff in W. destruct W as [W1 W2]. specialize (IH W1).
  assert (MO : forall L R, Forall2 (line_for g) L R -> Forall2 (line_for (g ++ [x])) L R).
  { intros L R H. induction H; constructor; auto. apply line_for_mono; auto. }
  rewrite pnd_app, reps_app, srun_app. cbn [fst snd]. rewrite lines_app.
  destruct x as [p t|ok p t|t|]; cbn [ww pnd] in *.
  - cbn [StatModel.srun StatModel.sstep fst snd reps flat_map app lines_of st_res]. rewrite !app_nil_r. destruct (pnd false g).
    + destruct IH as (R & r & l & E1 & E2 & E3 & E4). exists R, r, l. split; [auto|]. split; [auto|]. split; [auto|]. apply line_for_mono; auto.
    + auto.
  - destruct (pnd false g); [discriminate W2|].
    destruct (K g ok p t [] eq_refl) as [t0 I].
    cbn [StatModel.srun StatModel.sstep]. rewrite srun_rec, (find_rec g p t0 (distinct_app _ _ D) I). cbn [sr_size sr_time].
    exists (reps g), (ok, p, t), (Line (wrap16 (wrap16 (fsize p) - 53)) (if ok then Z.quot (t - t0) nsec else 0) ok).
    split; [reflexivity|].
    assert (X : line_for (g ++ [SRep ok p t]) (Line (wrap16 (wrap16 (fsize p) - 53)) (if ok then Z.quot (t - t0) nsec else 0) ok) (ok, p, t)).
    { exists t0. split; auto. rewrite accs_app. apply in_or_app. auto. }
    destruct ok; cbn [fst snd app lines_of flat_map st_res]; rewrite app_nil_r; auto.
  - apply andb_true_iff in W2. destruct W2 as [W2 _]. apply negb_true_iff in W2. rewrite W2 in *. cbn. rewrite !app_nil_r. auto.
  - apply andb_true_iff in W2. destruct W2 as [W2 _]. rewrite W2 in IH. destruct IH as (R & r & l & E1 & E2 & E3 & E4).
    cbn [StatModel.srun StatModel.sstep]. rewrite E3. cbn [fst snd app lines_of flat_map reps]. rewrite app_nil_r, E1.
    apply Forall2_app; [auto|]. constructor; [apply line_for_mono; auto|constructor].
Qed.

(** Every ResultsRecord finds a result. *)
Lemma ww_good g : known g -> distinct g -> ww false g = true -> ~ In OBad (snd (srun stat0 g)).
Proof.
  induction g as [|x g IH] using rev_ind; intros K D W; [intros []|].
  specialize (IH (known_app _ _ K) (distinct_app _ _ D)). rewrite ww_app in W. apply andb_true_iff in W. destruct W as [W1 W2]. specialize (IH W1).
  rewrite srun_app. cbn [fst snd]. intros I. apply in_app_or in I. destruct I as [I|I]; [auto|].
  destruct x as [p t|ok p t|t|]; cbn [StatModel.srun StatModel.sstep] in I.
  - destruct I.
  - destruct (find _ _); [|destruct I]. destruct ok; [destruct I as [I|[]]; discriminate I|destruct I].
  - destruct I.
  - cbn [ww] in W2. apply andb_true_iff in W2. destruct W2 as [W2 _]. pose proof (lines_ww g (known_app _ _ K) (distinct_app _ _ D) W1) as X. rewrite W2 in X.
    destruct X as (R & r & l & _ & _ & E & _). rewrite E in I. destruct I as [I|[]]. discriminate I.
Qed.

(** The size on any line is that of some recorded packet. *)
Lemma lines_size g : (forall l, In l (lines_of (snd (srun stat0 g))) \/ st_res (fst (srun stat0 g)) = Some l ->
  exists p t0, In (p, t0) (accs g) /\ ln_size l = wrap16 (wrap16 (fsize p) - 53)).
Proof.
  induction g as [|x g IH] using rev_ind; [intros l [[]|E]; discriminate E|].
  assert (IH' : forall l, In l (lines_of (snd (srun stat0 g))) \/ st_res (fst (srun stat0 g)) = Some l ->
    exists p t0, In (p, t0) (accs (g ++ [x])) /\ ln_size l = wrap16 (wrap16 (fsize p) - 53)).
  { intros l I. destruct (IH l I) as (p & t0 & A & B). exists p, t0. rewrite accs_app. split; auto. apply in_or_app; auto. }
  intros l. rewrite srun_app. cbn [fst snd]. rewrite lines_app. rewrite in_app_iff.
  destruct x as [p t|ok p t|t|]; cbn [StatModel.srun StatModel.sstep].
  - cbn. intros [[I|[]]|E]; apply IH'; auto.
  - rewrite srun_rec. destruct (find _ _) as [r|] eqn:FD.
    + apply find_some in FD. destruct FD as [FD _]. unfold recs_of in FD. apply in_map_iff in FD. destruct FD as [[p0 t0] [<- FD]]. cbn [fst snd] in *.
      assert (X : st_res (fst (srun stat0 g)) = st_res (fst (srun stat0 g)) -> forall d k, Some (Line (wrap16 (wrap16 (fsize p0) - 53)) d k) = Some l ->
        exists p t0, In (p, t0) (accs (g ++ [SRep ok p t])) /\ ln_size l = wrap16 (wrap16 (fsize p) - 53)).
      { intros _ d k E. injection E as <-. exists p0, t0. rewrite accs_app. split; [apply in_or_app; auto|reflexivity]. }
      destruct ok; cbn; (intros [[I|[]]|E]; [apply IH'; auto|]); destruct (X eq_refl _ _ E) as (p1 & t1 & Y1 & Y2); exists p1, t1; split; auto; rewrite accs_app in *; cbn in *; exact Y1.
    + cbn. intros [[I|[]]|E]; apply IH'; auto.
  - cbn. intros [[I|[]]|E]; [apply IH'; auto|discriminate E].
  - destruct (st_res (fst (srun stat0 g))) as [l0|] eqn:E0; cbn.
    + intros [[I|[E|[]]]|E]; apply IH'; [auto|subst; auto|rewrite E0 in E; auto].
    + intros [[I|[]]|E]; apply IH'; [auto|rewrite E0 in E; discriminate E].
Qed.

(** The traced throughput: each value is the mean of the rates of the packets reported as sent so far. *)
Definition sent_rate (g : list sev) (x : Q) (r : F * Z) : Prop :=
  exists t0, In (fst r, t0) (accs g) /\ x = rate (wrap16 (fsize (fst r)) - 53) (snd r - t0).
Definition sents (g : list sev) : list (F * Z) := flat_map (fun x => match x with SRep true p t => [(p, t)] | _ => [] end) g.
Lemma sents_app a b : sents (a ++ b) = sents a ++ sents b. Proof. apply flat_map_app. Qed.
Lemma traced_app a b : traced_of (a ++ b) = traced_of a ++ traced_of b. Proof. apply flat_map_app. Qed.
Fixpoint qsum (l : list Q) : Q := match l with [] => 0%Q | x :: r => (x + qsum r)%Q end.
Lemma qsum_app a b : (qsum (a ++ b) == qsum a + qsum b)%Q.
Proof. induction a as [|x a IH]; cbn [app qsum]; [ring|]. rewrite IH. ring. Qed.

Lemma traced g : known g -> distinct g ->
  exists X, Forall2 (sent_rate g) X (sents g) /\ (st_all (fst (srun stat0 g)) == qsum X)%Q /\ st_n (fst (srun stat0 g)) = Z.of_nat (length X) /\
    length (traced_of (snd (srun stat0 g))) = length X /\
    forall n, (n < length X)%nat -> (nth n (traced_of (snd (srun stat0 g))) 0 == qsum (firstn (S n) X) / inject_Z (Z.of_nat (S n)))%Q.
Proof.
  induction g as [|x g IH] using rev_ind; intros K D.
  { exists []. cbn. repeat split; auto. intros n N. inversion N. }
  destruct (IH (known_app _ _ K) (distinct_app _ _ D)) as (X & A1 & A2 & A3 & A4 & A5). clear IH.
  assert (MO : Forall2 (sent_rate (g ++ [x])) X (sents g)).
  { clear - A1. induction A1 as [|a b L R (t0 & I & E) H IH]; constructor; auto. exists t0. rewrite accs_app. split; auto. apply in_or_app; auto. }
  rewrite sents_app, srun_app. cbn [fst snd]. rewrite traced_app.
  assert (SAME : forall (st : @stat F) o, (st_all st = st_all (fst (srun stat0 g))) -> st_n st = st_n (fst (srun stat0 g)) -> traced_of o = [] -> sents [x] = [] ->
    exists Y, Forall2 (sent_rate (g ++ [x])) Y (sents g ++ sents [x]) /\ (st_all st == qsum Y)%Q /\ st_n st = Z.of_nat (length Y) /\
      length (traced_of (snd (srun stat0 g)) ++ traced_of o) = length Y /\
      forall n, (n < length Y)%nat -> (nth n (traced_of (snd (srun stat0 g)) ++ traced_of o) 0 == qsum (firstn (S n) Y) / inject_Z (Z.of_nat (S n)))%Q).
  { intros st o E1 E2 E3 E4. exists X. rewrite E1, E2, E3, E4, !app_nil_r. auto. }
  destruct x as [p t|ok p t|t|].
  - apply SAME; reflexivity.
  - destruct (K g ok p t [] eq_refl) as [t0 I].
    cbn [StatModel.srun StatModel.sstep]. rewrite srun_rec, (find_rec g p t0 (distinct_app _ _ D) I). cbn [sr_size sr_time].
    destruct ok; [|apply SAME; reflexivity].
    set (r := rate (wrap16 (fsize p) - 53) (t - t0)). cbn [fst snd app traced_of flat_map sents st_all st_n]. exists (X ++ [r]).
    assert (QS : (qsum (X ++ [r]) == qsum X + r)%Q) by (rewrite qsum_app; cbn [qsum]; ring).
    repeat split.
    + apply Forall2_app; auto. constructor; [|constructor]. exists t0. cbn [fst snd]. split; auto. rewrite accs_app. apply in_or_app; auto.
    + rewrite QS, A2. ring.
    + rewrite A3, app_length. cbn [length]. lia.
    + rewrite !app_length, A4. reflexivity.
    + intros n N. rewrite app_length in N. cbn [length] in N. destruct (Nat.eq_dec n (length X)) as [->|NE].
      * rewrite app_nth2 by lia. rewrite A4, Nat.sub_diag. cbn [nth]. rewrite firstn_all2 by (rewrite app_length; cbn; lia).
        rewrite A3. replace (Z.of_nat (length X) + 1) with (Z.of_nat (S (length X))) by lia. rewrite QS, A2. reflexivity.
      * rewrite app_nth1 by lia. rewrite firstn_app. replace (S n - length X)%nat with 0%nat by lia. cbn [firstn]. rewrite app_nil_r. apply A5. lia.
  - apply SAME; reflexivity.
  - apply SAME; try reflexivity. cbn. destruct (st_res _); reflexivity.
Qed.
End Stat.
