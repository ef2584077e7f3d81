(** Properties C38-C41 and C49-C51: the applications. *)
From Coq Require Import ZArith List Lia Bool.
From Verif Require Import Base AppModel AppProofs.
Import ListNotations.
Open Scope Z_scope.

(** ** C38: the UDP client numbers its datagrams *)

(** The n-th datagram (from 0) that the socket accepted carries sequence number n. *)
Definition C38_full := forall l n d,
  nth_error (filter d_ok (snd (ucl_run ucl0 l))) n = Some d -> d_seq d = Z.of_nat n mod 2 ^ 32.
Theorem C38_numbers_refuted : ~ C38_full.
Proof.
  intros F. specialize (F [UStart; UFire true; UFire true] 1%nat (Udg 0 true) eq_refl). vm_compute in F. discriminate.
Qed.
Print Assumptions C38_numbers_refuted.

(** What holds: the first datagram is numbered correctly; in fact all carry number 0. *)
Lemma ucl_sent l : forall s, u_sent (fst (ucl_run s l)) = u_sent s /\
  forall d, In d (snd (ucl_run s l)) -> d_seq d = u_sent s.
Proof.
  induction l as [|e l IH]; intros s; cbn [ucl_run]; [split; auto; intros d []|].
  assert (H : u_sent (fst (ucl_step s e)) = u_sent s /\ forall d, In d (snd (ucl_step s e)) -> d_seq d = u_sent s).
  { destruct e; cbn; try (split; auto; intros d []). destruct (u_pending s); cbn; split; auto.
    - intros d [<-|[]]. reflexivity.
    - intros d []. }
  destruct (ucl_step s e) as [s1 o1]. specialize (IH s1). destruct (ucl_run s1 l) as [s2 o2]. cbn [fst snd] in *.
  destruct H as [H1 H2], IH as [I1 I2]. split; [congruence|]. intros d. rewrite in_app_iff. intros [I|I]; auto. rewrite I2; auto.
Qed.
Theorem C38_numbers_partial : forall l n d,
  nth_error (filter d_ok (snd (ucl_run ucl0 l))) n = Some d ->
  d_seq d = 0 /\ (n = O -> d_seq d = Z.of_nat n mod 2 ^ 32).
Proof.
  intros l n d H. assert (d_seq d = 0).
  { apply nth_error_In in H. apply filter_In in H. destruct H as [H _]. apply (proj2 (ucl_sent l ucl0)) in H. exact H. }
  split; auto. intros ->. exact H0.
Qed.
Print Assumptions C38_numbers_partial.

Example C38_example : snd (ucl_run ucl0 [UStart; UFire true; UFire true; UStop; UFire true]) = [Udg 0 true; Udg 0 true].
Proof. reflexivity. Qed.

(** ** C49: the UDP client goes on until it is stopped *)

(** [started l]: the last start or stop command was a start. *)
Fixpoint started (l : list ucev) (b : bool) : bool :=
  match l with [] => b | UStart :: r => started r true | UStop :: r => started r false | _ :: r => started r b end.
Definition C49_full := forall l, started l false = true -> u_pending (fst (ucl_run ucl0 l)) = true.

(** A single datagram refused by the socket silences the client for good. *)
Theorem C49_goes_on_refuted : ~ C49_full.
Proof. intros F. specialize (F [UStart; UFire false] eq_refl). discriminate. Qed.
Print Assumptions C49_goes_on_refuted.

Theorem C49_goes_on_partial : forall l, (forall ok, In (UFire ok) l -> ok = true) ->
  u_pending (fst (ucl_run ucl0 l)) = started l false.
Proof.
  intros l. change false with (u_pending ucl0). generalize ucl0 as s.
  induction l as [|e l IH]; intros s H; cbn [ucl_run started]; auto.
  assert (H1 : forall ok, In (UFire ok) l -> ok = true) by (intros; apply H; right; auto).
  destruct e as [|ok|]; cbn [ucl_step].
  - specialize (IH (Ucl (u_sent s) true) H1). destruct (ucl_run _ l). cbn [fst] in *. exact IH.
  - assert (ok = true) as -> by (apply H; left; auto).
    destruct (u_pending s) eqn:P.
    + specialize (IH (Ucl (u_sent s) true) H1). destruct (ucl_run _ l). cbn [fst] in *. exact IH.
    + specialize (IH s H1). rewrite P in IH. destruct (ucl_run _ l). cbn [fst] in *. exact IH.
  - specialize (IH (Ucl (u_sent s) false) H1). destruct (ucl_run _ l). cbn [fst] in *. exact IH.
Qed.
Print Assumptions C49_goes_on_partial.

(** A stopped client sends nothing. *)
Theorem C49_stopped : forall s l, u_pending s = false -> ~ In UStart l -> snd (ucl_run s l) = [].
Proof.
  intros s l. revert s. induction l as [|e l IH]; intros s P N; cbn [ucl_run]; auto.
  assert (N1 : ~ In UStart l) by (intros X; apply N; right; auto).
  destruct e as [|ok|]; cbn [ucl_step].
  - exfalso. apply N. left. auto.
  - rewrite P. specialize (IH s P N1). destruct (ucl_run s l). cbn [snd app] in *. auto.
  - specialize (IH (Ucl (u_sent s) false) eq_refl N1). destruct (ucl_run _ l). cbn [snd app] in *. auto.
Qed.
Print Assumptions C49_stopped.

Example C49_example : started [UStart; UFire true; UFire true] false = true /\
  u_pending (fst (ucl_run ucl0 [UStart; UFire true; UFire true])) = true /\
  u_pending (fst (ucl_run ucl0 [UStart; UFire true; UStop])) = false.
Proof. repeat split. Qed.

(** ** C39: the trace client sends every byte of a frame *)
Definition C39_full := forall ok s size, 0 <= size < 65536 -> 12 <= tc_max s < 65536 -> 0 <= tc_sent s < 2 ^ 32 ->
  let ds := snd (tc_packets ok (frame_sizes (tc_max s) size) s) in
  total (sizes ds) = size /\ Forall (fun x => x <= tc_max s) (sizes ds) /\ numbered (tc_sent s) ds.

(** A frame of exactly MaxPacketSize bytes is followed by an empty datagram of 12 bytes. *)
Theorem C39_frame_refuted : ~ C39_full.
Proof.
  intros F. destruct (F (fun _ => true) (Tcl [] 0 1024 0 0) 1024 ltac:(lia) ltac:(cbn; lia) ltac:(cbn; lia)) as [T _].
  vm_compute in T. discriminate.
Qed.
Print Assumptions C39_frame_refuted.

(** What holds: no byte is missing; the surplus is at most 12 bytes, and there is none if the
    last datagram has at least the 12 bytes of its header. *)
Theorem C39_frame_partial : forall ok s size, 0 <= size < 65536 -> 12 <= tc_max s < 65536 -> 0 <= tc_sent s < 2 ^ 32 ->
  let ds := snd (tc_packets ok (frame_sizes (tc_max s) size) s) in
  size <= total (sizes ds) <= size + 12 /\
  (12 <= size mod tc_max s -> total (sizes ds) = size) /\
  Forall (fun x => x <= tc_max s) (sizes ds) /\ numbered (tc_sent s) ds.
Proof.
  intros ok s size S M N.
  pose proof (tc_packets_spec ok (frame_sizes (tc_max s) size) s ltac:(symmetry; apply Z.mod_small; auto)) as P.
  destruct (tc_packets ok (frame_sizes (tc_max s) size) s) as [s' ds]. cbn [snd]. destruct P as [_ [_ [_ [D [E _]]]]].
  rewrite D, frame_total by lia. pose proof (Z.mod_pos_bound size (tc_max s) ltac:(lia)).
  repeat split; auto; try lia. apply frame_bound; lia.
Qed.
Print Assumptions C39_frame_partial.

Example C39_example : sizes (snd (tc_packets (fun _ => true) (frame_sizes 1024 2500) (Tcl [] 0 1024 7 0))) = [1024; 1024; 452] /\
  map td_seq (snd (tc_packets (fun _ => true) (frame_sizes 1024 2500) (Tcl [] 0 1024 7 0))) = [7; 8; 9].
Proof. split; reflexivity. Qed.

(** ** C40: the trace client can be started after any configuration *)
Definition configured (l : list tcfg) : tcl := fold_left tcl_cfg l tcl0.
(** A configuration call that makes sense: files have lines, sizes fit 16 bits, the maximum
    packet size can hold the header. *)
Definition cfg_ok (c : tcfg) : Prop :=
  match c with
  | SetFile lines _ => lines <> [] /\ Forall (fun x => 0 <= tl_size x < 65536 /\ 0 <= tl_time x < 2 ^ 32) lines
  | SetMax v => 12 <= v < 65536
  | _ => True
  end.
Definition C40_full := forall ok l, Forall cfg_ok l ->
  exists fuel s delay ds, tc_send ok fuel (configured l) = TDone s delay ds.

(** SetRemote clears the trace, so that Send reads from an empty vector. *)
Theorem C40_start_refuted : ~ C40_full.
Proof.
  intros F. destruct (F (fun _ => true) [SetRemote]) as [fuel [s [delay [ds H]]]].
  - repeat constructor.
  - destruct fuel; discriminate.
Qed.
Print Assumptions C40_start_refuted.

(** Independently of SetRemote, a trace in which no frame has a delay (a single frame, or only
    'B' frames) keeps the first activation busy forever. *)
Theorem C40_endless_refuted : forall fuel,
  tc_send (fun _ => true) fuel (configured [SetFile [TLine false 0 100] true]) = TMore.
Proof.
  intros fuel. change (configured [SetFile [TLine false 0 100] true]) with (Tcl [TEntry 0 100; TEntry 0 100] 0 1024 0 0).
  enough (G : forall fuel cur sent calls, (cur < 2)%nat ->
    tc_send (fun _ => true) fuel (Tcl [TEntry 0 100; TEntry 0 100] cur 1024 sent calls) = TMore) by (apply G; lia).
  induction fuel0 as [|n IH]; intros cur sent calls L; auto. cbn [tc_send tc_entries tc_cur].
  assert (cur = 0 \/ cur = 1)%nat as [->| ->] by lia; cbn -[Z.modulo Z.pow]; rewrite IH by lia; reflexivity.
Qed.
Print Assumptions C40_endless_refuted.

(** What holds: if the trace is not empty, some frame has a delay and the packet size is not 0,
    every activation is defined, ends after at most one round through the trace, numbers its
    datagrams consecutively and leaves the client ready for the next activation. *)
Definition ready (s : tcl) : Prop :=
  (tc_cur s < length (tc_entries s))%nat /\ (exists e, In e (tc_entries s) /\ te_time e <> 0) /\
  tc_max s <> 0 /\ 0 <= tc_sent s < 2 ^ 32.
Theorem C40_start_partial : forall ok s, ready s ->
  exists s' delay ds, tc_send ok (length (tc_entries s)) s = TDone s' delay ds /\ delay <> 0 /\ ready s' /\
    numbered (tc_sent s) ds /\ tc_sent s' = (tc_sent s + accepted ds) mod 2 ^ 32.
Proof.
  intros ok s [L [[e [I T]] [M S]]]. apply In_nth_error in I. destruct I as [j J].
  assert (JL : (j < length (tc_entries s))%nat) by (apply nth_error_Some; congruence).
  destruct (reach_index (tc_cur s) j _ L JL) as [d [D1 D2]].
  destruct (tc_send_terminates ok (length (tc_entries s)) s d D1 L M ltac:(symmetry; apply Z.mod_small; auto)) as [s' [delay [ds H]]].
  { exists e. rewrite D2. auto. }
  destruct H as [H1 [H2 [H3 [H4 [H5 [H6 H7]]]]]]. exists s', delay, ds. repeat split; auto.
  - exists e. rewrite H3. split; auto. eapply nth_error_In. exact J.
  - congruence.
  - rewrite H7. apply Z.mod_pos_bound. lia.
  - rewrite H7. apply Z.mod_pos_bound. lia.
Qed.
Print Assumptions C40_start_partial.

(** The default trace, and a file loaded after SetRemote, satisfy this. *)
Example C40_default : ready (configured []) /\ ready (configured [SetRemote; SetFile [TLine false 0 100; TLine false 33 7000] true; SetMax 500]).
Proof.
  split; (split; [cbn; lia|]; split; [|split; [cbn; lia|cbn; lia]]).
  - exists (TEntry 40 1542). split; [cbn; auto|discriminate].
  - exists (TEntry 33 7000). split; [cbn; auto|discriminate].
Qed.

(** ** C50: the trace client plays the frames of its file *)

(** The time of the last line that is not a B frame; 0 if there is none. *)
Definition anchor (lines : list tline) : Z :=
  fold_left (fun t x => if tl_b x then t else tl_time x) lines 0.
(** The moment at which an entry is played is the sum of the delays up to it. *)
Definition moment (es : list tentry) : Z := fold_left (fun t e => t + te_time e) es 0.
(** Times are 32-bit numbers, and those of the frames other than B frames do not decrease. *)
Fixpoint times_ok (prev : Z) (lines : list tline) : Prop :=
  match lines with
  | [] => True
  | x :: r => if tl_b x then times_ok prev r else prev <= tl_time x < 2 ^ 32 /\ times_ok (tl_time x) r
  end.

Definition C50_full := forall l lines nl, lines <> [] ->
  map te_size (tc_entries (configured (l ++ [SetFile lines nl]))) = map tl_size lines /\
  (times_ok 0 lines -> forall n, (n <= length lines)%nat ->
     moment (firstn n (tc_entries (configured (l ++ [SetFile lines nl])))) = anchor (firstn n lines)).

(** A file that ends with a newline has its last frame twice. *)
Theorem C50_file_refuted : ~ C50_full.
Proof. intros F. destruct (F [] [TLine false 0 100] true ltac:(discriminate)) as [G _]. discriminate. Qed.
Print Assumptions C50_file_refuted.

Lemma load_sizes l : forall p, map te_size (load p l) = map tl_size l.
Proof. induction l as [|x l IH]; intros p; cbn [load]; auto. destruct (tl_b x); cbn; f_equal; auto. Qed.
Lemma load_moments l : forall p n, 0 <= p -> times_ok p l ->
  fold_left (fun t e => t + te_time e) (firstn n (load p l)) p =
  fold_left (fun t x => if tl_b x then t else tl_time x) (firstn n l) p.
Proof.
  induction l as [|x l IH]; intros p n P T; destruct n as [|n]; cbn [load firstn fold_left]; auto.
  cbn [times_ok] in T. destruct (tl_b x); cbn [firstn fold_left te_time].
  - rewrite Z.add_0_r. apply IH; auto.
  - destruct T as [B T]. rewrite Z.mod_small by lia. replace (p + (tl_time x - p)) with (tl_time x) by lia.
    apply IH; auto. lia.
Qed.
(** For files without a final newline: sizes are those of the file; every frame that is not a B
    frame is played at the time in the file, every B frame together with the frame before it. *)
Theorem C50_file_partial : forall l lines,
  map te_size (tc_entries (configured (l ++ [SetFile lines false]))) = map tl_size lines /\
  (times_ok 0 lines -> forall n,
     moment (firstn n (tc_entries (configured (l ++ [SetFile lines false])))) = anchor (firstn n lines)).
Proof.
  intros l lines. unfold configured. rewrite fold_left_app. cbn [fold_left tcl_cfg tc_entries].
  rewrite app_nil_r. split; [apply load_sizes|]. intros T n. apply load_moments; auto. lia.
Qed.
Print Assumptions C50_file_partial.

Example C50_example : tc_entries (configured [SetFile [TLine false 5 100; TLine true 9 200; TLine false 12 300] false]) =
  [TEntry 5 100; TEntry 0 200; TEntry 7 300].
Proof. reflexivity. Qed.

(** ** C51: a stopped server does not count *)
Definition C51_full := forall l1 l2, ~ In SvStart l2 ->
  sv_recv (fold_left srv_step (l1 ++ SvStop :: l2) srv0) = sv_recv (fold_left srv_step l1 srv0).

(** Datagrams over IPv6 are still counted. *)
Theorem C51_stopped_server_refuted : ~ C51_full.
Proof.
  intros F. specialize (F [SvStart] [SvData true 100]). cbn in F.
  assert (X : 1 = 0); [|discriminate]. apply F. intros [H|[]]. discriminate.
Qed.
Print Assumptions C51_stopped_server_refuted.

Theorem C51_stopped_server_partial : forall l1 l2, ~ In SvStart l2 ->
  (forall size, ~ In (SvData true size) l2) ->
  sv_recv (fold_left srv_step (l1 ++ SvStop :: l2) srv0) = sv_recv (fold_left srv_step l1 srv0).
Proof.
  intros l1 l2 N1 N2. rewrite fold_left_app. cbn [fold_left srv_step]. set (s := fold_left srv_step l1 srv0).
  enough (G : forall l2 t, sv_cb4 t = false -> ~ In SvStart l2 -> (forall size, ~ In (SvData true size) l2) ->
    sv_recv (fold_left srv_step l2 t) = sv_recv t) by (rewrite G; auto).
  clear. induction l2 as [|e l IH]; intros t C N1 N2; auto. cbn [fold_left].
  assert (N1' : ~ In SvStart l) by (intros X; apply N1; right; auto).
  assert (N2' : forall size, ~ In (SvData true size) l) by (intros size X; apply (N2 size); right; auto).
  destruct e as [| |v6 size]; cbn [srv_step].
  - exfalso. apply N1. left. auto.
  - rewrite IH; auto.
  - destruct v6; [exfalso; apply (N2 size); left; auto|]. rewrite C. cbn [andb]. apply IH; auto.
Qed.
Print Assumptions C51_stopped_server_partial.

(** ... and while the server runs each non-empty datagram is counted exactly once. *)
Theorem C51_counts : forall l s, sv_cb4 s = true -> sv_cb6 s = true ->
  Forall (fun e => match e with SvData _ _ => True | _ => False end) l ->
  sv_recv (fold_left srv_step l s) =
  sv_recv s + Z.of_nat (length (filter (fun e => match e with SvData _ n => n >? 0 | _ => false end) l)).
Proof.
  induction l as [|e l IH]; intros s A B F; cbn [fold_left filter]; [cbn; lia|].
  inversion F as [|e' l' F1 F2]; subst. destruct e as [| |v6 size]; try destruct F1. cbn [srv_step].
  assert (K : (if v6 then sv_cb6 s else sv_cb4 s) = true) by (destruct v6; auto). rewrite K. cbn [andb].
  destruct (size >? 0).
  - rewrite IH; auto. cbn [sv_recv length]. lia.
  - apply IH; auto.
Qed.
Print Assumptions C51_counts.

Example C51_example : sv_recv (fold_left srv_step [SvStart; SvData false 5; SvData true 7; SvData false 0; SvStop; SvData false 3] srv0) = 2.
Proof. reflexivity. Qed.

(** ** C41: the traffic generator never addresses its own node *)
(** [nodes]: the identifiers of the nodes of the container; the generator runs on node [own],
    which is one of them (TrafficGeneratorHelper::Install). *)
Definition C41_full := forall nodes own draws i,
  NoDup nodes -> In own nodes -> (2 <= length nodes)%nat ->
  Forall (fun d => (d < length nodes)%nat) draws ->
  generate own draws = Some i -> nth_error nodes i <> Some own.

(** The index is compared with the node identifier: in a container that does not begin with
    node 0 a node sends to itself. *)
Theorem C41_other_node_refuted : ~ C41_full.
Proof.
  intros F. apply (F [1; 2] 1 [0%nat] 0%nat).
  - constructor; [cbn; intros [X|[]]; discriminate|]. constructor; [intros []|constructor].
  - cbn. auto.
  - cbn. lia.
  - constructor; [cbn; lia|constructor].
  - reflexivity.
  - reflexivity.
Qed.
Print Assumptions C41_other_node_refuted.

(** With a single node the recursion does not end, whatever is drawn. *)
Theorem C41_single_node_refuted : forall draws, Forall (fun d => (d < 1)%nat) draws -> generate 0 draws = None.
Proof.
  induction draws as [|d draws IH]; intros F; auto. inversion F as [|x l A B]; subst. cbn [generate].
  assert (d = 0)%nat as -> by lia. cbn. auto.
Qed.
Print Assumptions C41_single_node_refuted.

(** What holds: if the container holds the nodes 0, 1, ..., N-1 in this order, another node is
    chosen as soon as an index other than the own one is drawn (each draw misses it with
    probability 1/N only), and every other node can be chosen. *)
Theorem C41_other_node_partial : forall nodes own draws,
  (forall i, (i < length nodes)%nat -> nth_error nodes i = Some (Z.of_nat i)) ->
  Forall (fun d => (d < length nodes)%nat) draws ->
  (forall i, generate own draws = Some i -> nth_error nodes i <> Some own /\ (i < length nodes)%nat) /\
  ((exists d, In d draws /\ Z.of_nat d <> own) -> exists i, generate own draws = Some i) /\
  (forall i, (i < length nodes)%nat -> Z.of_nat i <> own -> generate own [i] = Some i).
Proof.
  intros nodes own draws N F. split; [|split].
  - intros i. induction draws as [|d draws IH]; cbn [generate]; [discriminate|].
    inversion F as [|x l A B]; subst. destruct (Z.eqb_spec (Z.of_nat d) own) as [E|E]; auto.
    intros [= <-]. split; auto. rewrite (N d A). congruence.
  - intros [d [I D]]. clear F. induction draws as [|x draws IH]; [destruct I|]. cbn [generate].
    destruct (Z.eqb_spec (Z.of_nat x) own) as [E|E]; eauto. destruct I as [<-|I]; auto. congruence.
  - intros i L D. cbn [generate]. rewrite (proj2 (Z.eqb_neq _ _) D). reflexivity.
Qed.
Print Assumptions C41_other_node_partial.

Example C41_example : generate 2 [2; 2; 0; 1]%nat = Some 0%nat.
Proof. reflexivity. Qed.
