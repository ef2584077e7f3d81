(** * Properties of the traced throughput of the nano MAC *)
From Coq Require Import ZArith QArith List Bool Lia.
From Verif Require Import Base HeaderModel SeqModel EnergyModel NanoModel NanoSpec NanoProofs NanoTrace NanoProps StatProofs NanoStat NanoStatProofs.
Import ListNotations.
Open Scope Z_scope.

(** Packets accepted, and packets reported as sent, with the time. *)
Definition n_accepted (c : config) (e0 : Z) (l : list event) : list (frame * Z) :=
  flat_map (fun x => match x with (t, OAccept p) => [(p, t)] | _ => [] end) (timed c (init e0) l).
Definition n_sent (c : config) (e0 : Z) (l : list event) : list (frame * Z) :=
  flat_map (fun x => match x with (t, ODone true p) => [(p, t)] | _ => [] end) (timed c (init e0) l).

(** * C129: the traced throughput is the mean of the rates of the packets sent *)
(** [bytes]: which bytes of a packet count. *)
Definition n_mean (bytes : frame -> Z) (c : config) (e0 : Z) (l : list event) : Prop :=
  exists X, Forall2 (fun x r => exists t0, In (fst r, t0) (n_accepted c e0 l) /\ (x == inject_Z (bytes (fst r) * 8 * 10 ^ 15) / inject_Z (snd r - t0))%Q) X (n_sent c e0 l) /\
    length (ntraced c e0 l) = length X /\
    forall n, (n < length X)%nat -> (nth n (ntraced c e0 l) 0 == qsum (firstn (S n) X) / inject_Z (Z.of_nat (S n)))%Q.
(** Full statement: the bytes handed to Enqueue count, as in the macro MAC. *)
Definition C129_full := forall c e0 l, 0 <= c_limit c -> realistic c (init e0) [] l = true ->
  n_mean (fun p => f_size p - hdr_size T_DATA) c e0 l.

(** One packet of 100 bytes, acknowledged after 100 ps: 9.36 Tb/s are traced instead of 8. *)
Definition one : list event := play (cfg false 1000 5 5) (init 10000) [enq 100 2; Do (EvTick 100000); ack 2 1].
Lemma n_mean_one b c e0 l p t t0 q : n_mean b c e0 l -> n_sent c e0 l = [(p, t)] -> n_accepted c e0 l = [(p, t0)] -> ntraced c e0 l = [q] ->
  (q == inject_Z (b p * 8 * 10 ^ 15) / inject_Z (t - t0))%Q.
Proof.
  intros (X & A & L & M) S C T. rewrite S in A. inversion A as [|x r Y R (t1 & I & E) A2]; subst. inversion A2; subst. rewrite C in I.
  destruct I as [I|[]]. injection I as ->. cbn [fst snd] in E. rewrite T in M. specialize (M 0%nat ltac:(cbn; lia)). cbn [nth firstn qsum length] in M.
  rewrite M, E. change (inject_Z (Z.of_nat 1)) with 1%Q. unfold Qdiv. change (/ 1)%Q with 1%Q. ring.
Qed.
Theorem C129_traced_refuted : ~ C129_full.
Proof.
  intros H. specialize (H (cfg false 1000 5 5) 10000 one ltac:(cbn; lia) ltac:(vm_compute; reflexivity)).
  pose proof (n_mean_one _ _ _ _ (data 2 1 117 0) 100000 0 (936000000000000000 # 100000) H ltac:(vm_compute; reflexivity) ltac:(vm_compute; reflexivity) ltac:(vm_compute; reflexivity)) as X.
  vm_compute in X. discriminate X.
Qed.
Print Assumptions C129_traced_refuted.

(** It is the mean of the rates of the packets with their MAC headers. The time runs from Enqueue to the report. *)
Theorem C129_traced_partial : forall c e0 l, 0 <= c_limit c -> n_mean f_size c e0 l.
Proof.
  intros c e0 l C. destruct (mean _ (known_run c e0 l C) (distinct_run c e0 l C)) as (X & A1 & _ & _ & A4 & A5).
  exists X. split; [|auto]. unfold n_sent. fold (sents (timed c (init e0) l)). clear A4 A5. induction A1 as [|x r L R (t0 & I & E) A1 IH]; constructor; auto.
  exists t0. split; [exact I|]. rewrite E. unfold nrate. reflexivity.
Qed.
Print Assumptions C129_traced_partial.

(** The packets are those reported as sent, in order; each was accepted once, and not later than it is reported. *)
Theorem C129_sent : forall c e0 l, 0 <= c_limit c ->
  map fst (n_sent c e0 l) = reported true (effects c e0 l) /\ NoDup (map fst (n_accepted c e0 l)) /\
  (timely_run c (init e0) l = true -> forall p t t0, In (p, t) (n_sent c e0 l) -> In (p, t0) (n_accepted c e0 l) -> t0 <= t).
Proof.
  intros c e0 l C. split; [|split].
  - unfold n_sent, effects. fold (sents (timed c (init e0) l)). rewrite sents_fst, timed_out. reflexivity.
  - eapply NoDup_map_inv. exact (distinct_run c e0 l C).
  - intros T p t t0 S A.
    assert (IS : In (t, ODone true p) (timed c (init e0) l)).
    { unfold n_sent in S. apply in_flat_map in S. destruct S as [[t' o] [S1 S2]]. destruct o as [| | |[] q| | | | | |]; try contradiction. destruct S2 as [S2|[]]. injection S2 as -> ->. exact S1. }
    apply in_split in IS. destruct IS as (g1 & g2 & E). destruct (known_run c e0 l C _ _ _ _ E) as [t1 I].
    assert (t1 = t0) as ->.
    { pose proof (distinct_run c e0 l C) as D. unfold distinct in D. apply NoDup_map_inv in D.
      assert (I1 : In (p, t1) (accs (timed c (init e0) l))) by (rewrite E, accs_app; apply in_or_app; auto).
      assert (I0 : In (p, t0) (accs (timed c (init e0) l))) by exact A. clear -D I1 I0. induction (accs _) as [|[q u] L IH]; [destruct I1|].
      cbn [map fst] in D. inversion D as [|? ? N1 N2]; subst. destruct I1 as [I1|I1], I0 as [I0|I0]; auto.
      - congruence.
      - injection I1 as -> ->. destruct N1. apply (in_map fst _ _ I0).
      - injection I0 as -> ->. destruct N1. apply (in_map fst _ _ I1). }
    unfold accs in I. apply in_flat_map in I. destruct I as [[t' o] [I1 I2]]. destruct o as [q| | | | | | | | |]; try contradiction. destruct I2 as [I2|[]]. injection I2 as -> ->.
    apply (timed_order c l _ T _ _ _ E _ I1).
Qed.
Print Assumptions C129_sent.

(** Two packets of 100 and 83 bytes to node 2; both wait in the queue from time 0 on. *)
Definition pair_run : list event :=
  play (cfg false 1000 5 5) (init 10000) [enq 100 2; enq 83 2; Do (EvTick 100000); ack 2 1; Next 0; Do (EvTick 200000); ack 2 2].
Example C129_example :
  realistic (cfg false 1000 5 5) (init 10000) [] pair_run = true /\
  n_sent (cfg false 1000 5 5) 10000 pair_run = [(data 2 1 117 0, 100000); (data 2 2 100 1, 200000)] /\
  n_accepted (cfg false 1000 5 5) 10000 pair_run = [(data 2 1 117 0, 0); (data 2 2 100 1, 0)] /\
  map Qred (ntraced (cfg false 1000 5 5) 10000 pair_run) = [9360000000000 # 1; 6680000000000 # 1]%Q.
Proof. split; [vm_compute; reflexivity|]. split; [vm_compute; reflexivity|]. split; [vm_compute; reflexivity|vm_compute; reflexivity]. Qed.
