(** Properties C19, C20, C44 and C45: a network of nano nodes over an arbitrary channel. *)
From Coq Require Import ZArith List Lia Bool Sorting.Sorted.
From Verif Require Import Base HeaderModel SeqModel EnergyModel NanoModel NanoProofs NanoSpec NanoTrace NetModel NetProofs NetWrap.
Import ListNotations.
Open Scope Z_scope.

(** How often the packet [p] was handed up at a node. *)
Definition deliveries (p : frame) (tr : list out) : nat := length (filter (frame_eqb p) (handed_up tr)).

Lemma frame_eqb_eq p q : frame_eqb p q = true <-> p = q.
Proof.
  unfold frame_eqb. rewrite !andb_true_iff, !Z.eqb_eq. destruct p, q; cbn. split.
  - intros [[[[[-> ->] ->] ->] ->] ->]. reflexivity.
  - intros E. injection E. intuition.
Qed.

Lemma once p l : NoDup l -> In p l -> length (filter (frame_eqb p) l) = 1%nat.
Proof.
  induction l as [|x l IH]; intros N I; [destruct I|]. inversion N as [|y z N1 N2]; subst. cbn [filter].
  destruct (frame_eqb p x) eqn:E.
  - apply frame_eqb_eq in E. subst x. cbn [length]. f_equal.
    assert (filter (frame_eqb p) l = []) as ->; [|reflexivity].
    clear - N1. induction l as [|x l IH]; auto. cbn. destruct (frame_eqb p x) eqn:E.
    + apply frame_eqb_eq in E. subst. destruct N1. left. auto.
    + apply IH. intros X. apply N1. right. auto.
  - apply IH; auto. destruct I as [->|I]; auto. rewrite (proj2 (frame_eqb_eq p p) eq_refl) in E. discriminate.
Qed.

Lemma nodup_once p l : NoDup l -> (length (filter (frame_eqb p) l) <= 1)%nat.
Proof.
  intros N. destruct (existsb (frame_eqb p) l) eqn:E.
  - apply existsb_exists in E. destruct E as [x [X E]]. apply frame_eqb_eq in E. subst x. rewrite once; auto.
  - assert (filter (frame_eqb p) l = []) as ->; [|auto].
    clear N. induction l as [|x l IH]; auto. cbn in *. apply orb_false_iff in E. destruct E as [-> E]. auto.
Qed.

(** * C19 *)
(** A sender with at most 65535 accepted packets so far, any number of nodes, any channel. *)
Theorem C19_success_delivered_once : forall c e0 n a p, net_ok c -> net_reach c e0 n ->
  s_ids (fst (n a)) <= 65535 ->
  In (ODone true p) (snd (n a)) ->
  deliveries p (snd (n (f_dst p))) = 1%nat.
Proof.
  intros c e0 n a p C R B D. pose proof (Inv_reach c e0 n C R) as I.
  apply once; [eapply up_nodup; eauto|]. eapply i_done; eauto.
Qed.
Print Assumptions C19_success_delivered_once.

(** * C20 *)
(** No bound on the number of packets. *)
Theorem C20_genuine : forall c e0 n x f, net_ok c -> net_reach c e0 n ->
  In f (handed_up (snd (n x))) ->
  In (OAccept f) (snd (n (f_src f))) /\ (f_dst f = x \/ f_dst f = bcast).
Proof.
  intros c e0 n x f C R U. pose proof (Inv_reach c e0 n C R) as I.
  destruct (i_up c n I x f U) as [O [T D]]. split; auto. apply (i_data c n I f O T).
Qed.
Print Assumptions C20_genuine.

Theorem C20_at_most_once : forall c e0 n x p, net_ok c -> net_reach c e0 n ->
  (deliveries p (snd (n x)) <= 1)%nat.
Proof.
  intros c e0 n x p C R. apply nodup_once. eapply up_nodup. eapply Inv_reach; eauto.
Qed.
Print Assumptions C20_at_most_once.

(** * C44 *)
(** [f_body] numbers the packets of a node in order of acceptance (NanoModel.enqueue). *)
Theorem C44_delivery_order : forall c e0 n x a, net_ok c -> net_reach c e0 n ->
  s_ids (fst (n a)) <= 65535 ->
  StronglySorted Z.lt (map f_body (filter (fun f => f_src f =? a) (handed_up (snd (n x))))).
Proof.
  intros c e0 n x a C R B. eapply up_ordered; eauto. eapply Inv_reach; eauto.
Qed.
Print Assumptions C44_delivery_order.

(** ** Example: two nodes and a duplicating, losing channel *)

Fixpoint net_run (c : addr -> config) (n : net) (l : list (addr * event)) : net :=
  match l with [] => n | (a, e) :: r => net_run c (net_step c n a e) r end.
Definition heard (n : net) (e : event) : bool :=
  match e with EvRecv f true => existsb (frame_eqb f) (sent (snd (n (f_src f)))) | _ => true end.
Fixpoint all_heard (c : addr -> config) (n : net) (l : list (addr * event)) : bool :=
  match l with [] => true | (a, e) :: r => heard n e && all_heard c (net_step c n a e) r end.

Lemma net_run_reach c e0 l : forall n, net_reach c e0 n -> all_heard c n l = true -> net_reach c e0 (net_run c n l).
Proof.
  induction l as [|[a e] l IH]; intros n R H; [exact R|]. cbn in *. apply andb_true_iff in H. destruct H as [H1 H2].
  apply IH; auto. constructor; auto. destruct e; cbn; auto. destruct ok; auto. cbn in H1.
  apply existsb_exists in H1. destruct H1 as [g [G E]]. apply frame_eqb_eq in E. subst g.
  exists (f_src f). unfold sent in G. apply in_flat_map in G. destruct G as [o [O G]].
  destruct o; cbn in G; try contradiction. destruct G as [<-|[]]. exact O.
Qed.

(** Packet 1 is received twice at node 2; its first ACK is lost, the ACK timeout and the backoff
    run, the packet is repeated, acknowledged again, and reported. Packet 2 follows. *)
Definition d (k : Z) : frame := Frame T_DATA 1 2 (k + 1) 37 k.
Definition lossy : list (addr * event) :=
  [(1, EvEnqueue 20 2); (1, EvEnqueue 20 2);
   (2, EvRecv (d 0) true); (1, EvTimer 0 5); (1, EvTimer 0 5);
   (2, EvRecv (d 0) true); (1, EvRecv (ctrl T_ACK 2 1 1) true);
   (1, EvTimer 0 0); (2, EvRecv (d 1) true); (2, EvRecv (d 0) true);
   (1, EvRecv (ctrl T_ACK 2 1 2) true)].
Definition n0 : net := fun a => (init (ne a), []).

Example lossy_ok :
  net_reach nc ne (net_run nc n0 lossy) /\
  reported true (snd (net_run nc n0 lossy 1)) = [d 0; d 1] /\
  handed_up (snd (net_run nc n0 lossy 2)) = [d 0; d 1] /\
  transmissions (d 0) (snd (net_run nc n0 lossy 1)) = 2%nat.
Proof.
  split; [apply net_run_reach; [apply NRinit|vm_compute; reflexivity]|].
  split; [vm_compute; reflexivity|]. split; [vm_compute; reflexivity|]. vm_compute; reflexivity.
Qed.

Example nc_ok : net_ok nc.
Proof. intros a. split; [reflexivity|]. cbn. lia. Qed.

(** * C45 *)
(** Full statement: [C19_success_delivered_once] without the bound on the number of packets.
    False: packet 65536 of node 1 has number 0, which node 2 takes for a duplicate; it
    acknowledges the packet and drops it. *)
Theorem C45_success_delivered_any_length_refuted :
  exists c e0 n a p, net_ok c /\ net_real c e0 n /\ In (ODone true p) (snd (n a)) /\
    deliveries p (snd (n (f_dst p))) = 0%nat.
Proof.
  destruct lost_success as [n [p [R [D [E N]]]]]. exists nc, ne, n, 1, p.
  split; [apply nc_ok|]. split; [exact R|]. split; [exact D|]. rewrite E. unfold deliveries.
  assert (H : forall l, ~ In p l -> filter (frame_eqb p) l = []).
  { induction l as [|x l IH]; intros X; auto. cbn. destruct (frame_eqb p x) eqn:F.
    - apply frame_eqb_eq in F. subst. destruct X. left. auto.
    - apply IH. intros Y. apply X. right. auto. }
  rewrite H; auto.
Qed.
Print Assumptions C45_success_delivered_any_length_refuted.

(** What remains without any bound: a packet is never delivered more than once. *)
Theorem C45_success_delivered_any_length_partial : forall c e0 n a p, net_ok c -> net_reach c e0 n ->
  In (ODone true p) (snd (n a)) ->
  (s_ids (fst (n a)) <= 65535 -> deliveries p (snd (n (f_dst p))) = 1%nat) /\
  (deliveries p (snd (n (f_dst p))) <= 1)%nat.
Proof.
  intros c e0 n a p C R D. split; [|eapply C20_at_most_once; eauto].
  intros B. eapply C19_success_delivered_once; eauto.
Qed.
Print Assumptions C45_success_delivered_any_length_partial.

(** In the run above: reported, below the bound, delivered once. *)
Example C45_example : net_ok nc /\ net_reach nc ne (net_run nc n0 lossy) /\
  In (ODone true (d 0)) (snd (net_run nc n0 lossy 1)) /\ s_ids (fst (net_run nc n0 lossy 1)) = 2 /\
  deliveries (d 0) (snd (net_run nc n0 lossy 2)) = 1%nat.
Proof.
  split; [apply nc_ok|]. split; [apply lossy_ok|].
  split; [vm_compute; tauto|]. split; [vm_compute; reflexivity|]. vm_compute; reflexivity.
Qed.
