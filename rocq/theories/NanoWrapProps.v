(** Property C43: success reports and the wrap-around of the sequence number. *)
From Coq Require Import ZArith List Lia Bool.
From Verif Require Import Base HeaderModel SeqModel EnergyModel NanoModel NanoProofs NanoSpec NanoDrain NanoOrder NanoWrap
  NanoProps.
Import ListNotations.
Open Scope Z_scope.

(** * C43 *)
(** Full statement: whenever [ODone true p] is emitted, [p] has been transmitted and the event
    is the arrival of an ACK from its destination. False after 65536 packets: a packet that
    got stuck (see C21) is still pending when its number is used again, SendDataDone matches
    entries by number alone, and reports both. *)
Theorem C43_success_means_acked_refuted :
  exists c e0 l p, config_ok c /\ realistic c (init e0) [] l = true /\
    In (ODone true p) (snd (run c (init e0) l)) /\
    forall f, In (OSend f) (snd (run c (init e0) l)) -> ~ concerns p f.
Proof. exact wrap_witness. Qed.
Print Assumptions C43_success_means_acked_refuted.

(** The environment only acknowledges what was sent: an ACK for this node carries the number
    of a DATA frame this node has sent to the ACK's sender. *)
Definition acks_answer (c : config) (tr : list out) (e : event) : Prop :=
  match e with
  | EvRecv f true => f_type f = T_ACK -> f_dst f = c_addr c ->
      exists g, In (OSend g) tr /\ f_type g = T_DATA /\ f_dst g = f_src f /\ f_seq g = f_seq f
  | _ => True
  end.

(** It holds for the first 65535 packets. Missing: runs with more packets. *)
Theorem C43_success_means_acked_partial : forall c e0 l e p, config_ok c -> genuine c (init e0) [] l ->
  acks_answer c (effects c e0 l) e ->
  s_ids (reach c e0 l) <= 65535 ->
  In (ODone true p) (snd (step c (reach c e0 l) e)) ->
  In (OSend p) (effects c e0 l) /\
  exists f, e = EvRecv f true /\ f_type f = T_ACK /\ f_dst f = c_addr c /\
            f_src f = f_dst p /\ f_seq f = f_seq p.
Proof.
  intros c e0 l e p C G A B I.
  destruct (acked c e0 l e p C G B I) as [f [-> [T [D [N [S U]]]]]]. split; [exact S|].
  destruct (A T D) as [g [G1 [G2 [G3 G4]]]].
  exists f. repeat (split; [auto; fail|]). split; [|exact N].
  rewrite <- (U g G1 G2 G4). symmetry. exact G3.
Qed.
Print Assumptions C43_success_means_acked_partial.

(** Two destinations; the ACK of node 3 completes packet 2. *)
Example C43_ack :
  let c := cfg false 5 5 5 in
  let l := play c (init 10000) [enq 100 2; enq 100 3; ack 2 1; Do EvReady] in
  let e := EvRecv (ctrl T_ACK 3 1 2) true in
  realistic c (init 10000) [] (l ++ [e]) = true /\
  snd (step c (reach c 10000 l) e) = [ODone true (data 3 2 117 1)].
Proof. vm_compute. split; reflexivity. Qed.
