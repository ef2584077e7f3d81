(** Vocabulary for the properties of one nano MAC: what can be read off the sequence of its
    observable effects. *)
From Coq Require Import ZArith List Bool.
From Verif Require Import Base HeaderModel NanoModel.
Import ListNotations.
Open Scope Z_scope.

(** Packets accepted, reported as sent, reported as discarded: in order. *)
Definition accepted_pkts (tr : list out) : list frame :=
  flat_map (fun o => match o with OAccept p => [p] | _ => [] end) tr.
Definition reported (ok : bool) (tr : list out) : list frame :=
  flat_map (fun o => match o with ODone b p => if Bool.eqb b ok then [p] else [] | _ => [] end) tr.

(** Frames put on the air, in order. *)
Definition sent (tr : list out) : list frame :=
  flat_map (fun o => match o with OSend f => [f] | _ => [] end) tr.

(** Packets handed up, in order. *)
Definition handed_up (tr : list out) : list frame :=
  flat_map (fun o => match o with OUp f => [f] | _ => [] end) tr.

(** Number of CTS and ACK timeouts reported for the sequence number of [p]. *)
Definition timeouts (p : frame) (tr : list out) : Z :=
  Z.of_nat (length (filter (fun o => match o with OTimeout n => n =? f_seq p | _ => false end) tr)).

(** Frame [f] is a transmission of packet [p]: its DATA frame, or an RTS announcing it. *)
Definition concerns (p f : frame) : Prop :=
  f = p \/ (f_type f = T_RTS /\ f_src f = f_src p /\ f_dst f = f_dst p /\ f_seq f = f_seq p).

(** Events an environment of nano nodes can produce: a CTS for this node answers an RTS this
    node has sent. *)
Definition answered (c : config) (tr : list out) (e : event) : Prop :=
  match e with
  | EvRecv f true => f_type f = T_CTS -> f_dst f = c_addr c ->
      exists g, In (OSend g) tr /\ f_type g = T_RTS /\ f_src g = c_addr c /\
                f_dst g = f_src f /\ f_seq g = f_seq f
  | _ => True
  end.

Fixpoint genuine (c : config) (s : state) (tr : list out) (l : list event) : Prop :=
  match l with
  | [] => True
  | e :: r => answered c tr e /\ genuine c (fst (step c s e)) (tr ++ snd (step c s e)) r
  end.

(** Boolean version of [concerns], and the number of transmissions of [p] in a trace. *)
Definition frame_eqb (f g : frame) : bool :=
  (f_type f =? f_type g) && (f_src f =? f_src g) && (f_dst f =? f_dst g) &&
  (f_seq f =? f_seq g) && (f_size f =? f_size g) && (f_body f =? f_body g).
Definition concernsb (p f : frame) : bool :=
  frame_eqb f p ||
  ((f_type f =? T_RTS) && (f_src f =? f_src p) && (f_dst f =? f_dst p) && (f_seq f =? f_seq p)).
Definition transmissions (p : frame) (tr : list out) : nat := length (filter (concernsb p) (sent tr)).

(** Number of pending backoff / next-packet events of the MAC for packet [p]. *)
Definition pending_checks (p : frame) (s : state) : nat :=
  length (filter (fun t => match tm_kind t with KCheck q => frame_eqb q p | _ => false end) (s_timers s)).

(** Energy put into the node by others (harvesting) during a run. *)
Fixpoint injected (c : config) (s : state) (l : list event) : Z :=
  match l with
  | [] => 0
  | e :: r => (match e with EvEnergy x => x - s_energy s | _ => 0 end) + injected c (fst (step c s e)) r
  end.

(** A CTS addressed to this node. *)
Definition own_cts (c : config) (e : event) : bool :=
  match e with EvRecv f true => (f_type f =? T_CTS) && (f_dst f =? c_addr c) | _ => false end.
Definition rts_sent (o : list out) : Z :=
  Z.of_nat (length (filter (fun f => f_type f =? T_RTS) (sent o))).

(** The channel does not duplicate: at any time at most as many CTS have been received as RTS
    have been sent ([k] is the difference at the start). *)
Fixpoint no_dup_cts (c : config) (s : state) (k : Z) (l : list event) : Prop :=
  match l with
  | [] => True
  | e :: r => let k' := if own_cts c e then k - 1 else k in
              0 <= k' /\ no_dup_cts c (fst (step c s e)) (k' + rts_sent (snd (step c s e))) r
  end.

(** Sizes: packets handed to Enqueue are at least FrameLength long with the MAC header, received
    frames contain their header. *)
Definition sized (c : config) (e : event) : Prop :=
  match e with
  | EvEnqueue size _ => 0 <= size /\ c_framelen c <= size + hdr_size T_DATA
  | EvRecv f true => hdr_size (f_type f) <= f_size f
  | _ => True
  end.

(** No booking in [o] failed. *)
Definition rich (o : list out) : Prop := forall tx rx, ~ In (OBooked false tx rx) o.

(** All packets are enqueued for [d]. *)
Definition enq_to (d : addr) (e : event) : Prop :=
  match e with EvEnqueue _ x => x = d | _ => True end.

(** Only pending events of the MAC itself run. *)
Fixpoint alone (c : config) (s : state) (l : list event) : Prop :=
  match l with
  | [] => True
  | e :: r => (match e with EvTimer i _ => nth_error (s_timers s) i <> None | _ => False end) /\
              alone c (fst (step c s e)) r
  end.

(** ** Witnesses

    The runs used in refutations respect real time ([timely]), every CTS and ACK addressed to
    the node answers an RTS or DATA frame it has sent before, other nodes only add energy, and
    random draws are in the generator's range. *)

(** [found q l]: some element satisfies [q]; stops at the first. *)
Fixpoint found {A} (q : A -> bool) (l : list A) : bool :=
  match l with [] => false | x :: r => if q x then true else found q r end.

(** [air]: the frames this node has sent so far, latest first. *)
Definition plausible (c : config) (s : state) (air : list frame) (e : event) : bool :=
  match e with
  | EvRecv f ok =>
    let answers ty := found (fun g => (f_type g =? ty) && (f_dst g =? f_src f) && (f_seq g =? f_seq f)) air in
    if negb ok || negb (f_dst f =? c_addr c) then true
    else if f_type f =? T_CTS then answers T_RTS
    else if f_type f =? T_ACK then answers T_DATA
    else true
  | EvEnergy r => s_energy s <=? r
  | EvTimer _ draw => (0 <=? draw) && (draw <? rng_m)
  | _ => true
  end.
Fixpoint realistic (c : config) (s : state) (air : list frame) (l : list event) : bool :=
  match l with
  | [] => true
  | e :: r => timely s e && plausible c s air e &&
              (let '(s1, o) := step c s e in realistic c s1 (rev (sent o) ++ air) r)
  end.

(** Scripts for building such runs: an event, or "the next pending event runs". *)
Inductive cmd := Do (e : event) | Next (draw : Z).
Fixpoint earliest (i : nat) (l : list timer) : option (nat * Z) :=
  match l with
  | [] => None
  | t :: r => match earliest (S i) r with
              | Some (j, d) => if d <? tm_due t then Some (j, d) else Some (i, tm_due t)
              | None => Some (i, tm_due t)
              end
  end.
Fixpoint play (c : config) (s : state) (l : list cmd) : list event :=
  match l with
  | [] => []
  | Do e :: r => e :: play c (fst (step c s e)) r
  | Next draw :: r =>
    match earliest 0 (s_timers s) with
    | None => []
    | Some (i, d) =>
      EvTick d :: EvTimer i draw ::
      play c (fst (step c (fst (step c s (EvTick d))) (EvTimer i draw))) r
    end
  end.

(** Bytes booked for transmission and not returned, and bytes put on the air. *)
Definition net_tx (o : list out) : Z :=
  fold_right (fun x n => match x with OBooked true tx _ => n + tx | ORefund tx _ => n - tx | _ => n end) 0 o.
Definition air_bytes (o : list out) : Z := fold_right (fun f n => f_size f + n) 0 (sent o).
