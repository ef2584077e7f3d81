(** A network of nano nodes (model/thz-mac-nano.cc at every node) over an arbitrary channel.

    The channel and the PHYs are not modelled here but replaced by everything they could do:
    a frame some node has transmitted may be received by any node, at any later time, any
    number of times, or never; corrupted receptions carry any frame. Energy levels change
    arbitrarily, pending events run in any order. thz-channel.cc and thz-phy-nano.cc produce a
    subset of these behaviours: what a PHY reports as received is a copy of a frame handed to
    THzChannel::SendPacket (thz-channel.cc:169). *)
From Coq Require Import ZArith List Bool.
From Verif Require Import Base HeaderModel SeqModel EnergyModel NanoModel.
Import ListNotations.
Open Scope Z_scope.

(** Every address has a node: its state and all its effects so far. *)
Definition net := addr -> state * list out.

(** Node [a] processes event [e]. *)
Definition net_step (c : addr -> config) (n : net) (a : addr) (e : event) : net :=
  let old := n a in
  let new := step (c a) (fst old) e in
  fun b => if b =? a then (fst new, snd old ++ snd new) else n b.

(** [f] has been transmitted by some node. *)
Definition on_air (n : net) (f : frame) : Prop := exists b, In (OSend f) (snd (n b)).

(** Correct receptions are of transmitted frames. *)
Definition allowed (n : net) (e : event) : Prop :=
  match e with EvRecv f true => on_air n f | _ => True end.

Inductive net_reach (c : addr -> config) (e0 : addr -> Z) : net -> Prop :=
| NRinit : net_reach c e0 (fun a => (init (e0 a), []))
| NRstep n a e : net_reach c e0 n -> allowed n e -> net_reach c e0 (net_step c n a e).

(** Nodes are configured with their own address. *)
Definition net_ok (c : addr -> config) : Prop := forall a, c_addr (c a) = a /\ 0 <= c_limit (c a).

(** The same with real time: one clock, pending events run at their time and in order of
    scheduling, others only add energy to a node. Used for counterexamples. *)
Inductive net_real (c : addr -> config) (e0 : addr -> Z) : net -> Prop :=
| NTinit : net_real c e0 (fun a => (init (e0 a), []))
| NTev n a e : net_real c e0 n -> allowed n e -> timely (fst (n a)) e = true ->
    (forall t, e <> EvTick t) -> (forall r, e = EvEnergy r -> s_energy (fst (n a)) <= r) ->
    net_real c e0 (net_step c n a e)
| NTtick n t : net_real c e0 n -> (forall a, timely (fst (n a)) (EvTick t) = true) ->
    net_real c e0 (fun a => (set_now t (fst (n a)), snd (n a))).
