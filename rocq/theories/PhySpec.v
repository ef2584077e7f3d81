(** Vocabulary for the properties of the nano PHY. *)
From Coq Require Import ZArith List Bool.
From Verif Require Import Base PhyModel.
Import ListNotations.
Open Scope Z_scope.

(** The infinite pulse trains that start at [x] and [y] (a pulse of length [p] every [ts])
    overlap: some pulse of one intersects some pulse of the other. *)
Definition trains_overlap (p ts x y : Z) : Prop :=
  exists m k t, x + m * ts <= t < x + m * ts + p /\ y + k * ts <= t < y + k * ts + p.

(** All ongoing transmissions and receptions: their start times. *)
Definition ongoing (s : phy) : list Z := map o_start (y_txs s) ++ map r_start (y_rxs s).

(** Attributes make sense: pulses are not empty and at most half as long as a symbol. *)
Definition pconf_ok (c : pconf) : Prop := 0 < p_pulse c /\ 2 * p_pulse c <= p_ts c.

(** All times fit into the 53 bits of a double: now is at most about 9 seconds. *)
Definition early (c : pconf) (s : phy) : Prop :=
  0 <= y_now s /\ y_now s + 2 * p_ts c <= 2 ^ 52 /\ forall st, In st (ongoing s) -> Z.abs st <= 2 ^ 52.

(** What the trace says about reception [id]. *)
Definition accepted_rx (id : Z) (tr : list pout) : nat :=
  length (filter (fun o => match o with PAccepted i => i =? id | _ => false end) tr).
Definition reports (id : Z) (tr : list pout) : nat :=
  length (filter (fun o => match o with PReport i _ => i =? id | _ => false end) tr).
Definition transmitted (tr : list pout) : list otx :=
  flat_map (fun o => match o with PTx st d => [OTx st d] | _ => [] end) tr.
