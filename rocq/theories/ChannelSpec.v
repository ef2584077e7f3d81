(** Vocabulary for the properties of the channel. *)
From Coq Require Import ZArith List Bool.
From Verif Require Import Base ChannelModel.
Import ListNotations.
Open Scope Z_scope.

Definition cnt {A} (f : A -> bool) (l : list A) : nat := length (filter f l).

(** Selectors for the copy of transmission [k] made for device [j]. *)
Definition is_kj (k j : nat) (ne : nentry) : bool := Nat.eqb (n_k ne) k && Nat.eqb (n_j ne) j.
Definition p_recv (k j : nat) (e : Z * cev) : bool := match snd e with ERecv _ ne => is_kj k j ne | _ => false end.
Definition p_done (k j : nat) (e : Z * cev) : bool := match snd e with ERecvDone _ ne => is_kj k j ne | _ => false end.
Definition p_del (k j : nat) (e : Z * cev) : bool := match snd e with EDelete ne => is_kj k j ne | _ => false end.
Definition p_sent (k : nat) (e : Z * cev) : bool := match snd e with ESendDone k' _ => Nat.eqb k' k | _ => false end.
Definition out_start (k j : nat) (o : cout) : bool := match o with CStart k' j' _ _ => Nat.eqb k' k && Nat.eqb j' j | _ => false end.
Definition out_end (k j : nat) (o : cout) : bool := match o with CEnd k' j' _ _ => Nat.eqb k' k && Nat.eqb j' j | _ => false end.
Definition out_sent (k : nat) (o : cout) : bool := match o with CSent k' _ _ => Nat.eqb k' k | _ => false end.

(** Number of notifications that device index [j] should get of the transmission [r]. *)
Definition target (r : txrec) (j : nat) : nat :=
  match nth_error (t_devs r) j with Some d => if t_phy r =? d then 0%nat else 1%nat | None => 0%nat end.
