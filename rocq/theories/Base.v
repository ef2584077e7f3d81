(** Shared vocabulary: machine-integer wraps, addresses, small list facts. *)
From Coq Require Import ZArith List Lia Bool.
Import ListNotations.
Open Scope Z_scope.

(** Conversion of an integer to uint8_t / uint16_t / uint32_t (C++ [conv.integral]). *)
Definition wrap8 (x : Z) : Z := x mod 2 ^ 8.
Definition wrap16 (x : Z) : Z := x mod 2 ^ 16.
Definition wrap32 (x : Z) : Z := x mod 2 ^ 32.

Definition u8 (x : Z) : Prop := 0 <= x < 2 ^ 8.
Definition u16 (x : Z) : Prop := 0 <= x < 2 ^ 16.
Definition u32 (x : Z) : Prop := 0 <= x < 2 ^ 32.

(** ns3::Mac48Address: six bytes, compared with memcmp; represented as the 48-bit number
    whose big-endian bytes they are. *)
Definition addr := Z.
Definition addr_ok (a : addr) : Prop := 0 <= a < 2 ^ 48.

(** Mac48Address::GetBroadcast () = ff:ff:ff:ff:ff:ff *)
Definition bcast : addr := 2 ^ 48 - 1.

(** Mac48Address::IsGroup (): lowest bit of the first byte. *)
Definition is_group (a : addr) : bool := Z.odd (a / 2 ^ 40).

Lemma wrap16_id x : u16 x -> wrap16 x = x.
Proof. unfold u16, wrap16. intros. apply Z.mod_small. lia. Qed.

Lemma wrap16_range x : u16 (wrap16 x).
Proof. unfold u16, wrap16. apply Z.mod_pos_bound. reflexivity. Qed.

Lemma wrap8_id x : u8 x -> wrap8 x = x.
Proof. unfold u8, wrap8. intros. apply Z.mod_small. lia. Qed.

Lemma wrap8_range x : u8 (wrap8 x).
Proof. unfold u8, wrap8. apply Z.mod_pos_bound. reflexivity. Qed.
