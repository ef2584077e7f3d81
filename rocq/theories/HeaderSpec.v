(** Specification vocabulary for the MAC header: what each frame type carries. *)
From Coq Require Import ZArith List Lia Bool.
From Verif Require Import Base HeaderModel.
Open Scope Z_scope.

(** The information a frame of each type conveys (thz-mac-header.h, class documentation and
    the field lists of Serialize). *)
Inductive frame :=
| FCta (sector flags : Z) (src dst : addr)
| FRts (flags retry : Z) (src dst : addr) (seq : Z)
| FCts (flags dur : Z) (src dst : addr) (seq : Z)
| FAck (dur : Z) (src dst : addr) (seq : Z)
| FData (dur : Z) (src dst : addr) (seq : Z).

(** What a header object says, as a frame; [None] for an unknown type. *)
Definition frame_of (h : header) : option frame :=
  match h_type h with
  | 0 => Some (FCta (h_sector h) (h_flags h) (h_src h) (h_dst h))
  | 1 => Some (FRts (h_flags h) (h_retry h) (h_src h) (h_dst h) (h_seq h))
  | 2 => Some (FCts (h_flags h) (h_dur h) (h_src h) (h_dst h) (h_seq h))
  | 3 => Some (FAck (h_dur h) (h_src h) (h_dst h) (h_seq h))
  | 4 => Some (FData (h_dur h) (h_src h) (h_dst h) (h_seq h))
  | _ => None
  end.

(** All fields within the ranges of their C++ types. *)
Record header_ok (h : header) : Prop := {
  ok_src : addr_ok (h_src h);
  ok_dst : addr_ok (h_dst h);
  ok_type : u8 (h_type h);
  ok_dur : u16 (h_dur h);
  ok_seq : u16 (h_seq h);
  ok_retry : u8 (h_retry h);
  ok_flags : u16 (h_flags h);
  ok_sector : u16 (h_sector h)
}.

(** One of the five frame types. *)
Definition legal_type (t : Z) : Prop := 0 <= t <= 4.

(** The fields a frame type does not carry agree in [h] and [h']. *)
Definition uncarried_same (t : Z) (h h' : header) : Prop :=
  match t with
  | 0 => h_dur h' = h_dur h /\ h_seq h' = h_seq h /\ h_retry h' = h_retry h
  | 1 => h_dur h' = h_dur h /\ h_sector h' = h_sector h
  | 2 => h_retry h' = h_retry h /\ h_sector h' = h_sector h
  | 3 | 4 => h_retry h' = h_retry h /\ h_flags h' = h_flags h /\ h_sector h' = h_sector h
  | _ => h_src h' = h_src h /\ h_dst h' = h_dst h /\ h_dur h' = h_dur h /\ h_seq h' = h_seq h /\
         h_retry h' = h_retry h /\ h_flags h' = h_flags h /\ h_sector h' = h_sector h
  end.
