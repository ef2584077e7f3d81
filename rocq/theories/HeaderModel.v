(** Model of model/thz-mac-header.{h,cc}: class THzMacHeader. *)
From Coq Require Import ZArith List Lia Bool.
From Verif Require Import Base.
Import ListNotations.
Open Scope Z_scope.

(** thz-mac-header.h:125-132, the data members. The default constructor
    (thz-mac-header.cc) leaves the scalar members uninitialised: a default-constructed
    header is an arbitrary value of this record. *)
Record header := Hdr {
  h_src  : addr;
  h_dst  : addr;
  h_type : Z;
  h_dur  : Z;   (* m_duration, uint16_t, nanoseconds *)
  h_seq  : Z;   (* m_sequence, uint16_t *)
  h_retry : Z;  (* m_retry, uint8_t *)
  h_flags : Z;  (* m_flags, uint16_t *)
  h_sector : Z  (* m_sector, uint16_t *)
}.

(** thz-mac-header.h: THZ_PKT_TYPE_* *)
Definition T_CTA := 0.
Definition T_RTS := 1.
Definition T_CTS := 2.
Definition T_ACK := 3.
Definition T_DATA := 4.

(** THzMacHeader::SetDuration, thz-mac-header.cc:117-122: the nanosecond count (int64_t)
    is converted with static_cast<uint16_t>. Argument: Time::GetNanoSeconds (). *)
Definition set_duration (h : header) (ns : Z) : header :=
  Hdr (h_src h) (h_dst h) (h_type h) (wrap16 ns) (h_seq h) (h_retry h) (h_flags h) (h_sector h).

(** THzMacHeader::GetDuration, thz-mac-header.cc:166-170, in nanoseconds. *)
Definition get_duration (h : header) : Z := h_dur h.

(** THzMacHeader::GetSize, thz-mac-header.cc:172-195; sizeof(Mac48Address) is 6.
    GetSerializedSize (205-209) returns the same. *)
Definition get_size (h : header) : Z :=
  if h_type h =? T_CTA then 1 + 2 + 2 + 6 * 2
  else if h_type h =? T_RTS then 1 + 2 + 1 + 6 * 2 + 2
  else if h_type h =? T_CTS then 1 + 2 + 2 + 6 * 2 + 2
  else if h_type h =? T_ACK then 1 + 2 + 6 * 2 + 2
  else if h_type h =? T_DATA then 1 + 2 + 6 * 2 + 2
  else 0.

(** Buffer::Iterator::WriteU8 / WriteU16 / WriteHtolsbU16 of ns-3: a 16-bit value is
    written low byte first by both 16-bit writers. WriteTo(i, Mac48Address) writes the six
    address bytes in order. *)
Definition w8 (x : Z) : list Z := [wrap8 x].
Definition w16 (x : Z) : list Z := [x mod 256; (x / 256) mod 256].
Definition waddr (a : addr) : list Z :=
  [ (a / 2 ^ 40) mod 256; (a / 2 ^ 32) mod 256; (a / 2 ^ 24) mod 256;
    (a / 2 ^ 16) mod 256; (a / 2 ^ 8) mod 256; a mod 256 ].

(** THzMacHeader::Serialize, thz-mac-header.cc:211-250: the bytes written, in order. *)
Definition serialize (h : header) : list Z :=
  w8 (h_type h) ++
  (if h_type h =? T_CTA then
     w16 (h_sector h) ++ w16 (h_flags h) ++ waddr (h_src h) ++ waddr (h_dst h)
   else if h_type h =? T_RTS then
     w16 (h_flags h) ++ w8 (h_retry h) ++ waddr (h_src h) ++ waddr (h_dst h) ++ w16 (h_seq h)
   else if h_type h =? T_CTS then
     w16 (h_flags h) ++ w16 (h_dur h) ++ waddr (h_src h) ++ waddr (h_dst h) ++ w16 (h_seq h)
   else if h_type h =? T_ACK then
     w16 (h_dur h) ++ waddr (h_src h) ++ waddr (h_dst h) ++ w16 (h_seq h)
   else if h_type h =? T_DATA then
     w16 (h_dur h) ++ waddr (h_src h) ++ waddr (h_dst h) ++ w16 (h_seq h)
   else []).

(** Readers; [None] when the buffer is exhausted (ns-3 asserts there). *)
Definition reader (A : Type) := list Z -> option (A * list Z).

Definition r8 : reader Z :=
  fun b => match b with x :: r => Some (x, r) | _ => None end.
Definition r16 : reader Z :=
  fun b => match b with x :: y :: r => Some (x + 256 * y, r) | _ => None end.
Definition raddr : reader addr :=
  fun b => match b with
           | a :: b0 :: c :: d :: e :: f :: r =>
             Some (((((a * 256 + b0) * 256 + c) * 256 + d) * 256 + e) * 256 + f, r)
           | _ => None
           end.

Definition bind {A B} (m : option (A * list Z)) (k : A -> list Z -> option B) : option B :=
  match m with Some (a, r) => k a r | None => None end.

(** THzMacHeader::Deserialize, thz-mac-header.cc:252-295: fills the carried fields of the
    receiving header [h], returns the header and the unread bytes. *)
Definition deserialize (h : header) (b : list Z) : option (header * list Z) :=
  bind (r8 b) (fun ty b =>
  if ty =? T_CTA then
    bind (r16 b) (fun sector b => bind (r16 b) (fun flags b =>
    bind (raddr b) (fun s b => bind (raddr b) (fun d b =>
    Some (Hdr s d ty (h_dur h) (h_seq h) (h_retry h) flags sector, b)))))
  else if ty =? T_RTS then
    bind (r16 b) (fun flags b => bind (r8 b) (fun retry b =>
    bind (raddr b) (fun s b => bind (raddr b) (fun d b =>
    bind (r16 b) (fun sq b =>
    Some (Hdr s d ty (h_dur h) sq retry flags (h_sector h), b))))))
  else if ty =? T_CTS then
    bind (r16 b) (fun flags b => bind (r16 b) (fun dur b =>
    bind (raddr b) (fun s b => bind (raddr b) (fun d b =>
    bind (r16 b) (fun sq b =>
    Some (Hdr s d ty dur sq (h_retry h) flags (h_sector h), b))))))
  else if ty =? T_ACK then
    bind (r16 b) (fun dur b =>
    bind (raddr b) (fun s b => bind (raddr b) (fun d b =>
    bind (r16 b) (fun sq b =>
    Some (Hdr s d ty dur sq (h_retry h) (h_flags h) (h_sector h), b)))))
  else if ty =? T_DATA then
    bind (r16 b) (fun dur b =>
    bind (raddr b) (fun s b => bind (raddr b) (fun d b =>
    bind (r16 b) (fun sq b =>
    Some (Hdr s d ty dur sq (h_retry h) (h_flags h) (h_sector h), b)))))
  else Some (Hdr (h_src h) (h_dst h) ty (h_dur h) (h_seq h) (h_retry h) (h_flags h) (h_sector h), b)).
