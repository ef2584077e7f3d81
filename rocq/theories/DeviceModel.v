(** Model of model/thz-net-device.cc: Send, SendFrom and ForwardUp. Packets are lists of bytes;
    the LLC/SNAP header is that of ns-3 (8 bytes: AA AA 03 00 00 00 and the protocol number). *)
From Coq Require Import ZArith List Bool.
From Verif Require Import Base.
Import ListNotations.
Open Scope Z_scope.

Definition add_llc (proto : Z) (p : list Z) : list Z :=
  [170; 170; 3; 0; 0; 0; proto / 256; proto mod 256] ++ p.
(** RemoveHeader; [None]: the packet is too short. *)
Definition remove_llc (p : list Z) : option (Z * list Z) :=
  match p with
  | _ :: _ :: _ :: _ :: _ :: _ :: a :: b :: r => Some (a * 256 + b, r)
  | _ => None
  end.

(** Send, thz-net-device.cc:343-365: the packet handed to m_mac->Enqueue. Create<Packet>(65000)
    is 65000 zero bytes. *)
Definition blank_packet : list Z := repeat 0 (Z.to_nat 65000).
Definition dev_send (proto : Z) (p : list Z) : list Z :=
  let q := add_llc proto p in
  if Z.of_nat (length q) =? 60004 then add_llc proto blank_packet else q.

(** SendFrom, 367-385. *)
Definition dev_send_from (proto : Z) (p : list Z) : list Z := add_llc proto p.

(** Addresses are 48-bit numbers, most significant byte first; Mac48Address::IsBroadcast
    compares with ff:ff:ff:ff:ff:ff, IsGroup tests the lowest bit of the first byte. *)
Definition broadcast : Z := 2 ^ 48 - 1.
Definition is_group (a : Z) : bool := Z.testbit a 40.

Inductive ptype := Broadcast | Multicast | Host | OtherHost.
Definition packet_type (own dest : Z) : ptype :=
  if dest =? broadcast then Broadcast
  else if is_group dest then Multicast
  else if dest =? own then Host
  else OtherHost.

(** ForwardUp, 387-420. *)
Inductive fout :=
| FTraceRx (p : list Z) (src : Z)                (* m_rxLogger *)
| FUp (p : list Z) (proto src : Z)               (* m_forwardUp *)
| FShort.                                        (* header removed from a shorter packet *)
Definition dev_forward (own : Z) (p : list Z) (src dest : Z) : list fout :=
  match remove_llc p with
  | None => [FShort]
  | Some (proto, r) =>
    match packet_type own dest with
    | OtherHost => []
    | _ => [FTraceRx r src; FUp r proto src]
    end
  end.
