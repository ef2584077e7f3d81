(** Properties C01-C05: the MAC header codec. *)
From Coq Require Import ZArith List Lia Bool.
From Verif Require Import Base HeaderModel HeaderSpec HeaderProofs.
Import ListNotations.
Open Scope Z_scope.

(** C01: decode (encode h) conveys the same frame, for every previous content [old] of the
    receiving header and every trailing byte string [rest]. *)
Theorem C01_header_roundtrip :
  forall h old rest, header_ok h -> legal_type (h_type h) ->
  exists h', deserialize old (serialize h ++ rest) = Some (h', rest) /\
             frame_of h' = frame_of h /\ frame_of h <> None.
Proof.
  intros h old rest K L. destruct (roundtrip h old rest K L) as (h' & A & B & C & _). eauto.
Qed.
Print Assumptions C01_header_roundtrip.

Definition ex_cts : header := Hdr 0x0000deadbeef 0xffffffffffff 2 65535 513 7 10 3.
Example C01_nonvacuous :
  header_ok ex_cts /\ legal_type (h_type ex_cts) /\
  frame_of ex_cts = Some (FCts 10 65535 0x0000deadbeef 0xffffffffffff 513) /\
  serialize ex_cts = [2; 10;0; 255;255; 0;0;0xde;0xad;0xbe;0xef; 255;255;255;255;255;255; 1;2].
Proof.
  repeat split; cbn; unfold addr_ok, u8, u16; try lia; vm_compute; discriminate.
Qed.

(** C02, the full statement: for every header, bytes written = advertised size. It is false
    for the type values 5..255, for which one byte is written while 0 is advertised. *)
Theorem C02_size_refuted :
  exists h, header_ok h /\ Z.of_nat (length (serialize h)) <> get_size h.
Proof.
  exists (Hdr 0 0 5 0 0 0 0 0). split.
  - split; cbn; unfold addr_ok, u8, u16; lia.
  - vm_compute. discriminate.
Qed.
Print Assumptions C02_size_refuted.

(** C02 restricted to the five frame types: written = advertised = consumed, for the reader
    on any buffer. Missing: the other 251 type values, where the claim is false. *)
Theorem C02_size_partial :
  (forall h, legal_type (h_type h) -> Z.of_nat (length (serialize h)) = get_size h) /\
  (forall old b h' rest, deserialize old b = Some (h', rest) -> legal_type (h_type h') ->
     Z.of_nat (length b) - Z.of_nat (length rest) = get_size h').
Proof.
  split. exact size_legal.
  intros old b h' rest D L. destruct (deserialize_any _ _ _ _ D) as [E _].
  rewrite E. unfold legal_type in L.
  replace ((0 <=? h_type h') && (h_type h' <=? 4)) with true by (symmetry; apply andb_true_iff; split; apply Z.leb_le; lia).
  reflexivity.
Qed.
Print Assumptions C02_size_partial.

(** Exact extent of the failure: for every other type value, one byte is written and read
    but zero bytes are advertised. *)
Theorem C02_size_illegal_types :
  forall h, u8 (h_type h) -> ~ legal_type (h_type h) ->
  get_size h = 0 /\ serialize h = [h_type h].
Proof. intros h A B. destruct (size_illegal h A B) as (C & D & _). auto. Qed.
Print Assumptions C02_size_illegal_types.

Example C02_sizes :
  map (fun t => get_size (Hdr 1 2 t 0 0 0 0 0)) [0;1;2;3;4] = [17;18;19;17;17].
Proof. reflexivity. Qed.

(** C03, the full statement is false: a duration of 65536 ns arrives as 0. *)
Theorem C03_duration_refuted :
  exists h ns h', header_ok h /\ h_type h = T_CTS /\ 0 <= ns /\
    deserialize h (serialize (set_duration h ns)) = Some (h', []) /\ get_duration h' <> ns.
Proof.
  exists (Hdr 1 2 2 0 0 0 0 0), 65536, (Hdr 1 2 2 0 0 0 0 0).
  repeat split; cbn; unfold addr_ok, u8, u16; try lia; vm_compute; discriminate.
Qed.
Print Assumptions C03_duration_refuted.

(** C03, what holds: the receiver reads the duration modulo 65536 ns; it is the announced
    duration exactly when that is below 65536 ns. Missing: longer durations. *)
Theorem C03_duration_partial :
  forall h ns old rest, header_ok h -> (h_type h = 2 \/ h_type h = 3 \/ h_type h = 4) -> 0 <= ns ->
  exists h', deserialize old (serialize (set_duration h ns) ++ rest) = Some (h', rest) /\
             get_duration h' = ns mod 65536 /\
             (get_duration h' = ns <-> ns < 65536).
Proof.
  intros h ns old rest K C P. destruct (duration_wire h ns old rest K C) as (h' & A & B).
  exists h'. repeat split; auto; rewrite B; intros Q.
  - pose proof (Z.mod_pos_bound ns 65536). lia.
  - apply Z.mod_small. lia.
Qed.
Print Assumptions C03_duration_partial.

(** Durations of 65535 ns and 65537 ns in a CTS: the second arrives as 1 ns. *)
Example C03_example :
  header_ok (Hdr 1 2 T_CTS 0 0 0 0 0) /\
  map (fun ns => match deserialize (Hdr 0 0 0 0 0 0 0 0) (serialize (set_duration (Hdr 1 2 T_CTS 0 0 0 0 0) ns)) with
                 | Some (h, []) => get_duration h | _ => -1 end) [0; 65535; 65537] = [0; 65535; 1].
Proof. split; [repeat split; cbn; unfold addr_ok, u8, u16; try lia; vm_compute; discriminate|vm_compute; reflexivity]. Qed.

(** C04: unique parsing. *)
Theorem C04_wire_unambiguous :
  forall h1 h2 p1 p2, header_ok h1 -> header_ok h2 ->
  legal_type (h_type h1) -> legal_type (h_type h2) ->
  serialize h1 ++ p1 = serialize h2 ++ p2 -> frame_of h1 = frame_of h2 /\ p1 = p2.
Proof. exact prefix_free. Qed.
Print Assumptions C04_wire_unambiguous.

Example C04_nonvacuous :
  let a := Hdr 1 2 1 77 5 1 0 0 in let b := Hdr 1 2 1 99 5 1 0 4 in
  a <> b /\ serialize a ++ [9] = serialize b ++ [9] /\ frame_of a = frame_of b.
Proof. repeat split. discriminate. Qed.

(** C05: only the carried fields change. *)
Theorem C05_uncarried_fields_kept :
  forall old b h' rest, deserialize old b = Some (h', rest) -> uncarried_same (h_type h') old h'.
Proof. intros old b h' rest D. exact (proj2 (deserialize_any _ _ _ _ D)). Qed.
Print Assumptions C05_uncarried_fields_kept.

(** An RTS leaves the stale duration in place: the receiver reads 777 ns nobody sent. *)
Example C05_stale_duration :
  exists h', deserialize (Hdr 0 0 0 777 0 0 0 0) (serialize (Hdr 1 2 1 1234 5 0 0 0)) = Some (h', []) /\
             get_duration h' = 777.
Proof. eexists. split. reflexivity. reflexivity. Qed.
