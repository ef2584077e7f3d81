(** Model of the duplicate filter IsNewSequence. The same code appears in
    thz-mac-nano.cc:924-948, thz-mac-macro.cc:1087-1111, thz-mac-macro-ap.cc:900-924 and
    thz-mac-macro-client.cc:970-994. *)
From Coq Require Import ZArith List Bool.
From Verif Require Import Base.
Import ListNotations.
Open Scope Z_scope.

(** m_seqList: std::list<std::pair<Mac48Address, uint16_t>>. *)
Definition seqlist := list (addr * Z).

(** IsNewSequence (addr, seq), thz-mac-nano.cc:924-948: linear search for the first entry of
    the address; update it if the number is larger; append a new entry if there is none. *)
Fixpoint is_new (l : seqlist) (a : addr) (s : Z) : bool * seqlist :=
  match l with
  | [] => (true, [(a, s)])
  | (a', s') :: r =>
    if a' =? a then
      if s >? s' then (true, (a', s) :: r) else (false, (a', s') :: r)
    else let '(b, r') := is_new r a s in (b, (a', s') :: r')
  end.

(** A history of calls: decisions in order, and the final list. *)
Fixpoint run_seq (l : seqlist) (h : list (addr * Z)) : list bool * seqlist :=
  match h with
  | [] => ([], l)
  | (a, s) :: r =>
    let '(b, l') := is_new l a s in
    let '(bs, l'') := run_seq l' r in (b :: bs, l'')
  end.

(** The decisions of the filter starting with the empty list of the constructor. *)
Definition decisions (h : list (addr * Z)) : list bool := fst (run_seq [] h).
