(** Reading data_frequency.txt in thz-spectrum-waveform.cc: FreqSeqStart, FreqStartValue, FreqBands, FreqSeqEnd (187-301), and the spectrum
    over the whole table (130-158, 457-482). Doubles are rational numbers, int is unbounded; the file is the list of its numbers. *)
From Coq Require Import ZArith List QArith.
From Verif Require Import WaveModel.
Import ListNotations.
Open Scope Q_scope.

(** FreqSeqStart, 193-218: the loop. *)
Fixpoint below (fs : Q) (t : list Q) : Z :=
  match t with [] => 0%Z | f :: r => if Qle_bool fs f then 0%Z else (1 + below fs r)%Z end.
Definition freq_seq_start (fs : Q) (t : list Q) : Z := (1 + below fs t)%Z.
(** FreqStartValue, 220-240; [u]: what the local variable contains before. *)
Definition freq_start_value (fs u : Q) (t : list Q) : Q := start_value fs u t.

(** The loop of FreqBands, 252-266, and the second one of FreqSeqEnd, 287-299: the elements of f_store written, in this order, and the
    final counter. [n]: m_numsb. *)
Fixpoint store_loop (fs : Q) (n i : Z) (t : list Q) : list (Z * Q) * Z :=
  match t with
  | [] => ([], i)
  | f :: r =>
    if Qle_bool fs f then
      if (i + 1 =? n)%Z then ([(i, f)], (i + 1)%Z)
      else let x := store_loop fs n (i + 1) r in ((i, f) :: fst x, snd x)
    else let x := store_loop fs n i r in ((i, f) :: fst x, snd x)
  end.
Definition freq_bands (fs : Q) (n : Z) (t : list Q) : list (Z * Q) := fst (store_loop fs n 0 t).
(** The last value written to element [k]. *)
Definition element (k : Z) (w : list (Z * Q)) : option Q := fold_left (fun x e => if (fst e =? k)%Z then Some (snd e) else x) w None.

(** FreqSeqEnd, 268-301: the first loop has read the number that ends it. *)
Fixpoint skip_below (fs : Q) (t : list Q) : list Q :=
  match t with [] => [] | f :: r => if Qle_bool fs f then r else skip_below fs r end.
Definition freq_seq_end (fs : Q) (n : Z) (t : list Q) : Z := (snd (store_loop fs n 0 (skip_below fs t)) + below fs t)%Z.

(** AllTHzSpectrumWaveformInitializer, 130-158: one band more than the table has numbers. *)
Definition all_bands (c : wcfg) (t : list Q) : list band :=
  map (fun j => Band (89937800000 + (inject_Z j - (1 # 2)) * w_sbw c) (89937800000 + (inject_Z j + (1 # 2)) * w_sbw c)) (upto (Z.of_nat (length t) + 1)).
(** CreateAllPowerSpectralDensity, 457-482: the elements written. [shape f]: the power density for the frequency [f]. *)
Definition all_psd (shape : Q -> Q) (t : list Q) : list (Z * Q) :=
  combine (upto (Z.of_nat (length t))) (map shape t).
