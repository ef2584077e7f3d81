(** The spectra of thz-spectrum-waveform.cc and their integration in thz-spectrum-propagation-loss.cc.
    Doubles are rational numbers (no rounding); int is unbounded. *)
From Coq Require Import ZArith List QArith.
Import ListNotations.
Open Scope Q_scope.

(** Conversion of a double to int. *)
Definition qtrunc (q : Q) : Z := Z.quot (Qnum q) (Zpos (Qden q)).

(** Attributes of THzSpectrumValueFactory, 44-76: SubBandWidth, TotalBandWidth, CentralFrequency, NumSample (an int, as is
    m_numsb: thz-spectrum-waveform.h:118-124). NumSubBand is overwritten before it is read. *)
Record wcfg := Wcfg { w_sbw : Q; w_tbw : Q; w_fc : Q; w_samples : Z }.

(** m_numsb and m_fstart after THzSpectrumWaveformInitializer, 89-90. *)
Definition numsb (c : wcfg) : Z := qtrunc (w_tbw c / w_sbw c).
Definition fstart (c : wcfg) : Q := w_fc c - inject_Z (Z.quot (numsb c) 2) * w_sbw c.
(** The loop over data_frequency.txt, 102-113: the first entry that is not less than m_fstart, otherwise the last
    one; [f] is the value read before. *)
Fixpoint start_value (fs : Q) (f : Q) (table : list Q) : Q :=
  match table with [] => f | x :: r => if Qle_bool fs x then x else start_value fs x r end.

Record band := Band { b_lo : Q; b_hi : Q }.
Definition b_mid (b : band) : Q := (b_lo b + b_hi b) / 2.
Definition upto (n : Z) : list Z := map Z.of_nat (seq 0 (Z.to_nat n)).

(** Bands of THzSpectrumWaveformInitializer, 117-124. *)
Definition wave_bands (c : wcfg) (f0 : Q) : list band :=
  map (fun j => Band (f0 + (inject_Z j - (1 # 2)) * w_sbw c) (f0 + (inject_Z j + (1 # 2)) * w_sbw c)) (upto (numsb c + 1)).

(** Bands of CreateTxPowerSpectralDensity, 344-353. m_numsb / m_numsample is a division of int. *)
Definition psd_bands (c : wcfg) (f0 : Q) : list band :=
  map (fun j => Band (f0 - (1 # 2) * w_sbw c + inject_Z j * w_sbw c * inject_Z (Z.quot (numsb c) (w_samples c)))
                     (f0 - (1 # 2) * w_sbw c + inject_Z (j + 1) * w_sbw c * inject_Z (Z.quot (numsb c) (w_samples c))))
      (upto (w_samples c)).
(** Values of CreateTxPowerSpectralDensity, 359-364. *)
Definition flat_psd (c : wcfg) (p : Q) : list Q := map (fun _ => p / w_tbw c) (upto (w_samples c)).

Definition qsum (l : list Q) : Q := fold_right Qplus 0 l.
(** CalcRxPowerDA, thz-spectrum-propagation-loss.cc:89-112, without loss and gain. numberOfSubBands and numberOfSamples
    are doubles there, set from m_numsb and m_numsample (thz-phy-macro.cc:163-165, 268-270; thz-phy-nano.cc:166-168,
    317-319); [nsb]: m_numsb. *)
Definition integrate (c : wcfg) (nsb : Z) (psd : list Q) : Q :=
  qsum psd * w_sbw c * (inject_Z nsb / inject_Z (w_samples c)).

(** CreateTxPowerSpectralDensityMask, 372-433: the value of band [i] for m_numsb = [n]. Group g, from 7 on, is the bands
    from (n / 24) * g to (n / 24) * (g + 1); the twelve groups have the factors 1e-4, 1e-4, 0.0015849, 0.0015849, 1, 1, 1, 1,
    0.0015849, 0.0015849, 1e-4, 1e-4. *)
Definition mask_factor (g : Z) : Q :=
  if ((7 <=? g) && (g <? 9))%bool%Z then 1 # 10000
  else if ((9 <=? g) && (g <? 11))%bool%Z then 15849 # 10000000
  else if ((11 <=? g) && (g <? 15))%bool%Z then 1
  else if ((15 <=? g) && (g <? 17))%bool%Z then 15849 # 10000000
  else if ((17 <=? g) && (g <? 19))%bool%Z then 1 # 10000
  else 0.
(** The indices written, with their values, in the order of the loops. *)
Definition mask_writes (c : wcfg) (p : Q) : list (Z * Q) :=
  flat_map (fun g => map (fun i => ((Z.quot (numsb c) 24 * g + i)%Z, p / (160269584 # 10000000) * mask_factor g / w_sbw c)) (upto (Z.quot (numsb c) 24)))
    (map (fun k => k + 7)%Z (upto 12)).

(** THzPulseSpectrumWaveformInitializer, 171-181: m_numsb is set anew; bands from PULSE_START_FREQUENCY on. *)
Definition pulse_numsb (c : wcfg) : Z := qtrunc ((4000000000000 - 100000000000) / w_sbw c).
Definition pulse_bands (c : wcfg) : list band :=
  map (fun j => Band ((100000000000 / w_sbw c + (inject_Z j - (1 # 2)) * inject_Z (pulse_numsb c) / inject_Z (w_samples c)) * w_sbw c)
                     ((100000000000 / w_sbw c + (inject_Z j + (1 # 2)) * inject_Z (pulse_numsb c) / inject_Z (w_samples c)) * w_sbw c))
      (upto (w_samples c)).
(** CalculateEnergyConstant, 490-505, and CreatePulsePowerSpectralDensity, 520-528. [shape f]: (2 pi f)^(2 n) exp (- (2 pi f r)^2).
    m_numsb / m_numsample in 502 is a division of int. *)
Definition energy_constant (c : wcfg) (shape : Q -> Q) (p : Q) : Q :=
  p / (qsum (map (fun b => shape (b_mid b)) (pulse_bands c)) * (w_sbw c * inject_Z (Z.quot (pulse_numsb c) (w_samples c)))).
Definition pulse_psd (c : wcfg) (shape : Q -> Q) (p : Q) : list Q :=
  map (fun b => shape (b_mid b) * energy_constant c shape p) (pulse_bands c).

(** The default attributes. *)
Definition wave_default : wcfg := Wcfg 762940000 74768000000 1034500000000 100.
