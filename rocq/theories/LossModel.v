(** The propagation loss, thz-spectrum-propagation-loss.cc.
    Frequencies, distances and coefficients are rational numbers, powers and losses real numbers: no rounding. *)
From Coq Require Import ZArith List QArith Reals Qreals Bool.
Import ListNotations.

(** 9.894e8, line 167. *)
Definition win : Q := 989400000.
(** 167: the tabulated frequency is too small or too large. *)
Definition outside (f x : Q) : bool := negb (Qle_bool (f - win)%Q x) || negb (Qle_bool x (f + win)%Q).
(** j after the loop over data_frequency.txt, 165-175. *)
Fixpoint freq_index (f : Q) (freqs : list Q) (j : nat) : nat :=
  match freqs with [] => j | x :: r => if outside f x then freq_index f r (S j) else j end.
(** The loop over data_AbsCoe.txt, 176-193; [zero]: d == 0. None: the function returns 0. kf is 0.0 at first. *)
Fixpoint coef_loop (zero : bool) (j i : nat) (coefs : list Q) : option Q :=
  match coefs with
  | [] => Some 0%Q
  | k :: r => if negb (Nat.eqb i j) then (if zero then None else coef_loop zero j (S i) r) else Some k
  end.

(** m_freqMap. *)
Definition cache := list (Q * Q).
Fixpoint cached (m : cache) (f : Q) : option Q :=
  match m with [] => None | (g, k) :: r => if Qeq_bool g f then Some k else cached r f end.
Record tables := Tables { t_freq : list Q; t_coef : list Q }.
(** CalculateAbsLoss, 135-201, up to the value of kf; None: return 0 in 191. The assertions d >= 0 and f > 0 are left out. *)
Definition abs_coef (t : tables) (m : cache) (f d : Q) : cache * option Q :=
  match cached m f with
  | Some k => (m, Some k)
  | None => match coef_loop (Qeq_bool d 0) (freq_index f (t_freq t) 0) 0 (t_coef t) with
            | None => (m, None)
            | Some k => ((f, k) :: m, Some k)
            end
  end.

Open Scope R_scope.
(** 199-200 and 191. *)
Definition abs_value (d : Q) (r : option Q) : R := match r with None => 0 | Some k => exp (Q2R k * Q2R d) end.
Definition abs_loss (t : tables) (m : cache) (f d : Q) : cache * R := let r := abs_coef t m f d in (fst r, abs_value d (snd r)).
(** CalculateSpreadLoss, 119-133. The assertions are left out. *)
Definition spread_loss (f d : Q) : R :=
  if Qeq_bool d 0 then 0 else let s := (4 * PI * Q2R f * Q2R d) / 299792458 in s * s.

(** std::log10; None: minus infinity. Not for negative numbers. *)
Definition log10 (x : R) : option R := if Req_EM_T x 0 then None else Some (ln x / ln 10).
(** std::pow (10.0, x / 10.0). *)
Definition from_db (x : option R) : R := match x with None => 0 | Some r => Rpower 10 (r / 10) end.
(** 10 * std::log10 (a) + 10 * std::log10 (b). *)
Definition sum_db (a b : R) : option R :=
  match log10 a, log10 b with Some x, Some y => Some (10 * x + 10 * y) | _, _ => None end.
(** Division of doubles. None: not a finite number. *)
Definition ddiv (a b : R) : option R := if Req_EM_T b 0 then None else Some (a / b).
Definition oplus (a b : option R) : option R := match a, b with Some x, Some y => Some (x + y) | _, _ => None end.

(** The loops of CalcRxPowerSpectralDensity, 70-79, and CalcRxPowerDA, 99-109, over centre frequencies and densities; the
    result is the received densities. The map is kept from one band to the next. *)
Fixpoint rx_psd (t : tables) (m : cache) (psd : list (Q * R)) (d : Q) : cache * list (option R) :=
  match psd with
  | [] => (m, [])
  | (f, v) :: r =>
      let a := abs_loss t m f d in
      let rest := rx_psd t (fst a) r d in
      (fst rest, ddiv v (from_db (sum_db (spread_loss f d) (snd a))) :: snd rest)
  end.
Definition osum (l : list (option R)) : option R := fold_right oplus (Some 0) l.
(** subBandBandwidth, numberOfSubBands, numberOfSamples: doubles. *)
Record bandw := Bandw { bw_sub : R; bw_num : R; bw_samples : R }.
(** CalcRxPowerDA, 83-117: rxPower in W (111-112), and the result in dBm (113). *)
Definition rx_power (t : tables) (m : cache) (w : bandw) (psd : list (Q * R)) (d : Q) (gain : R) : option R :=
  match osum (snd (rx_psd t m psd d)) with
  | None => None
  | Some s => Some (s * bw_sub w * (bw_num w / bw_samples w) * Rpower 10 (gain / 10))
  end.
Definition rx_dbm (t : tables) (m : cache) (w : bandw) (psd : list (Q * R)) (d : Q) (gain : R) : option R :=
  match rx_power t m w psd d gain with
  | None => None
  | Some p => match log10 (p * 1000) with None => None | Some x => Some (10 * x) end
  end.

(** The map after a sequence of calls of CalculateAbsLoss, the first with the empty map. *)
Definition calls (t : tables) (h : list (Q * Q)) : cache := fold_left (fun m x => fst (abs_coef t m (fst x) (snd x))) h [].

(** The first entries of data_frequency.txt and data_AbsCoe.txt. *)
Definition table_head : tables :=
  Tables [0; 762940000; 1525900000; 2288800000]%Q [0; 44333 # 100000000000000; 53692 # 10000000000000; 19301 # 1000000000000]%Q.
