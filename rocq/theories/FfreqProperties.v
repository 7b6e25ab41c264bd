(** * Property theorems of Ffreq: statements only, proofs in FfreqProofs.v.
    Generated by tools/mkprops.py from the final lemmas. *)
From Flocq Require Import Core.Core IEEE754.BinarySingleNaN Relative Sterbenz.
From Coq Require Import Psatz Sorted.
From Verif Require Import Base BaseLemmas FreqModel FreqSpec FreqProofs FltModel FltSpec FltLemmas FfreqModel FfreqLemmas.
Local Open Scope R_scope.
From Verif Require Import FfreqProofs.

(** Frequencies on a common dyadic grid (both integers, for instance), the frequency below 2^52 steps and the
    sampling rate at most 2^53 steps: the result is exactly the distance to the nearest multiple of fs. *)
Theorem C147_exact :
  forall (fin fs : fl) a b e,
  is_finite fin = true -> is_finite fs = true -> val fin = IZR a * bpow radix2 e -> val fs = IZR b * bpow radix2 e ->
  (Z.abs a < 2 ^ 52)%Z -> (0 < b <= 2 ^ 53)%Z -> (-1074 <= e <= 970)%Z ->
  is_finite (ffold_frequency fin fs) = true /\ nearest_multiple_distance (val fin) (val fs) (val (ffold_frequency fin fs)).
Proof. exact c147_exact. Qed.
Print Assumptions C147_exact.

(** In the first Nyquist zone nothing is lost for any doubles. *)
Theorem C147_first_zone :
  forall (fin fs : fl),
  is_finite fin = true -> is_finite fs = true -> 0 < val fs -> Rabs (val fin) <= val fs / 2 ->
  is_finite (ffold_frequency fin fs) = true /\ val (ffold_frequency fin fs) = Rabs (val fin).
Proof. exact c147_first_zone. Qed.
Print Assumptions C147_first_zone.

(** Any doubles: the result is within 2^-50 |fin| of the true folded frequency, provided the quotient does not overflow. *)
Theorem C147_bound :
  forall (fin fs : fl),
  is_finite fin = true -> is_finite fs = true -> 0 < val fs -> Rabs (val fin) <= bpow radix2 1020 -> Rabs (val fin) / val fs <= bpow radix2 1020 ->
  is_finite (ffold_frequency fin fs) = true /\
  exists d, nearest_multiple_distance (val fin) (val fs) d /\ Rabs (val (ffold_frequency fin fs) - d) <= bpow radix2 (-50) * Rabs (val fin).
Proof. exact c147_bound. Qed.
Print Assumptions C147_bound.

(** The documented range [0, fs/2] is exceeded by a rounding error: 54.75 GHz at fs = 100/3 MHz. *)
Theorem C147_range_refuted :
  exists fin fs : fl, is_finite fin = true /\ is_finite fs = true /\ 0 < val fs /\ is_finite (ffold_frequency fin fs) = true /\ val fs / 2 < val (ffold_frequency fin fs).
Proof. exact c147_range_refuted. Qed.
Print Assumptions C147_range_refuted.

(** Beyond 2^53 steps the result is meaningless: 2^60 at fs = 3 folds to 0 instead of 1. *)
Theorem C147_large_refuted :
  exists fin fs : fl, is_finite fin = true /\ is_finite fs = true /\ val fin = bpow radix2 60 /\ val fs = 3 /\ nearest_multiple_distance (val fin) (val fs) 1 /\ val (ffold_frequency fin fs) = 0.
Proof. exact c147_large_refuted. Qed.
Print Assumptions C147_large_refuted.

(** A quotient that overflows makes the result infinite. *)
Theorem C147_overflow_refuted :
  exists fin fs : fl, is_finite fin = true /\ is_finite fs = true /\ 0 < val fs /\ ffold_frequency fin fs = B754_infinity false.
Proof. exact c147_overflow_refuted. Qed.
Print Assumptions C147_overflow_refuted.

Example C147_exact_ex :
  val (ffold_frequency (fnum 900000001 0) (fnum 800000000 0)) = 100000001 /\ val (ffold_frequency (fnum (-1200000001) (-1)) (fnum 400000000 0)) = 199999999.5.
Proof. exact c147_exact_ex. Qed.

(** A nonnegative bin is folded without any rounding error; for an even length (or an integer bin) the result is the
    distance to the nearest multiple of n, for an odd length it is some |bin - k n| below (n + 1) / 2. *)
Theorem C148_nonneg :
  forall (x : fl) n,
  is_finite x = true -> 0 <= val x -> (2 <= n <= 2 ^ 53)%Z ->
  exists r, ffold_bin x n = Ok r /\ is_finite r = true /\ (exists k : Z, val r = Rabs (val x - IZR k * IZR n)) /\ 0 <= val r < (IZR n + 1) / 2 /\
    (Z.Even n \/ (exists b : Z, val x = IZR b) -> nearest_multiple_distance (val x) (IZR n) (val r) /\ val r <= IZR n / 2).
Proof. exact c148_nonneg. Qed.
Print Assumptions C148_nonneg.

(** An integer bin of either sign is folded exactly. *)
Theorem C148_integer :
  forall (x : fl) b n,
  is_finite x = true -> val x = IZR b -> (2 <= n <= 2 ^ 53)%Z ->
  exists r, ffold_bin x n = Ok r /\ is_finite r = true /\ nearest_multiple_distance (IZR b) (IZR n) (val r) /\ 0 <= val r <= IZR n / 2.
Proof. exact c148_integer. Qed.
Print Assumptions C148_integer.

(** Any finite bin, even length: the result lies in [0, n/2] and is off by at most 2^-53 n. *)
Theorem C148_even :
  forall (x : fl) n,
  is_finite x = true -> (2 <= n <= 2 ^ 53)%Z -> Z.Even n ->
  exists r d, ffold_bin x n = Ok r /\ is_finite r = true /\ 0 <= val r <= IZR n / 2 /\ nearest_multiple_distance (val x) (IZR n) d /\ Rabs (val r - d) <= bpow radix2 (-53) * IZR n.
Proof. exact c148_even. Qed.
Print Assumptions C148_even.

(** A negative bin can be lost: -2^-60 folds to 0 instead of 2^-60. *)
Theorem C148_negative_refuted :
  exists (x : fl) n r d, is_finite x = true /\ (2 <= n <= 2 ^ 53)%Z /\ Z.Even n /\ ffold_bin x n = Ok r /\ nearest_multiple_distance (val x) (IZR n) d /\ 0 < d /\ val r = 0.
Proof. exact c148_negative_refuted. Qed.
Print Assumptions C148_negative_refuted.

Example C148_nonneg_ex :
  exists r, ffold_bin (fnum 23001 (-1)) 8192 = Ok r /\ val r = 3308.5.
Proof. exact c148_nonneg_ex. Qed.

(** Whatever the rounding, a returned bin is positive, odd when asked, coprime to the length, and within the search
    radius of the rounded double target. *)
Theorem C149_valid :
  forall (fs fin : fl) n fo r f b,
  ffind_coherent fs fin n fo r = Ok (f, b) ->
  admissible fo n b /\ n <> 0%Z /\ exists c, fround_int (fmul (fdiv fin fs) (fnum n 0)) = Ok c /\ (Z.abs (b - c) <= r)%Z.
Proof. exact c149_valid. Qed.
Print Assumptions C149_valid.

(** The returned frequency is b * fs / n up to a relative error of 2^-51. *)
Theorem C149_frequency :
  forall (fs fin : fl) n fo r f b,
  is_finite fs = true -> bpow radix2 (-900) <= val fs <= bpow radix2 900 -> (1 <= n <= 2 ^ 53)%Z -> ffind_coherent fs fin n fo r = Ok (f, b) -> (b <= 2 ^ 53)%Z ->
  is_finite f = true /\ Rabs (val f - IZR b * val fs / IZR n) <= bpow radix2 (-51) * (IZR b * val fs / IZR n).
Proof. exact c149_frequency. Qed.
Print Assumptions C149_frequency.

(** Asking again for the returned frequency returns the same frequency and the same bin, for bins up to 2^49. *)
Theorem C149_idempotent :
  forall (fs fin : fl) n fo r f b r',
  is_finite fs = true -> bpow radix2 (-900) <= val fs <= bpow radix2 900 -> (1 <= n <= 2 ^ 53)%Z -> ffind_coherent fs fin n fo r = Ok (f, b) -> (b <= 2 ^ 49)%Z -> (0 <= r' <= 2 ^ 50)%Z ->
  ffind_coherent fs f n fo r' = Ok (f, b).
Proof. exact c149_idempotent. Qed.
Print Assumptions C149_idempotent.

(** Against the exact target fin / fs * n: some bin is returned when an admissible one lies within radius - 1, and no
    admissible bin there is closer by more than 2^-50 (target + radius). *)
Theorem C149_nearest :
  forall (fs fin : fl) n fo r b',
  is_finite fs = true -> is_finite fin = true -> 0 < val fs -> (1 <= n <= 2 ^ 53)%Z -> (r <= 2 ^ 50)%Z ->
  let T := val fin / val fs * IZR n in bpow radix2 (-900) <= val fin / val fs -> T <= bpow radix2 48 ->
  admissible fo n b' -> Rabs (IZR b' - T) <= IZR r - 1 ->
  exists f b, ffind_coherent fs fin n fo r = Ok (f, b) /\ Rabs (IZR b - T) <= Rabs (IZR b' - T) + bpow radix2 (-50) * (T + IZR r).
Proof. exact c149_nearest. Qed.
Print Assumptions C149_nearest.

(** A power-of-two length and a sampling rate with few significant bits: the returned frequency is exactly coherent. *)
Theorem C149_power_of_two :
  forall (fs fin : fl) m fo r f b a e,
  is_finite fs = true -> val fs = IZR a * bpow radix2 e -> (-1000 <= e <= 900)%Z -> (0 <= m <= 53)%Z -> ffind_coherent fs fin (2 ^ m) fo r = Ok (f, b) -> (b * Z.abs a <= 2 ^ 53)%Z -> (b <= 2 ^ 53)%Z ->
  is_finite f = true /\ val f * bpow radix2 m = IZR b * val fs.
Proof. exact c149_power_of_two. Qed.
Print Assumptions C149_power_of_two.

(** In general the returned frequency is not exactly coherent: fs = 1, n = 3. *)
Theorem C149_coherent_refuted :
  exists (fs fin : fl) n fo r f b, is_finite fs = true /\ val fs = 1 /\ ffind_coherent fs fin n fo r = Ok (f, b) /\ val f * IZR n <> IZR b * val fs.
Proof. exact c149_coherent_refuted. Qed.
Print Assumptions C149_coherent_refuted.

(** 100 MHz at 800 MHz, 8192 points: bin 1023 (doc string), and asking again returns it. *)
Example C149_valid_ex :
  exists f, ffind_coherent (fnum 800000000 0) (fnum 100000000 0) 8192 true 200 = Ok (f, 1023%Z) /\ val f = 99902343.75 /\ ffind_coherent (fnum 800000000 0) f 8192 true 0 = Ok (f, 1023%Z).
Proof. exact c149_valid_ex. Qed.

Example C148_even_ex :
  exists r, ffold_bin (fnum (-201) (-1)) 8192 = Ok r /\ val r = 100.5.
Proof. exact c148_even_ex. Qed.

(** What is not a number: length 0 raises, an infinite or nan bin gives nan. *)
Theorem C148_errors :
  forall (x : fl) n,
  ffold_bin x 0 = Err ZeroDivisionError /\ ((1 <= n <= 2 ^ 53)%Z -> is_finite x = false -> ffold_bin x n = Ok B754_nan).
Proof. exact c148_errors. Qed.
Print Assumptions C148_errors.

(** What is not a number: a zero sampling rate, a nan and an infinite target raise. *)
Theorem C149_errors :
  forall (fs fin : fl) n fo r,
  ffind_coherent (B754_zero false) fin n fo r = Err ZeroDivisionError /\
  (is_finite fs = true -> 0 < val fs -> (1 <= n <= 2 ^ 53)%Z -> ffind_coherent fs B754_nan n fo r = Err ValueError /\ forall s, ffind_coherent fs (B754_infinity s) n fo r = Err OverflowError).
Proof. exact c149_errors. Qed.
Print Assumptions C149_errors.
