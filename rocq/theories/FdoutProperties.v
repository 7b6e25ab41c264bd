(** * Property theorems of Fdout: statements only, proofs in FdoutProofs.v.
    Generated by tools/mkprops.py from the final lemmas. *)
From Flocq Require Import Core.Core IEEE754.BinarySingleNaN Mult_error.
From Coq Require Import Psatz Permutation.
From Verif Require Import Base BaseLemmas FreqModel FltModel FltSpec FltLemmas FltProofs FfreqModel FfreqLemmas FfreqProofs FdoutModel.
Local Open Scope R_scope.
From Verif Require Import FdoutProofs.

(** A sample whose remaining bits are all 0 is counted as low, whatever the orders of addition. *)
Theorem C208_low :
  forall product total row (w : list fl) ii,
  summation product -> (forall c, In c (skipn ii row) -> c = 0%Z) -> (forall x, In x w -> is_finite x = true) ->
  is_finite (total (skipn ii w)) = true -> 0 < val (total (skipn ii w)) -> flow (fresidue product total row w ii) = true /\ fhigh (fresidue product total row w ii) = false.
Proof. exact c208_low. Qed.
Print Assumptions C208_low.

(** A sample whose remaining bits are all 1 is counted as high if the product and the total add in the same order. *)
Theorem C208_high :
  forall sum row (w : list fl) ii,
  length row = length w -> (forall c, In c (skipn ii row) -> c = 1%Z) -> (forall x, In x w -> is_finite x = true /\ 0 < val x) ->
  is_finite (sum (skipn ii w)) = true -> 0 < val (sum (skipn ii w)) -> fhigh (fresidue sum sum row w ii) = true /\ val (fresidue sum sum row w ii) = 1.
Proof. exact c208_high. Qed.
Print Assumptions C208_high.

(** With two orders of addition a sample at full scale need not be counted: weights 1, 2^-53, 2^-53. *)
Theorem C208_orders_refuted :
  exists product total row (w : list fl), summation product /\ summation total /\ row = [1; 1; 1]%Z /\ length w = 3%nat /\ (forall x, In x w -> is_finite x = true /\ 0 < val x) /\
  fhigh (fresidue product total row w 0) = false /\ val (fresidue product total row w 0) < 1.
Proof. exact c208_orders_refuted. Qed.
Print Assumptions C208_orders_refuted.

(** Weights that are whole multiples of one power of two (total at most 2^53 of them): the residue is the exact share rounded once,
    whatever the orders of addition, and exactly the samples with all remaining bits 1 (0) are counted. *)
Theorem C208_exact :
  forall product total row (w : list fl) ii e ks,
  summation product -> summation total -> dyadic_weights e ks w -> length row = length w -> (forall c, In c row -> c = 0%Z \/ c = 1%Z) -> (ii < length w)%nat -> let r := fresidue product total row w ii in
  is_finite r = true /\ val r = rnd (dot (map IZR (skipn ii row)) (map val (skipn ii w)) / lsum (map val (skipn ii w))) /\ 0 <= val r <= 1 /\
  (fhigh r = true <-> forall c, In c (skipn ii row) -> c = 1%Z) /\ (flow r = true <-> forall c, In c (skipn ii row) -> c = 0%Z).
Proof. exact c208_exact. Qed.
Print Assumptions C208_exact.

(** The share in percent lies in [0, 100], is 100 only if all samples are counted and 0 only if none is. *)
Theorem C208_percent :
  forall flag residues,
  (1 <= Z.of_nat (length residues) <= 2 ^ 53)%Z -> let p := fpercent flag residues in
  is_finite p = true /\ 0 <= val p <= 100 /\ (val p = 100 <-> forall r, In r residues -> flag r = true) /\ (val p = 0 <-> forall r, In r residues -> flag r = false).
Proof. exact c208_percent. Qed.
Print Assumptions C208_percent.

(** The frequency of a bin leads back to the bin, whatever the rate and the length, for bins up to 2^49. *)
Theorem C209_roundtrip :
  forall (fs : fl) n k f,
  is_finite fs = true -> bpow radix2 (-900) <= val fs <= bpow radix2 900 -> (1 <= n <= 2 ^ 53)%Z -> (0 <= k <= 2 ^ 49)%Z -> fbin_to_freq k fs n = Ok f -> ffreq_to_bin f fs n = Ok k.
Proof. exact c209_roundtrip. Qed.
Print Assumptions C209_roundtrip.

(** Any frequency: the bin returned is the nearest up to rounding. *)
Theorem C209_nearest :
  forall (f fs : fl) n,
  is_finite f = true -> is_finite fs = true -> bpow radix2 (-900) <= val fs <= bpow radix2 900 -> (1 <= n <= 2 ^ 53)%Z -> bpow radix2 (-953) <= val f <= bpow radix2 953 -> let x := val f * IZR n / val fs in
  bpow radix2 (-100) <= x <= bpow radix2 60 -> exists b, ffreq_to_bin f fs n = Ok b /\ Rabs (IZR b - x) <= / 2 + bpow radix2 (-51) * x.
Proof. exact c209_nearest. Qed.
Print Assumptions C209_nearest.

(** Not for all bins that are doubles: 2^51 + 1 at rate 3 with 5 points comes back as another bin. *)
Theorem C209_large_refuted :
  exists (fs f : fl) n k b, is_finite fs = true /\ val fs = 3 /\ (1 <= k <= 2 ^ 53)%Z /\ fbin_to_freq k fs n = Ok f /\ ffreq_to_bin f fs n = Ok b /\ b <> k.
Proof. exact c209_large_refuted. Qed.
Print Assumptions C209_large_refuted.

(** There and back changes a number of codes by at most one part in 2^51. *)
Theorem C210_roundtrip :
  forall (x vref : fl) n,
  is_finite x = true -> is_finite vref = true -> bpow radix2 (-400) <= val x <= bpow radix2 400 -> bpow radix2 (-400) <= val vref <= bpow radix2 400 -> (n <= 100)%nat ->
  exists y, fvolts_to_lsb (flsb_to_volts x vref n) vref n = Ok y /\ is_finite y = true /\ Rabs (val y - val x) <= bpow radix2 (-51) * val x.
Proof. exact c210_roundtrip. Qed.
Print Assumptions C210_roundtrip.

(** So a code up to 2^49 comes back as the nearest whole number. *)
Theorem C210_codes :
  forall k (vref : fl) n,
  (1 <= k <= 2 ^ 49)%Z -> is_finite vref = true -> bpow radix2 (-400) <= val vref <= bpow radix2 400 -> (n <= 100)%nat ->
  exists y, fvolts_to_lsb (flsb_to_volts (fnum k 0) vref n) vref n = Ok y /\ fround_int y = Ok k.
Proof. exact c210_codes. Qed.
Print Assumptions C210_codes.

(** A reference that is a power of two loses nothing. *)
Theorem C210_power :
  forall (x vref : fl) n m,
  is_finite x = true -> is_finite vref = true -> bpow radix2 (-400) <= val x <= bpow radix2 400 -> val vref = bpow radix2 m -> (-400 <= m <= 400)%Z -> (n <= 100)%nat ->
  exists y, fvolts_to_lsb (flsb_to_volts x vref n) vref n = Ok y /\ val y = val x /\ val (flsb_to_volts x vref n) = val x * bpow radix2 (m - Z.of_nat n).
Proof. exact c210_power. Qed.
Print Assumptions C210_power.

(** Otherwise not even small codes survive: code 3 at 3.3 V and 12 bits comes back below 3, so that truncation gives 2. *)
Theorem C210_exact_refuted :
  exists (vref : fl) y, is_finite vref = true /\ B2SF vref = SpecFloat.S754_finite false 7430939385161318 (-51) /\ fvolts_to_lsb (flsb_to_volts (fnum 3 0) vref 12) vref 12 = Ok y /\ 2 < val y < 3 /\ Zfloor (val y) = 2%Z.
Proof. exact c210_exact_refuted. Qed.
Print Assumptions C210_exact_refuted.

(** Exactly a length of zero, or a rate of zero, is refused. *)
Theorem C209_errors :
  forall (f fs : fl) n k,
  (fbin_to_freq k fs n = Err ZeroDivisionError <-> n = 0%Z) /\ (is_finite fs = true -> (ffreq_to_bin f fs n = Err ZeroDivisionError <-> val fs = 0)) /\ (ffreq_to_bin B754_nan (fnum 1 0) n = Err ValueError).
Proof. exact c209_errors. Qed.
Print Assumptions C209_errors.

Theorem C210_errors :
  forall (v : fl) n s,
  (n <= 1023)%nat -> fvolts_to_lsb v (B754_zero s) n = Err ZeroDivisionError.
Proof. exact c210_errors. Qed.
Print Assumptions C210_errors.
