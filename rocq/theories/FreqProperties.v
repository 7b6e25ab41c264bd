(** * Property theorems of Freq: statements only, proofs in FreqProofs.v.
    Generated by tools/mkprops.py from the final lemmas. *)
From Verif Require Import Base BaseLemmas FreqModel FreqSpec.
From Coq Require Import Psatz ZifyBool Sorted Znumtheory.
Local Open Scope R_scope.
From Verif Require Import FreqProofs.

(** ** C10 *)
Theorem C10_nearest_bin :
  forall fs fin n fo r f b,
  find_coherent_frequency fs fin n fo r = Ok (f, b) ->
  let t := fin / fs * IZR n in let c := round_he t in
  fs <> 0 /\ n <> 0%Z /\
  admissible fo n b /\ (Z.abs (b - c) <= r)%Z /\ f = IZR b * fs / IZR n /\
  (forall b', admissible fo n b' -> Rabs (IZR b - t) <= Rabs (IZR b' - t)) /\
  (forall b', admissible fo n b' -> (Z.abs (b' - c) <= r)%Z ->
     Rabs (IZR b' - t) = Rabs (IZR b - t) -> (b <= b')%Z).
Proof. exact c10_nearest_bin. Qed.
Print Assumptions C10_nearest_bin.

Theorem C10_error :
  forall fs fin n fo r,
  fs <> 0 ->
  find_coherent_frequency fs fin n fo r = Err ValueError <->
  forall b, admissible fo n b -> ~ (Z.abs (b - round_he (fin / fs * IZR n)) <= r)%Z.
Proof. exact c10_error. Qed.
Print Assumptions C10_error.

(** For a power-of-two FFT the search always succeeds and is off by at most one bin. *)
Theorem C10_power_of_two :
  forall fs fin m fo r,
  0 < fs -> 0 <= fin -> (0 <= m)%Z -> (1 <= r)%Z ->
  exists f b, find_coherent_frequency fs fin (2 ^ m) fo r = Ok (f, b) /\
    Rabs (f - fin) <= fs / IZR (2 ^ m).
Proof. exact c10_power_of_two. Qed.
Print Assumptions C10_power_of_two.

Theorem C11_fold_frequency :
  forall f fs,
  0 < fs ->
  0 <= fold_frequency f fs <= fs / 2 /\
  nearest_multiple_distance f fs (fold_frequency f fs) /\
  (forall k : Z, fold_frequency (f + IZR k * fs) fs = fold_frequency f fs) /\
  fold_frequency (- f) fs = fold_frequency f fs /\
  (0 <= f <= fs / 2 -> fold_frequency f fs = f) /\
  fold_frequency (fold_frequency f fs) fs = fold_frequency f fs.
Proof. exact c11_fold_frequency. Qed.
Print Assumptions C11_fold_frequency.

Theorem C12_even_length :
  forall b n,
  (0 < n)%Z -> Z.Even n ->
  nearest_multiple_distance b (IZR n) (fold_bin b n) /\ 0 <= fold_bin b n <= IZR n / 2.
Proof. exact c12_even_length. Qed.
Print Assumptions C12_even_length.

Theorem C12_integer_bin :
  forall (b n : Z),
  (0 < n)%Z ->
  nearest_multiple_distance (IZR b) (IZR n) (fold_bin (IZR b) n) /\
  0 <= fold_bin (IZR b) n <= IZR n / 2 /\ exists k : Z, fold_bin (IZR b) n = IZR k.
Proof. exact c12_integer_bin. Qed.
Print Assumptions C12_integer_bin.

(** For odd n a fractional bin can fold above n/2 (but never by half a bin or more). *)
Theorem C12_odd_fractional_refuted :
  exists (b : R) (n : Z), (0 < n)%Z /\ IZR n / 2 < fold_bin b n /\
    ~ nearest_multiple_distance b (IZR n) (fold_bin b n).
Proof. exact c12_odd_fractional_refuted. Qed.
Print Assumptions C12_odd_fractional_refuted.

Theorem C12_general_bound :
  forall b n,
  (0 < n)%Z -> 0 <= fold_bin b n < IZR n / 2 + 1 / 2.
Proof. exact c12_general_bound. Qed.
Print Assumptions C12_general_bound.

Example C10_search_ex :
  find_coherent_frequency 8 2.1 8 true 1 = Ok (3, 3%Z) /\
  admissible true 8 3 /\ ~ admissible true 8 2 /\ admissible false 9 4.
Proof. exact c10_search_ex. Qed.
