(** * Property theorems of Spec: statements only, proofs in SpecProofs.v.
    Generated by tools/mkprops.py from the final lemmas. *)
From Verif Require Import Base BaseLemmas Cplx FreqModel FreqSpec FreqProofs UnitsModel UnitsSpec UnitsProofs TiModel TiProofs TiToneProofs SpecModel SpecSpec SpecLemmas.
From Coq Require Import Psatz Permutation Sorted.
Local Open Scope R_scope.
From Verif Require Import SpecProofs.

Theorem C23_range :
  forall n osr c,
  inband_count n osr = Ok c -> (1 <= c <= n / 2 + 1)%Z.
Proof. exact c23_range. Qed.
Print Assumptions C23_range.

Theorem C23_error_iff :
  forall n osr,
  inband_count n osr = Err ValueError <-> (n <= 0)%Z \/ osr <= 0.
Proof. exact c23_error_iff. Qed.
Print Assumptions C23_error_iff.

Theorem C23_antitone :
  forall n osr1 osr2 c1 c2,
  osr1 <= osr2 ->
  inband_count n osr1 = Ok c1 -> inband_count n osr2 = Ok c2 -> (c2 <= c1)%Z.
Proof. exact c23_antitone. Qed.
Print Assumptions C23_antitone.

Theorem C23_full_band :
  forall n osr,
  (0 < n)%Z -> 0 < osr <= 1 -> inband_count n osr = Ok (n / 2 + 1)%Z.
Proof. exact c23_full_band. Qed.
Print Assumptions C23_full_band.

(** Every bin k at or below the edge n/(2*osr) is counted; a counted bin (other than DC)
    exceeds the edge by at most the tolerance. *)
Theorem C23_counts_bins :
  forall n osr c k,
  inband_count n osr = Ok c -> (1 <= k <= n / 2)%Z ->
  (IZR k <= IZR n / (2 * osr) -> (k < c)%Z) /\
  ((k < c)%Z -> IZR k <= IZR n / (2 * osr) + / 10 ^ 12 * (1 + IZR n)).
Proof. exact c23_counts_bins. Qed.
Print Assumptions C23_counts_bins.

(** Away from the tolerance the count is exactly floor(edge)+1. *)
Theorem C23_exact :
  forall n osr c,
  inband_count n osr = Ok c ->
  (forall k : Z, IZR k = IZR n / (2 * osr) \/ / 10 ^ 12 * (1 + Rabs (IZR k)) < Rabs (IZR n / (2 * osr) - IZR k)) ->
  c = Z.min (Zfloor (IZR n / (2 * osr)) + 1) (n / 2 + 1).
Proof. exact c23_exact. Qed.
Print Assumptions C23_exact.

Example C23_count_ex :
  inband_count 1024 4 = Ok 129%Z /\ inband_count 1000 3 = Ok 167%Z /\ inband_count 7 1 = Ok 4%Z /\ inband_count 8 100 = Ok 1%Z.
Proof. exact c23_count_ex. Qed.

(** The returned bin is the first in-band, non-DC bin of maximal power. *)
Theorem C54_fundamental_is_peak :
  forall P nb,
  (2 <= Nat.min nb (length P))%nat ->
  let f := fundamental_bin P nb in
  (1 <= f < Nat.min nb (length P))%nat /\
  (forall i, (1 <= i < Nat.min nb (length P))%nat -> nth i P 0 <= nth f P 0) /\
  (forall i, (1 <= i < f)%nat -> nth i P 0 < nth f P 0).
Proof. exact c54_fundamental_is_peak. Qed.
Print Assumptions C54_fundamental_is_peak.

Theorem C54_single_bin :
  forall P nb,
  (Nat.min nb (length P) <= 1)%nat -> fundamental_bin P nb = O /\ fundamental_frac P nb = 0.
Proof. exact c54_single_bin. Qed.
Print Assumptions C54_single_bin.

(** If the located bin is at least its left neighbour (automatic unless that is DC), the
    interpolated position is within half a bin of it. *)
Theorem C54_within_half_bin :
  forall P nb,
  let f := fundamental_bin P nb in
  nth (f - 1) P 0 <= nth f P 0 -> Rabs (fundamental_frac P nb - INR f) <= / 2.
Proof. exact c54_within_half_bin. Qed.
Print Assumptions C54_within_half_bin.

(** When the DC bin exceeds a peak at bin 1, the interpolated position can leave the half-bin
    range: here it is 3.5 although the peak is at bin 1. *)
Theorem C54_dc_neighbour_refuted :
  exists P nb,
  fundamental_bin P nb = 1%nat /\ fundamental_frac P nb = 3.5.
Proof. exact c54_dc_neighbour_refuted. Qed.
Print Assumptions C54_dc_neighbour_refuted.

Example C54_peak_ex :
  fundamental_bin [5; 1; 100; 10; 1] 5 = 2%nat /\ fundamental_frac [5; 1; 100; 10; 1] 5 = 2 + 1 / 6.
Proof. exact c54_peak_ex. Qed.

(** Even record length: bin i of the list is the nearest bin to the folded position of
    harmonic i+2 and is a valid index of the one-sided spectrum (length N/2+1). *)
Theorem C24_even_length :
  forall frac mh N i,
  (0 < N)%nat -> Nat.Even N -> (i < mh - 1)%nat ->
  exists b d, nth_error (harmonic_bins frac mh N) i = Some b /\
    nearest_multiple_distance (frac * INR (i + 2)) (INR N) d /\
    Rabs (IZR b - d) <= / 2 /\ (0 <= b <= Z.of_nat (N / 2))%Z.
Proof. exact c24_even_length. Qed.
Print Assumptions C24_even_length.

(** Any record length: an integer fundamental position folds to an exact, valid bin. *)
Theorem C24_integer_fundamental :
  forall (k : Z) mh N i,
  (0 < N)%nat -> (i < mh - 1)%nat ->
  exists b, nth_error (harmonic_bins (IZR k) mh N) i = Some b /\
    nearest_multiple_distance (IZR k * INR (i + 2)) (INR N) (IZR b) /\ (0 <= b <= Z.of_nat (N / 2))%Z.
Proof. exact c24_integer_fundamental. Qed.
Print Assumptions C24_integer_fundamental.

(** Odd record length with a fractional fundamental: the index can be one past the end. *)
Theorem C24_odd_length_refuted :
  exists frac N b, Nat.Odd N /\
  harmonic_bins frac 2 N = [b] /\ (Z.of_nat (N / 2) < b)%Z.
Proof. exact c24_odd_length_refuted. Qed.
Print Assumptions C24_odd_length_refuted.

Example C24_harmonics_ex :
  harmonic_bins 10.2 5 64 = [20%Z; 31%Z; 23%Z; 13%Z].
Proof. exact c24_harmonics_ex. Qed.

(** THD is the power of the union of the counted harmonic windows: each bin once, floored. *)
Theorem C25_thd_is_union_power :
  forall P f sb hs,
  thd_power P f sb hs =
  Rmax (selected_power (length P) (fun i => existsb (fun h => clear_of f sb h && nearZ h sb i) hs) P) (/ 10 ^ 15).
Proof. exact c25_thd_is_union_power. Qed.
Print Assumptions C25_thd_is_union_power.

(** A counted bin is never in the fundamental window and never the DC bin. *)
Theorem C25_excludes_fundamental :
  forall f sb h i,
  clear_of f sb h = true -> nearZ h sb i = true -> near f sb i = false /\ i <> O.
Proof. exact c25_excludes_fundamental. Qed.
Print Assumptions C25_excludes_fundamental.

(** Single harmonics: the floored power of its window, or the floor when it does not count;
    THD never exceeds the sum of the individual harmonic powers (overlaps count once). *)
Theorem C25_harmonic_power :
  forall P f sb h,
  harmonic_power P f sb h =
  if clear_of f sb h then Rmax (selected_power (length P) (nearZ h sb) P) (/ 10 ^ 15) else / 10 ^ 15.
Proof. exact c25_harmonic_power. Qed.
Print Assumptions C25_harmonic_power.

Theorem C25_thd_le_sum :
  forall P f sb hs,
  (forall x, In x P -> 0 <= x) -> hs <> [] ->
  / 10 ^ 15 <= thd_power P f sb hs <= lsum (map (harmonic_power P f sb) hs).
Proof. exact c25_thd_le_sum. Qed.
Print Assumptions C25_thd_le_sum.

(** A harmonic centred between sb+1 and 2*sb counts although its window reaches into the DC
    window 0..sb, so part of the DC window's power enters the THD. *)
Theorem C25_dc_window_refuted :
  exists P f sb h i,
  near_dc sb i = true /\ nearZ h sb i = true /\
  thd_power P f sb [h] = 7 /\ nth i P 0 = 7.
Proof. exact c25_dc_window_refuted. Qed.
Print Assumptions C25_dc_window_refuted.

Example C25_dedup_ex :
  thd_power [0; 1; 2; 100; 3; 4; 5; 6; 7] 3 0 [6%Z; 7%Z; 6%Z; 3%Z; 0%Z] = 5 + 6.
Proof. exact c25_dedup_ex. Qed.
