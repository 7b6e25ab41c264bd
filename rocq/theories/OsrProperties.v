(** * Property theorems of Osr: statements only, proofs in OsrProofs.v.
    Generated by tools/mkprops.py from the final lemmas. *)
From Verif Require Import Base BaseLemmas Cplx FreqModel UnitsModel UnitsSpec UnitsProofs TiModel TiProofs TiToneProofs SpecModel SpecSpec SpecLemmas SpecProofs SpecMetricProofs SpecToneSpec SpecToneProofs OsrModel OsrSpec.
From Coq Require Import Permutation Sorted Psatz.
Local Open Scope R_scope.
From Verif Require Import OsrProofs.

(** Entry j of the sweep is what a separate computation at osr[j] gives: the ratio of signal
    power to the total, and to the largest bin, of the error spectrum's first c bins, where c is
    the in-band bin count at osr[j]; in particular it depends neither on the other OSR values
    nor on their order. *)
Theorem C30_sweep_is_direct :
  forall err amplitude osr order,
  (0 < length err)%nat -> (forall x, In x osr -> 0 < x) -> sorts osr order ->
  exists res, osr_sweep err amplitude osr order = Ok res /\ length res = length osr /\
    forall j, (j < length osr)%nat -> exists c m,
      inband_count (Z.of_nat (length err)) (nth j osr 0) = Ok (Z.of_nat c) /\
      band_peak c (err_spec err) m /\
      nth j res (NaN, NaN, NaN) =
        (let s := db_quot (amplitude ^ 2 / 2) (band_total c (err_spec err)) in
         (s, db_quot (amplitude ^ 2 / 2) m, enob_of s)).
Proof. exact c30_sweep_is_direct. Qed.
Print Assumptions C30_sweep_is_direct.

(** A higher OSR never lowers the SNDR (as long as some error power is in band). *)
Theorem C30_monotone :
  forall E sig osr1 osr2 n c1 c2,
  0 < sig -> (forall k, 0 <= nth k E 0) -> osr1 <= osr2 ->
  inband_count n osr1 = Ok c1 -> inband_count n osr2 = Ok c2 -> 0 < band_total (Z.to_nat c2) E ->
  xle (db_quot sig (band_total (Z.to_nat c1) E)) (db_quot sig (band_total (Z.to_nat c2) E)).
Proof. exact c30_monotone. Qed.
Print Assumptions C30_monotone.

(** The default OSR list has one entry per non-DC bin m = n/2, ..., 1, and entry for m keeps
    exactly the bins 0..m. *)
Theorem C30_default_osr :
  forall n,
  (2 <= n)%nat -> exists l, default_osr n = Ok l /\ length l = (n / 2)%nat /\
  forall m, (1 <= m <= n / 2)%nat -> inband_count (Z.of_nat n) (nth (n / 2 - m) l 0) = Ok (Z.of_nat (m + 1)).
Proof. exact c30_default_osr. Qed.
Print Assumptions C30_default_osr.

(** The same for the SFDR. *)
Theorem C30_sfdr_monotone :
  forall E sig osr1 osr2 n c1 c2 m1 m2,
  0 < sig -> osr1 <= osr2 ->
  inband_count n osr1 = Ok c1 -> inband_count n osr2 = Ok c2 ->
  band_peak (Z.to_nat c1) E m1 -> band_peak (Z.to_nat c2) E m2 -> 0 < m2 -> xle (db_quot sig m1) (db_quot sig m2).
Proof. exact c30_sfdr_monotone. Qed.
Print Assumptions C30_sfdr_monotone.

(** Reordering the OSR list reorders the results in the same way. *)
Theorem C30_reorder :
  forall err amplitude osr order osr' order' res res' j j',
  (0 < length err)%nat -> (forall x, In x osr -> 0 < x) -> (forall x, In x osr' -> 0 < x) -> sorts osr order -> sorts osr' order' ->
  osr_sweep err amplitude osr order = Ok res -> osr_sweep err amplitude osr' order' = Ok res' ->
  (j < length osr)%nat -> (j' < length osr')%nat -> nth j osr 0 = nth j' osr' 0 ->
  nth j res (NaN, NaN, NaN) = nth j' res' (NaN, NaN, NaN).
Proof. exact c30_reorder. Qed.
Print Assumptions C30_reorder.

(** An error that is one coherent tone of amplitude B anywhere strictly inside the band
    contributes B^2, twice its power B^2/2, to the noise total. *)
Theorem C63_tone_counted_twice :
  forall N B J ph c,
  (1 < J)%nat -> (2 * (J + 1) < N)%nat -> (J + 1 < c <= N / 2 + 1)%nat ->
  band_total c (err_spec (tone_err N B J ph)) = B ^ 2.
Proof. exact c63_tone_counted_twice. Qed.
Print Assumptions C63_tone_counted_twice.

(** For every error record the full-band noise total lies between twice and four times the
    Hann-weighted mean square of the error. *)
Theorem C63_total_bounds :
  forall err,
  (3 <= length err)%nat ->
  let ms := lmean (map (fun n => (nth n err 0 * hann_at (length err) n) ^ 2) (seq 0 (length err))) / hann_ms (length err) in
  2 * ms <= band_total (length err / 2 + 1) (err_spec err) <= 4 * ms.
Proof. exact c63_total_bounds. Qed.
Print Assumptions C63_total_bounds.

(** So the reported SNDR is not the ratio of signal power to error power: for an error tone of
    half the signal's amplitude (true ratio 4, 6.02 dB) the sweep at OSR 1 reports 10*log10(2). *)
Theorem C63_power_ratio_refuted :
  exists err amplitude res,
  osr_sweep err amplitude [1] [0%nat] = Ok res /\
  fst (fst (nth 0 res (NaN, NaN, NaN))) = Fin (10 * lg 2) /\
  db_quot (amplitude ^ 2 / 2) (lmean (map (fun v => v ^ 2) err)) = Fin (10 * lg 4) /\ lg 4 = 2 * lg 2 /\ 0 < lg 2.
Proof. exact c63_power_ratio_refuted. Qed.
Print Assumptions C63_power_ratio_refuted.

(** A three-point sweep given out of order: nothing in band, one skirt bin, the whole tone. *)
Example C30_sweep_ex :
  exists res, osr_sweep (tone_err 16 1 5 0) 1 [1; 4; 2] [0; 2; 1]%nat = Ok res /\
  map fst res = [(Fin (10 * lg (1 / 2)), Fin (10 * lg (3 / 4))); (PInf, PInf); (Fin (10 * lg 3), Fin (10 * lg 3))].
Proof. exact c30_sweep_ex. Qed.

(** For eight samples the default sweep visits four OSR values; the first keeps bins 0..4, the last bins 0..1. *)
Example C30_default_osr_ex :
  exists l, default_osr 8 = Ok l /\ l = [8 / 2 / 4; 8 / 2 / 3; 8 / 2 / 2; 8 / 2 / 1].
Proof. exact c30_default_osr_ex. Qed.

(** An error tone of amplitude 2 (power 2) is counted as 4. *)
Example C63_tone_ex :
  band_total 9 (err_spec (tone_err 16 2 5 1)) = 4.
Proof. exact c63_tone_ex. Qed.
