(** * Property theorems of SpecPrep: statements only, proofs in SpecPrepProofs.v.
    Generated by tools/mkprops.py from the final lemmas. *)
From Verif Require Import Base BaseLemmas Cplx FreqModel TiModel TiSpec TiProofs SpecModel SpecSpec SpecLemmas.
From Coq Require Import Psatz.
Local Open Scope R_scope.
From Verif Require Import SpecPrepProofs.

(** Every row of the prepared data has mean zero. *)
Theorem C51_zero_mean :
  forall data sc rows,
  prepare_fft_input data sc = Ok rows ->
  forall row, In row rows -> row <> [] -> lmean row = 0.
Proof. exact c51_zero_mean. Qed.
Print Assumptions C51_zero_mean.

(** With automatic range, a gain a > 0 and an offset b applied to the capture change nothing. *)
Theorem C51_gain_offset_invariant :
  forall a b M K data,
  0 < a -> rect M K data -> (0 < M)%nat ->
  prepare_fft_input (affine a b data) ScaleAuto = prepare_fft_input data ScaleAuto.
Proof. exact c51_gain_offset_invariant. Qed.
Print Assumptions C51_gain_offset_invariant.

(** With a given range, an offset changes nothing and a gain scales the result. *)
Theorem C51_given_range :
  forall a b M K data p,
  rect M K data -> (0 < M)%nat -> p <> 0 ->
  forall rows, prepare_fft_input data (ScalePeak p) = Ok rows ->
  prepare_fft_input (affine a b data) (ScalePeak p) = Ok (affine a 0 rows) /\
  prepare_fft_input data (ScaleRange [b; b + 2 * p]) = Ok rows.
Proof. exact c51_given_range. Qed.
Print Assumptions C51_given_range.

(** A column vector is treated as the same 1-D capture; a range that is not a pair and an
    empty capture with automatic range raise ValueError. *)
Theorem C51_column_vector :
  forall l sc,
  prepare_fft_input (map (fun x => [x]) l) sc = prepare_fft_input [l] sc \/ l = [].
Proof. exact c51_column_vector. Qed.
Print Assumptions C51_column_vector.

Theorem C51_errors :
  forall data sc,
  prepare_fft_input data sc = Err ValueError <->
  (sc = ScaleAuto /\ concat (orient data) = []) \/ (exists l, sc = ScaleRange l /\ length l <> 2%nat).
Proof. exact c51_errors. Qed.
Print Assumptions C51_errors.

(** With automatic range the prepared values stay within +-2 ... *)
Theorem C51_within_two :
  forall data rows,
  prepare_fft_input data ScaleAuto = Ok rows ->
  forall r x, In r rows -> In x r -> Rabs x <= 2.
Proof. exact c51_within_two. Qed.
Print Assumptions C51_within_two.

(** ... but not within +-1 in general, although the docstring says so: the mean is removed
    after the half-range is measured. *)
Theorem C51_unit_range_refuted :
  exists data rows r x,
  prepare_fft_input data ScaleAuto = Ok rows /\ In r rows /\ In x r /\ x = 1.5.
Proof. exact c51_unit_range_refuted. Qed.
Print Assumptions C51_unit_range_refuted.

(** The peak-to-peak value of a non-constant 1-D capture becomes exactly 2. *)
Theorem C51_peak_to_peak_two :
  forall l r lo hi,
  rowmin l lo -> rowmax l hi -> lo < hi ->
  prepare_fft_input [l] ScaleAuto = Ok [r] ->
  exists lo' hi', rowmin r lo' /\ rowmax r hi' /\ hi' - lo' = 2.
Proof. exact c51_peak_to_peak_two. Qed.
Print Assumptions C51_peak_to_peak_two.

Example C51_prepare_ex :
  prepare_fft_input [[1; 3]; [2; 6]] (ScaleRange [0; 4]) = Ok [[-1 / 2; 1 / 2]; [-1; 1]].
Proof. exact c51_prepare_ex. Qed.
