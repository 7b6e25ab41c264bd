(** * Property theorems of Valid: statements only, proofs in ValidProofs.v.
    Generated by tools/mkprops.py from the final lemmas. *)
From Verif Require Import Base BaseLemmas ValidModel ValidSpec.
From Coq Require Import Psatz.
Local Open Scope R_scope.
From Verif Require Import ValidProofs.

(** validate_aout_data accepts exactly the non-empty arrays of a real number type with finite,
    non-constant contents, at most two axes, and a longest axis of at least min_samples. *)
Theorem C47_aout_accepts :
  forall a min_samples,
  numpy_array a ->
  (exists w, validate_aout_data a min_samples = Ok w) <->
  a_data a <> [] /\ real_number (a_dtype a) /\ all_finite a /\ (length (a_shape a) <= 2)%nat /\ (exists n, longest_axis a n /\ (min_samples <= Z.of_nat n)%Z) /\ not_constant a.
Proof. exact c47_aout_accepts. Qed.
Print Assumptions C47_aout_accepts.

(** The only error of either function is ValueError. *)
Theorem C47_errors :
  forall a min_samples e,
  validate_aout_data a min_samples = Err e \/ validate_dout_data a min_samples = Err e -> e = ValueError.
Proof. exact c47_errors. Qed.
Print Assumptions C47_errors.

(** For floating-point data the low-amplitude warning is given exactly when all values lie within
    less than 1e-10 of each other. *)
Theorem C47_low_warning :
  forall a min_samples w,
  a_dtype a = DFloat -> validate_aout_data a min_samples = Ok w ->
  (In WLowAmplitude w <-> forall u v, In (Fin u) (a_data a) -> In (Fin v) (a_data a) -> u - v < 1 / 10 ^ 10).
Proof. exact c47_low_warning. Qed.
Print Assumptions C47_low_warning.

(** validate_dout_data accepts exactly the non-empty 2-D arrays of a real number type that hold
    only zeros and ones and have at least min_samples rows. *)
Theorem C47_dout_accepts :
  forall a min_samples,
  numpy_array a ->
  (exists w, validate_dout_data a min_samples = Ok w) <->
  a_data a <> [] /\ real_number (a_dtype a) /\ (forall x, In x (a_data a) -> x = Fin 0 \/ x = Fin 1) /\ exists rows cols, a_shape a = [rows; cols] /\ (min_samples <= Z.of_nat rows)%Z.
Proof. exact c47_dout_accepts. Qed.
Print Assumptions C47_dout_accepts.

(** The warnings: transposed exactly when there are more columns than rows; the stuck lists name
    exactly the columns that are constantly 0 (constantly 1). *)
Theorem C47_dout_warnings :
  forall a min_samples w rows cols,
  numpy_array a -> a_shape a = [rows; cols] -> validate_dout_data a min_samples = Ok w ->
  (In WTransposed w <-> (rows < cols)%nat) /\
  (forall j, (exists idx, In (WStuckLow idx) w /\ In j idx) <-> (j < cols)%nat /\ forall i, (i < rows)%nat -> entry a cols i j = Fin 0) /\
  (forall j, (exists idx, In (WStuckHigh idx) w /\ In j idx) <-> (j < cols)%nat /\ forall i, (i < rows)%nat -> entry a cols i j = Fin 1).
Proof. exact c47_dout_warnings. Qed.
Print Assumptions C47_dout_warnings.

(** The documented layout is (samples, channels), but the sample count is the longest axis: a
    record of two samples of 100 channels passes. *)
Theorem C76_aout_samples_refuted :
  exists a w, numpy_array a /\ a_shape a = [2%nat; 100%nat] /\ validate_aout_data a 100 = Ok w /\ (Z.of_nat 2 < 100)%Z.
Proof. exact c76_aout_samples_refuted. Qed.
Print Assumptions C76_aout_samples_refuted.

(** The comment allows boolean bit matrices, but they are rejected as not numeric. *)
Theorem C76_dout_bool_refuted :
  forall a min_samples,
  a_dtype a = DBool -> validate_dout_data a min_samples = Err ValueError.
Proof. exact c76_dout_bool_refuted. Qed.
Print Assumptions C76_dout_bool_refuted.

(** A full-scale signed 8-bit record is reported as having extremely low amplitude. *)
Theorem C76_low_amplitude_refuted :
  exists a w, numpy_array a /\ a_dtype a = DSigned 8 /\ In (Fin (-128)) (a_data a) /\ In (Fin 127) (a_data a) /\ validate_aout_data a 2 = Ok w /\ In WLowAmplitude w.
Proof. exact c76_low_amplitude_refuted. Qed.
Print Assumptions C76_low_amplitude_refuted.

(** For one-dimensional data the sample count is right, and unsigned or floating data never get a
    spurious warning. *)
Theorem C76_one_dimensional :
  forall a min_samples n w,
  numpy_array a -> a_shape a = [n] -> validate_aout_data a min_samples = Ok w -> (min_samples <= Z.of_nat n)%Z /\ length (a_data a) = n.
Proof. exact c76_one_dimensional. Qed.
Print Assumptions C76_one_dimensional.

(** Unsigned integers are not wrapped: the warning rule is the same as for floats, so it is never given for an
    accepted unsigned record. *)
Theorem C76_unsigned :
  forall a min_samples w b,
  numpy_array a -> a_dtype a = DUnsigned b -> validate_aout_data a min_samples = Ok w -> w = [].
Proof. exact c76_unsigned. Qed.
Print Assumptions C76_unsigned.

Example C76_one_dimensional_ex :
  exists w, validate_aout_data (mkArr (DUnsigned 8) [3%nat] [Fin 0; Fin 255; Fin 7]) 3 = Ok w.
Proof. exact c76_one_dimensional_ex. Qed.

Example C47_aout_accepts_ex :
  validate_aout_data (mkArr DFloat [3%nat] [Fin 2; Fin 2; Fin 2]) 3 = Err ValueError /\ validate_aout_data (mkArr DFloat [2%nat] [Fin 2; NaN]) 1 = Err ValueError /\
  validate_aout_data (mkArr DComplex [1%nat] [Fin 2]) 1 = Err ValueError.
Proof. exact c47_aout_accepts_ex. Qed.

(** A 2x3 bit matrix: accepted, with a transposition warning, column 0 stuck low, column 2 stuck high. *)
Example C47_dout_warnings_ex :
  exists w, validate_dout_data (mkArr (DUnsigned 8) [2%nat; 3%nat] [Fin 0; Fin 1; Fin 1; Fin 0; Fin 0; Fin 1]) 2 = Ok w /\ In WTransposed w /\
  (exists i, In (WStuckLow i) w /\ In 0%nat i) /\ (exists i, In (WStuckHigh i) w /\ In 2%nat i) /\ ~ (exists i, In (WStuckHigh i) w /\ In 1%nat i).
Proof. exact c47_dout_warnings_ex. Qed.
