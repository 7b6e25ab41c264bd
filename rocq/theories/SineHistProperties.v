(** * Property theorems of SineHist: statements only, proofs in SineHistProofs.v.
    Generated by tools/mkprops.py from the final lemmas. *)
From Verif Require Import Base BaseLemmas FreqProofs TiProofs SpecLemmas SpecProofs RampModel RampProofs SineHistModel SineHistSpec.
From Coq Require Import Psatz ZifyBool Permutation.
Local Open Scope R_scope.
From Verif Require Import SineHistProofs.

(** It fails exactly on empty input; otherwise the samples have well-defined codes and a range of
    analysed codes. *)
Theorem C32_total :
  forall is_float data nb fs clip,
  (data = [] -> compute_inl_from_sine is_float data nb fs clip = Err ValueError) /\
  (data <> [] -> exists r codes lo hi, compute_inl_from_sine is_float data nb fs clip = Ok r /\ record_codes is_float data nb fs codes /\ hist_range codes clip lo hi).
Proof. exact c32_total. Qed.
Print Assumptions C32_total.

Theorem C32_eval :
  forall is_float data nb fs clip r codes,
  compute_inl_from_sine is_float data nb fs clip = Ok r -> record_codes is_float data nb fs codes -> r = sine_histogram codes clip.
Proof. exact c32_eval. Qed.
Print Assumptions C32_eval.

(** The three arrays have equal length hi-lo-1 (0 if negative) and the labels are lo, lo+1, ... *)
Theorem C32_shape :
  forall is_float data nb fs clip r codes lo hi,
  compute_inl_from_sine is_float data nb fs clip = Ok r -> record_codes is_float data nb fs codes -> hist_range codes clip lo hi ->
  let m := Z.to_nat (hi - lo - 1) in
  length (s_inl r) = m /\ length (s_dnl r) = m /\ length (s_codes r) = m /\ forall i, (i < m)%nat -> nth i (s_codes r) 0%Z = (lo + Z.of_nat i)%Z.
Proof. exact c32_shape. Qed.
Print Assumptions C32_shape.

(** When some sample falls strictly between the end codes: every DNL value is finite and at least
    -1, entry i is the (clamped) DNL of code lo+i+1, and INL is its running sum. *)
Theorem C32_values :
  forall is_float data nb fs clip r codes lo hi,
  compute_inl_from_sine is_float data nb fs clip = Ok r -> record_codes is_float data nb fs codes -> hist_range codes clip lo hi ->
  interior_hit codes lo hi ->
  exists dn, s_dnl r = map Fin dn /\ (forall x, In x dn -> -1 <= x) /\
    (forall i, (i < length dn)%nat -> nth i dn 0 = Rmax (dnl_of codes lo hi (lo + Z.of_nat i + 1)) (-1)) /\
    (forall i, (i < length dn)%nat -> nth i (s_inl r) NaN = Fin (rsum (S i) (fun j => nth j dn 0))).
Proof. exact c32_values. Qed.
Print Assumptions C32_values.

(** When no sample falls strictly between the end codes, every entry is nan. *)
Theorem C32_no_interior :
  forall is_float data nb fs clip r codes lo hi,
  compute_inl_from_sine is_float data nb fs clip = Ok r -> record_codes is_float data nb fs codes -> hist_range codes clip lo hi ->
  ~ interior_hit codes lo hi -> forall x, In x (s_dnl r) \/ In x (s_inl r) -> x = NaN.
Proof. exact c32_no_interior. Qed.
Print Assumptions C32_no_interior.

(** A code strictly inside the range that never occurs is reported with DNL -1, but under the label
    of the code below it. *)
Theorem C32_missing_label :
  forall is_float data nb fs clip r codes lo hi c,
  compute_inl_from_sine is_float data nb fs clip = Ok r -> record_codes is_float data nb fs codes -> hist_range codes clip lo hi ->
  interior_hit codes lo hi -> (lo < c < hi)%Z -> ~ In c codes ->
  exists i, (i < length (s_codes r))%nat /\ nth i (s_codes r) 0%Z = (c - 1)%Z /\ nth i (s_dnl r) NaN = Fin (-1).
Proof. exact c32_missing_label. Qed.
Print Assumptions C32_missing_label.

(** The last INL value is 0 when no DNL value had to be clamped; a missing code pushes it up by at
    least 2/(number of reported codes). *)
Theorem C32_inl_end :
  forall is_float data nb fs clip r codes lo hi,
  compute_inl_from_sine is_float data nb fs clip = Ok r -> record_codes is_float data nb fs codes -> hist_range codes clip lo hi ->
  interior_hit codes lo hi ->
  exists y, last (s_inl r) NaN = Fin y /\
    ((forall c, (lo < c < hi)%Z -> -1 <= dnl_of codes lo hi c) -> y = 0) /\
    ((exists c, (lo < c < hi)%Z /\ ~ In c codes) -> 2 / IZR (hi - lo - 1) <= y).
Proof. exact c32_inl_end. Qed.
Print Assumptions C32_inl_end.

(** The claim that the missing code itself is labelled is false: codes 0,1,3,4 never contain 2, yet
    the entry labelled 2 is not -1. *)
Theorem C32_missing_refuted :
  exists r, compute_inl_from_sine false [0;1;3;4] None None 0 = Ok r /\
  record_codes false [0;1;3;4] None None [0;1;3;4]%Z /\ nth 2 (s_codes r) 0%Z = 2%Z /\ (2 < length (s_codes r))%nat /\ ~ In 2%Z [0;1;3;4]%Z /\ nth 2 (s_dnl r) NaN = Fin (5 / 6).
Proof. exact c32_missing_refuted. Qed.
Print Assumptions C32_missing_refuted.

(** The same record: the missing code 2 is reported under label 1. *)
Example C32_missing_ex :
  exists r, compute_inl_from_sine false [0;1;3;4] None None 0 = Ok r /\ nth 1 (s_codes r) 0%Z = 1%Z /\ nth 1 (s_dnl r) NaN = Fin (-1).
Proof. exact c32_missing_ex. Qed.

(** For a sine sampled at N evenly spaced phases (in any order) each estimated level is within pi/N
    of the converter's true transition, in units of the sine's amplitude. *)
Theorem C65_levels :
  forall T A B phi N f lo hi codes c,
  sine_setup T A B phi N f lo hi -> Permutation codes (map f (seq 0 N)) -> (lo <= c < hi)%Z ->
  Rabs (level codes c - (T (c + 1)%Z - B) / A) <= PI / INR N.
Proof. exact c65_levels. Qed.
Print Assumptions C65_levels.

(** DNL and (when nothing is clamped) INL of such a record are within 4 pi n A / (N * interior
    range) of n/(n-2) times the true values; the INL error does not accumulate. *)
Theorem C65_sine_accuracy :
  forall is_float data nb fs clip r codes lo hi T A B phi N f,
  compute_inl_from_sine is_float data nb fs clip = Ok r -> record_codes is_float data nb fs codes -> hist_range codes clip lo hi ->
  interior_hit codes lo hi -> Permutation codes (map f (seq 0 N)) -> sine_setup T A B phi N f lo hi -> T (lo + 1)%Z < T hi ->
  let n := IZR (hi - lo + 1) in let range := T hi - T (lo + 1)%Z in
  let true_dnl c := (n - 2) * ((T (c + 1)%Z - T c) / range) - 1 in
  let true_inl c := (n - 2) * ((T (c + 1)%Z - T (lo + 1)%Z) / range) - IZR (c - lo) in
  let bound := 4 * PI * n * A / (INR N * range) in
  forall i, (i < length (s_dnl r))%nat -> let c := (lo + Z.of_nat i + 1)%Z in
  (exists x, nth i (s_dnl r) NaN = Fin x /\ Rabs (x - Rmax (n / (n - 2) * true_dnl c) (-1)) <= bound) /\
  ((forall e, (lo < e < hi)%Z -> -1 <= dnl_of codes lo hi e) ->
   exists y, nth i (s_inl r) NaN = Fin y /\ Rabs (y - n / (n - 2) * true_inl c) <= bound).
Proof. exact c65_sine_accuracy. Qed.
Print Assumptions C65_sine_accuracy.

(** The setup is met by an ideal 8-level converter and a 64-sample sine of amplitude 4. *)
Example C65_setup_ex :
  sine_setup IZR 4 0 0 64 (fun i => Zfloor (sine_sample 4 0 0 64 i)) (-4) 4 /\ IZR (-4 + 1) < IZR 4.
Proof. exact c65_setup_ex. Qed.
