(** * Independent specification of the weight calibration. *)
From Verif Require Import Base CalModel.
Local Open Scope R_scope.

(** What a least-squares routine promises: no other vector has a smaller squared residual. *)
Definition least_squares (lstsq : lstsq_fun) : Prop :=
  forall A b y, rsum (m_n A) (fun i => (rsum (m_m A) (fun j => m_at A i j * lstsq A b j) - b i) ^ 2)
             <= rsum (m_n A) (fun i => (rsum (m_m A) (fun j => m_at A i j * y j) - b i) ^ 2).

(** The columns of A are linearly independent. *)
Definition independent (A : mat) : Prop :=
  forall x, (forall i, (i < m_n A)%nat -> rsum (m_m A) (fun j => m_at A i j * x j) = 0) -> forall j, (j < m_m A)%nat -> x j = 0.
(** c is a linear combination of the columns of A. *)
Definition in_span (A : mat) (c : vec) : Prop := exists x, forall i, (i < m_n A)%nat -> c i = rsum (m_m A) (fun j => m_at A i j * x j).
(** What a rank routine promises, as far as the code relies on it. *)
Definition rank_correct (rank : rank_fun) : Prop :=
  (forall A, (m_m A <= rank A)%nat <-> independent A) /\
  (forall A A' c, m_n A' = m_n A -> m_m A' = (m_m A + 1)%nat -> (forall i j, (j < m_m A)%nat -> m_at A' i j = m_at A i j) -> (forall i, m_at A' i (m_m A) = c i) ->
     ((rank A < rank A')%nat <-> ~ in_span A c)).

(** Output of a converter with the given weights: sample i. *)
Definition output (bits : mat) (w : vec) (i : nat) : R := rsum (m_m bits) (fun j => m_at bits i j * w j).
(** offset + sum over harmonics h = 1..H of a_h cos(2 pi f h t) + b_h sin(2 pi f h t) (a, b indexed from 0) *)
Definition tone (H : nat) (off : R) (a b : vec) (f : R) (t : nat) : R :=
  off + rsum H (fun h => a h * cos (2 * PI * f * (INR t * INR (S h)))) + rsum H (fun h => b h * sin (2 * PI * f * (INR t * INR (S h)))).
(** With the true weights the converter output is exactly that tone. *)
Definition true_weights (bits : mat) (H : nat) (f : R) (w : vec) (off : R) (a b : vec) : Prop :=
  forall t, (t < m_n bits)%nat -> output bits w t = tone H off a b f t.
(** The record determines the weights up to a common factor: every weight vector whose output is a
    tone of this frequency is a multiple of the true one. *)
Definition identifiable (bits : mat) (H : nat) (f : R) (w : vec) (off : R) (a b : vec) : Prop :=
  forall u o c s, (forall t, (t < m_n bits)%nat -> output bits u t = tone H o c s f t) ->
  exists k, (forall j, (j < m_m bits)%nat -> u j = k * w j) /\ o = k * off /\
            (forall h, (h < H)%nat -> c h = k * a h) /\ (forall h, (h < H)%nat -> s h = k * b h).
Definition amplitude (a b : R) : R := sqrt (a ^ 2 + b ^ 2).
Definition freq_is (f : freq_arg) (x : R) : Prop := f = FScalar x \/ f = FArray [x].
Definition nominal_ok (m : nat) (nominal : option (list R)) : Prop := match nominal with None => True | Some l => length l = m end.
(** As [identifiable] for one harmonic, and the record also tells a frequency error apart: no other
    relation involves the columns t cos and t sin. *)
Definition drift_identifiable (bits : mat) (f : R) (w : vec) (off a b : R) : Prop :=
  forall u o c s p q, (forall t, (t < m_n bits)%nat -> output bits u t =
      o + c * cos (2 * PI * f * INR t) + s * sin (2 * PI * f * INR t) + p * (INR t * cos (2 * PI * f * INR t)) + q * (INR t * sin (2 * PI * f * INR t))) ->
  exists k, (forall j, (j < m_m bits)%nat -> u j = k * w j) /\ o = k * off /\ c = k * a /\ s = k * b /\ p = 0 /\ q = 0.
(** No bit is a combination of the others and a constant. *)
Definition no_redundancy (bits : mat) : Prop := forall u o, (forall t, (t < m_n bits)%nat -> output bits u t = o) -> forall j, (j < m_m bits)%nat -> u j = 0.
