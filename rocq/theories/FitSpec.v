(** * Independent specification of sine fitting. *)
From Verif Require Import Base Cplx CalModel.
Local Open Scope R_scope.

(** offset + A cos(2 pi f t + ph) *)
Definition sine (A f ph off : R) (t : nat) : R := off + A * cos (2 * PI * f * INR t + ph).
Definition is_record (y : list R) (g : nat -> R) : Prop := forall t, (t < length y)%nat -> nth t y 0 = g t.
(** Sum of squared differences between the record and g. *)
Definition sq_error (y : list R) (g : nat -> R) : R := rsum (length y) (fun t => (nth t y 0 - g t) ^ 2).
(** Equal up to a multiple of 2 pi. *)
Definition same_angle (x y : R) : Prop := exists k : Z, x = y + 2 * PI * IZR k.
(** The usable frequencies: those the clamp leaves alone. *)
Definition usable (f : R) : Prop := 1 / 10 ^ 10 <= f <= 1 / 2 - 1 / 10 ^ 10.
(** What one call of lstsq promises: a minimiser, and among the minimisers one of least norm. *)
Definition minimises (A : mat) (b x : vec) : Prop := forall y,
  rsum (m_n A) (fun i => (rsum (m_m A) (fun j => m_at A i j * x j) - b i) ^ 2) <= rsum (m_n A) (fun i => (rsum (m_m A) (fun j => m_at A i j * y j) - b i) ^ 2).
Definition minimum_norm (A : mat) (b x : vec) : Prop := minimises A b x /\
  forall y, minimises A b y -> rsum (m_m A) (fun j => x j ^ 2) <= rsum (m_m A) (fun j => y j ^ 2).
