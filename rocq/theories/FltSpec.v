(** * Vocabulary for statements about doubles *)
From Flocq Require Import Core.Core IEEE754.BinarySingleNaN.
From Verif Require Import Base.
Local Open Scope R_scope.

(** The real number a finite double stands for. *)
Definition val (x : binary_float 53 1024) : R := B2R x.
(** The reals that are doubles (ignoring the overflow limit 2^1024), and rounding to nearest even onto them. *)
Definition double (r : R) : Prop := generic_format radix2 (FLT_exp (-1074) 53) r.
Definition rnd (r : R) : R := round radix2 (FLT_exp (-1074) 53) ZnearestE r.
(** Largest magnitude: below 2^1024. *)
Definition in_range (r : R) : Prop := Rabs r < bpow radix2 1024.
(** a <= b for doubles, infinities included (nan is not comparable). *)
Definition le_double (x y : binary_float 53 1024) : Prop := Bleb x y = true.
(** The bits of an integer 0 <= c < 2^n, most significant first. *)
Fixpoint bits (n : nat) (c : Z) : list Z :=
  match n with O => nil | S m => (c / 2 ^ Z.of_nat m)%Z :: bits m (c mod 2 ^ Z.of_nat m)%Z end.
(** Clip an integer to 0 .. 2^n - 1. *)
Definition clip_code (n : nat) (c : Z) : Z := Z.max 0 (Z.min c (2 ^ Z.of_nat n - 1)).
(** The weights are positive multiples of 2^e with at most 53 significant bits in total. *)
Definition dyadic_weights (e : Z) (ks : list Z) (w : list (binary_float 53 1024)) : Prop :=
  (-1020 <= e <= 0)%Z /\ Forall (fun k => (1 <= k)%Z) ks /\ (fold_right Z.add 0 ks <= 2 ^ 53)%Z /\
  Forall2 (fun k x => is_finite x = true /\ val x = IZR k * bpow radix2 e) ks w.
