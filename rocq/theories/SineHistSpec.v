(** * Specification vocabulary for the sine-histogram INL/DNL (independent of SineHistModel). *)
From Verif Require Import Base.
Local Open Scope R_scope.

(** Number of samples with code c or less. *)
Definition at_most (c : Z) (codes : list Z) : nat := length (filter (fun z => (z <=? c)%Z) codes).
(** Where a sine of amplitude 1 puts the upper edge of code c, from the fraction of samples at or
    below c. *)
Definition level (codes : list Z) (c : Z) : R := - cos (PI * (INR (at_most c codes) / INR (length codes))).
(** First and last code kept after excluding the given fraction of the span at both ends. *)
Definition hist_range (codes : list Z) (clip : R) (lo hi : Z) : Prop :=
  exists zmin zmax, In zmin codes /\ In zmax codes /\ (forall z, In z codes -> (zmin <= z <= zmax)%Z) /\
    let ex := round_he (clip * IZR (zmax - zmin)) in hi = (zmax - ex)%Z /\ lo = Z.min (zmin + ex) hi.
(** Some sample lies strictly between the two end codes. *)
Definition interior_hit (codes : list Z) (lo hi : Z) : Prop := exists z, In z codes /\ (lo < z < hi)%Z.
(** The code a sample stands for: small-span float data are voltages, everything else codes. *)
Definition small_span (data : list R) : Prop := forall x y, In x data -> In y data -> x - y <= 2.
Definition scaled (data : list R) (b : nat) (full_scale : option R) (x t : R) : Prop :=
  match full_scale with
  | Some f => t = x / f * 2 ^ b
  | None => (exists y, In y data /\ y < -0.1) /\ t = (x + 1) / 2 * 2 ^ b
            \/ (forall y, In y data -> -0.1 <= y) /\ t = x * 2 ^ b
  end.
Definition code_of (is_float : bool) (data : list R) (num_bits : option nat) (full_scale : option R) (x : R) (c : Z) : Prop :=
  let b := match num_bits with Some b => b | None => 10%nat end in
  (is_float = true /\ small_span data) /\ (exists t, scaled data b full_scale x t /\ c = Z.max 0 (Z.min (round_he t) (2 ^ Z.of_nat b - 1)))
  \/ ~ (is_float = true /\ small_span data) /\ c = round_he x.
Definition record_codes (is_float : bool) (data : list R) (num_bits : option nat) (full_scale : option R) (codes : list Z) : Prop :=
  Forall2 (code_of is_float data num_bits full_scale) data codes.
(** Width of code c in LSB-like units: its share of the interior range times the number of codes. *)
Definition width (codes : list Z) (lo hi c : Z) : R :=
  IZR (hi - lo + 1) * ((level codes c - level codes (c - 1)) / (level codes (hi - 1) - level codes lo)).
(** Reported DNL of code c before missing codes are clamped. *)
Definition dnl_of (codes : list Z) (lo hi c : Z) : R :=
  width codes lo hi c - IZR (hi - lo + 1) / IZR (hi - lo - 1).
(** A sine sampled at N evenly spaced phases through a converter with transition levels T: on the
    codes lo..hi-1, the output is c or less exactly below T (c+1). *)
Definition sine_sample (A B phi : R) (N i : nat) : R := B + A * cos (2 * PI * (INR i + phi) / INR N).
Definition sine_setup (T : Z -> R) (A B phi : R) (N : nat) (f : nat -> Z) (lo hi : Z) : Prop :=
  0 < A /\ (0 < N)%nat /\
  (forall c, (lo <= c < hi)%Z -> - A <= T (c + 1)%Z - B <= A) /\
  (forall i c, (i < N)%nat -> (lo <= c < hi)%Z -> (f i <= c)%Z <-> sine_sample A B phi N i < T (c + 1)%Z).
