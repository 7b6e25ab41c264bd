(** * What coherent averaging should do, independently of the loop that does it. *)
From Verif Require Import Base Cplx.
Local Open Scope R_scope.

(** Harmonic h of a tone at bin k of an n-point spectrum appears at bin b of the lower half:
    directly, or mirrored at half the sample rate. *)
Definition appears_direct (n k h b : nat) : Prop :=
  (2 * b < n)%nat /\ exists q, (h * k = b + q * n)%nat.
Definition appears_mirrored (n k h b : nat) : Prop :=
  (2 * b <= n)%nat /\ exists q, (h * k + b = q * n)%nat.
Definition appears (n k h b : nat) : Prop := appears_direct n k h b \/ appears_mirrored n k h b.
(** Bin b carries some harmonic of bin k. *)
Definition harmonic_bin (n k b : nat) : Prop := exists h, (1 <= h)%nat /\ appears n k h b.

(** The same record started d samples later, taken round the end. *)
Definition rotated (d : nat) (r : list R) : list R :=
  map (fun i => nth ((i + d) mod length r) r 0) (seq 0 (length r)).

(** A record with some sample of at least 1e-10 in magnitude. *)
Definition heard (r : list R) : Prop := exists x, In x r /\ / 10 ^ 10 <= Rabs x.

(** A tone of H harmonics of bin k: harmonic h has amplitude a h and phase ph h. *)
Definition harmonic_record (N k H : nat) (dc : R) (a ph : nat -> R) : list R :=
  map (fun i => dc + rsum H (fun j => a (S j) *
         cos (INR (S j) * (2 * PI * INR k * INR i / INR N) + ph (S j)))) (seq 0 N).
(** A memoryless polynomial applied to a sampled tone. *)
Definition memoryless_record (N k : nat) (c : list R) (A ph : R) : list R :=
  map (fun i => rsum (length c) (fun j => nth j c 0 *
         (A * cos (2 * PI * INR k * INR i / INR N + ph)) ^ j)) (seq 0 N).

(** Bin k is the first strongest non-DC bin of the record within the first nb bins. *)
Definition strongest_bin (N nb : nat) (r : list R) (k : nat) : Prop :=
  let X := rdft N (fun i => nth i r 0) in
  (1 <= k < nb)%nat /\ (2 * k <= N)%nat /\
  (forall j, (1 <= j < nb)%nat -> (2 * j <= N)%nat -> Cmod (X j) <= Cmod (X k)) /\
  (forall j, (1 <= j < k)%nat -> Cmod (X j) < Cmod (X k)).

(** Harmonics 1..H fall on different bins. *)
Definition separate (N k H : nat) : Prop :=
  forall h h' b, (1 <= h <= H)%nat -> (1 <= h' <= H)%nat -> h <> h' -> appears N k h b -> ~ appears N k h' b.

