(** * Specification vocabulary for tone measurements (independent of SpecModel). *)
From Verif Require Import Base.
Local Open Scope R_scope.

(** Sample n of the sum of H coherent tones (tone i: amplitude A i, J i periods per record,
    phase ph i) on top of the constant c. *)
Definition multitone (N H : nat) (c : R) (A ph : nat -> R) (J : nat -> nat) (n : nat) : R :=
  c + rsum H (fun i => A i * cos (2 * PI * INR (J i) * INR n / INR N + ph i)).
(** The distance between two bins. *)
Definition bin_dist (i j : nat) : nat := (i - j + (j - i))%nat.
(** Tone positions the analysis can keep apart: all lobes (half-width K) clear of DC and
    Nyquist, different tones further apart than one analysis half-width sb plus one lobe. *)
Definition resolvable (N H K sb : nat) (J : nat -> nat) : Prop :=
  (forall i, (i < H)%nat -> (sb + K < J i)%nat /\ (2 * (J i + K) < N)%nat) /\
  (forall i j, (i < H)%nat -> (j < H)%nat -> i <> j -> (Nat.max 1 (sb + K) < bin_dist (J i) (J j))%nat).
(** A capture with analysis band [0, nb): tone 0 is in band and strictly stronger than every
    other in-band tone, and no lobe straddles the band edge. *)
Definition one_dominant (N H K sb nb : nat) (A : nat -> R) (J : nat -> nat) : Prop :=
  (0 < H)%nat /\ (K <= sb)%nat /\ resolvable N H K sb J /\ (J O + K < nb)%nat /\ A O <> 0 /\
  (forall i, (i < H)%nat -> (J i + K < nb)%nat \/ (nb + K <= J i)%nat) /\
  (forall i, (0 < i < H)%nat -> (J i + K < nb)%nat -> Rabs (A i) < Rabs (A O)).
(** Sum of the squares of the amplitudes of the tones picked by [sel]. *)
Definition tone_power (H : nat) (A : nat -> R) (sel : nat -> bool) : R :=
  rsum H (fun i => if sel i then (A i) ^ 2 else 0).
(** An unwanted tone inside the band. *)
Definition unwanted (K nb : nat) (J : nat -> nat) (i : nat) : bool := ((0 <? i) && (J i + K <? nb))%nat.
