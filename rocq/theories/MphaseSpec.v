(** * Vocabulary for the MATLAB polar plots (independent of their model). *)
From Verif Require Import Base HarmSpec.
Local Open Scope R_scope.

(** A ratio of amplitudes in decibel. *)
Definition level_db (x : R) : R := 20 * (ln x / ln 10).
(** The error left when harmonics (without an offset) are taken from a record. *)
Definition left_over (y : list R) (H : nat) (A ph : nat -> R) (f : R) : list R :=
  map (fun t => nth t y 0 - distorted H 0 A ph f t) (seq 0 (length y)).
(** e has no part at the first H harmonics of f, and no mean. *)
Definition out_of_harmonics (n H : nat) (f : R) (e : nat -> R) : Prop :=
  rsum n e = 0 /\ forall h ph, (h < H)%nat -> rsum n (fun t => e t * cos (INR (S h) * (2 * PI * f * INR t) + ph)) = 0.
(** a is the angle of the complex number z. *)
Definition angle_of (z : R * R) (a : R) : Prop :=
  - PI < a <= PI /\ fst z = sqrt (fst z ^ 2 + snd z ^ 2) * cos a /\ snd z = sqrt (fst z ^ 2 + snd z ^ 2) * sin a.
(** How many of the levels (None: no signal at all) lie below x. *)
Definition below (x : R) (levels : list (option R)) : nat :=
  length (filter (fun l => match l with Some v => if Rlt_dec v x then true else false | None => true end) levels).
(** The level of a bin whose content, summed over the runs, is z; None: nothing there. *)
Definition level_of (N runs : nat) (z : R * R) : option R :=
  let m := sqrt (fst z ^ 2 + snd z ^ 2) in if Req_EM_T m 0 then None else Some (level_db (4 * m / (INR N * INR runs))).
