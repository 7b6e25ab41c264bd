(** * Specification vocabulary for tones in an interleaved converter (independent of TiModel). *)
From Verif Require Import Base.
Local Open Scope R_scope.

(** A record of N samples holding the tones J = 0 .. H-1 (J cycles per record) with amplitudes
    [a] and phases [ph], at the real-valued sample position [t]. *)
Definition tones (N H : nat) (a ph : nat -> R) (t : R) : R :=
  rsum H (fun J => a J * cos (2 * PI * INR J * t / INR N + ph J)).

(** What channel n mod M of an interleaved converter records at sample n of the continuous
    input s(t): sampled skew seconds late, multiplied by the gain, offset added. *)
Definition ti_sample (M : nat) (fs : R) (gain offset skew : list R) (s : R -> R) (n : nat) : R :=
  nth (n mod M) gain 0 * s (INR n / fs + nth (n mod M) skew 0) + nth (n mod M) offset 0.

(** Circular indexing x[i mod N]. *)
Definition cget (x : list R) (i : Z) : R := nth (Z.to_nat (i mod Z.of_nat (length x))) x 0.
