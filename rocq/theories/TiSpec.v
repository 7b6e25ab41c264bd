(** * Specification vocabulary for time interleaving (independent of TiModel). *)
From Verif Require Import Base.
Local Open Scope R_scope.

(** An M x K rectangular array as a list of M rows. *)
Definition rect (M K : nat) (a : list (list R)) : Prop :=
  length a = M /\ forall m, (m < M)%nat -> length (nth m a []) = K.

(** What an interleaved converter with M channels records of the ideal samples [s n]:
    sample n goes through channel n mod M, which multiplies by its gain and adds its offset. *)
Definition mismatched (M : nat) (gain offset : list R) (s : nat -> R) (n : nat) : R :=
  nth (n mod M) gain 0 * s n + nth (n mod M) offset 0.

(** x[i] with zeros outside the record. *)
Definition zget (x : list R) (i : Z) : R :=
  if (0 <=? i)%Z then nth (Z.to_nat i) x 0 else 0.

(** A polynomial with coefficients c (lowest degree first). *)
Definition poly (c : list R) (t : R) : R := rsum (length c) (fun i => nth i c 0 * t ^ i).
