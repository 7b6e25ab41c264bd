(** * What the MATLAB dashboard is to compute, stated without its helpers. *)
From Verif Require Import Base.
Local Open Scope R_scope.

(** The number a row of bits stands for, most significant bit first: unsigned and in two's complement. *)
Fixpoint binary (row : list R) : R := match row with [] => 0 | b :: t => b * 2 ^ length t + binary t end.
Definition twos_complement (row : list R) : R := match row with [] => 0 | b :: t => binary t - b * 2 ^ length t end.
(** What n bits can hold. *)
Definition holds_unsigned (n : nat) (codes : list Z) : Prop := forall v, In v codes -> (0 <= v < 2 ^ Z.of_nat n)%Z.
Definition holds_signed (n : nat) (codes : list Z) : Prop := forall v, In v codes -> (- 2 ^ (Z.of_nat n - 1) <= v < 2 ^ (Z.of_nat n - 1))%Z.
(** n is the fewest bits, at least one, that will do. *)
Definition fewest (P : nat -> Prop) (n : nat) : Prop := (1 <= n)%nat /\ P n /\ forall m, (1 <= m)%nat -> P m -> (n <= m)%nat.
Definition bit_rows (n : nat) (rows : list (list R)) : Prop := forall r, In r rows -> length r = n /\ forall b, In b r -> b = 0 \/ b = 1.
(** Where the value v is drawn on an axis from lo to hi, as a part of its height. *)
Definition height (lim : R * R) (v : R) : R := (v - fst lim) / (snd lim - fst lim).
