(** * Specification vocabulary for input validation. *)
From Verif Require Import Base ValidModel.
Local Open Scope R_scope.

(** numpy invariant: as many entries as the shape says; integers are in the range of their type. *)
Definition in_dtype (d : dtype) (x : xr) : Prop :=
  match d with
  | DSigned b => exists z, x = Fin (IZR z) /\ (- 2 ^ (Zpos b - 1) <= z < 2 ^ (Zpos b - 1))%Z
  | DUnsigned b => exists z, x = Fin (IZR z) /\ (0 <= z < 2 ^ Zpos b)%Z
  | DBool => x = Fin 0 \/ x = Fin 1
  | _ => True
  end.
Definition numpy_array (a : arr) : Prop := length (a_data a) = fold_right Nat.mul 1%nat (a_shape a) /\ Forall (in_dtype (a_dtype a)) (a_data a).
(** A real number type (not boolean, not complex, not object). *)
Definition real_number (d : dtype) : Prop := d = DFloat \/ (exists b, d = DSigned b) \/ exists b, d = DUnsigned b.
Definition all_finite (a : arr) : Prop := forall x, In x (a_data a) -> exists v, x = Fin v.
Definition not_constant (a : arr) : Prop := exists u v, In (Fin u) (a_data a) /\ In (Fin v) (a_data a) /\ u <> v.
(** The longest axis. *)
Definition longest_axis (a : arr) (n : nat) : Prop := In n (a_shape a) /\ forall m, In m (a_shape a) -> (m <= n)%nat.
(** Entry of a 2-D array. *)
Definition entry (a : arr) (cols i j : nat) : xr := nth (i * cols + j) (a_data a) NaN.
