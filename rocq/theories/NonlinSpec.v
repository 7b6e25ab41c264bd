(** * Independent specification of the static nonlinearity fit. *)
From Verif Require Import Base.
Local Open Scope R_scope.

(** c 0 + c 1 x + ... + c deg x^deg *)
Definition poly (deg : nat) (c : nat -> R) (x : R) : R := rsum (S deg) (fun i => c i * x ^ i).
(** Among x 0 .. x (n-1) there are m different values. *)
Definition distinct_values (n : nat) (x : nat -> R) (m : nat) : Prop :=
  exists l, length l = m /\ NoDup (map x l) /\ forall t, In t l -> (t < n)%nat.
Definition average (n : nat) (g : nat -> R) : R := rsum n g / INR n.
(** num / den as a float division *)
Definition quotient (num den : R) (v : xr) : Prop :=
  (den <> 0 -> v = Fin (num / den)) /\ (den = 0 -> num = 0 -> v = NaN) /\ (den = 0 -> 0 < num -> v = PInf) /\ (den = 0 -> num < 0 -> v = NInf).
(** The documented transfer model *)
Definition cubic (k2 k3 x : R) : R := x + k2 * x ^ 2 + k3 * x ^ 3.
