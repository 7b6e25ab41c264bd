(** * Independent specification of the bit activity used to order bits. *)
From Coq Require Import Permutation.
From Verif Require Import Base CalModel.
Local Open Scope R_scope.

(** How often column j changes from one sample to the next. *)
Definition changes (a : mat) (j : nat) : nat :=
  length (filter (fun i => if Req_EM_T (m_at a (S i) j) (m_at a i j) then false else true) (seq 0 (m_n a - 1))).
(** All columns change a different number of times. *)
Definition distinct_activity (a : mat) : Prop :=
  forall j k, (j < m_m a)%nat -> (k < m_m a)%nat -> changes a j = changes a k -> j = k.
(** [b] has the columns of [a] in the order [p]. *)
Definition reordered (p : list nat) (a b : mat) : Prop :=
  Permutation p (seq 0 (m_m a)) /\ m_n b = m_n a /\ m_m b = m_m a /\ forall i j, (i < m_n a)%nat -> (j < m_m a)%nat -> m_at b i j = m_at a i (nth j p 0%nat).
(** The code formed by the first c columns, most significant first. *)
Definition leading_code (c : nat) (a : mat) (i : nat) : R := rsum c (fun j => m_at a i j * 2 ^ (c - 1 - j)).
(** Results of all members, or the first failure. *)
Fixpoint each {A} (f : A -> result R) (l : list A) : result (list R) :=
  match l with [] => Ok [] | x :: r => bind (f x) (fun y => bind (each f r) (fun ys => Ok (y :: ys))) end.
(** a is not below b in the extended order -inf < reals < +inf; a NaN compares with nothing. *)
Definition at_least (a b : xr) : Prop :=
  match a, b with
  | Fin x, Fin y => y <= x
  | PInf, Fin _ | PInf, PInf | PInf, NInf | Fin _, NInf | NInf, NInf => True
  | _, _ => False
  end.
