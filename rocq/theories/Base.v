(** * Common vocabulary: results, comparisons on R, rounding, list sums.
    Definitions only; lemmas are in BaseLemmas.v. *)
From Coq Require Export List Arith ZArith Reals Bool Lia Lra.
From Flocq Require Export Core.Raux Core.Generic_fmt.
Export ListNotations.

(** Python exceptions that the modelled code can raise. *)
Inductive exn : Set :=
| ValueError | TypeError | IndexError | ZeroDivisionError | AssertionError
| FileExistsError | FileNotFoundError | RuntimeError | SystemExit | OSError | OverflowError.

(** A call either returns a value or raises. *)
Inductive result (A : Type) : Type :=
| Ok (a : A)
| Err (e : exn).
Arguments Ok {A} a.
Arguments Err {A} e.

Definition bind {A B : Type} (x : result A) (f : A -> result B) : result B :=
  match x with Ok a => f a | Err e => Err e end.

(** [guard c e k]: [if c: raise e], then continue with [k]. *)
Definition raise_if {A : Type} (c : bool) (e : exn) (k : result A) : result A :=
  if c then Err e else k.

(** Boolean comparisons on reals. *)
Definition Rleb (x y : R) : bool := if Rle_dec x y then true else false.
Definition Rltb (x y : R) : bool := if Rlt_dec x y then true else false.
Definition Reqb (x y : R) : bool := if Req_EM_T x y then true else false.

(** Python [round] / [np.round] / [np.rint]: nearest integer, ties to even.
    (Flocq's ZnearestE, unfolded.) [np.floor] and [np.ceil] are Flocq's Zfloor, Zceil. *)
Definition round_he (x : R) : Z := Znearest (fun k => negb (Z.even k)) x.

(** Sums over lists of reals (np.sum). *)
Fixpoint lsum (l : list R) : R :=
  match l with nil => 0%R | x :: t => (x + lsum t)%R end.

(** np.mean of a non-empty array. *)
Definition lmean (l : list R) : R := (lsum l / INR (length l))%R.

(** Elementwise product and dot product of two equally long vectors. *)
Fixpoint dot (a b : list R) : R :=
  match a, b with
  | x :: a', y :: b' => (x * y + dot a' b')%R
  | _, _ => 0%R
  end.

Definition b2r (b : bool) : R := if b then 1%R else 0%R.

(** Sum of f 0 .. f (n-1): the specification-side sum. *)
Fixpoint rsum (n : nat) (f : nat -> R) : R :=
  match n with O => 0%R | S k => (rsum k f + f k)%R end.

(** np.max / np.min of a non-empty list, given head and tail. *)
Definition lmax1 (x : R) (l : list R) : R := fold_right Rmax x l.
Definition lmin1 (x : R) (l : list R) : R := fold_right Rmin x l.

(** numpy elementwise binary operation on equally long arrays. *)
Fixpoint map2 {A B C : Type} (f : A -> B -> C) (a : list A) (b : list B) : list C :=
  match a, b with
  | x :: a', y :: b' => f x y :: map2 f a' b'
  | _, _ => nil
  end.

(** A float value as the code can see it: finite, +inf, -inf or nan. *)
Inductive xr : Type := Fin (x : R) | PInf | NInf | NaN.
Definition xfinite (x : xr) : bool := match x with Fin _ => true | _ => false end.
