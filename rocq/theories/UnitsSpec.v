(** * Specification vocabulary for unit conversions (independent of UnitsModel). *)
From Verif Require Import Base.
Local Open Scope R_scope.

(** Base-10 logarithm, characterised by 10^(lg x) = x on positive reals. *)
Definition lg (x : R) : R := ln x / ln 10.
Definition finite_lt (x y : xr) : Prop := exists a b, x = Fin a /\ y = Fin b /\ a < b.
