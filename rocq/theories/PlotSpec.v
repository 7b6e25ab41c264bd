(** * Specification vocabulary for the spectrum plots.  Of PlotModel only the data types are used. *)
From Coq Require Import Sorted.
From Verif Require Import Base PlotModel.
Local Open Scope R_scope.

Definition multiple_of (step m : R) : Prop := exists k : Z, m = IZR k * step.
(** What a number text with a unit prefix says, and what saying the value [v] correctly means:
    within half a unit of the last digit shown. *)
Definition prefix_scale (p : prefix) : R :=
  match p with Giga => 1000000000 | Mega => 1000000 | Kilo => 1000 | Unit => 1 end.
Definition says (t : num * prefix) (v : R) : Prop :=
  match t with
  | (Num d z, p) => Rabs (IZR z / 10 ^ d * prefix_scale p - v) <= prefix_scale p / (2 * 10 ^ d)
  | _ => False
  end.
(** The height of the label and the alignment the docstring of the annotation asks for: above the
    marker if there is room, else below it, else at it. *)
Inductive placed (bottom top s : R) : R -> valign -> Prop :=
| placed_above : s + 10 <= top -> placed bottom top s (s + 10) VBottom
| placed_below : top < s + 10 -> bottom <= s - 8 -> placed bottom top s (s - 8) VTop
| placed_at y : top < s + 10 -> s - 8 < bottom -> (s <= top -> y = s) -> (top < s -> y = top) -> placed bottom top s y VCenter.
(** Room kept free at the upper and lower end of an axis of the given height: 4 percent, but between 1 and 6 dB. *)
Definition room (span m : R) : Prop :=
  (span <= 25 -> m = 1) /\ (25 <= span <= 150 -> m = span / 25) /\ (150 <= span -> m = 6).
(** An axis transform that sends the limits [a, b] to [0, 1], everything between them into it and nothing else. *)
Definition maps_limits (f : R -> R -> xr) (a b : R) : Prop :=
  forall x y, exists v, f x y = Fin v /\ (0 <= v <= 1 <-> a <= x <= b).
(** A metric text: two decimals for a finite value, else N/A or the name of the value. *)
Definition reads (na : bool) (t : num) (x : xr) : Prop :=
  match x with
  | Fin v => (exists z, t = Num 2 z) /\ says (t, Unit) v
  | _ => t = if na then NA else Word x
  end.
(** Where a frequency is between the ends [a, b] of the axis, as a fraction of it. *)
Definition along (a b x : R) : R := (x - a) / (b - a).
