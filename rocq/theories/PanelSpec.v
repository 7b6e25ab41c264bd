(** * Specification vocabulary for the error and polar plots.  Of the models only data types are used. *)
From Coq Require Import Sorted.
From Verif Require Import Base Cplx PlotModel PanelModel.
Local Open Scope R_scope.

Definition within (lim : R * R) (x : R) : Prop := fst lim <= x <= snd lim.
(** A bar of width w centred at c lies between the limits. *)
Definition bar_within (lim : R * R) (w c : R) : Prop := fst lim <= c - w / 2 /\ c + w / 2 <= snd lim.
(** The largest of the numbers among the entries. *)
Definition largest_number (l : list xr) (m : R) : Prop := In (Fin m) l /\ forall x, In (Fin x) l -> x <= m.
Definition unit_volts (u : small_unit) : R :=
  match u with Volt => 1 | Milli => 1 / 1000 | Micro => 1 / 1000000 | Nano => 1 / 1000000000 | Pico => 1 / 1000000000000 end.
(** The text has d decimals and names the value v, in the given unit, to half of its last digit. *)
Definition names (d : nat) (t : num) (scale v : R) : Prop :=
  match t with Num d' z => d' = d /\ Rabs (IZR z / 10 ^ d * scale - v) <= scale / (2 * 10 ^ d) | _ => False end.
(** The level in decibels that the polar plot gives to a bin; 1e-20 is added to the magnitude. *)
Definition shown_level (z : C) : R := 20 * (ln (Cmod z + / 10 ^ 20) / ln 10).
