(** * Model of the plots of adctoolbox/dout: analyze_bit_activity.py, analyze_overflow.py, analyze_weight_radix.py and
    analyze_enob_sweep.py.  A figure is the record of what is drawn: points, limits and texts.  Colours, fonts, legends and
    titles are left out, except where the colour tells classes of points apart. *)
From Verif Require Import Base SiggenModel SpecModel SineHistModel CalModel SweepModel DoutModel PlotModel.
Local Open Scope R_scope.

(** ** analyze_bit_activity.py *)
(** matplotlib's default width of a bar (l.45 gives none). *)
Definition bar_default : R := 8 / 10.
(** l.45-58 [ac_marked] is the bit of the coloured bar, from 0. *)
Record activity_figure := mkAct { ac_bars : list (R * R); ac_width : R; ac_marked : nat; ac_text_at : R * R; ac_text : num; ac_ideal : R; ac_xlim : R * R; ac_ylim : R * R }.
(** l.41-58; np.argmax refuses a matrix without columns (l.47).  The sign that the text shows for a value that is rounded to
    zero is not represented. *)
Definition plot_activity (u : list R) : result activity_figure :=
  raise_if (length u =? 0)%nat ValueError
  (let k := argmax (map (fun v => Rabs (v - 50)) u) in
   let v := nth k u 0 in
   Ok (mkAct (map (fun i => (INR (i + 1), nth i u 0)) (seq 0 (length u))) bar_default k (INR (k + 1), v + 8 / 10) (fixed 2 (v - 50)) 50
             (1 / 2, INR (length u) + 1 / 2) (40, 60))).
(** l.37-71 for a record with samples. *)
Definition analyze_bit_activity (bits : list (list R)) (B : nat) (create_plot : bool) : result (list R * option activity_figure) :=
  let u := bit_activity bits B in
  if create_plot then bind (plot_activity u) (fun g => Ok (u, Some g)) else Ok (u, None).

(** ** analyze_overflow.py *)
(** l.80-84 column ii of data_decom. *)
Definition residue_column (codes : list (list R)) (weight : list R) (ii : nat) : list R :=
  map (fun row => dot (skipn ii row) (skipn ii weight) / lsum (skipn ii weight)) codes.
(** A negative column index counts from the end (l.95-96). *)
Definition column_index (m : nat) (c : Z) : nat := Z.to_nat (if (c <? 0)%Z then c + Z.of_nat m else c).
(** Indexing with a boolean array. *)
Fixpoint pick {A} (flags : list bool) (l : list A) : list A :=
  match flags, l with
  | f :: fs, x :: t => if f then x :: pick fs t else pick fs t
  | _, _ => []
  end.
(** l.104-162 the points of each bit: blue, red and yellow; the texts below and above; the tick labels. *)
Record overflow_figure := mkOvf {
  of_refs : list R; of_min : list (R * R); of_max : list (R * R);
  of_normal : list (list (R * R)); of_over : list (list (R * R)); of_under : list (list (R * R));
  of_alpha : R; of_low_texts : list (R * R * num); of_high_texts : list (R * R * num);
  of_ticks : list (R * Z); of_xlim : R * R; of_ylim : R * R }.
Definition plot_overflow (codes : list (list R)) (m : nat) (weight : list R) (c : Z) (stats : list (R * R * R * R)) : overflow_figure :=
  let check := residue_column codes weight (column_index m c) in
  let zero := map (fun d => Rleb d 0) check in                                         (* l.95 *)
  let one := map (fun d => Rleb 1 d) check in                                          (* l.96 *)
  let none := map2 (fun a b => negb (a || b)) zero one in                              (* l.97 *)
  let at_x x l := map (fun y => (x, y)) l in
  let bits := seq 0 m in
  let stat i := nth i stats (0, 0, 0, 0) in
  mkOvf [1; 0]
    (map (fun i => (INR (i + 1), fst (fst (fst (stat i))))) bits)
    (map (fun i => (INR (i + 1), snd (fst (fst (stat i))))) bits)
    (map (fun i => at_x (INR (i + 1)) (pick none (residue_column codes weight i))) bits)           (* l.117-120 *)
    (map (fun i => at_x (INR (i + 1) - 2 / 10) (pick one (residue_column codes weight i))) bits)   (* l.129-132 *)
    (map (fun i => at_x (INR (i + 1) + 2 / 10) (pick zero (residue_column codes weight i))) bits)  (* l.141-144 *)
    (Rmin (Rmax (10 / INR (length codes)) (1 / 100)) 1)                                            (* l.116 *)
    (map (fun i => (INR (i + 1), - (5 / 100), fixed 1 (snd (fst (stat i))))) bits)
    (map (fun i => (INR (i + 1), 1 + 5 / 100, fixed 1 (snd (stat i)))) bits)
    (map (fun i => (INR (i + 1), (Z.of_nat m - Z.of_nat i)%Z)) bits)
    (0, INR m + 1) (- (1 / 10), 1 + 1 / 10).
(** l.57-171 *)
Definition analyze_overflow_plot (codes : list (list R)) (m : nat) (weight : list R) (ofb : option Z) (create_plot : bool)
  : result (list (R * R * R * R) * option overflow_figure) :=
  bind (analyze_overflow codes m weight ofb) (fun stats =>
  let b := match ofb with None => Z.of_nat m | Some b => b end in
  Ok (stats, if create_plot then Some (plot_overflow codes m weight (Z.of_nat m - b) stats) else None)).

(** ** analyze_weight_radix.py *)
(** l.121-182; the y axis is logarithmic.  [rf_line] is the black line, [rf_pos] and [rf_neg] the blue and red markers. *)
Record radix_figure := mkRad { rf_line : list (R * R); rf_pos : list (R * R); rf_neg : list (R * R); rf_legend : bool; rf_msb : R * R; rf_lsb : option (R * R);
  rf_effres : num; rf_radix : list (R * R * num); rf_xlim : R * R }.
(** l.121-182 for weights other than zero.  [argsort] is numpy's (which of several equal weights comes first is its choice). *)
Definition plot_weight_radix (argsort : list R -> list nat) (weights : list R) (radix : list xr) (effres : R) : radix_figure :=
  let a := map Rabs weights in
  let n := length weights in
  let point i := (INR (i + 1), nth i a 0) in
  let neg i := Rltb (nth i weights 0) 0 in
  let order := rev (argsort a) in                                                      (* l.79 *)
  let k := sig_index (neighbour_ratios (map (fun i => nth i a 0) order)) in            (* l.80-90 *)
  let msb := nth 0 order 0%nat in let lsb := nth k order 0%nat in                      (* l.93-94 *)
  let mark i := (INR (i + 1), nth i a 0 / (15 / 10)) in
  mkRad (map point (seq 0 n)) (map point (filter (fun i => negb (neg i)) (seq 0 n))) (map point (filter neg (seq 0 n)))
    (existsb neg (seq 0 n)) (mark msb) (if (lsb =? msb)%nat then None else Some (mark lsb)) (fixed 2 effres)
    (map (fun i => (INR (i + 1), nth i a 0 * (15 / 10), fmt2 (nth i radix NaN))) (seq 1 (n - 1)))
    (1 / 2, INR n + 1 / 2).
(** l.66-184 *)
Definition analyze_radix_plot (argsort : list R -> list nat) (weights : list R) (create_plot : bool) : result (list xr * R * R * option radix_figure) :=
  bind (analyze_weight_radix weights) (fun '(radix, sca, effres) =>
  Ok (radix, sca, effres, if create_plot then Some (plot_weight_radix argsort weights radix effres) else None)).

(** ** analyze_enob_sweep.py *)
Definition not_nan (x : xr) : bool := match x with NaN => false | _ => true end.
(** One annotation: where it is, whether the number is preceded by a plus sign, the number, the red part of the colour (l.123-133). *)
Record note := mkNote { nt_x : nat; nt_y : R; nt_plus : bool; nt_num : num; nt_red : R }.
(** l.95-133; [ef_ylim] is None when matplotlib chooses the limits (no value is a number). *)
Record enob_figure := mkEF { ef_points : list (nat * xr); ef_xlim : R * R; ef_ticks : list nat; ef_ylim : option (R * R); ef_notes : list note }.
(** l.114 delta_enob[i] *)
Definition delta_enob (e : list xr) (i : nat) : xr := match i with O => nth 0 e NaN | S j => xsub (nth i e NaN) (nth j e NaN) end.
(** l.92-133.  enob_sweep[0] of an empty array raises IndexError (l.114); set_ylim refuses infinite limits (l.111). *)
Definition plot_enob_sweep (e : list xr) : result enob_figure :=
  let m := length e in
  let valid := filter not_nan e in
  raise_if (existsb (fun x => negb (xfinite x)) valid) ValueError
  (raise_if (m =? 0)%nat IndexError
   (let v := map (fun x => match x with Fin r => r | _ => 0 end) valid in
    let some := negb (length valid =? 0)%nat in
    let offset := if some then (rmax_list v - rmin_list v) * (6 / 100) else 1 / 10 in
    let one i := match nth i e NaN, delta_enob e i with
                 | Fin y, Fin d => [mkNote (i + 1) (y + offset) (negb (i =? 0)%nat) (fixed 2 d) (if (i =? 0)%nat then 0 else 1 - Rmax 0 (Rmin 1 d))]
                 | _, _ => []
                 end in
    Ok (mkEF (combine (seq 1 m) e) (1 / 2, INR m + 1 / 2) (seq 1 m) (if some then Some (rmin_list v - 1 / 2, rmax_list v + 2) else None)
             (flat_map one (seq 0 m))))).
(** l.62-135 *)
Definition analyze_enob_sweep (kaiser38 cheb100 : nat -> list R) (lstsq : lstsq_fun) (rank : rank_fun) (est : nat -> R) (bits : mat) (freq : freq_arg) (H : nat) (osr : R) (wt : win) (create_plot : bool)
  : result (list xr * list nat * option enob_figure) :=
  bind (enob_sweep kaiser38 cheb100 lstsq rank est bits freq H osr wt) (fun '(e, ns) =>
  if create_plot then bind (plot_enob_sweep e) (fun g => Ok (e, ns, Some g)) else Ok (e, ns, None)).
