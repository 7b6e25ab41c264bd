(** * Model of adctoolbox/aout/plot_rearranged_error_by_value.py, plot_rearranged_error_by_phase.py and
    adctoolbox/spectrum/plot_spectrum_polar.py, with the wrappers analyze_error_by_value.py,
    analyze_error_by_phase.py and analyze_spectrum_polar.py.
    A figure is what is handed to matplotlib: the plotted values, the axis limits and the texts that show
    numbers; an axis limit is the one passed to set_xlim or set_ylim.  Colours, fonts, legends and the
    splitting of an axis are not represented.  Arithmetic is exact. *)
From Verif Require Import Base Cplx SpecModel SiggenModel TiModel SineHistModel CalModel FitModel RearModel CohModel PlotModel DrawModel.
Local Open Scope R_scope.

(** np.nanmax (NaN when there is no number; it warns). *)
Definition numbers (l : list xr) : list R := flat_map (fun x => match x with Fin v => [v] | _ => [] end) l.
Definition nanmax (l : list xr) : xr := match numbers l with [] => NaN | v => Fin (rmax_list v) end.
(** np.diff *)
Definition diffs (l : list R) : list R := map (fun i => nth (S i) l 0 - nth i l 0) (seq 0 (length l - 1)).

(* ---------- plot_rearranged_error_by_value.py ---------- *)
Record value_figure := mkVF {
  vf_scatter : list (R * R); vf_mean : list (R * xr); vf_xlim : R * R; vf_ylim : R * R;
  vf_bars : list (R * xr); vf_width : R; vf_bar_xlim : R * R; vf_bar_ylim : R * R }.
(** l.78-82 and l.113-117 *)
Definition center_limits (c : list R) : R * R :=
  let lo := rmin_list c in let hi := rmax_list c in
  let m := if Rltb lo hi then (2 / 100) * (hi - lo) else 1 / 2 in (lo - m, hi + m).
(** l.85-88 (and by phase l.117-120) *)
Definition error_limits (e : list R) : R * R :=
  let lo := rmin_list e in let hi := rmax_list e in
  let m := if Reqb (hi - lo) 0 then 1 else (hi - lo) * (1 / 10) in (lo - m, hi + m).
(** l.105-108 *)
Definition bar_width (c : list R) : R := if (1 <? length c)%nat then (9 / 10) * median (diffs c) else 9 / 10.
(** l.28-128 on the result of rearrange_error_by_value: the bin indices are not empty and inside the
    centres, and some bin holds a sample, so nothing is skipped and the upper limit of l.118 is a number. *)
Definition plot_rearranged_error_by_value (r : by_value) : value_figure :=
  mkVF (combine (map (fun k => nth k (v_centers r) 0) (v_bins r)) (v_error r))
       (combine (v_centers r) (v_mean r)) (center_limits (v_centers r)) (error_limits (v_error r))
       (combine (v_centers r) (v_rms r)) (bar_width (v_centers r)) (center_limits (v_centers r))
       (0, match nanmax (v_rms r) with Fin m => m * (115 / 100) | _ => 0 end).
(** analyze_error_by_value.py l.58-79 *)
Definition analyze_error_by_value (lstsq : lstsq_fun) (signal : list R) (norm_freq : option R) (n_bins : option Z) (clip : R) (value_range : option (R * R))
    (create_plot : bool) (max_iter : Z) (tol : R) : result (by_value * option value_figure) :=
  bind (rearrange_error_by_value lstsq signal norm_freq n_bins clip value_range max_iter tol) (fun r =>
  Ok (r, if create_plot then Some (plot_rearranged_error_by_value r) else None)).

(* ---------- plot_rearranged_error_by_phase.py ---------- *)
Inductive small_unit := Volt | Milli | Micro | Nano | Pico.
(** l.13-27 _format_value_with_unit *)
Definition format_volt (v : R) : num * small_unit :=
  let a := Rabs v in
  if Rltb a (1 / 10 ^ 12) then (Num 2 0, Micro)
  else if Rleb 1 a then (fixed 2 v, Volt)
  else if Rleb (1 / 10 ^ 3) a then (fixed 2 (v * 10 ^ 3), Milli)
  else if Rleb (1 / 10 ^ 6) a then (fixed 2 (v * 10 ^ 6), Micro)
  else if Rleb (1 / 10 ^ 9) a then (fixed 2 (v * 10 ^ 9), Nano)
  else (fixed 2 (v * 10 ^ 12), Pico).
(** l.157 *)
Definition format_urad (v : R) : num := if Rltb v (1 / 10 ^ 12) then Num 2 0 else fixed 2 (v * 10 ^ 6).
(** x mod 360 *)
Definition wrap360 (x : R) : R := x - 360 * IZR (Zfloor (x / 360)).
Record phase_figure := mkHF {
  hf_line : list (R * R); hf_line_ylim : R * R;                 (* l.91-98: fitted signal, ascending phase *)
  hf_error : list (R * R); hf_mean : list (R * xr); hf_error_ylim : R * R;       (* l.103-120 *)
  hf_bars : list (R * xr); hf_width : R; hf_bar_ylim : R * R;                    (* l.137, l.168-170 *)
  hf_am : list (R * R); hf_pm : list (R * R); hf_base : option (list (R * R)); hf_total : list (R * R);
  hf_am_text : num * small_unit; hf_pm_text : num * small_unit; hf_rad_text : num; hf_base_text : num * small_unit;
  hf_total_text : num * small_unit; hf_r2_text : num;
  hf_xlim : R * R }.
(** l.29-185 for a record with samples and bins.  [argsort] is numpy's; set_ylim refuses nan (l.170) *)
Definition plot_rearranged_error_by_phase (argsort : list R -> list nat) (r : by_phase) (fitted : list R) (base : bool) : result phase_figure :=
  let deg := map (fun p => wrap360 (p * 180 / PI)) (p_phase r) in
  let cdeg := map (fun c => c * 180 / PI) (p_centers r) in
  let order := argsort deg in
  let '(am, pm, b0) := p_variances r in
  let s_min := rmin_list fitted in let s_max := rmax_list fitted in
  let m := (s_max - s_min) * (1 / 10) in
  let curve (f : R -> R) := combine cdeg (map (fun c => sqrt (f c)) (p_centers r)) in
  raise_if (length deg =? 0)%nat ValueError (
  match nanmax (p_bin_rms r), p_total_v r with
  | Fin top, Fin total =>
      Ok (mkHF (map (fun i => (nth i deg 0, nth i fitted 0)) order) (s_min - m, s_max + m)
               (combine deg (p_error r)) (combine cdeg (p_bin_mean r)) (error_limits (p_error r))
               (combine cdeg (p_bin_rms r)) (360 / INR (length (p_centers r)) * (8 / 10)) (0, top * (15 / 10))
               (curve (fun c => am * cos c ^ 2 + b0)) (curve (fun c => pm * sin c ^ 2 + b0))
               (if base then Some (combine cdeg (map (fun _ => sqrt b0) (p_centers r))) else None)
               (curve (fun c => am * cos c ^ 2 + pm * sin c ^ 2 + b0))
               (format_volt (p_am_v r)) (format_volt (p_pm_v r)) (format_urad (p_pm_rad r)) (format_volt (p_base_v r)) (format_volt total)
               (fixed 3 (p_r2_binned r)) (0, 360))
  | _, _ => Err ValueError
  end).
(** analyze_error_by_phase.py l.59-75; the fitted signal, which by_phase does not carry, is that of the fit. *)
Definition analyze_error_by_phase (argsort : list R -> list nat) (lstsq : lstsq_fun) (signal : list R) (norm_freq : option R) (n : Z) (base create_plot : bool)
    (max_iter : Z) (tol : R) : result (by_phase * option phase_figure) :=
  bind (rearrange_error_by_phase lstsq signal norm_freq n base max_iter tol) (fun r =>
  if create_plot then
    bind (fit_core lstsq signal norm_freq max_iter tol) (fun fit =>
    bind (plot_rearranged_error_by_phase argsort r (f_fitted fit) base) (fun g => Ok (r, Some g)))
  else Ok (r, None)).

(* ---------- plot_spectrum_polar.py ---------- *)
Definition tiny : R := / 10 ^ 20.
(** l.32 and l.46: 20 log10(|z| + 1e-20) *)
Definition polar_level (z : C) : R := 20 * (ln (Cmod z + tiny) / ln 10).
(** l.45, l.49-58: angle and distance of the point of one bin, [ref] being the level at the centre. *)
Definition polar_point (ref : R) (z : C) : R * R :=
  let s := Cscale (Rmax (polar_level z) ref - ref) (Cscale (/ (Cmod z + tiny)) z) in (Carg s, Cmod s).
Record polar_plot := mkPP {
  pp_points : list (R * R); pp_ticks : list (R * Z); pp_max : R;
  pp_fund : option (R * R); pp_marks : list (nat * (R * R) * R);       (* order, point, distance of the label *)
  pp_snr : num; pp_thd : num; pp_hd : list (num * num); pp_collided : list nat }.
(** l.96-119: the marked harmonics. *)
Definition polar_marks (points : list (R * R)) (harm_bins : list Z) (coll : list nat) (harmonic : Z) (max_radius : R) : list (nat * (R * R) * R) :=
  flat_map (fun h =>
      let b := nth (h - 2) harm_bins 0%Z in
      if existsb (Nat.eqb h) coll then []
      else if (b =? 0)%Z then []
      else if (b <? Z.of_nat (length points))%Z then
        let p := nth (Z.to_nat b) points (0, 0) in [(h, p, Rmin (snd p * (108 / 100)) (max_radius * (98 / 100)))]
      else [])
    (seq 2 (Z.to_nat (Z.min harmonic (Z.of_nat (length harm_bins) + 1) - 1))).
(** l.125-133: one line HDh = level, phase. *)
Definition hd_line (spec : list C) (harm_bins : list Z) (coll : list nat) (dbc : list xr) (h : nat) : num * num :=
  let i := (h - 2)%nat in
  let level := nth i dbc (Fin (-150)) in
  let above := match level with Fin v => Rltb (-149) v | PInf => true | _ => false end in
  let b := nth i harm_bins 0%Z in
  let phase := if above && negb (existsb (Nat.eqb h) coll) && (i <? length harm_bins)%nat && ((0 <? b) && (b <? Z.of_nat (length spec)))%Z
               then Carg (nth (Z.to_nat b) spec C0) * 180 / PI else 0 in
  (fmt2 level, fixed 1 phase).
(** l.24-151 with show_metrics.  The percentile of an empty array raises (l.33). *)
Definition plot_spectrum_polar (sp : spectrum) (spec : list C) (harmonic : Z) (fixed_range : option R) : result polar_plot :=
  raise_if (length spec =? 0)%nat IndexError (
  bind (percentile (map polar_level spec) 1) (fun floor_db =>
  let ref := match fixed_range with Some x => - x | None => floor_db end in
  let max_radius := match fixed_range with Some x => x | None => - floor_db end in
  let base := IZR (round_he (ref / 10)) * 10 in
  let points := map (polar_point ref) spec in
  Ok (mkPP points (radial_ticks base max_radius) max_radius
           (if (sp_fund sp <? length points)%nat then Some (nth (sp_fund sp) points (0, 0)) else None)
           (polar_marks points (sp_harm_bins sp) (sp_collided sp) harmonic max_radius)
           (fmt2 (sp_snr sp)) (fmt2 (sp_thd sp))
           (map (hd_line spec (sp_harm_bins sp) (sp_collided sp) (sp_harm_dbc sp)) [2; 3]%nat) (sp_collided sp)))).
(** analyze_spectrum_polar.py l.47-64 with a plot *)
Definition analyze_polar_plot (kaiser38 cheb100 : nat -> list R) (data : list (list R)) (sc : scale) (harmonic : Z) (osr cutoff fs : R) (wt : win)
    (fixed_range : option R) : result (spectrum * list C * polar_plot) :=
  bind (analyze_spectrum_polar kaiser38 cheb100 data sc harmonic osr cutoff fs wt) (fun '(sp, spec) =>
  bind (plot_spectrum_polar sp spec harmonic fixed_range) (fun g => Ok (sp, spec, g))).
