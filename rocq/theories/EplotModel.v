(** * Model of the plotting parts of adctoolbox/aout/analyze_phase_plane.py, analyze_error_phase_plane.py,
    analyze_error_pdf.py, analyze_error_autocorr.py, analyze_error_spectrum.py, analyze_error_envelope_spectrum.py
    and adctoolbox/dout/plot_residual_scatter.py.
    A figure is what is handed to matplotlib: the plotted values, the axis limits and the numbers shown in
    texts.  Colours, fonts, marker sizes, legends and titles given by the caller are not represented.
    Arithmetic is exact. *)
From Verif Require Import Base Cplx SpecModel SiggenModel SineHistModel CalModel FitModel NonlinModel DoutModel AcfModel EpdfModel EnvModel PlaneModel EplaneModel PlotModel DrawModel.
Local Open Scope R_scope.

(* ---------- analyze_phase_plane.py ---------- *)
(** [pl_density]: hexbin instead of a scatter plot (l.139); [pl_outliers] are the red crosses (l.148) and
    [pl_notes] the annotations idx:.. (l.152-155); [pl_lag] and [pl_count] the numbers of title, axis label and text box. *)
Record plane_figure := mkPlane { pl_density : bool; pl_points : list (R * R); pl_outliers : option (list (R * R));
  pl_notes : list (Z * (R * R)); pl_lag : Z; pl_count : nat }.
(** l.131-176 *)
Definition plot_phase_plane (x y : list R) (mask : list bool) (k : Z) (outliers : list Z) : plane_figure :=
  let at_mask m := combine (select x m) (select y m) in
  mkPlane (20000 <? Z.of_nat (length x))%Z (at_mask (map negb mask))
    (if existsb (fun b => b) mask then Some (at_mask mask) else None)
    (if existsb (fun b => b) mask then map (fun i => (nth i outliers 0%Z, (nth i (select x mask) 0, nth i (select y mask) 0))) (seq 0 (Nat.min 3 (length outliers))) else [])
    k (length outliers).
(** l.39-181: phase_plane with the plot.  [create_plot] stands for the condition of l.131. *)
Definition analyze_phase_plane (data : list R) (lag : option Z) (detect : bool) (threshold : R) (create_plot : bool) : result (Z * list Z * option plane_figure) :=
  bind (phase_plane data lag detect threshold) (fun r =>
  let x := drop_last_k data (fst r) in let y := from_k data (fst r) in
  bind (if detect then outlier_mask x y threshold else Ok (map (fun _ => false) x)) (fun mask =>
  Ok (fst r, snd r, if create_plot then Some (plot_phase_plane x y mask (fst r) (snd r)) else None))).

(* ---------- analyze_error_phase_plane.py ---------- *)
Inductive shown_unit := MicroFS | MicroVolt | Lsb.
(** l.67-89; an unknown mode has raised before the plot. *)
Definition display_unit (mode : unit_mode) (data : list R) : shown_unit :=
  match mode with
  | UnitAuto => if Rltb (rmax_list (map Rabs data)) 50 then MicroVolt else Lsb
  | UnitNormalized => MicroFS
  | UnitVoltage => MicroVolt
  | UnitCode | UnitOther => Lsb
  end.
Definition display_scale (u : shown_unit) : R := match u with Lsb => 1 | _ => 10 ^ 6 end.
(** l.112-130 coeff_rise and coeff_fall; the fits are those of the analysis, which have not raised. *)
Definition edge_trends (lstsq : lstsq_fun) (data residual : list R) (order : Z) (detect : bool) : option vec * option vec :=
  let n := length data in
  let rise := fun t => Rltb 0 (gradient data t) in
  let fall := fun t => Rltb (gradient data t) 0 in
  if (detect && ((100 <? length (positions n rise)) && (100 <? length (positions n fall)))%nat)%bool then
    match percentile data 2, percentile data 98 with
    | Ok lo, Ok hi =>
        let valid := fun t => (Rltb lo (nth t data 0) && Rltb (nth t data 0) hi)%bool in
        let fit p := if (50 <? length (positions n p))%nat then Some (polyfit lstsq (masked data p) (masked residual p) (Z.to_nat order)) else None in
        (fit (fun t => (rise t && valid t)%bool), fit (fun t => (fall t && valid t)%bool))
    | _, _ => (None, None)
    end
  else (None, None).
(** [er_trends]: the trend line, or the rising and the falling one. *)
Record eplane_figure := mkEpf { er_points : list (R * R); er_trends : list (list (R * R)); er_unit : shown_unit;
  er_rms : num; er_peak : num; er_gap : option num }.
(** np.std (population) *)
Definition std0 (l : list R) : R := sqrt (lmean (map (fun v => (v - lmean l) ^ 2) l)).
(** l.139-187 *)
Definition plot_error_phase_plane (lstsq : lstsq_fun) (data : list R) (order : Z) (detect : bool) (mode : unit_mode) (r : eplane) : eplane_figure :=
  let u := display_unit mode data in
  let s := display_scale u in
  let shown := map (fun e => e * s) (ep_residual r) in
  let x_sorted := rsort data in
  let line c := map (fun x => (x, polyval c (Z.to_nat order) x * s)) x_sorted in
  mkEpf (combine data shown)
    (match edge_trends lstsq data (ep_residual r) order detect with
     | (Some p, Some q) => [line p; line q]
     | _ => [line (ep_trend r)]
     end)
    u (fixed 1 (std0 shown)) (fixed 1 (rmax_list (map Rabs shown)))
    (if Rltb 0 (ep_gap r) then Some (fixed 1 (ep_gap r * s)) else None).
(** l.64-195 *)
Definition analyze_error_phase_plane (lstsq : lstsq_fun) (data : list R) (order : Z) (detect : bool) (mode : unit_mode) (create_plot : bool) : result (eplane * option eplane_figure) :=
  bind (error_phase_plane lstsq data order detect mode) (fun r =>
  Ok (r, if create_plot then Some (plot_error_phase_plane lstsq data order detect mode r) else None)).

(* ---------- analyze_error_pdf.py ---------- *)
(** A float with d decimals; inf and nan are printed as words. *)
Definition fixed_x (d : nat) (x : xr) : num := match x with Fin v => fixed d v | _ => Word x end.
(** [pd_kde] and [pd_gauss]: None when every ordinate is NaN. *)
Record pdf_figure := mkPdf { pd_kde : option (list (R * R)); pd_gauss : option (list (R * R)); pd_mu : num; pd_sigma : num; pd_kl : num }.
(** l.110-132, on numbers *)
Definition plot_error_pdf (r : epdf) : pdf_figure :=
  mkPdf (option_map (combine (p_x r)) (p_pdf r)) (option_map (combine (p_x r)) (p_gauss r))
    (fixed 3 (p_mu r)) (fixed_x 3 (p_sigma r)) (fixed_x 4 (match p_kl r with Some v => Fin v | None => NaN end)).
(** l.64-146; the figure drawn from infinities and NaN ([NotFinite]) is not modelled. *)
Definition analyze_error_pdf (lstsq : lstsq_fun) (signal : list R) (resolution : Z) (full_scale freq : option R) (create_plot : bool) (max_iter : Z) (tol : R)
  : result (epdf_result * option pdf_figure) :=
  bind (error_pdf lstsq signal resolution full_scale freq max_iter tol) (fun r =>
  Ok (r, match r with Numbers v => if create_plot then Some (plot_error_pdf v) else None | NotFinite => None end)).

(* ---------- analyze_error_autocorr.py ---------- *)
Record acf_figure := mkAcf { af_stems : list (Z * xr); af_xlim : Z * Z }.
(** l.100-113; an empty list of lags (negative max_lag) is not plotted by the model. *)
Definition plot_acf (acf : list xr) (lags : list Z) (max_lag : Z) : acf_figure := mkAcf (combine lags acf) (- max_lag, max_lag)%Z.
(** l.58-128 *)
Definition analyze_acf (lstsq : lstsq_fun) (signal : list R) (frequency : option R) (max_lag : Z) (normalize create_plot : bool) (max_iter : Z) (tol : R)
  : result (list xr * list Z * list R * option acf_figure) :=
  bind (analyze_error_autocorr lstsq signal frequency max_lag normalize max_iter tol) (fun r =>
  Ok (fst (fst r), snd (fst r), snd r, if create_plot then Some (plot_acf (fst (fst r)) (snd (fst r)) max_lag) else None)).

(* ---------- analyze_error_spectrum.py, analyze_error_envelope_spectrum.py ---------- *)
(** error spectrum l.65-106.  Without create_plot the spectrum is drawn all the same, on a figure that is
    closed again (l.92-99). *)
Definition analyze_error_spectrum (kaiser38 cheb100 : nat -> list R) (xaxes : R -> R -> xr) (lstsq : lstsq_fun) (signal : list R) (fs : R) (freq : option R) (max_iter : Z) (tol : R)
  : result (spectrum * option figure * list R) :=
  bind (fit_core lstsq signal freq max_iter tol) (fun fit =>
  let error := map2 Rminus signal (f_fitted fit) in
  bind (analyze_spectrum kaiser38 cheb100 xaxes [error] fs ScaleAuto Hann None 1 5 0 None true true false 3) (fun r => Ok (fst r, snd r, error))).
(** envelope spectrum l.70-118 *)
Definition analyze_error_envelope_spectrum (kaiser38 cheb100 : nat -> list R) (xaxes : R -> R -> xr) (lstsq : lstsq_fun) (signal : list R) (fs : R) (freq : option R) (max_iter : Z) (tol : R)
  : result (spectrum * option figure * list R * list R) :=
  bind (fit_core lstsq signal freq max_iter tol) (fun fit =>
  let error := map2 Rminus signal (f_fitted fit) in
  bind (envelope error) (fun env =>
  bind (analyze_spectrum kaiser38 cheb100 xaxes [env] fs ScaleAuto Hann None 1 5 0 None true true false 3) (fun r => Ok (fst r, snd r, error, env)))).

(* ---------- plot_residual_scatter.py ---------- *)
(** The label of an axis: 'Signal' or 'Res. of bit #z' (l.102-103). *)
Inductive bit_label := LSignal | LResidual (z : Z).
Definition label_of (z : Z) : bit_label := if (z =? 0)%Z then LSignal else LResidual z.
Record scatter_panel := mkSP { sp_cell : nat * nat; sp_points : list (R * R); sp_xlabel : bit_label; sp_ylabel : bit_label }.
(** [sc_hidden]: the cells made invisible (l.106-108). *)
Record scatter_figure := mkSF { sc_rows : nat; sc_cols : nat; sc_alpha : R; sc_panels : list scatter_panel; sc_hidden : list (nat * nat) }.
(** l.70-71; [alpha = None] is 'auto'. *)
Definition scatter_alpha (alpha : option R) (n : nat) : R := match alpha with Some a => a | None => Rmin (Rmax (1000 / INR n) (1 / 10)) 1 end.
(** l.90-110; without pairs the quotient in l.93 is 0/0. *)
Definition plot_scatter (alpha : R) (pairs : list (Z * Z)) (rx ry : list (list R)) : result scatter_figure :=
  let n := length pairs in
  let cols := Nat.min n 4 in
  if (cols =? 0)%nat then Err ZeroDivisionError else
  let rows := ((n + cols - 1) / cols)%nat in
  let cell k := (k / cols, k mod cols)%nat in
  Ok (mkSF rows cols alpha
    (map (fun k => mkSP (cell k) (combine (nth k rx []) (nth k ry [])) (label_of (fst (nth k pairs (0, 0)%Z))) (label_of (snd (nth k pairs (0, 0)%Z)))) (seq 0 n))
    (map cell (seq n (rows * cols - n)))).
(** l.50-116 *)
Definition residual_scatter (signal : list R) (bits : list (list R)) (m : nat) (weights : option (list R)) (pairs : option (list (Z * Z))) (alpha : option R) (create_plot : bool)
  : result (list (Z * Z) * list (list R) * list (list R) * option scatter_figure) :=
  bind (plot_residual_scatter signal bits m weights pairs (match alpha with None => true | _ => false end)) (fun r =>
  let '(ps, rx, ry) := r in
  if create_plot then bind (plot_scatter (scatter_alpha alpha (length bits)) ps rx ry) (fun f => Ok (ps, rx, ry, Some f))
  else Ok (ps, rx, ry, None)).
