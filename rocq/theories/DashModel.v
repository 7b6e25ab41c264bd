(** * Model of adctoolbox/toolset/generate_dout_dashboard.py, generate_aout_dashboard.py and
    generate_aout_dashboard_3x4.py.  A dashboard is the record of what its panels show; titles, the arrangement of the
    axes, saving and showing the figure are not represented.  Arithmetic is exact. *)
From Verif Require Import Base Cplx SpecModel SiggenModel SineHistModel CalModel SweepModel DoutModel FitModel HarmModel RearModel CohModel EpdfModel AcfModel PlaneModel EplaneModel PlotModel DrawModel PanelModel DplotModel EplotModel.
Local Open Scope R_scope.

(** analyze_spectrum with its defaults (analyze_spectrum.py l.30-47), called with fs only. *)
Definition spectrum_panel (kaiser38 cheb100 : nat -> list R) (xaxes : R -> R -> xr) (x : list R) (fs : R) : result (spectrum * option figure) :=
  analyze_spectrum kaiser38 cheb100 xaxes [x] fs ScaleAuto Hann None 1 5 0 None true true true 3.

(* ---------- generate_dout_dashboard.py ---------- *)
(** The rows of a bit matrix as lists. *)
Definition rows_of (bits : mat) : list (list R) := map (fun i => map (fun j => m_at bits i j) (seq 0 (m_m bits))) (seq 0 (m_n bits)).
Record dout_dashboard := mkDD {
  dd_nominal : spectrum * option figure; dd_calibrated : spectrum * option figure; dd_activity : list R * option activity_figure;
  dd_overflow : list (R * R * R * R) * option overflow_figure; dd_enob : list xr * list nat * option enob_figure;
  dd_radix : list xr * R * R * option radix_figure }.
(** l.39-86.  [est] is the automatic frequency estimate of the calibration.  Both the weights and the calibrated record
    have the length that the calibration works with (_prepare_input.py l.82-86 turns a wide matrix round). *)
Definition generate_dout_dashboard (kaiser38 cheb100 : nat -> list R) (xaxes : R -> R -> xr) (argsort : list R -> list nat) (lstsq : lstsq_fun) (rank : rank_fun) (est : nat -> R)
    (bits : mat) (freq : freq_arg) (weights : option (list R)) : result dout_dashboard :=
  let w := match weights with None => binary_weights (m_m bits) | Some l => l end in                        (* l.43-46 *)
  bind (calibrate_weight_sine lstsq rank est [bits] freq None None 1 0.5 (1 / 10 ^ 12) 100) (fun r =>       (* l.53-55 *)
  let short := Nat.min (m_n bits) (m_m bits) in let long := Nat.max (m_n bits) (m_m bits) in
  let w_cal := map (r_weight r) (seq 0 short) in
  raise_if (negb (length w =? m_m bits)%nat) ValueError (                                                   (* l.59 *)
  bind (spectrum_panel kaiser38 cheb100 xaxes (map (fun row => dot row w) (rows_of bits)) 1) (fun p1 =>
  bind (spectrum_panel kaiser38 cheb100 xaxes (map (r_calibrated (hd (mkDs (fun _ => 0) (fun _ => 0) (fun _ => 0) NaN) (r_sets r))) (seq 0 long)) 1) (fun p2 =>
  bind (analyze_bit_activity (rows_of bits) (m_m bits) true) (fun p3 =>
  bind (analyze_overflow_plot (rows_of bits) (m_m bits) w_cal None true) (fun p4 =>
  bind (analyze_enob_sweep kaiser38 cheb100 lstsq rank est bits (FScalar (r_freqs r 0%nat)) 1 1 Hamming true) (fun p5 =>
  bind (analyze_radix_plot argsort w_cal true) (fun p6 =>
  Ok (mkDD p1 p2 p3 p4 p5 p6))))))))).

(* ---------- generate_aout_dashboard.py ---------- *)
Record aout_dashboard := mkAD {
  ad_spectrum : spectrum * option figure; ad_polar : spectrum * list C * polar_plot; ad_value : by_value * option value_figure;
  ad_phase : by_phase * option phase_figure; ad_time : harm_result * option time_figure; ad_decomp : harm_result * option polar_figure;
  ad_pdf : epdf_result * option pdf_figure; ad_acf : list xr * list Z * list R * option acf_figure }.
(** l.43-83 (2x4).  A sampling rate of zero is refused only where the frequency is divided by it (l.46); fs and freq are
    Python numbers. *)
Definition generate_aout_dashboard (kaiser38 cheb100 : nat -> list R) (xaxes : R -> R -> xr) (argsort : list R -> list nat) (lstsq : lstsq_fun)
    (signal : list R) (fs : R) (freq : option R) (resolution : Z) : result aout_dashboard :=
  raise_if (match freq with Some _ => Reqb fs 0 | None => false end) ZeroDivisionError (
  let norm_freq := match freq with Some f => Some (f / fs) | None => None end in
  let tol := 1 / 10 ^ 9 in
  bind (spectrum_panel kaiser38 cheb100 xaxes signal fs) (fun p1 =>
  bind (analyze_polar_plot kaiser38 cheb100 [signal] ScaleAuto 5 1 0 fs Boxcar None) (fun p2 =>
  bind (analyze_error_by_value lstsq signal None (Some 100%Z) (1 / 100) None true 1 tol) (fun p3 =>
  bind (analyze_error_by_phase argsort lstsq signal None 100 true true 1 tol) (fun p4 =>
  bind (analyze_decomposition_time lstsq signal 5 5 true None 1 tol) (fun p5 =>
  bind (analyze_decomposition_polar lstsq signal 5 true None 1 tol) (fun p6 =>
  bind (analyze_error_pdf lstsq signal resolution None None true 1 tol) (fun p7 =>
  bind (analyze_acf lstsq signal norm_freq 50 true true 1 tol) (fun p8 =>
  Ok (mkAD p1 p2 p3 p4 p5 p6 p7 p8)))))))))).

(* ---------- generate_aout_dashboard_3x4.py ---------- *)
Record aout_dashboard12 := mkAD12 {
  ad_first : aout_dashboard; ad_error : spectrum * option figure * list R; ad_envelope : spectrum * option figure * list R * list R;
  ad_plane : Z * list Z * option plane_figure; ad_eplane : eplane * option eplane_figure }.
(** l.46-128 (3x4): the eight panels of the smaller dashboard and four more.  The last two are drawn although create_plot is
    False, because axes are given (analyze_phase_plane.py l.129, analyze_error_phase_plane.py l.137). *)
Definition generate_aout_dashboard_3x4 (kaiser38 cheb100 : nat -> list R) (xaxes : R -> R -> xr) (argsort : list R -> list nat) (lstsq : lstsq_fun)
    (signal : list R) (fs : R) (freq : option R) (resolution : Z) : result aout_dashboard12 :=
  let tol := 1 / 10 ^ 9 in
  bind (generate_aout_dashboard kaiser38 cheb100 xaxes argsort lstsq signal fs freq resolution) (fun d =>
  bind (analyze_error_spectrum kaiser38 cheb100 xaxes lstsq signal fs None 1 tol) (fun p9 =>
  bind (analyze_error_envelope_spectrum kaiser38 cheb100 xaxes lstsq signal fs None 1 tol) (fun p10 =>
  bind (analyze_phase_plane signal None true 4 true) (fun p11 =>
  bind (analyze_error_phase_plane lstsq signal 3 true UnitAuto true) (fun p12 =>
  Ok (mkAD12 d p9 p10 p11 p12)))))).
