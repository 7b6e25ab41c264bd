(** * Property theorems of Panel: statements only, proofs in PanelProofs.v.
    Generated by tools/mkprops.py from the final lemmas. *)
From Verif Require Import Base BaseLemmas Cplx FreqProofs TiProofs SpecModel SpecLemmas SpecProofs SineHistModel SineHistSpec SineHistProofs SiggenModel PlotModel PlotSpec PlotProofs.
From Verif Require Import DoutProofs UnitsModel CalModel CalSpec CalProofs CalExLemmas CalExProofs TiModel TiToneProofs SpecToneProofs FitModel FitSpec FitProofs AcfModel AcfProofs RearModel RearSpec RearProofs OsrSpec EplaneSpec EplaneProofs CohModel CohSpec CohLemmas CohProofs DrawModel DrawSpec DrawProofs PanelModel PanelSpec.
From Coq Require Import Psatz Permutation Sorted.
Local Open Scope R_scope.
From Verif Require Import PanelProofs.

(** The wrapper returns what the analysis returns, with or without plot.  Every sample is drawn at the bin
    centre nearest to it with its error, inside the axes, and so is the mean of every bin that has one; the
    vertical limits are a tenth of the range beyond the extremes of the error (one beyond a constant). *)
Theorem C144_points :
  forall lstsq signal f n clip range mi tol r g,
  analyze_error_by_value lstsq signal f n clip range true mi tol = Ok (r, Some g) ->
  rearrange_error_by_value lstsq signal f n clip range mi tol = Ok r /\ analyze_error_by_value lstsq signal f n clip range false mi tol = Ok (r, None) /\
  length (vf_scatter g) = length signal /\
  (forall i, (i < length signal)%nat -> exists c, nth i (vf_scatter g) (0, 0) = (c, nth i (v_error r) 0) /\ In c (v_centers r) /\
     (forall c', In c' (v_centers r) -> Rabs (nth i signal 0 - c) <= Rabs (nth i signal 0 - c')) /\ within (vf_xlim g) c /\ within (vf_ylim g) (nth i (v_error r) 0)) /\
  length (vf_mean g) = Z.to_nat (bins_of n) /\
  (forall b, (b < Z.to_nat (bins_of n))%nat -> nth b (vf_mean g) (0, NaN) = (nth b (v_centers r) 0, nth b (v_mean r) NaN) /\ within (vf_xlim g) (nth b (v_centers r) 0) /\
     forall m, nth b (v_mean r) NaN = Fin m -> within (vf_ylim g) m) /\
  (forall lo hi, extremes (v_error r) lo hi -> (lo < hi -> vf_ylim g = (lo - (hi - lo) / 10, hi + (hi - lo) / 10)) /\ (lo = hi -> vf_ylim g = (lo - 1, hi + 1))).
Proof. exact c144_points. Qed.
Print Assumptions C144_points.

(** The bars: one per bin at its centre, as high as the rms error of the bin (none for an empty bin), nine
    tenths of the distance of the centres wide, so that neighbours do not touch; the axis reaches from zero to
    1.15 times the highest.  All bars are entirely inside the axes exactly when there is one bin or at least
    24 of them. *)
Theorem C144_bars :
  forall lstsq signal f n clip range mi tol r g,
  analyze_error_by_value lstsq signal f n clip range true mi tol = Ok (r, Some g) ->
  let k := Z.to_nat (bins_of n) in
  (0 < k)%nat /\ length (vf_bars g) = k /\
  (forall b, (b < k)%nat -> nth b (vf_bars g) (0, NaN) = (nth b (v_centers r) 0, nth b (v_rms r) NaN)) /\
  (forall b, (S b < k)%nat -> vf_width g = 9 / 10 * (nth (S b) (v_centers r) 0 - nth b (v_centers r) 0) /\ nth b (v_centers r) 0 + vf_width g / 2 < nth (S b) (v_centers r) 0 - vf_width g / 2) /\
  (exists m, largest_number (v_rms r) m /\ vf_bar_ylim g = (0, 115 / 100 * m) /\ forall x, In (Fin x) (v_rms r) -> 0 <= x <= snd (vf_bar_ylim g)) /\
  ((forall b, (b < k)%nat -> bar_within (vf_bar_xlim g) (vf_width g) (nth b (v_centers r) 0)) <-> (k = 1 \/ 24 <= k)%nat).
Proof. exact c144_bars. Qed.
Print Assumptions C144_bars.

(** Three bins: the outer bars are cut off. *)
Theorem C144_bars_refuted :
  exists r g, analyze_error_by_value gs_lstsq acf_record (Some (1 / 4)) (Some 3%Z) 0 (Some (-1, 1)) true 0 (1 / 10 ^ 9) = Ok (r, Some g) /\
  vf_bar_xlim g = (-1.04, 1.04) /\ vf_width g = 0.9 /\ nth 2 (v_centers r) 0 = 1 /\ ~ bar_within (vf_bar_xlim g) (vf_width g) (nth 2 (v_centers r) 0).
Proof. exact c144_bars_refuted. Qed.
Print Assumptions C144_bars_refuted.

(** The same record: eight points at three centres with the errors -1, 0, 1. *)
Example C144_points_ex :
  exists r g, analyze_error_by_value gs_lstsq acf_record (Some (1 / 4)) (Some 3%Z) 0 (Some (-1, 1)) true 0 (1 / 10 ^ 9) = Ok (r, Some g) /\
  map fst (vf_scatter g) = [1; 0; 0; -1; -1; 0; 0; 1] /\ vf_mean g = [(-1, Fin (-1)); (0, Fin 0); (1, Fin 1)].
Proof. exact c144_points_ex. Qed.

(** Whatever non-empty record can be analysed can also be drawn, with the same result. *)
Theorem C145_accepts :
  forall argsort lstsq signal f n base mi tol r,
  rearrange_error_by_phase lstsq signal f n base mi tol = Ok r ->
  analyze_error_by_phase argsort lstsq signal f n base false mi tol = Ok (r, None) /\
  (signal <> [] -> exists g, analyze_error_by_phase argsort lstsq signal f n base true mi tol = Ok (r, Some g)) /\
  (signal = [] -> analyze_error_by_phase argsort lstsq signal f n base true mi tol = Err ValueError).
Proof. exact c145_accepts. Qed.
Print Assumptions C145_accepts.

(** The upper panel.  Every sample is drawn at its phase in degrees, taken into [0, 360), at most half a bin
    from the centre of the bin it is counted in, with its error; the error, the bin means and the data line
    are inside their axes; the line runs through the samples' phases in ascending order and each of its
    points is offset + amplitude * cos of the phase. *)
Theorem C145_upper :
  forall argsort lstsq signal f n base mi tol r g,
  (forall l, sorts l (argsort l)) -> analyze_error_by_phase argsort lstsq signal f n base true mi tol = Ok (r, Some g) ->
  hf_xlim g = (0, 360) /\ length (hf_error g) = length signal /\
  (forall t, (t < length signal)%nat -> exists x turns, nth t (hf_error g) (0, 0) = (x, nth t (p_error r) 0) /\ 0 <= x < 360 /\ x = nth t (p_phase r) 0 * 180 / PI - 360 * IZR turns /\
     Rabs (x - 360 * (INR (nth t (p_bins r) 0%nat) + 1 / 2) / IZR n) <= 180 / IZR n /\ within (hf_error_ylim g) (nth t (p_error r) 0)) /\
  length (hf_mean g) = Z.to_nat n /\
  (forall b, (b < Z.to_nat n)%nat -> nth b (hf_mean g) (0, NaN) = (360 * (INR b + 1 / 2) / IZR n, nth b (p_bin_mean r) NaN) /\ forall m, nth b (p_bin_mean r) NaN = Fin m -> within (hf_error_ylim g) m) /\
  (forall lo hi, extremes (p_error r) lo hi -> (lo < hi -> hf_error_ylim g = (lo - (hi - lo) / 10, hi + (hi - lo) / 10)) /\ (lo = hi -> hf_error_ylim g = (lo - 1, hi + 1))) /\
  (forall lo hi, extremes (map snd (hf_line g)) lo hi -> hf_line_ylim g = (lo - (hi - lo) / 10, hi + (hi - lo) / 10)) /\
  Permutation (map fst (hf_line g)) (map fst (hf_error g)) /\ StronglySorted (fun p q => fst p <= fst q) (hf_line g) /\
  exists dc, forall x y, In (x, y) (hf_line g) -> y = dc + p_amplitude r * cos (x * PI / 180) /\ within (hf_line_ylim g) y.
Proof. exact c145_upper. Qed.
Print Assumptions C145_upper.

(** The bars: one per bin at the bin's centre in degrees, with the rms of the errors in the bin; all inside
    [0, 360] without touching, and the tallest takes up two thirds of the axis. *)
Theorem C145_bars :
  forall argsort lstsq signal f n base mi tol r g,
  analyze_error_by_phase argsort lstsq signal f n base true mi tol = Ok (r, Some g) ->
  length (hf_bars g) = Z.to_nat n /\ hf_width g = 288 / IZR n /\
  (forall b, (b < Z.to_nat n)%nat -> nth b (hf_bars g) (0, NaN) = (360 * (INR b + 1 / 2) / IZR n, nth b (p_bin_rms r) NaN) /\ bar_within (hf_xlim g) (hf_width g) (360 * (INR b + 1 / 2) / IZR n)) /\
  (forall b, (S b < Z.to_nat n)%nat -> fst (nth b (hf_bars g) (0, NaN)) + hf_width g / 2 < fst (nth (S b) (hf_bars g) (0, NaN)) - hf_width g / 2) /\
  exists top, largest_number (map snd (hf_bars g)) top /\ 0 <= top /\ hf_bar_ylim g = (0, 3 / 2 * top).
Proof. exact c145_bars. Qed.
Print Assumptions C145_bars.

(** The curves over the bars.  At the centre of every bin the total curve is the square root of the modelled
    error power there, the AM and PM curves those of amplitude or phase noise with the base noise; the base
    curve is drawn exactly when base noise was asked for. *)
Theorem C145_curves :
  forall argsort lstsq signal f n base mi tol r g,
  analyze_error_by_phase argsort lstsq signal f n base true mi tol = Ok (r, Some g) ->
  length (hf_am g) = Z.to_nat n /\ length (hf_pm g) = Z.to_nat n /\ length (hf_total g) = Z.to_nat n /\
  (base = false <-> hf_base g = None) /\ (forall l, hf_base g = Some l -> length l = Z.to_nat n /\ forall b, (b < Z.to_nat n)%nat -> nth b l (0, 0) = (360 * (INR b + 1 / 2) / IZR n, p_base_v r)) /\
  (forall b, (b < Z.to_nat n)%nat -> let x := 360 * (INR b + 1 / 2) / IZR n in exists am pm total,
     nth b (hf_am g) (0, 0) = (x, am) /\ nth b (hf_pm g) (0, 0) = (x, pm) /\ nth b (hf_total g) (0, 0) = (x, total) /\ 0 <= am <= total /\ 0 <= pm <= total /\
     am ^ 2 = p_am_v r ^ 2 * cos (x * PI / 180) ^ 2 + p_base_v r ^ 2 /\ pm ^ 2 = p_pm_v r ^ 2 * sin (x * PI / 180) ^ 2 + p_base_v r ^ 2 /\
     total ^ 2 = am_pm_power (p_variances r) (x * PI / 180) /\ total ^ 2 + p_base_v r ^ 2 = am ^ 2 + pm ^ 2).
Proof. exact c145_curves. Qed.
Print Assumptions C145_curves.

(** The numbers written into the plot: each is the result named to half a unit of its last digit, and the
    unit is chosen so that the number is between 1 and 1000. *)
Theorem C145_texts :
  forall argsort lstsq signal f n base mi tol r g,
  analyze_error_by_phase argsort lstsq signal f n base true mi tol = Ok (r, Some g) ->
  exists total, p_total_v r = Fin total /\
  (forall t v, In (t, v) [(hf_am_text g, p_am_v r); (hf_pm_text g, p_pm_v r); (hf_base_text g, p_base_v r); (hf_total_text g, total)] ->
     names 2 (fst t) (unit_volts (snd t)) v /\ (1 / 10 ^ 12 <= v < 1000 -> unit_volts (snd t) <= v < 1000 * unit_volts (snd t))) /\
  names 2 (hf_rad_text g) (1 / 10 ^ 6) (p_pm_rad r) /\ names 3 (hf_r2_text g) 1 (p_r2_binned r).
Proof. exact c145_texts. Qed.
Print Assumptions C145_texts.

(** The axis of the bars is set by the bars alone: a curve can lie above it. *)
Theorem C145_curve_refuted :
  exists signal f, forall argsort, exists r g, analyze_error_by_phase argsort gs_lstsq signal (Some f) 1 true true 0 (1 / 10 ^ 9) = Ok (r, Some g) /\
  exists x y, In (x, y) (hf_am g) /\ snd (hf_bar_ylim g) < y.
Proof. exact c145_curve_refuted. Qed.
Print Assumptions C145_curve_refuted.

(** Eight samples of size 1, four bins. *)
Example C145_bars_ex :
  forall argsort, exists r g, analyze_error_by_phase argsort gs_lstsq flat_record (Some (1 / 4)) 4 true true 0 (1 / 10 ^ 9) = Ok (r, Some g) /\
  hf_bars g = [(45, Fin 1); (135, Fin 1); (225, Fin 1); (315, Fin 1)] /\ hf_width g = 72 /\ hf_bar_ylim g = (0, 3 / 2).
Proof. exact c145_bars_ex. Qed.

(** A plot is made of any non-empty spectrum. *)
Theorem C146_accepts :
  forall sp spec h fr,
  (spec <> [] -> exists g, plot_spectrum_polar sp spec h fr = Ok g) /\ (spec = [] -> plot_spectrum_polar sp spec h fr = Err IndexError).
Proof. exact c146_accepts. Qed.
Print Assumptions C146_accepts.

(** One point per bin.  Its angle is the phase of the bin; its distance from the centre is the level above
    the centre's (-pp_max), short of a factor |z| / (|z| + 1e-20); weaker bins are in the centre.  Every bin
    of at most 0 dB is inside the axes. *)
Theorem C146_points :
  forall sp spec h fr g,
  plot_spectrum_polar sp spec h fr = Ok g ->
  length (pp_points g) = length spec /\ (forall x, fr = Some x -> pp_max g = x) /\ ((sp_fund sp < length spec)%nat -> pp_fund g = Some (nth (sp_fund sp) (pp_points g) (0, 0))) /\
  forall b, (b < length spec)%nat -> let z := nth b spec C0 in let p := nth b (pp_points g) (0, 0) in let level := shown_level z in
    (- pp_max g < level -> snd p = (level + pp_max g) * (Cmod z / (Cmod z + / 10 ^ 20)) /\ (z <> C0 -> fst p = Carg z)) /\
    (level <= - pp_max g -> snd p = 0) /\ 0 <= snd p /\ (level <= 0 -> 0 <= pp_max g -> snd p <= pp_max g).
Proof. exact c146_points. Qed.
Print Assumptions C146_points.

(** Without a fixed range the level in the centre is the 1st percentile of the levels: fewer than
    0.01 (n - 1) + 1 of the n bins are weaker. *)
Theorem C146_centre :
  forall sp spec h g,
  plot_spectrum_polar sp spec h None = Ok g ->
  is_percentile (length spec) (fun b => shown_level (nth b spec C0)) 1 (- pp_max g) /\
  INR (count_of (length spec) (fun b => Rltb (shown_level (nth b spec C0)) (- pp_max g))) < 1 / 100 * (INR (length spec) - 1) + 1.
Proof. exact c146_centre. Qed.
Print Assumptions C146_centre.

(** Short records: with one empty bin (compute_spectrum always empties bin 0) among n <= 100, none of them above 0 dB, the
    centre is at most -4 (101 - n) dB, however high the noise floor. *)
Theorem C146_short :
  forall sp spec h g,
  plot_spectrum_polar sp spec h None = Ok g -> In C0 spec -> (length spec <= 100)%nat -> (forall z, In z spec -> shown_level z <= 0) ->
  4 * (101 - INR (length spec)) <= pp_max g <= 400.
Proof. exact c146_short. Qed.
Print Assumptions C146_short.

(** The circles are labelled with levels that are at most 5 dB off, and right when the centre is at a
    multiple of 10 dB. *)
Theorem C146_ticks :
  forall sp spec h fr g,
  plot_spectrum_polar sp spec h fr = Ok g -> forall rad label, In (rad, label) (pp_ticks g) ->
  0 <= rad < pp_max g + 1 /\ (exists i : nat, rad = 10 * INR i) /\ Rabs (IZR label - (rad - pp_max g)) <= 5 /\ (forall k, pp_max g = 10 * IZR k -> IZR label = rad - pp_max g).
Proof. exact c146_ticks. Qed.
Print Assumptions C146_ticks.

(** With the range 105 every label is 5 dB off. *)
Theorem C146_ticks_refuted :
  exists fr, forall sp spec h, spec <> [] -> exists g, plot_spectrum_polar sp spec h (Some fr) = Ok g /\ pp_ticks g <> [] /\
  forall rad label, In (rad, label) (pp_ticks g) -> IZR label = (rad - pp_max g) + 5.
Proof. exact c146_ticks_refuted. Qed.
Print Assumptions C146_ticks_refuted.

(** A bin above 0 dB is outside the axes: here a single bin of magnitude 10 with the range 100. *)
Theorem C146_points_refuted :
  exists spec, forall sp h, exists g, plot_spectrum_polar sp spec h (Some 100) = Ok g /\ exists p, In p (pp_points g) /\ pp_max g < snd p.
Proof. exact c146_points_refuted. Qed.
Print Assumptions C146_points_refuted.

(** The marked harmonics: those asked for that have a bin of their own, neither the fundamental's nor bin 0,
    inside the spectrum; each mark is on the point of its bin and its label inside the axes. *)
Theorem C146_marks :
  forall sp spec harmonic fr g,
  plot_spectrum_polar sp spec harmonic fr = Ok g -> forall h p lab,
  In (h, p, lab) (pp_marks g) <-> (2 <= h)%nat /\ (Z.of_nat h <= harmonic)%Z /\ exists b, nth_error (sp_harm_bins sp) (h - 2) = Some b /\ ~ In h (sp_collided sp) /\ b <> 0%Z /\ (b < Z.of_nat (length spec))%Z /\
    p = nth (Z.to_nat b) (pp_points g) (0, 0) /\ lab = Rmin (snd p * (108 / 100)) (pp_max g * (98 / 100)).
Proof. exact c146_marks. Qed.
Print Assumptions C146_marks.

(** The figures written into the plot: SNR and THD with two decimals, and for the orders 2 and 3 the level and
    the phase in degrees with one decimal; the phase is given as 0 for a harmonic without a bin of its own. *)
Theorem C146_texts :
  forall sp spec harmonic fr g,
  plot_spectrum_polar sp spec harmonic fr = Ok g ->
  pp_snr g = fmt2 (sp_snr sp) /\ pp_thd g = fmt2 (sp_thd sp) /\ pp_collided g = sp_collided sp /\ length (pp_hd g) = 2%nat /\
  forall h b v, (2 <= h <= 3)%nat -> nth_error (sp_harm_bins sp) (h - 2) = Some b -> nth_error (sp_harm_dbc sp) (h - 2) = Some (Fin v) -> exists t d, nth (h - 2) (pp_hd g) (NA, NA) = (t, d) /\ names 2 t 1 v /\
    ((In h (sp_collided sp) \/ (b <= 0)%Z \/ (Z.of_nat (length spec) <= b)%Z \/ v <= -149) -> d = Num 1 0) /\
    (~ In h (sp_collided sp) -> (0 < b < Z.of_nat (length spec))%Z -> -149 < v -> names 1 d 1 (Carg (nth (Z.to_nat b) spec C0) * 180 / PI)).
Proof. exact c146_texts. Qed.
Print Assumptions C146_texts.

(** The whole chain without cutoff: when every run has its strongest bin in k, that bin is drawn at angle 0. *)
Theorem C146_fundamental :
  forall kaiser38 cheb100 data sc harmonic osr cutoff fs wt fr sp spec g rows k,
  analyze_polar_plot kaiser38 cheb100 data sc harmonic osr cutoff fs wt fr = Ok (sp, spec, g) -> cutoff <= 0 ->
  prepare_fft_input data sc = Ok rows -> (exists nb, inband_count (Z.of_nat (ncols rows)) osr = Ok nb /\ windowed rows (create_window kaiser38 cheb100 wt (ncols rows)) <> [] /\
    Forall (fun r => length r = ncols rows /\ heard r /\ strongest_bin (ncols rows) (Z.to_nat nb) r k) (windowed rows (create_window kaiser38 cheb100 wt (ncols rows)))) -> (2 * k < ncols rows)%nat ->
  fst (nth k (pp_points g) (0, 0)) = 0.
Proof. exact c146_fundamental. Qed.
Print Assumptions C146_fundamental.

(** An empty bin and a bin with phase -90 degrees, range 100 dB. *)
Example C146_points_ex :
  forall sp h,
  exists g, plot_spectrum_polar sp [C0; (0, -1)] h (Some 100) = Ok g /\ snd (nth 0 (pp_points g) (1, 1)) = 0 /\ fst (nth 1 (pp_points g) (1, 1)) = - (PI / 2) /\ 99 <= snd (nth 1 (pp_points g) (1, 1)).
Proof. exact c146_points_ex. Qed.

(** Orders 2 and 3 in bins 2 and 3 of four, order 3 in collision with the fundamental, order 4 asked for but not located. *)
Example C146_marks_ex :
  forall sp spec,
  length spec = 4%nat -> sp_harm_bins sp = [2; 3]%Z -> sp_collided sp = [3%nat] -> exists g, plot_spectrum_polar sp spec 4 (Some 100) = Ok g /\ map (fun m => fst (fst m)) (pp_marks g) = [2%nat].
Proof. exact c146_marks_ex. Qed.
