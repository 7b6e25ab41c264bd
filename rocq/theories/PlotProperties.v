(** * Property theorems of Plot: statements only, proofs in PlotProofs.v.
    Generated by tools/mkprops.py from the final lemmas. *)
From Coq Require Import Sorted Permutation String.
From Verif Require Import Base BaseLemmas Cplx FreqModel FreqProofs UnitsModel UnitsSpec UnitsProofs TiModel TiProofs TiToneProofs SpecModel SpecLemmas SpecSpec SpecProofs SpecMetricProofs SpecToneSpec SpecToneProofs SpecReportSpec SpecReportProofs PlaneProofs PlotModel PlotSpec.
Local Open Scope list_scope.
Local Open Scope R_scope.
From Verif Require Import PlotProofs.

(** The lower end of the level axis is the highest multiple of the step that is the margin below the given
    level, unless that is below the smallest allowed end; the given level itself is on the axis unless it is
    below that end. *)
Theorem C136_axis_min :
  forall l step (margin : Z) floor fb,
  0 < step ->
  let m := axis_min (Fin l) step (IZR margin) floor fb in
  floor <= m /\
  (floor + (IZR margin + 1) * step <= l -> multiple_of step m /\ m <= l - IZR margin * step < m + step) /\
  (0 <= IZR margin -> floor <= l -> m <= l) /\
  (forall k : Z, IZR k * step <= l - IZR margin * step -> IZR k * step <= m).
Proof. exact c136_axis_min. Qed.
Print Assumptions C136_axis_min.

Example C136_axis_min_ex :
  axis_min (Fin (-93)) 20 1 (-200) None = -120 /\ axis_min (Fin (-230)) 20 1 (-200) None = -200.
Proof. exact c136_axis_min_ex. Qed.

(** Without a finite level the second choice is used, and without that one too the axis ends at -100 dB. *)
Theorem C136_axis_fallback :
  forall level fb step margin floor,
  xfinite level = false ->
  (forall l, fb = Some (Fin l) -> axis_min level step margin floor fb = axis_min (Fin l) step margin floor None) /\
  ((forall l, fb <> Some (Fin l)) -> axis_min level step margin floor fb = -100).
Proof. exact c136_axis_fallback. Qed.
Print Assumptions C136_axis_fallback.

Example C136_axis_fallback_ex :
  axis_min NaN 20 1 (-200) (Some (Fin (-93))) = -120 /\ axis_min PInf 20 1 (-200) (Some NInf) = -100.
Proof. exact c136_axis_fallback_ex. Qed.

(** With a noise floor the level axis of plot_spectrum ends 20 dB below the middle of the in-band bins, but
    between -200 and -40 dB; unless it ends at -200, at most half of the in-band bins are below it.  The upper end is 0. *)
Theorem C136_level_axis :
  forall xa p st sl up fig nb,
  plot_spectrum xa p st sl up = Ok fig -> inband_count (Z.of_nat (pi_N p)) (pi_osr p) = Ok nb ->
  xfinite (pi_floor p) = true ->
  let B := firstn (Z.to_nat nb) (pi_db p) in
  exists lo, fg_ylim fig = (lo, 0) /\ -200 <= lo <= -40 /\
  (forall m, middle_of B m -> (m <= -180 -> lo = -200) /\ (-180 <= m <= -20 -> lo = m - 20) /\ (-20 <= m -> lo = -40)) /\
  (lo = -200 \/ (2 * List.length (filter (fun x => Rltb x lo) B) <= List.length B)%nat).
Proof. exact c136_level_axis. Qed.
Print Assumptions C136_level_axis.

Example C136_level_axis_ex :
  forall xa,
  exists fig, plot_spectrum xa demo true true 3 = Ok fig /\ fg_ylim fig = (-128, 0).
Proof. exact c136_level_axis_ex. Qed.

(** On the frequency axis, from fs/N to fs/2, are exactly the bins other than DC: bin k of an N-sample record is drawn at k fs / N. *)
Theorem C136_frequency_axis :
  forall xa sp N M fs osr coh st sl up fig k,
  plot_spectrum xa (plot_input_of sp N M fs osr coh) st sl up = Ok fig -> (0 < N)%nat -> 0 < fs ->
  List.length (sp_power sp) = (N / 2 + 1)%nat -> (k <= N / 2)%nat ->
  exists x y lo hi, nth_error (fg_curve fig) k = Some (x, y) /\ fg_xlim fig = (lo, hi) /\ x = INR k * fs / INR N /\ lo = fs / INR N /\ hi = fs / 2 /\ (lo <= x <= hi <-> (1 <= k)%nat).
Proof. exact c136_frequency_axis. Qed.
Print Assumptions C136_frequency_axis.

Example C136_frequency_axis_ex :
  forall xa,
  exists fig, plot_spectrum xa demo true true 3 = Ok fig /\ fg_xlim fig = (1000, 10000) /\ nth_error (fg_curve fig) 3 = Some (3000, -1).
Proof. exact c136_frequency_axis_ex. Qed.

(** The dashed line is drawn at the noise power of the band, shared by N / (2 osr) bins, in dB: over the whole
    spectrum without oversampling, else from the first bin to the band edge. *)
Theorem C136_noise_line :
  forall kz cz data fs sc wt side osr mh nf assumed r N M coh v,
  compute_spectrum kz cz data fs sc wt side osr mh nf assumed 0 = Ok r -> 0 < fs -> (0 < N)%nat -> 0 < osr -> sp_noise r = Some v -> 0 < sp_sig r ->
  (assumed = None -> / 10 ^ 30 <= sp_sig r) ->
  let p := plot_input_of r N M fs osr coh in
  exists lvl, line_level p = Fin lvl /\ pow10 (lvl / 10) = v / (INR N / (2 * osr)) /\
  noise_line p = Some (if Rltb 1 osr then (fs / INR N, fs / (2 * osr), lvl) else (0, fs / 2, lvl)).
Proof. exact c136_noise_line. Qed.
Print Assumptions C136_noise_line.

Example C136_noise_line_ex :
  noise_line demo = Some (0, 10000, -100).
Proof. exact c136_noise_line_ex. Qed.

(** In the dark plot the dashed line is always on the level axis, at least 20 dB above its lower end, down to levels of -180 dB; a requested baseline is on the axis too. *)
Theorem C136_virtuoso_axis :
  forall xa p st sl up base b fig l,
  plot_virtuoso xa p st sl up base = Ok (b, fig) -> line_level p = Fin l ->
  exists lo, fg_ylim fig = (lo, 0) /\ lo <= b /\ (-180 <= l -> lo <= l - 20) /\ (-200 <= l -> lo <= l) /\
  match base with None => b = lo /\ -200 <= lo /\ (-160 <= l -> l - 40 < lo /\ multiple_of 20 lo) | Some v => b = v end.
Proof. exact c136_virtuoso_axis. Qed.
Print Assumptions C136_virtuoso_axis.

Example C136_virtuoso_axis_ex :
  forall xa,
  exists b fig, plot_virtuoso xa demo true false 3 None = Ok (b, fig) /\ b = -120 /\ fg_ylim fig = (-120, 0).
Proof. exact c136_virtuoso_axis_ex. Qed.

(** The marker and its label are shown exactly when the spur is inside the axes: above the lower end by more
    than the room kept free there, not above the upper end, and within the frequency limits. *)
Theorem C137_visible :
  forall a b s x m,
  a <> b -> room (Rabs (b - a)) m ->
  (refresh_spur a b (Fin s) (Fin x) 10 8 <> Hidden <-> Rmin a b + m < s <= Rmax a b /\ 0 <= x <= 1).
Proof. exact c137_visible. Qed.
Print Assumptions C137_visible.

Example C137_visible_ex :
  refresh_spur (-120) 0 (Fin (-117)) (Fin 0.3) 10 8 = Hidden /\ refresh_spur (-120) 0 (Fin (-115)) (Fin 0.3) 10 8 <> Hidden.
Proof. exact c137_visible_ex. Qed.

(** A spur, position or axis that is not finite or has no height hides both. *)
Theorem C137_hidden :
  forall a b s x,
  xfinite s = false \/ xfinite x = false \/ a = b -> refresh_spur a b s x 10 8 = Hidden.
Proof. exact c137_hidden. Qed.
Print Assumptions C137_hidden.

Example C137_hidden_ex :
  refresh_spur (-120) 0 NInf (Fin 0.5) 10 8 = Hidden /\ refresh_spur 0 0 (Fin 0) (Fin 0.5) 10 8 = Hidden.
Proof. exact c137_hidden_ex. Qed.

(** Where the label goes: 10 dB above the marker if that keeps the room at the top free, else 8 dB below if that
    keeps the room at the bottom free, else at the marker; so it is always inside the axes, and clear of the room
    at both ends on an axis of at least 2 dB.  Near the left or right end it is aligned inwards. *)
Theorem C137_label :
  forall a b s x m y va ha,
  room (Rabs (b - a)) m -> refresh_spur a b (Fin s) (Fin x) 10 8 = Shown y va ha ->
  placed (Rmin a b + m) (Rmax a b - m) s y va /\ Rmin a b <= y <= Rmax a b /\
  (2 <= Rabs (b - a) -> Rmin a b + m <= y <= Rmax a b - m) /\
  (ha = HRight <-> 0.95 < x) /\ (ha = HLeft <-> x < 0.05).
Proof. exact c137_label. Qed.
Print Assumptions C137_label.

Example C137_label_ex :
  refresh_spur (-120) 0 (Fin (-60)) (Fin 0.3) 10 8 = Shown (-60 + 10) VBottom HCenter /\ refresh_spur (-120) 0 (Fin (-6)) (Fin 0.97) 10 8 = Shown (-6 - 8) VTop HRight.
Proof. exact c137_label_ex. Qed.

(** In the plot of a spectrum the annotation belongs to the strongest remaining bin: it is hidden exactly when
    that bin is off the axes, and its marker is at that bin's frequency and level. *)
Theorem C137_in_plot :
  forall xa p st up fig mk sd m lo hi,
  plot_spectrum xa p st true up = Ok fig -> fg_marks fig = Some mk -> nget (pi_db p) (pi_spur p) = Ok sd ->
  fg_ylim fig = (lo, hi) -> maps_limits xa (fst (fg_xlim fig)) (snd (fg_xlim fig)) -> lo <> hi -> room (Rabs (hi - lo)) m ->
  mk_spur mk = (INR (pi_spur p) / INR (pi_N p) * pi_fs p, sd) /\
  (mk_spur_label mk <> Hidden <-> Rmin lo hi + m < sd <= Rmax lo hi /\ fst (fg_xlim fig) <= fst (mk_spur mk) <= snd (fg_xlim fig)).
Proof. exact c137_in_plot. Qed.
Print Assumptions C137_in_plot.

Example C137_in_plot_ex :
  exists fig mk, plot_spectrum (fun x _ => Fin ((x - 1000) / 9000)) demo true true 3 = Ok fig /\ fg_marks fig = Some mk /\ mk_spur mk = (6000, -60) /\ mk_spur_label mk = Shown (-60 + 10) VBottom HCenter.
Proof. exact c137_in_plot_ex. Qed.

(** The text of the sampling rate (and of the input frequency in the dark plot) is right to half a unit of its last digit. *)
Theorem C138_rate_text :
  forall f,
  says (format_freq f) f.
Proof. exact c138_rate_text. Qed.
Print Assumptions C138_rate_text.

Example C138_rate_text_ex :
  format_freq 2500000 = (Num 1 25, Mega) /\ format_freq 800 = (Num 1 8000, Unit).
Proof. exact c138_rate_text_ex. Qed.

(** So is the text of the input frequency in the light plot, except from 1 Hz up to 1 kHz. *)
Theorem C138_fin_text :
  forall f,
  f < 1 \/ 1000 <= f -> says (format_fin f) f.
Proof. exact c138_fin_text. Qed.
Print Assumptions C138_fin_text.

Example C138_fin_text_ex :
  format_fin 0.15 = (Num 3 150, Unit) /\ format_fin 12345 = (Num 1 123, Kilo).
Proof. exact c138_fin_text_ex. Qed.

(** From 1 Hz up to 1 kHz the text is the frequency in kHz without the unit: every such text is wrong from 2 Hz on. *)
Theorem C138_fin_refuted :
  exists f, 1 <= f < 1000 /\ ~ says (format_fin f) f.
Proof. exact c138_fin_refuted. Qed.
Print Assumptions C138_fin_refuted.

(** Which harmonics are marked, and where: in increasing order, each order from 2 up to the requested one that
    did not fall on the fundamental and is not more than 20 dB below the dashed line, at the frequency and level of its bin. *)
Theorem C139_marked :
  forall xa p st up fig mk,
  plot_spectrum xa p st true up = Ok fig -> fg_marks fig = Some mk -> (forall b, In b (pi_harm_bins p) -> (0 <= b)%Z) ->
  (forall h x y, In (h, (x, y)) (mk_harm mk) <->
     (2 <= h < 2 + List.length (pi_harm_dbc p))%nat /\ (Z.of_nat h <= up)%Z /\ ~ In h (pi_collided p) /\
     (exists b, nth_error (pi_harm_bins p) (h - 2) = Some b /\ nth_error (pi_db p) (Z.to_nat b) = Some y /\ x = IZR b * pi_fs p / INR (pi_N p)) /\
     (forall l, line_level p = Fin l -> l - 20 <= y)) /\
  StronglySorted lt (map fst (mk_harm mk)).
Proof. exact c139_marked. Qed.
Print Assumptions C139_marked.

Example C139_marked_ex :
  forall xa,
  exists fig mk, plot_spectrum xa demo true true 3 = Ok fig /\ fg_marks fig = Some mk /\ map fst (mk_harm mk) = [2; 3]%nat.
Proof. exact c139_marked_ex. Qed.

(** The two plots agree: where the light plot is drawn, the dark one is too, with the same curve, frequency axis,
    marked harmonics, fundamental, spur position, dashed line and place of the text block. *)
Theorem C139_both_plots :
  forall xa p st st' up fig mk base,
  plot_spectrum xa p st true up = Ok fig -> fg_marks fig = Some mk ->
  exists b fig' mk', plot_virtuoso xa p st' true up base = Ok (b, fig') /\ fg_marks fig' = Some mk' /\
  fg_curve fig' = fg_curve fig /\ fg_xlim fig' = fg_xlim fig /\ mk_harm mk' = mk_harm mk /\ mk_fund mk' = mk_fund mk /\ mk_spur mk' = mk_spur mk /\
  mk_noise_line mk' = mk_noise_line mk /\ mk_block_x mk' = mk_block_x mk /\ tl (mk_rows mk') = tl (mk_rows mk).
Proof. exact c139_both_plots. Qed.
Print Assumptions C139_both_plots.

Example C139_both_plots_ex :
  forall xa,
  exists b fig mk, plot_virtuoso xa demo true true 3 None = Ok (b, fig) /\ fg_marks fig = Some mk /\ map fst (mk_harm mk) = [2; 3]%nat.
Proof. exact c139_both_plots_ex. Qed.

(** Analysing and plotting never fails where analysing alone succeeds, for records of even length and for tones in the middle of a bin. *)
Theorem C139_drawable :
  forall kz cz xa data fs sc wt side osr mh nf assumed r st sl up rows,
  compute_spectrum kz cz data fs sc wt side osr mh nf assumed 0 = Ok r ->
  prepare_fft_input data sc = Ok rows -> Nat.Even (ncols rows) \/ (exists k, sp_frac r = IZR k) ->
  exists fig, analyze_spectrum kz cz xa data fs sc wt side osr mh nf assumed true st sl up = Ok (r, Some fig).
Proof. exact c139_drawable. Qed.
Print Assumptions C139_drawable.

Example C139_drawable_ex :
  forall kz cz xa,
  exists r fig,
  analyze_spectrum kz cz xa [map (multitone 64 3 7 (fun i => nth i [2; 0.02; 0.002] 0) (fun i => INR i) (fun i => nth i [5; 10; 15] 0)%nat) (seq 0 64)] 1 (ScalePeak 2) Hann (Some 1%nat) 1 5 3 None true true true 3 = Ok (r, Some fig) /\ sp_fund r = 5%nat.
Proof. exact c139_drawable_ex. Qed.

Theorem C139_odd_refuted :
  exists data : list R, forall kz cz xa fs st sl up,
  (exists r, compute_spectrum kz cz [data] fs (ScalePeak 1) Boxcar (Some 0%nat) 1 2 0 None 0 = Ok r) /\
  analyze_spectrum kz cz xa [data] fs (ScalePeak 1) Boxcar (Some 0%nat) 1 2 0 None true st sl up = Err IndexError.
Proof. exact c139_odd_refuted. Qed.
Print Assumptions C139_odd_refuted.

(** The eight rows every text block has, in order, with the numbers they show. *)
Theorem C140_metrics :
  forall xa p st up fig mk,
  plot_spectrum xa p st true up = Ok fig -> fg_marks fig = Some mk ->
  exists fin rate enob sndr sfdr thd snr floor nsd notes,
  mk_rows mk = [RFreq fin rate; RMetric "ENoB" enob; RMetric "SNDR" sndr; RMetric "SFDR" sfdr; RMetric "THD" thd; RMetric "SNR" snr;
                RMetric "Noise Floor" floor; RMetric "NSD" nsd] ++ notes /\
  says rate (pi_fs p) /\ (let f := INR (pi_fund p) / INR (pi_N p) * pi_fs p in f < 1 \/ 1000 <= f -> says fin f) /\
  reads false enob (pi_enob p) /\ reads false sndr (pi_sndr p) /\ reads false sfdr (pi_sfdr p) /\ reads false thd (pi_thd p) /\
  reads true snr (pi_snr p) /\ reads true floor (pi_floor p) /\ reads true nsd (pi_nsd p) /\
  (forall r, In r notes -> match r with ROsr _ | RGain _ | RCollided _ => True | _ => False end).
Proof. exact c140_metrics. Qed.
Print Assumptions C140_metrics.

Example C140_metrics_ex :
  forall xa,
  exists fig mk enob, plot_spectrum xa demo true true 3 = Ok fig /\ fg_marks fig = Some mk /\ nth_error (mk_rows mk) 1 = Some (RMetric "ENoB" enob) /\ reads false enob (pi_enob demo).
Proof. exact c140_metrics_ex. Qed.

(** The optional rows: the oversampling ratio exactly when it exceeds one and there is a noise line, the processing gain exactly after coherent
    averaging of several records, and the collided harmonics, sorted, exactly when there are some. *)
Theorem C140_notes :
  forall xa p st up fig mk,
  plot_spectrum xa p st true up = Ok fig -> fg_marks fig = Some mk ->
  ((exists t, In (ROsr t) (mk_rows mk)) <-> 1 < pi_osr p /\ xfinite (line_level p) = true) /\
  (forall t, In (ROsr t) (mk_rows mk) -> says (t, Unit) (pi_osr p)) /\
  ((exists t, In (RGain t) (mk_rows mk)) <-> pi_coherent p = true /\ (1 < pi_M p)%nat) /\
  (forall t, In (RGain t) (mk_rows mk) -> says (t, Unit) (10 * (ln (INR (pi_M p)) / ln 10))) /\
  ((exists l, In (RCollided l) (mk_rows mk)) <-> pi_collided p <> []) /\
  (forall l, In (RCollided l) (mk_rows mk) -> StronglySorted le l /\ List.length l = List.length (pi_collided p) /\ forall h, In h l <-> In h (pi_collided p)).
Proof. exact c140_notes. Qed.
Print Assumptions C140_notes.

Example C140_notes_ex :
  sortN [5; 3; 4]%nat = [3; 4; 5]%nat.
Proof. exact c140_notes_ex. Qed.

(** At most eleven rows, all between 34 and 94 percent of the height, so nothing of the block leaves the axes. *)
Theorem C140_block_height :
  forall xa p st up fig mk,
  plot_spectrum xa p st true up = Ok fig -> fg_marks fig = Some mk ->
  (8 <= List.length (mk_rows mk) <= 11)%nat /\ forall i, (i < List.length (mk_rows mk))%nat -> 0.34 <= row_y i <= 0.94 /\ (forall j, (i < j)%nat -> row_y j + 0.06 <= row_y i).
Proof. exact c140_block_height. Qed.
Print Assumptions C140_block_height.

Example C140_block_height_ex :
  row_y 0 = 0.94 /\ row_y 10 = 0.34.
Proof. exact c140_block_height_ex. Qed.

(** The block keeps clear of the fundamental: it starts at 60 percent of the width when the fundamental is in the left 40 percent, and
    otherwise at the left edge, with the fundamental at least about 40 percent across. *)
Theorem C140_block_side :
  forall xa p st up fig mk,
  plot_spectrum xa p st true up = Ok fig -> fg_marks fig = Some mk -> (3 <= pi_N p)%nat -> 0 < pi_fs p -> pi_osr p <= 1 ->
  let t := along (fst (fg_xlim fig)) (snd (fg_xlim fig)) (INR (pi_fund p) / INR (pi_N p) * pi_fs p) in
  (mk_block_x mk = 0.60 /\ t < 0.4) \/ (mk_block_x mk = 0.02 /\ 0.4 - 1.2 / (INR (pi_N p) - 2) <= t).
Proof. exact c140_block_side. Qed.
Print Assumptions C140_block_side.

(** The text at the fundamental starts a hundredth of the sampling rate away from it, inside the axis and reading towards the middle. *)
Theorem C140_signal_text :
  forall xa p st up fig mk,
  plot_spectrum xa p st true up = Ok fig -> fg_marks fig = Some mk -> (3 <= pi_N p)%nat -> (1 <= pi_fund p <= pi_N p / 2)%nat -> 0 < pi_fs p -> pi_osr p <= 1 ->
  let f := INR (pi_fund p) / INR (pi_N p) * pi_fs p in
  fst (fg_xlim fig) <= mk_sig_x mk <= snd (fg_xlim fig) /\
  (f <= 0.4 * pi_fs p -> mk_sig_x mk = f + pi_fs p / 100 /\ mk_sig_ha mk = HLeft) /\ (0.4 * pi_fs p < f -> mk_sig_x mk = f - pi_fs p / 100 /\ mk_sig_ha mk = HRight).
Proof. exact c140_signal_text. Qed.
Print Assumptions C140_signal_text.

Example C140_signal_text_ex :
  forall xa,
  exists fig mk, plot_spectrum xa demo true true 3 = Ok fig /\ fg_marks fig = Some mk /\ mk_block_x mk = 0.60 /\ mk_sig_ha mk = HLeft /\ fg_title fig = TPower.
Proof. exact c140_signal_text_ex. Qed.

Theorem C140_signal_span :
  forall kz cz xa data fs sc wt side osr mh nf assumed st up r fig mk rows,
  analyze_spectrum kz cz xa data fs sc wt side osr mh nf assumed true st true up = Ok (r, Some fig) ->
  prepare_fft_input data sc = Ok rows -> fg_marks fig = Some mk ->
  forall x y, In (x, y) (mk_span mk) <-> exists k, (k < sp_inband r)%nat /\ (sp_fund r <= k + sp_side r)%nat /\ (k <= sp_fund r + sp_side r)%nat /\
    x = INR k * (fs / INR (ncols rows)) /\ y = 10 * (ln (nth k (sp_power r) 0 + / 10 ^ 20) / ln 10).
Proof. exact c140_signal_span. Qed.
Print Assumptions C140_signal_span.

Example C140_signal_span_ex :
  forall kz cz xa,
  exists r fig mk,
  analyze_spectrum kz cz xa [map (multitone 64 3 7 (fun i => nth i [2; 0.02; 0.002] 0) (fun i => INR i) (fun i => nth i [5; 10; 15] 0)%nat) (seq 0 64)] 1 (ScalePeak 2) Hann (Some 1%nat) 1 5 3 None true true true 3 = Ok (r, Some fig) /\
  fg_marks fig = Some mk /\ exists y, In (INR 6 * (1 / INR 64), y) (mk_span mk).
Proof. exact c140_signal_span_ex. Qed.

(** The title names the averaging done and the number of records. *)
Theorem C140_title :
  forall xa p st sl up fig,
  plot_spectrum xa p st sl up = Ok fig ->
  fg_title fig = (if st then match pi_coherent p, (2 <=? pi_M p)%nat with true, true => TCoherentAvg (pi_M p) | true, false => TCoherent | false, true => TPowerAvg (pi_M p) | false, false => TPower end else TNone).
Proof. exact c140_title. Qed.
Print Assumptions C140_title.

Example C140_title_ex :
  forall xa,
  exists fig, plot_spectrum xa demo true false 3 = Ok fig /\ fg_title fig = TPower /\ fg_marks fig = None.
Proof. exact c140_title_ex. Qed.

Example C140_block_side_ex :
  block_x demo = 0.60 /\ along 1000 10000 3000 < 0.4.
Proof. exact c140_block_side_ex. Qed.
