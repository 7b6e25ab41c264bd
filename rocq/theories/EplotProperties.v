(** * Property theorems of Eplot: statements only, proofs in EplotProofs.v.
    Generated by tools/mkprops.py from the final lemmas. *)
From Coq Require Import Sorted Permutation.
From Verif Require Import Base BaseLemmas Cplx SpecModel SpecLemmas SineHistModel SineHistProofs DoutModel DoutSpec DoutProofs SiggenModel SiggenSpec SiggenProofs CalModel CalSpec CalProofs CalExLemmas CohLemmas FitModel FitSpec FitProofs HarmProofs NonlinModel NonlinSpec NonlinProofs AcfModel AcfSpec AcfProofs RearProofs AoutMoreProofs EpdfModel EpdfSpec EpdfProofs EnvModel EnvSpec EnvProofs PlaneModel PlaneSpec PlaneProofs EplaneModel EplaneSpec EplaneProofs PlotModel PlotProofs DrawModel DrawSpec PanelModel PanelSpec PanelProofs DplotProofs EplotModel EplotSpec.
Local Open Scope R_scope.
From Verif Require Import EplotProofs.

(** Drawing never fails where the analysis succeeds, and it does not change the result. *)
Theorem C154_same :
  forall data lag det thr cp,
  (forall k out, phase_plane data lag det thr = Ok (k, out) -> exists g, analyze_phase_plane data lag det thr cp = Ok (k, out, g) /\ (g = None <-> cp = false)) /\
  (forall e, phase_plane data lag det thr = Err e -> analyze_phase_plane data lag det thr cp = Err e).
Proof. exact c154_same. Qed.
Print Assumptions C154_same.

(** What is drawn.  With the lag n, sample i stands at (x[i-n], x[i]).  The trajectory consists of the samples that are not listed
    as outliers, in order; the listed ones are drawn as crosses (none is drawn if there are none), and the first three of them carry their
    sample number; title and text box show the lag and the number of outliers; above 20000 points the trajectory
    is drawn as a density. *)
Theorem C154_drawn :
  forall data lag det thr k out g,
  analyze_phase_plane data lag det thr true = Ok (k, out, Some g) ->
  exists n, k = Z.of_nat n /\ (0 < n < length data)%nat /\ let point i := (nth (i - n) data 0, nth i data 0) in
  (exists normal, StronglySorted lt normal /\ (forall i, In i normal <-> (n <= i < length data)%nat /\ ~ In (Z.of_nat i) out) /\ pl_points g = map point normal) /\
  pl_outliers g = match out with [] => None | _ => Some (map (fun z => point (Z.to_nat z)) out) end /\
  pl_notes g = map (fun z => (z, point (Z.to_nat z))) (firstn 3 out) /\
  pl_lag g = k /\ pl_count g = length out /\ (pl_density g = true <-> (20000 < Z.of_nat (length data - n))%Z).
Proof. exact c154_drawn. Qed.
Print Assumptions C154_drawn.

(** Every sample from the lag on is drawn exactly once, as trajectory or as cross. *)
Theorem C154_total :
  forall data lag det thr k out g,
  analyze_phase_plane data lag det thr true = Ok (k, out, Some g) ->
  Permutation (pl_points g ++ match pl_outliers g with Some l => l | None => [] end) (map (fun i => (nth (i - Z.to_nat k) data 0, nth i data 0)) (seq (Z.to_nat k) (length data - Z.to_nat k))).
Proof. exact c154_total. Qed.
Print Assumptions C154_total.

Example C154_drawn_ex :
  exists g, analyze_phase_plane [0; 0; 0; 0; 9] (Some 1%Z) true 4 true = Ok (1%Z, [4%Z], Some g) /\
  pl_points g = [(0, 0); (0, 0); (0, 0)] /\ pl_outliers g = Some [(0, 9)] /\ pl_notes g = [(4%Z, (0, 9))] /\ pl_density g = false.
Proof. exact c154_drawn_ex. Qed.

(** Every sample is drawn once, at (sample, residual in the display unit).  The lines run over all samples in ascending order.  With
    enough rising and falling samples there are two, the best polynomials for the rising and for the falling samples of the central range, and the reported
    gap is their mean distance; otherwise there is one, the reported trend, and the gap is zero. *)
Theorem C155_drawn :
  forall lstsq data order detect mode r g,
  least_squares lstsq -> analyze_error_phase_plane lstsq data order detect mode true = Ok (r, Some g) ->
  let n := length data in let d := fun t => nth t data 0 in let e := fun t => nth t (ep_residual r) 0 in let deg := Z.to_nat order in
  exists s xs, s = (match er_unit g with Lsb => 1 | _ => 1000000 end) /\ er_points g = map (fun t => (d t, s * e t)) (seq 0 n) /\
  Permutation xs data /\ ascending xs /\ let curve c := map (fun x => (x, s * poly deg c x)) xs in
  forall lo hi, is_percentile n d 2 lo -> is_percentile n d 98 hi ->
  let up := fun t => (rises d n t && inside d lo hi t)%bool in let down := fun t => (falls d n t && inside d lo hi t)%bool in
  let some_nonzero := fun m => exists t, (t < n)%nat /\ m t = true /\ d t <> 0 in
  (~ both_edges data lo hi detect -> er_trends g = [curve (fun i => ep_trend r (deg - i)%nat)] /\ ep_gap r = 0) /\
  (both_edges data lo hi detect -> exists p q, er_trends g = [curve p; curve q] /\ ep_gap r = average n (fun t => Rabs (poly deg p (d t) - poly deg q (d t))) /\
     (some_nonzero up -> best_polynomial n up d e deg p) /\ (some_nonzero down -> best_polynomial n down d e deg q)).
Proof. exact c155_drawn. Qed.
Print Assumptions C155_drawn.

(** Drawing never fails where the analysis succeeds, does not change the result, and the numbers shown: the standard deviation and the largest magnitude of the
    drawn residuals, and the gap in the same unit if (and only if) it is positive, each to one decimal. *)
Theorem C155_texts :
  forall lstsq data order detect mode r,
  error_phase_plane lstsq data order detect mode = Ok r -> exists g, analyze_error_phase_plane lstsq data order detect mode true = Ok (r, Some g) /\
  analyze_error_phase_plane lstsq data order detect mode false = Ok (r, None) /\
  (exists sd pk, names 1 (er_rms g) 1 sd /\ 0 <= sd /\ sd ^ 2 = average (length data) (fun t => (snd (nth t (er_points g) (0, 0)) - average (length data) (fun u => snd (nth u (er_points g) (0, 0)))) ^ 2) /\
     names 1 (er_peak g) 1 pk /\ (forall p, In p (er_points g) -> Rabs (snd p) <= pk) /\ (exists p, In p (er_points g) /\ Rabs (snd p) = pk)) /\
  (er_gap g = None <-> ep_gap r = 0) /\ (forall t, er_gap g = Some t -> names 1 t 1 (ep_gap r * match er_unit g with Lsb => 1 | _ => 1000000 end)).
Proof. exact c155_texts. Qed.
Print Assumptions C155_texts.

(** The unit: as asked for, and with 'auto' microvolts when every sample is below 50 in magnitude, LSB otherwise; microvolts and
    millionths of full scale give the same figure apart from the unit, and in LSB the residuals are drawn as they are. *)
Theorem C155_units :
  forall lstsq data order detect mode r g,
  analyze_error_phase_plane lstsq data order detect mode true = Ok (r, Some g) ->
  (mode = UnitVoltage -> er_unit g = MicroVolt) /\ (mode = UnitNormalized -> er_unit g = MicroFS) /\ (mode = UnitCode -> er_unit g = Lsb) /\
  (mode = UnitAuto -> (forall x, In x data -> Rabs x < 50) -> er_unit g = MicroVolt) /\ (mode = UnitAuto -> (exists x, In x data /\ 50 <= Rabs x) -> er_unit g = Lsb) /\
  (mode = UnitVoltage -> exists g', analyze_error_phase_plane lstsq data order detect UnitNormalized true = Ok (r, Some g') /\ er_unit g' = MicroFS /\
     er_points g' = er_points g /\ er_trends g' = er_trends g /\ er_rms g' = er_rms g /\ er_peak g' = er_peak g /\ er_gap g' = er_gap g).
Proof. exact c155_units. Qed.
Print Assumptions C155_units.

Theorem C155_auto_refuted :
  exists codes : list R, (forall x, In x codes -> exists z, x = IZR z) /\ forall lstsq order detect, (0 <= order)%Z ->
  exists r g, analyze_error_phase_plane lstsq codes order detect UnitAuto true = Ok (r, Some g) /\ er_unit g = MicroVolt /\
  er_points g = map (fun t => (nth t codes 0, 1000000 * nth t (ep_residual r) 0)) (seq 0 (length codes)).
Proof. exact c155_auto_refuted. Qed.
Print Assumptions C155_auto_refuted.

Example C155_drawn_ex :
  exists r g p q, analyze_error_phase_plane gs_lstsq (eighth 34) 2 true UnitAuto true = Ok (r, Some g) /\ er_unit g = MicroVolt /\
  length (er_points g) = 272%nat /\ length p = 272%nat /\ length q = 272%nat /\ er_trends g = [p; q] /\ er_peak g = Num 1 0 /\ er_gap g = None.
Proof. exact c155_drawn_ex. Qed.

Example C155_texts_ex :
  exists r g, analyze_error_phase_plane gs_lstsq (eighth 34) 2 true UnitAuto true = Ok (r, Some g) /\ er_rms g = Num 1 0.
Proof. exact c155_texts_ex. Qed.

(** Both densities are drawn over the same 200 equally spaced points from -X to X, which cover every error, with the returned
    values; if the errors do not vary nothing can be drawn; the mean and the deviation are shown to three, the divergence to four decimals. *)
Theorem C156_density :
  forall lstsq signal res fs freq mi tol r g,
  analyze_error_pdf lstsq signal res fs freq true mi tol = Ok (Numbers r, Some g) ->
  error_pdf lstsq signal res fs freq mi tol = Ok (Numbers r) /\ analyze_error_pdf lstsq signal res fs freq false mi tol = Ok (Numbers r, None) /\
  names 3 (pd_mu g) 1 (p_mu r) /\
  (exists X, 0.5 <= X /\ (forall e, In e (p_err r) -> Rabs e <= X) /\
    forall s, p_sigma r = Fin s -> 0 < s -> exists f q kl, p_pdf r = Some f /\ p_gauss r = Some q /\ p_kl r = Some kl /\
      pd_kde g = Some (map (fun i => (X * (2 * INR i / 199 - 1), nth i f 0)) (seq 0 200)) /\ pd_gauss g = Some (map (fun i => (X * (2 * INR i / 199 - 1), nth i q 0)) (seq 0 200)) /\
      names 3 (pd_sigma g) 1 s /\ names 4 (pd_kl g) 1 kl) /\
  (p_sigma r = Fin 0 -> pd_kde g = None /\ pd_gauss g = None /\ pd_sigma g = Num 3 0 /\ pd_kl g = Word NaN) /\
  (p_sigma r = NaN -> pd_kde g = None /\ pd_gauss g = None /\ pd_sigma g = Word NaN /\ pd_kl g = Word NaN).
Proof. exact c156_density. Qed.
Print Assumptions C156_density.

(** A stem for every lag from -max_lag to max_lag, in order, at the returned value, and the axis ends at the outermost ones; with
    a lag range inside the record the stems are symmetric, and normalised ones of a varying error have height 1 at lag 0. *)
Theorem C156_stems :
  forall lstsq signal f L normalize mi tol acf lags error g,
  analyze_acf lstsq signal f (Z.of_nat L) normalize true mi tol = Ok (acf, lags, error, Some g) ->
  analyze_acf lstsq signal f (Z.of_nat L) normalize false mi tol = Ok (acf, lags, error, None) /\ length acf = (2 * L + 1)%nat /\
  af_stems g = map (fun i => ((Z.of_nat i - Z.of_nat L)%Z, nth i acf NaN)) (seq 0 (2 * L + 1)) /\ af_xlim g = (- Z.of_nat L, Z.of_nat L)%Z /\
  ((L < length signal)%nat -> not_constant error \/ normalize = false -> forall k v, In (k, v) (af_stems g) -> In ((- k)%Z, v) (af_stems g) /\ (k = 0%Z -> normalize = true -> v = Fin 1)).
Proof. exact c156_stems. Qed.
Print Assumptions C156_stems.

(** The spectrum of the error and of its envelope: the returned metrics are those of the analysis, the figure is the one the
    spectrum analysis draws for the error (its envelope), and for records of even length drawing fails only if the
    analysis does. *)
Theorem C156_spectra :
  forall kz cz xa lstsq signal fs f mi tol,
  (forall sp g e, analyze_error_spectrum kz cz xa lstsq signal fs f mi tol = Ok (sp, g, e) -> error_spectrum kz cz lstsq signal fs f mi tol = Ok (sp, e) /\ analyze_spectrum kz cz xa [e] fs ScaleAuto Hann None 1 5 0 None true true false 3 = Ok (sp, g)) /\
  (forall sp g e v, analyze_error_envelope_spectrum kz cz xa lstsq signal fs f mi tol = Ok (sp, g, e, v) -> error_envelope_spectrum kz cz lstsq signal fs f mi tol = Ok (sp, e, v) /\ analyze_spectrum kz cz xa [v] fs ScaleAuto Hann None 1 5 0 None true true false 3 = Ok (sp, g)) /\
  (Nat.Even (length signal) -> (forall sp e, error_spectrum kz cz lstsq signal fs f mi tol = Ok (sp, e) -> exists g, analyze_error_spectrum kz cz xa lstsq signal fs f mi tol = Ok (sp, Some g, e)) /\
    (forall sp e v, error_envelope_spectrum kz cz lstsq signal fs f mi tol = Ok (sp, e, v) -> exists g, analyze_error_envelope_spectrum kz cz xa lstsq signal fs f mi tol = Ok (sp, Some g, e, v))).
Proof. exact c156_spectra. Qed.
Print Assumptions C156_spectra.

Example C156_density_ex :
  exists r g, analyze_error_pdf gs_lstsq [1; -1] 12 None (Some 0) true 0 (1 / 10 ^ 9) = Ok (Numbers r, Some g) /\ pd_mu g = Num 3 0 /\
  (exists l, pd_kde g = Some l /\ length l = 200%nat /\ fst (nth 199 l (0, 0)) = fst (nth 0 l (0, 0)) + 2 * 2048) /\ exists z, pd_sigma g = Num 3 z /\ (2896000 < z < 2897000)%Z.
Proof. exact c156_density_ex. Qed.

Example C156_stems_ex :
  exists g acf, analyze_acf gs_lstsq acf_record (Some (1 / 4)) 2 true true 0 (1 / 10 ^ 9) = Ok (acf, [-2; -1; 0; 1; 2]%Z, acf_record, Some g) /\
  af_stems g = [(-2, Fin 0); (-1, Fin (2 / 7)); (0, Fin 1); (1, Fin (2 / 7)); (2, Fin 0)]%Z /\ af_xlim g = (-2, 2)%Z.
Proof. exact c156_stems_ex. Qed.

Example C156_spectra_ex :
  forall kz cz xa lstsq,
  least_squares lstsq -> exists sp e g, analyze_error_spectrum kz cz xa lstsq [1; 1; 1; 0] 1 (Some (1 / 4)) 0 0 = Ok (sp, Some g, e) /\ length e = 4%nat.
Proof. exact c156_spectra_ex. Qed.

(** Plotting never changes the result, and it fails only if the computation fails or there is no pair. *)
Theorem C157_same :
  forall signal bits m w pairs alpha,
  let auto := match alpha with None => true | _ => false end in
  (forall e, plot_residual_scatter signal bits m w pairs auto = Err e -> forall cp, residual_scatter signal bits m w pairs alpha cp = Err e) /\
  (forall ps rx ry, plot_residual_scatter signal bits m w pairs auto = Ok (ps, rx, ry) -> residual_scatter signal bits m w pairs alpha false = Ok (ps, rx, ry, None) /\
    (ps <> [] -> exists g, residual_scatter signal bits m w pairs alpha true = Ok (ps, rx, ry, Some g)) /\ (ps = [] -> residual_scatter signal bits m w pairs alpha true = Err ZeroDivisionError)).
Proof. exact c157_same. Qed.
Print Assumptions C157_same.

(** Without a pair (an empty list, or the default for a record of no bits) the call succeeds without plot and raises with it. *)
Theorem C157_no_pairs_refuted :
  exists signal bits m w pairs alpha, (exists ps rx ry, residual_scatter signal bits m w pairs alpha false = Ok (ps, rx, ry, None)) /\
  residual_scatter signal bits m w pairs alpha true = Err ZeroDivisionError.
Proof. exact c157_no_pairs_refuted. Qed.
Print Assumptions C157_no_pairs_refuted.

(** The panels fill a grid of at most four columns row by row, in the order of the pairs: panel k stands in the cell with number k.
    Every cell is either a panel or hidden, none is used twice, and less than one row is hidden. *)
Theorem C157_grid :
  forall signal bits m w pairs alpha ps rx ry g,
  residual_scatter signal bits m w pairs alpha true = Ok (ps, rx, ry, Some g) ->
  (0 < length ps)%nat /\ length (sc_panels g) = length ps /\ (sc_cols g <= 4)%nat /\ (sc_cols g = 4 \/ sc_rows g = 1)%nat /\
  (forall k d, (k < length ps)%nat -> exists r c, sp_cell (nth k (sc_panels g) d) = (r, c) /\ (c < sc_cols g)%nat /\ (r < sc_rows g)%nat /\ k = (r * sc_cols g + c)%nat) /\
  NoDup (map sp_cell (sc_panels g) ++ sc_hidden g) /\ (forall r c, (r < sc_rows g)%nat /\ (c < sc_cols g)%nat <-> In (r, c) (map sp_cell (sc_panels g) ++ sc_hidden g)) /\
  (length (sc_hidden g) < sc_cols g)%nat.
Proof. exact c157_grid. Qed.
Print Assumptions C157_grid.

(** Panel k draws one point per sample: the signal without the bits before the first index of the pair against the signal without
    those before the second; an axis is called signal exactly when its index is 0, and otherwise names the index. *)
Theorem C157_points :
  forall signal bits m w pairs alpha ps rx ry g k x y d,
  residual_scatter signal bits m (Some w) pairs alpha true = Ok (ps, rx, ry, Some g) -> length w = m -> matrix_of m bits ->
  nth_error ps k = Some (Z.of_nat x, Z.of_nat y) -> (x <= m)%nat -> (y <= m)%nat ->
  sp_points (nth k (sc_panels g) d) = map (fun i => (nth i signal 0 - bits_between (nth i bits []) w 0 x, nth i signal 0 - bits_between (nth i bits []) w 0 y)) (seq 0 (length signal)) /\
  (sp_xlabel (nth k (sc_panels g) d) = LSignal <-> x = 0%nat) /\ (sp_ylabel (nth k (sc_panels g) d) = LSignal <-> y = 0%nat) /\
  (x <> 0%nat -> sp_xlabel (nth k (sc_panels g) d) = LResidual (Z.of_nat x)) /\ (y <> 0%nat -> sp_ylabel (nth k (sc_panels g) d) = LResidual (Z.of_nat y)).
Proof. exact c157_points. Qed.
Print Assumptions C157_points.

(** The points are as transparent as asked for; by default fully opaque up to 1000 samples and then fainter in proportion to their
    number, but never below 0.1. *)
Theorem C157_alpha :
  forall signal bits m w pairs alpha ps rx ry g,
  residual_scatter signal bits m w pairs alpha true = Ok (ps, rx, ry, Some g) ->
  match alpha with
  | Some a => sc_alpha g = a
  | None => (0 < length signal)%nat /\ (INR (length signal) <= 1000 -> sc_alpha g = 1) /\ (1000 <= INR (length signal) <= 10000 -> sc_alpha g * INR (length signal) = 1000) /\ (10000 <= INR (length signal) -> sc_alpha g = 1 / 10)
  end.
Proof. exact c157_alpha. Qed.
Print Assumptions C157_alpha.

(** Five bits: five panels in two rows of four, three cells hidden; the last panel shows the signal without the four leading bits against the
    remainder after all. *)
Example C157_grid_ex :
  exists rx ry g, residual_scatter [21.5] [[1; 0; 1; 0; 1]] 5 None None None true = Ok ([(0, 5); (1, 5); (2, 5); (3, 5); (4, 5)]%Z, rx, ry, Some g) /\
  sc_rows g = 2%nat /\ sc_cols g = 4%nat /\ map sp_cell (sc_panels g) = [(0, 0); (0, 1); (0, 2); (0, 3); (1, 0)]%nat /\ sc_hidden g = [(1, 1); (1, 2); (1, 3)]%nat /\
  map sp_xlabel (sc_panels g) = [LSignal; LResidual 1; LResidual 2; LResidual 3; LResidual 4] /\ map sp_ylabel (sc_panels g) = repeat (LResidual 5) 5.
Proof. exact c157_grid_ex. Qed.

Example C157_points_ex :
  exists rx ry g, residual_scatter [21.5; 3] [[1; 1]; [0; 1]] 2 (Some [16; 5]) (Some [(0, 1); (1, 2)]%Z) None true = Ok ([(0, 1); (1, 2)]%Z, rx, ry, Some g) /\
  map sp_points (sc_panels g) = [[(21.5, 5.5); (3, 3)]; [(5.5, 0.5); (3, -2)]] /\ map sp_ylabel (sc_panels g) = [LResidual 1; LResidual 2].
Proof. exact c157_points_ex. Qed.

Example C157_alpha_ex :
  exists ps rx ry g, residual_scatter [1; 2] [[0; 1]; [1; 0]] 2 None None None true = Ok (ps, rx, ry, Some g) /\ sc_alpha g = 1.
Proof. exact c157_alpha_ex. Qed.
