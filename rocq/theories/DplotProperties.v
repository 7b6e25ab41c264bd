(** * Property theorems of Dplot: statements only, proofs in DplotProofs.v.
    Generated by tools/mkprops.py from the final lemmas. *)
From Verif Require Import Base BaseLemmas FreqProofs UnitsModel SpecModel SpecLemmas SpecProofs SineHistModel SineHistProofs SiggenModel SiggenProofs PlotModel PlotSpec PlotProofs DoutModel DoutSpec DoutProofs TiToneProofs CalModel SweepModel SweepProofs.
From Verif Require Import CalSpec CalProofs CalExLemmas CalExProofs SweepSpec OsrSpec DrawModel DrawSpec DrawProofs PanelModel PanelSpec PanelProofs DplotModel DplotSpec DplotLemmas.
From Coq Require Import Psatz ZifyBool Permutation Sorted.
Local Open Scope R_scope.
From Verif Require Import DplotProofs.

(** Bar j stands at j + 1 and is as high as the activity of bit j.  All bars, 0.8 wide, are inside the axis and do not touch
    each other; the line of the ideal value is inside it too. *)
Theorem C150_bars :
  forall bits B u g,
  analyze_bit_activity bits B true = Ok (u, Some g) -> u = bit_activity bits B /\ length u = B /\
  ac_bars g = bit_points (seq 0 B) (fun j => nth j u 0) /\
  (forall j, (j < B)%nat -> bar_within (ac_xlim g) (ac_width g) (place j)) /\ (forall i j, (i < j)%nat -> place i + ac_width g / 2 < place j - ac_width g / 2) /\
  ac_width g = 8 / 10 /\ ac_ideal g = 50 /\ within (ac_ylim g) 50.
Proof. exact c150_bars. Qed.
Print Assumptions C150_bars.

(** The coloured bar is the first one of those that differ most from 50; the text above it gives its difference from 50 to
    half a hundredth, and stands 0.8 above its top. *)
Theorem C150_marked :
  forall bits B u g,
  analyze_bit_activity bits B true = Ok (u, Some g) ->
  first_peak B (fun j => Rabs (nth j u 0 - 50)) (ac_marked g) /\ ac_text_at g = (place (ac_marked g), nth (ac_marked g) u 0 + 0.8) /\ names 2 (ac_text g) 1 (nth (ac_marked g) u 0 - 50).
Proof. exact c150_marked. Qed.
Print Assumptions C150_marked.

(** The vertical axis always goes from 40 to 60: the tops of all bars are inside it exactly when the coloured bar differs from
    50 by no more than 10, and the text starts inside it exactly when the bar is between 39.2 and 59.2 percent. *)
Theorem C150_visible :
  forall bits B u g,
  analyze_bit_activity bits B true = Ok (u, Some g) ->
  ((forall p, In p (ac_bars g) -> within (ac_ylim g) (snd p)) <-> Rabs (nth (ac_marked g) u 0 - 50) <= 10) /\
  (within (ac_ylim g) (snd (ac_text_at g)) <-> 39.2 <= nth (ac_marked g) u 0 <= 59.2).
Proof. exact c150_visible. Qed.
Print Assumptions C150_visible.

(** A matrix without columns is refused by the plot only. *)
Theorem C150_errors :
  forall bits B,
  analyze_bit_activity bits B false = Ok (bit_activity bits B, None) /\
  ((0 < B)%nat -> exists g, analyze_bit_activity bits B true = Ok (bit_activity bits B, Some g)) /\ (B = 0%nat -> analyze_bit_activity bits B true = Err ValueError).
Proof. exact c150_errors. Qed.
Print Assumptions C150_errors.

(** The plot does not always show the bars it draws: for the codes 11, 01, 00, 01 (activities 25 and 75) the first bar ends
    below the axis, the second above it, and the text is outside. *)
Theorem C150_visible_refuted :
  exists bits B u g, binary_of B bits /\ analyze_bit_activity bits B true = Ok (u, Some g) /\ u = [25; 75] /\
  (forall p, In p (ac_bars g) -> ~ within (ac_ylim g) (snd p)) /\ ~ within (ac_ylim g) (snd (ac_text_at g)).
Proof. exact c150_visible_refuted. Qed.
Print Assumptions C150_visible_refuted.

(** Three bits with activities 50, 45 and 55: the second is coloured and its text reads -5.00. *)
Example C150_marked_ex :
  exists g, plot_activity [50; 45; 55] = Ok g /\ ac_marked g = 1%nat /\ ac_text g = Num 2 (-500) /\ ac_text_at g = (2, 45.8) /\ ac_bars g = [(1, 50); (2, 45); (3, 55)] /\ ac_xlim g = (0.5, 3.5).
Proof. exact c150_marked_ex. Qed.

(** For every bit, each sample is drawn exactly once at its residue: in blue above the place of the bit when its residue at the
    checked bit is strictly between 0 and 1, in red 0.2 to the left when that is at least 1, in yellow 0.2 to the right when it
    is at most 0. *)
Theorem C151_points :
  forall codes m w ofb st g ii,
  analyze_overflow_plot codes m w ofb true = Ok (st, Some g) -> matrix_of m codes -> (ii < m)%nat ->
  let n := length codes in let c t := residue codes w m (checked m ofb) t in let r t := residue codes w m ii t in
  nth ii (of_normal g) [] = map (fun t => (place ii, r t)) (samples n (fun t => Rltb 0 (c t) && Rltb (c t) 1)) /\
  nth ii (of_over g) [] = map (fun t => (place ii - 0.2, r t)) (samples n (fun t => Rleb 1 (c t))) /\
  nth ii (of_under g) [] = map (fun t => (place ii + 0.2, r t)) (samples n (fun t => Rleb (c t) 0)) /\
  (length (nth ii (of_normal g) []) + length (nth ii (of_over g) []) + length (nth ii (of_under g) []) = n)%nat /\
  length (of_normal g) = m /\ length (of_over g) = m /\ length (of_under g) = m.
Proof. exact c151_points. Qed.
Print Assumptions C151_points.

(** The two red curves enclose the points of every bit whose remaining weight is positive, and each touches one of them. *)
Theorem C151_envelope :
  forall codes m w ofb st g ii,
  analyze_overflow_plot codes m w ofb true = Ok (st, Some g) -> matrix_of m codes -> (ii < m)%nat -> 0 < rest_weight w ii m ->
  exists lo hi, nth ii (of_min g) (0, 0) = (place ii, lo) /\ nth ii (of_max g) (0, 0) = (place ii, hi) /\ length (of_min g) = m /\ length (of_max g) = m /\
    (forall t, (t < length codes)%nat -> lo <= residue codes w m ii t <= hi) /\
    (exists t, (t < length codes)%nat /\ residue codes w m ii t = lo) /\ (exists t, (t < length codes)%nat /\ residue codes w m ii t = hi).
Proof. exact c151_envelope. Qed.
Print Assumptions C151_envelope.

(** The texts below and above the bit give the percentages of samples with a residue of at most 0 and of at least 1, to half a
    tenth; the tick below it is labelled m - ii. *)
Theorem C151_texts :
  forall codes m w ofb st g ii,
  analyze_overflow_plot codes m w ofb true = Ok (st, Some g) -> matrix_of m codes -> (ii < m)%nat -> 0 < rest_weight w ii m ->
  exists low high, nth ii (of_low_texts g) (0, 0, NA) = (place ii, -0.05, low) /\ nth ii (of_high_texts g) (0, 0, NA) = (place ii, 1.05, high) /\
    names 1 low 1 (percent_of (fun row => Rleb (rest_value row w ii m) 0) codes) /\ names 1 high 1 (percent_of (fun row => Rleb (rest_weight w ii m) (rest_value row w ii m)) codes) /\
    nth ii (of_ticks g) (0, 0%Z) = (place ii, (Z.of_nat m - Z.of_nat ii)%Z) /\ length (of_low_texts g) = m /\ length (of_high_texts g) = m /\ length (of_ticks g) = m.
Proof. exact c151_texts. Qed.
Print Assumptions C151_texts.

(** Binary codes and positive weights: every point, both curves, both reference lines and the texts are inside the axes; the
    points of different bits do not overlap sideways. *)
Theorem C151_inside :
  forall codes m w ofb st g ii,
  analyze_overflow_plot codes m w ofb true = Ok (st, Some g) -> binary_of m codes -> (forall j, (j < m)%nat -> 0 < nth j w 0) -> (ii < m)%nat ->
  (forall p, In p (nth ii (of_normal g) [] ++ nth ii (of_over g) [] ++ nth ii (of_under g) []) -> within (of_xlim g) (fst p) /\ 0 <= snd p <= 1 /\ within (of_ylim g) (snd p) /\ place ii - 0.5 < fst p < place ii + 0.5) /\
  (forall p, In p [nth ii (of_min g) (0, 0); nth ii (of_max g) (0, 0); fst (nth ii (of_low_texts g) (0, 0, NA)); fst (nth ii (of_high_texts g) (0, 0, NA))] -> within (of_xlim g) (fst p) /\ within (of_ylim g) (snd p)) /\
  of_refs g = [1; 0] /\ within (of_ylim g) 0 /\ within (of_ylim g) 1.
Proof. exact c151_inside. Qed.
Print Assumptions C151_inside.

(** The plot adds no error of its own; the default is to check the most significant bit, whose tick is labelled m. *)
Theorem C151_default :
  forall codes m w st,
  analyze_overflow codes m w None = Ok st ->
  analyze_overflow_plot codes m w None false = Ok (st, None) /\ (exists g, analyze_overflow_plot codes m w None true = Ok (st, Some g) /\ nth (checked m None) (of_ticks g) (0, 0%Z) = (1, Z.of_nat m)) /\
  analyze_overflow_plot codes m w (Some (Z.of_nat m)) true = analyze_overflow_plot codes m w None true.
Proof. exact c151_default. Qed.
Print Assumptions C151_default.

(** The opacity of the points is 10/n, but at least 1/100 and at most 1. *)
Theorem C151_opacity :
  forall codes m w ofb st g,
  analyze_overflow_plot codes m w ofb true = Ok (st, Some g) ->
  let n := INR (length codes) in (n <= 10 -> of_alpha g = 1) /\ (10 <= n <= 1000 -> of_alpha g = 10 / n) /\ (1000 <= n -> of_alpha g = 0.01).
Proof. exact c151_opacity. Qed.
Print Assumptions C151_opacity.

(** With a negative weight, as a calibration may return, samples are drawn outside the axes: weights 2 and -1, code 10. *)
Theorem C151_inside_refuted :
  exists codes m w st g p, binary_of m codes /\ (forall ii, (ii < m)%nat -> nth ii w 0 <> 0 /\ rest_weight w ii m <> 0) /\
  analyze_overflow_plot codes m w None true = Ok (st, Some g) /\ In p (nth 0 (of_over g) []) /\ ~ within (of_ylim g) (snd p).
Proof. exact c151_inside_refuted. Qed.
Print Assumptions C151_inside_refuted.

(** Codes 11, 00, 01 with weights 2 and 1: one sample in each class at both bits, residues 1, 0, 1/3 and 1, 0, 1. *)
Example C151_points_ex :
  exists st g, analyze_overflow_plot [[1;1];[0;0];[0;1]] 2 [2;1] None true = Ok (st, Some g) /\
  of_over g = [[(0.8, 1)]; [(1.8, 1)]] /\ of_under g = [[(1.2, 0)]; [(2.2, 0)]] /\ of_normal g = [[(1, 1 / 3)]; [(2, 1)]] /\ of_ticks g = [(1, 2%Z); (2, 1%Z)] /\
  map snd (of_low_texts g) = [Num 1 333; Num 1 333] /\ map snd (of_high_texts g) = [Num 1 333; Num 1 667] /\ of_alpha g = 1.
Proof. exact c151_points_ex. Qed.

(** The line goes through the magnitudes of all weights; each has one marker, in red exactly when the weight is negative, and
    the legend appears exactly when there is a red one.  All are inside the horizontal limits. *)
Theorem C152_points :
  forall argsort w r sca er g,
  analyze_radix_plot argsort w true = Ok (r, sca, er, Some g) ->
  let n := length w in let h i := Rabs (nth i w 0) in
  rf_line g = bit_points (seq 0 n) h /\ rf_neg g = bit_points (filter (fun i => Rltb (nth i w 0) 0) (seq 0 n)) h /\ rf_pos g = bit_points (filter (fun i => Rleb 0 (nth i w 0)) (seq 0 n)) h /\
  (length (rf_pos g) + length (rf_neg g) = n)%nat /\ (rf_legend g = true <-> exists v, In v w /\ v < 0) /\
  (forall i, (i < n)%nat -> fst (rf_xlim g) + 0.5 <= place i <= snd (rf_xlim g) - 0.5).
Proof. exact c152_points. Qed.
Print Assumptions C152_points.

(** Every bit but the first has a text above its marker that gives the ratio of the preceding weight to its own, to half a
    hundredth. *)
Theorem C152_texts :
  forall argsort w r sca er g i,
  analyze_radix_plot argsort w true = Ok (r, sca, er, Some g) -> (forall x, In x w -> x <> 0) -> (S i < length w)%nat ->
  exists t, nth i (rf_radix g) (0, 0, NA) = (place (S i), 1.5 * Rabs (nth (S i) w 0), t) /\ names 2 t 1 (Rabs (nth i w 0) / Rabs (nth (S i) w 0)) /\ Rabs (nth (S i) w 0) < 1.5 * Rabs (nth (S i) w 0) /\
  length (rf_radix g) = (length w - 1)%nat.
Proof. exact c152_texts. Qed.
Print Assumptions C152_texts.

(** Whatever order numpy's argsort gives equal weights: MSB stands below a weight of the largest magnitude; LSB stands below
    the smallest significant one, and is left out exactly when only one weight is significant.  The effective resolution shown
    is the one of these significant weights, to half a hundredth. *)
Theorem C152_labels :
  forall argsort w r sca er g,
  analyze_radix_plot argsort w true = Ok (r, sca, er, Some g) -> sorts (map Rabs w) (argsort (map Rabs w)) ->
  exists s k msb lsb, Permutation (map Rabs w) s /\ decreasing s /\ cut_at s k /\ (msb < length w)%nat /\ (lsb < length w)%nat /\ Rabs (nth msb w 0) = nth 0 s 0 /\ Rabs (nth lsb w 0) = nth k s 0 /\
    rf_msb g = (place msb, Rabs (nth msb w 0) / 1.5) /\ rf_lsb g = (if (k =? 0)%nat then None else Some (place lsb, Rabs (nth lsb w 0) / 1.5)) /\ (k <> 0%nat -> lsb <> msb) /\
    names 2 (rf_effres g) 1 (lg2 (lsum (firstn (S k) s) / nth k s 0 + 1)).
Proof. exact c152_labels. Qed.
Print Assumptions C152_labels.

(** Nothing but an empty list of weights is refused. *)
Theorem C152_errors :
  forall argsort w b,
  (w = [] -> analyze_radix_plot argsort w b = Err IndexError) /\
  (w <> [] -> exists r sca er, analyze_weight_radix w = Ok (r, sca, er) /\ analyze_radix_plot argsort w false = Ok (r, sca, er, None) /\ exists g, analyze_radix_plot argsort w true = Ok (r, sca, er, Some g)).
Proof. exact c152_errors. Qed.
Print Assumptions C152_errors.

(** Which of several equally large weights is labelled MSB is not determined by the weights: two orders that both sort the
    two equal weights 1 and -1 label different bits. *)
Theorem C152_labels_refuted :
  exists w o1 o2 r sca er g1 g2, sorts (map Rabs w) (o1 (map Rabs w)) /\ sorts (map Rabs w) (o2 (map Rabs w)) /\
  analyze_radix_plot o1 w true = Ok (r, sca, er, Some g1) /\ analyze_radix_plot o2 w true = Ok (r, sca, er, Some g2) /\ rf_msb g1 <> rf_msb g2.
Proof. exact c152_labels_refuted. Qed.
Print Assumptions C152_labels_refuted.

(** Weights 4, -2, 1, 0.1: one red marker at bit 2; MSB below bit 1, LSB below bit 3 (the last weight is not significant); the
    texts read 2.00, 2.00 and 10.00, the resolution 3.00. *)
Example C152_labels_ex :
  exists r sca er g, analyze_radix_plot (fun _ => [3; 2; 1; 0]%nat) [4; -2; 1; 0.1] true = Ok (r, sca, er, Some g) /\
  rf_neg g = [(2, 2)] /\ rf_pos g = [(1, 4); (3, 1); (4, 0.1)] /\ rf_msb g = (1, 4 / 1.5) /\ rf_lsb g = Some (3, 1 / 1.5) /\ rf_legend g = true /\
  map snd (rf_radix g) = [Num 2 200; Num 2 200; Num 2 1000] /\ rf_effres g = Num 2 300.
Proof. exact c152_labels_ex. Qed.

(** It draws exactly when there is at least one value and none is infinite; an infinite one makes it raise ValueError. *)
Theorem C153_accepts :
  forall e,
  ((exists g, plot_enob_sweep e = Ok g) <-> e <> [] /\ forall x, In x e -> x <> PInf /\ x <> NInf) /\
  (In PInf e \/ In NInf e -> plot_enob_sweep e = Err ValueError) /\ plot_enob_sweep [] = Err IndexError.
Proof. exact c153_accepts. Qed.
Print Assumptions C153_accepts.

(** Point i is at i + 1 and the value; the vertical limits are half a bit below the smallest and 2 bits above the largest
    value; all values and all bit counts are inside the limits. *)
Theorem C153_points :
  forall e g,
  plot_enob_sweep e = Ok g -> length (ef_points g) = length e /\ (forall i, (i < length e)%nat -> nth i (ef_points g) (0%nat, NaN) = (S i, nth i e NaN) /\ fst (ef_xlim g) + 0.5 <= INR (S i) <= snd (ef_xlim g) - 0.5) /\
  ef_ticks g = map fst (ef_points g) /\
  ((forall v, ~ In (Fin v) e) -> ef_ylim g = None) /\
  forall lo hi, extremes (numbers e) lo hi -> ef_ylim g = Some (lo - 0.5, hi + 2) /\ forall v, In (Fin v) e -> lo - 0.5 < v < hi + 2.
Proof. exact c153_points. Qed.
Print Assumptions C153_points.

(** The notes: one for every value that is a number and, from the second on, whose predecessor is one too.  It stands 6
    percent of the range above the point and gives, to half a hundredth, the first value or the increase over the preceding
    one, the latter with a plus sign in front. *)
Theorem C153_notes :
  forall e g lo hi,
  plot_enob_sweep e = Ok g -> extremes (numbers e) lo hi -> forall nt, In nt (ef_notes g) <->
  exists i y d, (i < length e)%nat /\ nth i e NaN = Fin y /\ (i = 0%nat /\ d = y \/ exists j z, i = S j /\ nth j e NaN = Fin z /\ d = y - z) /\
    nt = mkNote (S i) (y + 0.06 * (hi - lo)) (negb (i =? 0)%nat) (fixed 2 d) (if (i =? 0)%nat then 0 else if Rleb d 0 then 1 else if Rleb 1 d then 0 else 1 - d).
Proof. exact c153_notes. Qed.
Print Assumptions C153_notes.

(** What a note says: the numbers are right to half a hundredth, and so is the sign shown when the ENOB does not fall. *)
Theorem C153_note_text :
  forall e g lo hi i y,
  plot_enob_sweep e = Ok g -> extremes (numbers e) lo hi -> nth i e NaN = Fin y -> (i < length e)%nat ->
  (i = 0%nat -> exists nt, In nt (ef_notes g) /\ nt_x nt = S i /\ nt_plus nt = false /\ names 2 (nt_num nt) 1 y /\ nt_y nt = y + 0.06 * (hi - lo)) /\
  (forall j z, i = S j -> nth j e NaN = Fin z -> exists nt k, In nt (ef_notes g) /\ nt_x nt = S i /\ nt_plus nt = true /\ nt_num nt = Num 2 k /\ names 2 (nt_num nt) 1 (y - z) /\ nt_y nt = y + 0.06 * (hi - lo) /\ (z <= y -> (0 <= k)%Z)).
Proof. exact c153_note_text. Qed.
Print Assumptions C153_note_text.

(** The notes are inside the vertical limits when the values span at most 100/3 bits. *)
Theorem C153_notes_inside :
  forall e g lo hi nt lim,
  plot_enob_sweep e = Ok g -> extremes (numbers e) lo hi -> hi - lo <= 100 / 3 -> In nt (ef_notes g) -> ef_ylim g = Some lim -> within lim (nt_y nt) /\ within (ef_xlim g) (INR (nt_x nt)).
Proof. exact c153_notes_inside. Qed.
Print Assumptions C153_notes_inside.

(** A falling ENOB is marked with a plus sign and a minus sign: after 8 and 7.5 bits the note reads +-0.50. *)
Theorem C153_sign_refuted :
  exists e g nt k, plot_enob_sweep e = Ok g /\ In nt (ef_notes g) /\ nt_plus nt = true /\ nt_num nt = Num 2 k /\ (k < 0)%Z.
Proof. exact c153_sign_refuted. Qed.
Print Assumptions C153_sign_refuted.

(** 4, 6.5 and 7 bits: limits 3.5 and 9; the notes read 4.00, +2.50, +0.50. *)
Example C153_notes_ex :
  exists g, plot_enob_sweep [Fin 4; Fin 6.5; Fin 7] = Ok g /\ ef_ylim g = Some (3.5, 9) /\ map nt_num (ef_notes g) = [Num 2 400; Num 2 250; Num 2 50] /\ map nt_plus (ef_notes g) = [false; true; true] /\ map nt_x (ef_notes g) = [1; 2; 3]%nat.
Proof. exact c153_notes_ex. Qed.

(** With the default oversampling ratio and the usual windows: after a successful sweep the plot is drawn exactly when no
    leading group of bits contributes a constant; otherwise the call raises ValueError. *)
Theorem C153_drawn :
  forall kz cz lstsq rank est bits freq H wt e ns r,
  wt = Boxcar \/ wt = Hann \/ wt = Hamming ->
  enob_sweep kz cz lstsq rank est bits freq H 1 wt = Ok (e, ns) -> calibrate_weight_sine lstsq rank est [bits] freq None None H 0.5 (1 / 10 ^ 12) 100 = Ok r ->
  ((forall n, (1 <= n <= m_m bits)%nat -> ~ constant_list (contribution (m_n bits) (m_at bits) (r_weight r) n)) <-> exists g, analyze_enob_sweep kz cz lstsq rank est bits freq H 1 wt true = Ok (e, ns, Some g)) /\
  ((exists n, (1 <= n <= m_m bits)%nat /\ constant_list (contribution (m_n bits) (m_at bits) (r_weight r) n)) <-> analyze_enob_sweep kz cz lstsq rank est bits freq H 1 wt true = Err ValueError).
Proof. exact c153_drawn. Qed.
Print Assumptions C153_drawn.

(** If the first bit never changes, the sweep can be computed, but asking for its plot raises ValueError, for every window and
    oversampling ratio. *)
Theorem C153_stuck :
  forall kz cz lstsq rank est bits freq H osr wt e ns c,
  enob_sweep kz cz lstsq rank est bits freq H osr wt = Ok (e, ns) -> (forall t, (t < m_n bits)%nat -> m_at bits t 0%nat = c) ->
  analyze_enob_sweep kz cz lstsq rank est bits freq H osr wt false = Ok (e, ns, None) /\ analyze_enob_sweep kz cz lstsq rank est bits freq H osr wt true = Err ValueError.
Proof. exact c153_stuck. Qed.
Print Assumptions C153_stuck.

(** Four samples of two bits, the first of them stuck at 0, at the quarter of the sampling rate: the sweep is computed, its
    plot raises ValueError. *)
Theorem C153_stuck_refuted :
  forall kz cz,
  exists bits e ns, enob_sweep kz cz gs_lstsq gs_rank (fun _ => 0) bits (FScalar (1 / 4)) 1 1 Hamming = Ok (e, ns) /\
  analyze_enob_sweep kz cz gs_lstsq gs_rank (fun _ => 0) bits (FScalar (1 / 4)) 1 1 Hamming true = Err ValueError.
Proof. exact c153_stuck_refuted. Qed.
Print Assumptions C153_stuck_refuted.

(** Eight samples of a three-bit converter with weights 2, 1, 1: the plot is drawn, with three points. *)
Example C153_drawn_ex :
  forall kz cz,
  exists e g, analyze_enob_sweep kz cz gs_lstsq gs_rank (fun _ => 0) ex_bits (FScalar (1 / 4)) 1 1 Hamming true = Ok (e, [1; 2; 3]%nat, Some g) /\ length (ef_points g) = 3%nat.
Proof. exact c153_drawn_ex. Qed.
