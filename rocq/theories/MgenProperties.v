(** * Property theorems of Mgen: statements only, proofs in MgenProofs.v.
    Generated by tools/mkprops.py from the final lemmas. *)
From Verif Require Import Base BaseLemmas Cplx SpecModel SpecLemmas CalModel CalSpec CalProofs TiModel FitModel FitSpec FitProofs AcfModel AcfProofs RampModel EpdfModel NonlinModel NonlinSpec NonlinProofs SiggenModel SiggenSpec SiggenProofs DoutModel DoutSpec DoutProofs SineHistModel SineHistProofs OsrSpec PlotModel DrawSpec DrawProofs DplotModel DplotSpec DplotProofs CapModel MatModel MatSpec MatProofs MsinModel MsinProofs CalExLemmas CalExProofs TiToneProofs SpecToneProofs RearProofs HarmModel HarmSpec HarmProofs MerrModel MerrProofs MgenModel MgenSpec.
From Coq Require Import Psatz ZifyBool Permutation.
Local Open Scope R_scope.
From Verif Require Import MgenProofs.

(** MATLAB's filter (direct form II transposed, normalised) computes what scipy's does. *)
Theorem C176_filter :
  forall b a x,
  b <> [] -> (hd 0 a <> 0 -> exists y, m_filter b a x = Ok y /\ lfilter b a x = Ok y /\ length y = length x /\ forall t, (t < length x)%nat -> convolve a y t = convolve b x t) /\
  (hd 0 a = 0 -> m_filter b a x = Err RuntimeError /\ lfilter b a x = Err ValueError).
Proof. exact c176_filter. Qed.
Print Assumptions C176_filter.

(** With the options MATLAB accepts and the same transfer function, MATLAB and Python return the same
    record or both refuse. *)
Theorem C176_agrees :
  forall sigin o p,
  ns_valid o -> same_ntf (o_ntf o) p ->
  let py := apply_noise_shaping (mkGen (Z.to_nat (o_N o)) (o_Fs o) (o_Fin o) (o_A o) (o_DC o)) (match sigin with Some [] => None | _ => sigin end) (Z.to_nat (o_bits o)) (o_lo o) (o_hi o) (o_order o) p in
  (exists out info, m_noiseshape sigin o = Ok (out, info) /\ py = Ok out) \/ (m_noiseshape sigin o = Err RuntimeError /\ py = Err ValueError).
Proof. exact c176_agrees. Qed.
Print Assumptions C176_agrees.

(** What is returned: codes 0 .. 2^bits - 1, their levels, the error (in (-lsb, 0] while the input is in
    range), that error filtered by the transfer function meant, and the input plus it. *)
Theorem C176_outputs :
  forall sigin o out i,
  m_noiseshape sigin o = Ok (out, i) ->
  let lsb := (o_hi o - o_lo o) / 2 ^ Z.to_nat (o_bits o) in let n := i_N i in
  ns_signal sigin o (i_clean i) /\ ntf_means (o_ntf o) (Z.to_nat (o_order o)) (i_num i) (i_den i) /\ i_lsb i = lsb /\
  length (i_clean i) = n /\ length (i_codes i) = n /\ length (i_quantized i) = n /\ length (i_qerr i) = n /\ length (i_shaped i) = n /\ length out = n /\
  forall t, (t < n)%nat -> let x := nth t (i_clean i) 0 in
    (exists k, (0 <= k < 2 ^ o_bits o)%Z /\ nth t (i_codes i) 0 = IZR k /\ nth t (i_quantized i) 0 = o_lo o + IZR k * lsb) /\
    nth t (i_qerr i) 0 = nth t (i_quantized i) 0 - x /\ (o_lo o <= x < o_hi o -> - lsb < nth t (i_qerr i) 0 <= 0) /\
    convolve (i_den i) (i_shaped i) t = convolve (i_num i) (i_qerr i) t /\ nth t out 0 = x + nth t (i_shaped i) 0.
Proof. exact c176_outputs. Qed.
Print Assumptions C176_outputs.

(** Exactly which calls are refused: an option out of its range, a malformed transfer function, an empty
    numerator, or a denominator that is empty or starts with zero. *)
Theorem C176_refuses :
  forall sigin o,
  let good := ns_valid o /\ exists num den, ntf_means (o_ntf o) (Z.to_nat (o_order o)) num den /\ num <> [] /\ hd 0 den <> 0 in
  (good -> exists r, m_noiseshape sigin o = Ok r) /\ (~ good -> m_noiseshape sigin o = Err RuntimeError).
Proof. exact c176_refuses. Qed.
Print Assumptions C176_refuses.

(** With an explicit transfer function the order is not used, but MATLAB still checks it; Python does
    not. *)
Theorem C176_order_refuted :
  exists o x num, o_ntf o = MNum num /\ m_noiseshape (Some x) o = Err RuntimeError /\
  exists out, apply_noise_shaping (mkGen 1 1 (1 / 64) 0.4 0) (Some x) (Z.to_nat (o_bits o)) (o_lo o) (o_hi o) (o_order o) (NtfFir num) = Ok out.
Proof. exact c176_order_refuted. Qed.
Print Assumptions C176_order_refuted.

(** Radix (without Python's leading NaN) and effective resolution are the same; the scale is the same
    when the ratio r of the largest to the smallest significant weight is not half-way between two
    integers and rounds to an even one. *)
Theorem C177_agrees :
  forall w s sig,
  w <> [] -> (forall x, In x w -> x <> 0) -> significant_of (map Rabs w) s sig -> let r := nth 0 s 0 / nth (length sig - 1) s 0 in
  exists radix sca sca' er, m_plotwgt w = Ok (radix, sca, er) /\ analyze_weight_radix w = Ok (NaN :: map Fin radix, sca', er) /\ length radix = (length w - 1)%nat /\
  (forall i, (S i < length w)%nat -> nth i radix 0 * Rabs (nth (S i) w 0) = Rabs (nth i w 0)) /\ er = lg2 (lsum sig / nth (length sig - 1) s 0 + 1) /\
  (~ tie r -> Z.Even (m_round r) -> sca = sca').
Proof. exact c177_agrees. Qed.
Print Assumptions C177_agrees.

(** wgtsca is positive and no worse than 1/min or than any z/max with z between half and one and a half
    times the rounded ratio (halves away from zero); it is 1/min when that makes every significant
    weight an integer. *)
Theorem C177_scale :
  forall w s sig radix sca er,
  m_plotwgt w = Ok (radix, sca, er) -> (forall x, In x w -> x <> 0) -> significant_of (map Rabs w) s sig ->
  let mn := nth (length sig - 1) s 0 in let mx := nth 0 s 0 in let i0 := m_round (mx / mn) in
  0 < sca /\ scale_error sig sca <= scale_error sig (1 / mn) /\
  (forall z, (1 <= z)%Z -> (m_round (IZR i0 * 0.5) <= z <= m_round (IZR i0 * 1.5))%Z -> scale_error sig sca <= scale_error sig (IZR z / mx)) /\
  (scale_error sig (1 / mn) = 0 -> sca = 1 / mn).
Proof. exact c177_scale. Qed.
Print Assumptions C177_scale.

(** The weights 5, 3, 2: MATLAB finds a scale that makes all of them integers, Python's search ends
    before it (2.5 is rounded to 2 by Python and to 3 by MATLAB). *)
Theorem C177_scale_refuted :
  exists w radix sca er r sca' er', significant_of (map Rabs w) w w /\ m_plotwgt w = Ok (radix, sca, er) /\ analyze_weight_radix w = Ok (r, sca', er') /\ scale_error w sca = 0 /\ 0 < scale_error w sca'.
Proof. exact c177_scale_refuted. Qed.
Print Assumptions C177_scale_refuted.

(** No weights: an error, as in Python. *)
Theorem C177_empty :
  m_plotwgt [] = Err RuntimeError /\ analyze_weight_radix [] = Err IndexError.
Proof. exact c177_empty. Qed.
Print Assumptions C177_empty.

(** The figure: the same line, markers, ratios and limits as Python's; the same positions for MSB and LSB when
    no two weights have the same magnitude. *)
Theorem C177_figure :
  forall argsort w radix sca er,
  m_plotwgt w = Ok (radix, sca, er) -> (forall a, sorts a (argsort a)) -> (forall x, In x w -> x <> 0) ->
  let g := m_plotwgt_figure w radix er in let h := plot_weight_radix argsort w (NaN :: map Fin radix) er in
  mw_line g = rf_line h /\ mw_pos g = rf_pos h /\ mw_neg g = rf_neg h /\ mw_effres g = rf_effres h /\ mw_radix g = rf_radix h /\ mw_xlim g = rf_xlim h /\
  (In false (mw_legend g) <-> rf_legend h = true) /\ (forall i, (i < length w)%nat -> fst (mw_ylim g) < Rabs (nth i w 0) < snd (mw_ylim g)) /\
  (NoDup (map Rabs w) -> mw_msb g = rf_msb h /\ mw_lsb g = rf_lsb h).
Proof. exact c177_figure. Qed.
Print Assumptions C177_figure.

(** The legacy wrapper has the order of the Python function: same capacitor lists accepted, same weights
    and total capacitance. *)
Theorem C178_cap :
  forall cd cb cp,
  (cap_valid (rev cd) (rev cb) (rev cp) -> exists w c, m_cap2weight cd cb cp = Ok (w, c) /\ convert_cap_to_weight cd cb cp = Ok (w, c)) /\
  (~ cap_valid (rev cd) (rev cb) (rev cp) -> m_cap2weight cd cb cp = Err RuntimeError).
Proof. exact c178_cap. Qed.
Print Assumptions C178_cap.

(** Up to as many lags as there are samples MATLAB and Python return the same values; beyond, Python fails
    (three samples or more, C87) and MATLAB goes on, with NaN at every lag that leaves no product. *)
Theorem C178_acf :
  forall err max_lag normalize,
  (0 <= max_lag)%Z -> let r := m_errac err max_lag normalize in
  snd r = lag_list max_lag /\ length (fst r) = length (snd r) /\ ((max_lag <= Z.of_nat (length err))%Z -> error_acf err max_lag normalize = Ok (fst r)) /\
  (forall i, (i < length (snd r))%nat -> (Z.of_nat (length err) <= Z.abs (nth i (snd r) 0%Z))%Z -> nth i (fst r) (Fin 0) = NaN).
Proof. exact c178_acf. Qed.
Print Assumptions C178_acf.

(** A record of N samples and a maximum lag of N + 1: refused by Python, done by MATLAB. *)
Theorem C178_acf_refuted :
  exists err, error_acf err (Z.of_nat (length err) + 1) true = Err ValueError /\ exists v, nth (length err + 1) (fst (m_errac err (Z.of_nat (length err) + 1) true)) NaN = Fin v.
Proof. exact c178_acf_refuted. Qed.
Print Assumptions C178_acf_refuted.

(** The density estimate from two samples or more is that of Python; of one sample MATLAB reports the
    deviation 0, Python NaN, and both no densities. *)
Theorem C178_pdf :
  forall err resolution full_scale,
  let lsb := full_scale / powerRZ 2 resolution in let e := map (fun v => v / lsb) err in
  (full_scale = 0 -> m_errpdf err resolution full_scale = NotFinite) /\
  (full_scale <> 0 -> (2 <= length err)%nat -> m_errpdf err resolution full_scale = Numbers (pdf_of e)) /\
  (full_scale <> 0 -> length err = 1%nat -> exists p, m_errpdf err resolution full_scale = Numbers p /\ p_sigma p = Fin 0 /\ p_sigma (pdf_of e) = NaN /\
     p_err p = p_err (pdf_of e) /\ p_mu p = p_mu (pdf_of e) /\ p_x p = p_x (pdf_of e) /\ p_pdf p = None /\ p_gauss p = None /\ p_kl p = None /\ p_pdf (pdf_of e) = None /\ p_gauss (pdf_of e) = None /\ p_kl (pdf_of e) = None).
Proof. exact c178_pdf. Qed.
Print Assumptions C178_pdf.

(** The coefficients are those of the least-squares polynomial of the zero-mean record in the zero-mean
    fitted sine; k2 and k3 their ratios to the linear one, the curve that polynomial over the range of the
    fitted sine: what Python returns (C97), around MATLAB's own sine fit. *)
Theorem C179_transfer :
  forall lin sig order freq r,
  least_squares lin -> m_fitstaticnl lin sig order freq = Ok (Some r) ->
  let n := length sig in let deg := Z.to_nat order in
  let F := fun t => nth t (nl_fitted r) 0 in let S := fun t => nth t sig 0 in
  let x := fun t => F t - average n F in let y := fun t => S t - average n S in
  length (nl_fitted r) = n /\
  exists c, (forall d, rsum n (fun t => (y t - poly deg c (x t)) ^ 2) <= rsum n (fun t => (y t - poly deg d (x t)) ^ 2)) /\
  quotient (c 2%nat) (c 1%nat) (nl_k2 r) /\ ((3 <= order)%Z -> quotient (c 3%nat) (c 1%nat) (nl_k3 r)) /\ (order = 2%Z -> nl_k3 r = NaN) /\
  length (nl_x r) = 1000%nat /\ length (nl_y r) = 1000%nat /\
  (forall i, (i < 1000)%nat -> nth i (nl_y r) 0 = average n S + poly deg c (nth i (nl_x r) 0 - average n F)) /\
  (forall lo hi, spans n F lo hi -> forall i, (i < 1000)%nat -> nth i (nl_x r) 0 = lo + INR i * ((hi - lo) / 999)).
Proof. exact c179_transfer. Qed.
Print Assumptions C179_transfer.

(** From the same fitted sine, taking order + 1 values or more, both languages return the same result. *)
Theorem C179_agrees :
  forall lin lst sig order freq r q,
  least_squares lin -> least_squares lst -> m_fitstaticnl lin sig order freq = Ok (Some r) -> fit_static_nonlin lst sig order = Ok q ->
  nl_fitted r = nl_fitted q -> distinct_values (length sig) (fun t => nth t (nl_fitted r) 0) (S (Z.to_nat order)) -> r = q.
Proof. exact c179_agrees. Qed.
Print Assumptions C179_agrees.

(** Exactly which calls fail: what Python refuses, and frequencies outside 0 <= f < 1/2. *)
Theorem C179_refuses :
  forall lin sig order freq,
  let n := length sig in let good := (2 <= order)%Z /\ 0 <= freq < 1 / 2 /\ (order + 2 <= Z.of_nat n)%Z in
  (~ good -> m_fitstaticnl lin sig order freq = Err RuntimeError) /\
  (good -> exists o, m_sinfit lin (map (fun v => [v]) sig) freq (1 / 10 ^ 12) (1 / 2) false 100 = Ok o /\
    match o with
    | None => m_fitstaticnl lin sig order freq = Ok None
    | Some fit => let F := fun t => nth t (mf_fitout fit) 0 in
        ((exists t, (t < n)%nat /\ 1 / 10 ^ 10 <= Rabs (F t - average n F)) -> exists r, m_fitstaticnl lin sig order freq = Ok (Some r) /\ nl_fitted r = mf_fitout fit) /\
        ((forall t, (t < n)%nat -> Rabs (F t - average n F) < 1 / 10 ^ 10) -> m_fitstaticnl lin sig order freq = Err RuntimeError)
    end).
Proof. exact c179_refuses. Qed.
Print Assumptions C179_refuses.

(** A constant record without a given frequency: NaN everywhere. *)
Theorem C179_constant :
  forall lin sig order v,
  (2 <= order)%Z -> (order + 2 <= Z.of_nat (length sig))%Z -> is_record sig (fun _ => v) -> m_fitstaticnl lin sig order 0 = Ok None.
Proof. exact c179_constant. Qed.
Print Assumptions C179_constant.

(** The documented model at a given coherent frequency: no refinement of the frequency, hence (unlike C99)
    nothing is assumed of the size and phase of the harmonics; the coefficients are k2 / g and k3 / g^2. *)
Theorem C179_gain_given :
  forall lin sig order k A ph off k2 k3,
  least_squares lin -> let n := length sig in let deg := Z.to_nat order in
  let th := fun t => 2 * PI * (INR k / INR n) * INR t + ph in let g := 1 + 3 / 4 * k3 * A ^ 2 in
  (1 <= k)%nat -> (6 * k < n)%nat -> (3 <= order)%Z \/ (order = 2%Z /\ k3 = 0) -> (order + 2 <= Z.of_nat n)%Z -> g <> 0 -> A <> 0 ->
  distinct_values n (fun t => cos (th t)) (S deg) -> (exists t, (t < n)%nat /\ 1 / 10 ^ 10 <= Rabs (g * A * cos (th t))) ->
  (forall t, (t < n)%nat -> nth t sig 0 = off + cubic k2 k3 (A * cos (th t))) ->
  exists r, m_fitstaticnl lin sig order (INR k / INR n) = Ok (Some r) /\ nl_k2 r = Fin (k2 / g) /\ ((3 <= order)%Z -> nl_k3 r = Fin (k3 / g ^ 2)) /\
  forall t, (t < n)%nat -> nth t (nl_fitted r) 0 = off + k2 * A ^ 2 / 2 + g * (A * cos (th t)).
Proof. exact c179_gain_given. Qed.
Print Assumptions C179_gain_given.
