(** * Property theorems of Dash: statements only, proofs in DashProofs.v.
    Generated by tools/mkprops.py from the final lemmas. *)
From Verif Require Import Base BaseLemmas Cplx FreqProofs UnitsModel SpecModel SpecLemmas SpecPrepProofs SpecProofs SineHistModel SineHistProofs SiggenModel SiggenProofs PlotModel PlotSpec PlotProofs DoutModel DoutSpec DoutProofs TiToneProofs CalModel CalSpec CalProofs CalMoreProofs CalExLemmas CalExProofs EnvModel EnvProofs SweepModel SweepSpec SweepProofs OsrSpec DrawModel DrawSpec DrawProofs PanelModel PanelSpec PanelProofs DplotModel DplotSpec DplotLemmas DplotProofs DashModel.
From Coq Require Import Psatz.
Local Open Scope R_scope.
From Verif Require Import DashProofs.

(** Each panel is the single analysis of the same data.  The upper spectra are those of the record weighted with the nominal
    and with the calibrated weights (the first being powers of two unless given), the overflow and radix panels take the
    calibrated weights, and the sweep the refined frequency. *)
Theorem C158_panels :
  forall kz cz xa argsort lstsq rank est bits freq weights d,
  generate_dout_dashboard kz cz xa argsort lstsq rank est bits freq weights = Ok d ->
  let n := m_n bits in let m := m_m bits in let rows := map (fun t => map (m_at bits t) (seq 0 m)) (seq 0 n) in
  let shown x := analyze_spectrum kz cz xa [x] 1 ScaleAuto Hann None 1 5 0 None true true true 3 in
  exists r w, calibrate_weight_sine lstsq rank est [bits] freq None None 1 0.5 (1 / 10 ^ 12) 100 = Ok r /\ (0 < m <= n)%nat /\
    length w = m /\ (forall l, weights = Some l -> w = l) /\ (weights = None -> forall j, (j < m)%nat -> nth j w 0 = 2 ^ (m - 1 - j)) /\
    shown (contribution n (m_at bits) (fun j => nth j w 0) m) = Ok (dd_nominal d) /\ shown (contribution n (m_at bits) (r_weight r) m) = Ok (dd_calibrated d) /\
    analyze_bit_activity rows m true = Ok (dd_activity d) /\ analyze_overflow_plot rows m (map (r_weight r) (seq 0 m)) None true = Ok (dd_overflow d) /\
    analyze_enob_sweep kz cz lstsq rank est bits (FScalar (r_freqs r 0%nat)) 1 1 Hamming true = Ok (dd_enob d) /\ analyze_radix_plot argsort (map (r_weight r) (seq 0 m)) true = Ok (dd_radix d).
Proof. exact c158_panels. Qed.
Print Assumptions C158_panels.

(** The nominal weights have no influence on any other panel than the first. *)
Theorem C158_nominal :
  forall kz cz xa argsort lstsq rank est bits freq w w' d d',
  generate_dout_dashboard kz cz xa argsort lstsq rank est bits freq w = Ok d -> generate_dout_dashboard kz cz xa argsort lstsq rank est bits freq w' = Ok d' ->
  dd_calibrated d = dd_calibrated d' /\ dd_activity d = dd_activity d' /\ dd_overflow d = dd_overflow d' /\ dd_enob d = dd_enob d' /\ dd_radix d = dd_radix d'.
Proof. exact c158_nominal. Qed.
Print Assumptions C158_nominal.

(** For a record of even length on which the calibration succeeds (also when repeated with the frequency it has found), the
    dashboard is drawn exactly if the nominal weights have the right length, the matrix is not wider than tall, and no
    leading group of bits gives a constant; otherwise it raises ValueError. *)
Theorem C158_accepts :
  forall kz cz xa argsort lstsq rank est bits freq weights r r',
  Nat.Even (m_n bits) ->
  calibrate_weight_sine lstsq rank est [bits] freq None None 1 0.5 (1 / 10 ^ 12) 100 = Ok r -> calibrate_weight_sine lstsq rank est [bits] (FScalar (r_freqs r 0%nat)) None None 1 0.5 (1 / 10 ^ 12) 100 = Ok r' ->
  let good := (forall l, weights = Some l -> length l = m_m bits) /\ (m_m bits <= m_n bits)%nat /\ (forall k, (1 <= k <= m_m bits)%nat -> ~ constant_list (contribution (m_n bits) (m_at bits) (r_weight r') k)) in
  (good -> exists d, generate_dout_dashboard kz cz xa argsort lstsq rank est bits freq weights = Ok d) /\
  (~ good -> (m_m bits <= m_n bits)%nat \/ Nat.Even (m_m bits) -> generate_dout_dashboard kz cz xa argsort lstsq rank est bits freq weights = Err ValueError).
Proof. exact c158_accepts. Qed.
Print Assumptions C158_accepts.

(** A record whose first bit never changes, or that has more bits than samples, never gets a dashboard. *)
Theorem C158_stuck :
  forall kz cz xa argsort lstsq rank est bits freq weights c,
  (forall t, (t < m_n bits)%nat -> m_at bits t 0%nat = c) \/ (m_n bits < m_m bits)%nat ->
  forall d, generate_dout_dashboard kz cz xa argsort lstsq rank est bits freq weights <> Ok d.
Proof. exact c158_stuck. Qed.
Print Assumptions C158_stuck.

(** With a frequency given, the sweep is made at that frequency. *)
Theorem C158_frequency :
  forall kz cz xa argsort lstsq rank est bits f weights d,
  f <> 0 -> generate_dout_dashboard kz cz xa argsort lstsq rank est bits (FScalar f) weights = Ok d ->
  analyze_enob_sweep kz cz lstsq rank est bits (FScalar f) 1 1 Hamming true = Ok (dd_enob d).
Proof. exact c158_frequency. Qed.
Print Assumptions C158_frequency.

(** If the nominal weights are the true ones (with a positive sum) and the record determines them, the spectra before and
    after calibration are the same. *)
Theorem C158_ideal :
  forall kz cz xa argsort lstsq rank est bits freq f w off a b d,
  least_squares lstsq -> rank_correct rank -> freq_is freq f -> f <> 0 -> f <= 1 / 2 ->
  true_weights bits 1 f w off a b -> identifiable bits 1 f w off a b -> a 0%nat <> 0 \/ b 0%nat <> 0 -> 0 < rsum (m_m bits) w ->
  generate_dout_dashboard kz cz xa argsort lstsq rank est bits freq (Some (map w (seq 0 (m_m bits)))) = Ok d -> dd_nominal d = dd_calibrated d.
Proof. exact c158_ideal. Qed.
Print Assumptions C158_ideal.

Example C158_ideal_ex :
  forall kz cz xa argsort,
  exists d g, generate_dout_dashboard kz cz xa argsort gs_lstsq gs_rank (fun _ => 0) ex_bits (FScalar (1 / 4)) (Some [2; 1; 1]) = Ok d /\
  dd_nominal d = dd_calibrated d /\ dd_activity d = ([37.5; 37.5; 37.5], Some g).
Proof. exact c158_ideal_ex. Qed.

(** Four samples of two bits, the first of them stuck at 0: the calibration succeeds, the dashboard raises ValueError. *)
Theorem C158_stuck_refuted :
  forall kz cz xa argsort,
  exists bits r, calibrate_weight_sine gs_lstsq gs_rank (fun _ => 0) [bits] (FScalar (1 / 4)) None None 1 0.5 (1 / 10 ^ 12) 100 = Ok r /\
  generate_dout_dashboard kz cz xa argsort gs_lstsq gs_rank (fun _ => 0) bits (FScalar (1 / 4)) None = Err ValueError.
Proof. exact c158_stuck_refuted. Qed.
Print Assumptions C158_stuck_refuted.
