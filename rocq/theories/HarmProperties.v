(** * Property theorems of Harm: statements only, proofs in HarmProofs.v.
    Generated by tools/mkprops.py from the final lemmas. *)
From Verif Require Import Base BaseLemmas Cplx SpecModel SpecLemmas DoutProofs FreqProofs UnitsModel CalModel CalSpec CalProofs CalExLemmas CalExProofs TiModel TiToneProofs SpecToneProofs FitModel FitSpec FitProofs AcfModel AcfProofs RearProofs HarmModel HarmSpec.
From Coq Require Import Psatz.
Local Open Scope R_scope.
From Verif Require Import HarmProofs.

(** Fundamental, harmonics and noise add up to the average of the runs, sample by sample, whatever the
    least-squares routine returns; the phases lie in [-pi, pi) and the first one is 0. *)
Theorem C36_adds_up :
  forall lstsq rows nh f mi tol r,
  decompose_harmonic_error lstsq rows nh f mi tol = Ok r -> harm_rows rows <> [] ->
  let n := length (hd [] (harm_rows rows)) in
  length (h_noise r) = n /\ length (h_reconstructed r) = n /\ length (h_fundamental r) = n /\ length (h_harmonic r) = n /\
  (forall t, (t < n)%nat -> nth t (h_fundamental r) 0 + nth t (h_harmonic r) 0 + nth t (h_noise r) 0 = run_mean (harm_rows rows) t /\
     nth t (h_reconstructed r) 0 = nth t (h_fundamental r) 0 + nth t (h_harmonic r) 0) /\
  length (h_phases r) = Z.to_nat nh /\ length (h_magnitudes r) = Z.to_nat nh /\
  (forall h, (h < Z.to_nat nh)%nat -> - PI <= nth h (h_phases r) 0 < PI /\ 0 <= nth h (h_magnitudes r) 0) /\ nth 0 (h_phases r) 0 = 0.
Proof. exact c36_adds_up. Qed.
Print Assumptions C36_adds_up.

(** One run, several runs, or a single column: which samples are averaged. *)
Theorem C36_runs :
  (forall y, (length y <> 1)%nat -> harm_rows [y] = [y]) /\ (forall y : list R, y <> [] -> harm_rows (map (fun x => [x]) y) = [y]) /\ (forall rows, (length (hd [] rows) <> 1)%nat -> harm_rows rows = rows).
Proof. exact c36_runs. Qed.
Print Assumptions C36_runs.

(** The call fails, with ValueError, exactly when no harmonic is requested, the record is empty, or the
    frequency has to be found from fewer than two samples. *)
Theorem C36_accepts :
  forall lstsq rows nh f mi tol,
  let n := length (hd [] (harm_rows rows)) in
  ((0 < nh)%Z /\ (0 < n)%nat /\ (f = None -> (2 <= n)%nat) -> exists r, decompose_harmonic_error lstsq rows nh f mi tol = Ok r) /\
  (~ ((0 < nh)%Z /\ (0 < n)%nat /\ (f = None -> (2 <= n)%nat)) -> decompose_harmonic_error lstsq rows nh f mi tol = Err ValueError).
Proof. exact c36_accepts. Qed.
Print Assumptions C36_accepts.

(** residual_rms is 2 sqrt 2 times the rms of the residual. *)
Theorem C96_residual_scale :
  forall lstsq rows nh f mi tol r,
  decompose_harmonic_error lstsq rows nh f mi tol = Ok r -> h_residual_rms r = 2 * sqrt 2 * rms_of (h_noise r).
Proof. exact c96_residual_scale. Qed.
Print Assumptions C96_residual_scale.

(** At the frequency used, no combination of offset and harmonics leaves a smaller residual; the
    residual has zero mean, is orthogonal to every harmonic, and therefore the powers add up. *)
Theorem C93_optimal :
  forall lstsq rows nh f mi tol r,
  least_squares lstsq -> harm_rows rows <> [] -> decompose_harmonic_error lstsq rows nh f mi tol = Ok r ->
  let n := length (hd [] (harm_rows rows)) in let y := run_mean (harm_rows rows) in let mean := rsum n y / INR n in
  (forall dc A ph, rsum n (fun t => nth t (h_noise r) 0 ^ 2) <= rsum n (fun t => (y t - distorted (Z.to_nat nh) dc A ph (h_freq r) t) ^ 2)) /\
  rsum n (fun t => nth t (h_noise r) 0) = 0 /\
  (forall h ph, (h < Z.to_nat nh)%nat -> rsum n (fun t => nth t (h_noise r) 0 * cos (INR (S h) * (2 * PI * h_freq r * INR t) + ph)) = 0) /\
  rsum n (fun t => (y t - mean) ^ 2) = rsum n (fun t => (nth t (h_reconstructed r) 0 - mean) ^ 2) + rsum n (fun t => nth t (h_noise r) 0 ^ 2).
Proof. exact c93_optimal. Qed.
Print Assumptions C93_optimal.

(** Whole numbers of periods with every harmonic below the Nyquist frequency: independent columns. *)
Theorem C94_coherent_independent :
  forall n H k,
  (0 < k)%nat -> (2 * H * k < n)%nat -> independent (harm_basis n (INR k / INR n) H).
Proof. exact c94_coherent_independent. Qed.
Print Assumptions C94_coherent_independent.

(** With the frequency given and no refinement, a record that is an offset plus harmonics 1..H is taken
    apart exactly whenever the columns are independent, as they are for a whole number of periods. *)
Theorem C94_exact :
  forall lstsq rows nh f tol dc A ph,
  least_squares lstsq -> harm_rows rows <> [] -> (0 < nh)%Z ->
  let n := length (hd [] (harm_rows rows)) in let H := Z.to_nat nh in (0 < n)%nat ->
  independent (harm_basis n f H) -> (forall t, (t < n)%nat -> run_mean (harm_rows rows) t = distorted H dc A ph f t) ->
  exists r, decompose_harmonic_error lstsq rows nh (Some f) 0 tol = Ok r /\ h_freq r = f /\
  (forall t, (t < n)%nat -> nth t (h_noise r) 0 = 0 /\ nth t (h_fundamental r) 0 = dc + A 0%nat * cos (2 * PI * f * INR t + ph 0%nat) /\
     nth t (h_harmonic r) 0 = distorted H dc A ph f t - (dc + A 0%nat * cos (2 * PI * f * INR t + ph 0%nat))) /\
  h_residual_rms r = 0 /\
  (forall h, (h < H)%nat -> 0 <= A h -> nth h (h_magnitudes r) 0 = 2 * A h) /\
  (forall h, (h < H)%nat -> 0 < A h -> 0 < A 0%nat -> same_angle (nth h (h_phases r) 0) (- (ph h - INR (S h) * ph 0%nat))).
Proof. exact c94_exact. Qed.
Print Assumptions C94_exact.

(** Without a frequency hint and without refinement: a coherent record with at least two periods, all
    harmonics below Nyquist and none larger than the fundamental is taken apart exactly. *)
Theorem C94_auto :
  forall lstsq rows nh tol k dc A ph,
  least_squares lstsq -> harm_rows rows <> [] -> (0 < nh)%Z ->
  let n := length (hd [] (harm_rows rows)) in let H := Z.to_nat nh in
  (2 <= k)%nat -> (k < n / 2)%nat -> (2 * H * k < n)%nat -> 0 < A 0%nat -> (forall h, (h < H)%nat -> 0 <= A h <= A 0%nat) ->
  (forall t, (t < n)%nat -> run_mean (harm_rows rows) t = distorted H dc A ph (INR k / INR n) t) ->
  exists r, decompose_harmonic_error lstsq rows nh None 0 tol = Ok r /\ h_freq r = INR k / INR n /\
  (forall t, (t < n)%nat -> nth t (h_noise r) 0 = 0 /\ nth t (h_fundamental r) 0 = dc + A 0%nat * cos (2 * PI * (INR k / INR n) * INR t + ph 0%nat)) /\
  (forall h, (h < H)%nat -> nth h (h_magnitudes r) 0 = 2 * A h /\ (0 < A h -> same_angle (nth h (h_phases r) 0) (- (ph h - INR (S h) * ph 0%nat)))).
Proof. exact c94_auto. Qed.
Print Assumptions C94_auto.

Example C94_auto_ex :
  exists r, decompose_harmonic_error gs_lstsq [quad_record] 2 None 0 (1 / 10 ^ 9) = Ok r /\ h_freq r = 1 / 8 /\ h_magnitudes r = [2; 1] /\ h_phases r = [0; - (PI / 2)] /\ (forall t, (t < 16)%nat -> nth t (h_noise r) 0 = 0).
Proof. exact c94_auto_ex. Qed.

Theorem C94_phase_sign_refuted :
  exists signal A ph f r, (forall t, (t < length signal)%nat -> nth t signal 0 = distorted 2 0 A ph f t) /\ 0 < A 0%nat /\ 0 < A 1%nat /\
  decompose_harmonic_error gs_lstsq [signal] 2 None 0 (1 / 10 ^ 9) = Ok r /\ (forall t, (t < length signal)%nat -> nth t (h_noise r) 0 = 0) /\
  ~ same_angle (nth 1 (h_phases r) 0) (ph 1%nat - 2 * ph 0%nat) /\ nth 1 (h_magnitudes r) 0 <> A 1%nat.
Proof. exact c94_phase_sign_refuted. Qed.
Print Assumptions C94_phase_sign_refuted.

(** The default single refinement: a coherent two-harmonic record with its exact frequency supplied is
    analysed at another frequency, and is then not reproduced with the true components. *)
Theorem C95_frequency_moves_refuted :
  exists signal A ph f, is_record signal (distorted 2 0 A ph f) /\ usable f /\ independent (harm_basis (length signal) f 2) /\
  forall lstsq tol r, least_squares lstsq -> decompose_harmonic_error lstsq [signal] 2 (Some f) 1 tol = Ok r -> h_freq r <> f.
Proof. exact c95_frequency_moves_refuted. Qed.
Print Assumptions C95_frequency_moves_refuted.

(** For a record that is not constant the decibel figures are 20 log10 of the ratio to the peak-to-peak
    range: minus infinity only for a residual that is exactly zero, never for a magnitude. *)
Theorem C96_decibels :
  forall lstsq rows nh f mi tol r lo hi,
  harm_rows rows <> [] -> decompose_harmonic_error lstsq rows nh f mi tol = Ok r ->
  spans (length (hd [] (harm_rows rows))) (run_mean (harm_rows rows)) lo hi -> lo < hi ->
  (0 < rms_of (h_noise r) -> h_noise_db r = Fin (20 * (ln (2 * sqrt 2 * rms_of (h_noise r) / (hi - lo)) / ln 10))) /\
  (rms_of (h_noise r) = 0 -> h_noise_db r = NInf) /\
  (forall h, (h < Z.to_nat nh)%nat -> nth h (h_magnitudes_db r) NaN = Fin (20 * (ln (nth h (h_magnitudes r) 0 / (hi - lo) + 1 / 10 ^ 20) / ln 10))).
Proof. exact c96_decibels. Qed.
Print Assumptions C96_decibels.

(** A constant record has no range: the noise figure is NaN. *)
Theorem C96_constant :
  forall lstsq rows nh f mi tol r v,
  least_squares lstsq -> harm_rows rows <> [] -> decompose_harmonic_error lstsq rows nh f mi tol = Ok r ->
  (forall t, (t < length (hd [] (harm_rows rows)))%nat -> run_mean (harm_rows rows) t = v) -> h_noise_db r = NaN /\ h_residual_rms r = 0.
Proof. exact c96_constant. Qed.
Print Assumptions C96_constant.

(** "RMS of residual noise" is not what is returned. *)
Theorem C96_residual_rms_refuted :
  exists lstsq rows r, least_squares lstsq /\ decompose_harmonic_error lstsq rows 1 (Some (1 / 4)) 0 (1 / 10 ^ 9) = Ok r /\ h_residual_rms r <> rms_of (h_noise r).
Proof. exact c96_residual_rms_refuted. Qed.
Print Assumptions C96_residual_rms_refuted.

(** Its noise figure: 20 log10 (sqrt 2 / 2). *)
Example C96_decibels_ex :
  exists r, decompose_harmonic_error gs_lstsq [[1; 0; 0; 0]] 1 (Some (1 / 4)) 0 (1 / 10 ^ 9) = Ok r /\ h_residual_rms r = sqrt 2 / 2 /\ h_noise_db r = Fin (20 * (ln (sqrt 2 / 2) / ln 10)).
Proof. exact c96_decibels_ex. Qed.

Example C93_optimal_ex :
  exists r, decompose_harmonic_error gs_lstsq [[1; 0; 0; 0]] 1 (Some (1 / 4)) 0 (1 / 10 ^ 9) = Ok r /\ h_noise r = [1 / 4; - (1 / 4); 1 / 4; - (1 / 4)].
Proof. exact c93_optimal_ex. Qed.

(** Two runs are averaged first: their mean is the impulse. *)
Example C36_adds_up_ex :
  exists r, decompose_harmonic_error gs_lstsq [[2; 1; 0; -1]; [0; -1; 0; 1]] 1 (Some (1 / 4)) 0 (1 / 10 ^ 9) = Ok r /\ nth 0 (h_fundamental r) 0 + nth 0 (h_harmonic r) 0 + nth 0 (h_noise r) 0 = 1 /\ h_phases r = [0].
Proof. exact c36_adds_up_ex. Qed.

(** A pure sine keeps its frequency for any number of refinements; without refinement any record does. *)
Theorem C95_pure_sine :
  forall lstsq rows nh f mi tol A ph off r,
  least_squares lstsq -> harm_rows rows <> [] -> usable f -> 0 < A -> (5 <= length (hd [] (harm_rows rows)))%nat -> (0 <= mi)%Z -> 0 < tol ->
  (forall t, (t < length (hd [] (harm_rows rows)))%nat -> run_mean (harm_rows rows) t = sine A f ph off t) ->
  decompose_harmonic_error lstsq rows nh (Some f) mi tol = Ok r -> h_freq r = f.
Proof. exact c95_pure_sine. Qed.
Print Assumptions C95_pure_sine.

Theorem C95_no_refinement :
  forall lstsq rows nh f tol r,
  decompose_harmonic_error lstsq rows nh (Some f) 0 tol = Ok r -> h_freq r = f.
Proof. exact c95_no_refinement. Qed.
Print Assumptions C95_no_refinement.
