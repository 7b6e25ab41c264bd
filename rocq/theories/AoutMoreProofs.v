(** * Further theorems about sine fitting and the error analyses built on it. *)
From Verif Require Import Base BaseLemmas Cplx SpecModel SpecLemmas DoutProofs FreqProofs CalModel CalSpec CalProofs CalExLemmas CalExProofs TiModel TiToneProofs FitModel FitSpec FitProofs AcfModel AcfSpec AcfProofs RearModel RearSpec RearProofs HarmModel HarmSpec HarmProofs.
From Coq Require Import Psatz.
Local Open Scope R_scope.

(** ** C84 *)
(** Magnitude of bin k of the record, the mean removed (bin 0 counts as empty). *)
Definition bin_magnitude (y : list R) (k : nat) : R := if (k =? 0)%nat then 0 else Cmod (rdft (length y) (fun i => nth i y 0) k).
(** The estimate is the centroid of the largest of the bins below n // 2 and the larger of its two
    neighbours (the lower one on a tie); a largest bin at either end of the range is taken alone. *)
Lemma c84_centroid y : (2 <= length y)%nat ->
  let n := length y in let m := bin_magnitude y in
  exists k, (k < n / 2)%nat /\ (forall j, (j < n / 2)%nat -> m j <= m k) /\ (forall j, (j < k)%nat -> m j < m k) /\
  ((0 < k < n / 2 - 1)%nat -> forall q, (q = (k + 1)%nat /\ m (k - 1)%nat < m (k + 1)%nat) \/ (q = (k - 1)%nat /\ m (k + 1)%nat <= m (k - 1)%nat) ->
     estimate_frequency_fft y = Ok ((m k * INR k + m q * INR q) / (m k + m q) / INR n)) /\
  (~ (0 < k < n / 2 - 1)%nat -> estimate_frequency_fft y = Ok (INR k / INR n)).
Proof.
  intros L n m. unfold estimate_frequency_fft, raise_if. fold n. assert (N2 : (1 <= n / 2)%nat) by (apply Nat.div_le_lower_bound; unfold n; lia).
  destruct (Nat.eqb_spec (n / 2) 0); [lia |]. cbv zeta. fold m.
  set (spec := map _ _). assert (SP : forall i, (i < n / 2)%nat -> nth i spec 0 = m i).
  { intros i I. unfold spec. rewrite (nth_map_in _ _ _ 0%nat) by (rewrite seq_length; exact I). rewrite seq_nth by exact I. reflexivity. }
  assert (LS : length spec = (n / 2)%nat) by (unfold spec; rewrite map_length, seq_length; reflexivity). rewrite LS.
  destruct (argmax_spec spec) as (A1 & A2 & A3); [intros E; rewrite E in LS; cbn [length] in LS; lia |]. rewrite LS in *. set (k := argmax spec) in *.
  assert (MP : forall i, 0 <= m i) by (intros i; unfold m, bin_magnitude; destruct (_ =? 0)%nat; [lra | apply Cmod_nonneg]).
  exists k. split; [exact A1 |]. split; [intros j J; rewrite <- !SP by lia; apply A2; lia |]. split; [intros j J; rewrite <- !SP by lia; apply A3; exact J |]. split.
  - intros (K0 & K1) q Q. destruct (Nat.ltb_spec 0 k); [| lia]. destruct (Nat.ltb_spec k (n / 2 - 1)); [| lia]. cbn [andb]. rewrite !SP by lia.
    assert (KP : 0 < m k). { rewrite <- SP by lia. eapply Rle_lt_trans; [| apply (A3 0%nat); lia]. rewrite SP by lia. apply MP. }
    do 2 f_equal. destruct Q as [(-> & C) | (-> & C)].
    + destruct (Rltb_spec (m (k - 1)%nat) (m (k + 1)%nat)); [| lra]. rewrite plus_INR. cbn [INR]. pose proof (MP (k + 1)%nat). field. lra.
    + destruct (Rltb_spec (m (k - 1)%nat) (m (k + 1)%nat)); [lra |]. rewrite minus_INR by lia. cbn [INR]. pose proof (MP (k - 1)%nat). field. lra.
  - intros NI. destruct (Nat.ltb_spec 0 k); destruct (Nat.ltb_spec k (n / 2 - 1)); cbn [andb]; try reflexivity. lia.
Qed.

(** ** C85 *)
(** The refined frequency is the old one plus the step, kept between 1e-10 and 1/2 - 1e-10; the step is
    what convergence is judged by. *)
Lemma c85_update lstsq y tol s : let s' := refine_once lstsq y tol s in
  s_iter s' = S (s_iter s) /\ (usable (s_freq s + s_last s') -> s_freq s' = s_freq s + s_last s') /\
  (s_freq s + s_last s' < 1 / 10 ^ 10 -> s_freq s' = 1 / 10 ^ 10) /\ (1 / 2 - 1 / 10 ^ 10 < s_freq s + s_last s' -> s_freq s' = 1 / 2 - 1 / 10 ^ 10) /\
  (Rabs (s_last s') < tol -> s_conv s' = true) /\ (tol <= Rabs (s_last s') -> s_conv s' = s_conv s).
Proof.
  unfold refine_once, rclip, usable. cbn [s_iter s_freq s_last s_conv]. set (d := lstsq _ _ _ / _). set (x := s_freq s + d).
  assert (B : 1 / 10 ^ 10 <= 1 / 2 - 1 / 10 ^ 10) by lra.
  split; [reflexivity |]. split; [intros (X1 & X2); rewrite Rmax_left, Rmin_left by lra; reflexivity |].
  split; [intros X; rewrite Rmax_right, Rmin_left by lra; reflexivity |]. split; [intros X; rewrite Rmax_left, Rmin_right by lra; reflexivity |].
  split; intros X; destruct (Rltb_spec (Rabs d) tol); try lra; reflexivity.
Qed.
Lemma sq_error_derivative (y : nat -> R) (g : R -> nat -> R) (g' : nat -> R) n :
  (forall t, derivable_pt_lim (fun h => g h t) 0 (g' t)) ->
  derivable_pt_lim (fun h => rsum n (fun t => (y t - g h t) ^ 2)) 0 (rsum n (fun t => - 2 * ((y t - g 0 t) * g' t))).
Proof.
  intros D. induction n as [| n IH]; cbn [rsum]; [apply derivable_pt_lim_const |].
  apply (derivable_pt_lim_plus (fun h => rsum n (fun t => (y t - g h t) ^ 2)) (fun h => (y n - g h n) ^ 2)); [exact IH |].
  assert (Q : derivable_pt_lim (fun h => y n - g h n) 0 (0 - g' n)) by (apply (derivable_pt_lim_minus (fun _ => y n) (fun h => g h n)); [apply derivable_pt_lim_const | apply D]).
  pose proof (derivable_pt_lim_mult (fun h => y n - g h n) (fun h => y n - g h n) 0 _ _ Q Q) as M.
  replace (- 2 * ((y n - g 0 n) * g' n)) with ((0 - g' n) * (y n - g 0 n) + (y n - g 0 n) * (0 - g' n)) by ring.
  eapply derivable_pt_lim_ext; [| exact M]. intros h. unfold mult_fct. ring.
Qed.
Lemma derivable_affine c d x : derivable_pt_lim (fun h => c + h * d) x d.
Proof.
  intros eps P. exists (mkposreal 1 Rlt_0_1). intros h H _. replace ((c + (x + h) * d - (c + x * d)) / h - d) with 0 by (field; exact H). rewrite Rabs_R0. exact P.
Qed.
(** A state that a refinement leaves alone is a stationary point of the squared error: its derivative
    vanishes in every direction of cosine part, sine part, offset and angular frequency. *)
Lemma c85_stationary lstsq y tol s : least_squares lstsq -> let s' := refine_once lstsq y tol s in
  s_a s' = s_a s -> s_b s' = s_b s -> s_c s' = s_c s -> s_last s' = 0 ->
  forall da db dc dw, derivable_pt_lim (fun h => sq_error y (fun t => (s_a s + h * da) * cos ((2 * PI * s_freq s + h * dw) * INR t) + (s_b s + h * db) * sin ((2 * PI * s_freq s + h * dw) * INR t) + (s_c s + h * dc))) 0 0.
Proof.
  intros L s' EA EB EC EL da db dc dw.
  set (w := 2 * PI * s_freq s) in *. set (a := s_a s) in *. set (b := s_b s) in *. set (c := s_c s) in *.
  set (X := design4 (length y) (s_freq s) a b). set (co := lstsq X (fun i => nth i y 0)).
  pose proof PI_RGT_0 as PP. change (co 0%nat = a) in EA. change (co 1%nat = b) in EB. change (co 2%nat = c) in EC. change (co 3%nat / (2 * PI) = 0) in EL.
  assert (E3 : co 3%nat = 0). { apply (Rmult_eq_reg_r (/ (2 * PI))); [rewrite Rmult_0_l; exact EL | apply Rinv_neq_0_compat; lra]. }
  assert (MN : minimises X (fun i => nth i y 0) co) by (intros z; apply L).
  assert (NE : forall j, (j < 4)%nat -> rsum (length y) (fun t => (nth t y 0 - (a * cos (w * INR t) + b * sin (w * INR t) + c)) * m_at X t j) = 0).
  { intros j J. etransitivity; [| exact (normal_equations X (fun i => nth i y 0) co j MN J)]. change (m_n X) with (length y). change (m_m X) with 4%nat. apply rsum_ext. intros t T. f_equal. f_equal. rewrite rsum4.
    rewrite EA, EB, EC, E3. unfold X, design4, of_cols. cbn [m_at nth]. fold w. ring. }
  pose proof (NE 0%nat ltac:(lia)) as N0. pose proof (NE 1%nat ltac:(lia)) as N1. pose proof (NE 2%nat ltac:(lia)) as N2. pose proof (NE 3%nat ltac:(lia)) as N3. clear NE.
  unfold X, design4, of_cols in N0, N1, N2, N3. cbn [m_at nth] in N0, N1, N2, N3. fold w in N0, N1, N2, N3.
  set (g := fun h t => (a + h * da) * cos ((w + h * dw) * INR t) + (b + h * db) * sin ((w + h * dw) * INR t) + (c + h * dc)).
  set (g' := fun t => da * cos (w * INR t) + db * sin (w * INR t) + dc + dw * (INR t * (- a * sin (w * INR t) + b * cos (w * INR t)))).
  assert (D : forall t, derivable_pt_lim (fun h => g h t) 0 (g' t)).
  { intros t. set (k := INR t).
    assert (IN : derivable_pt_lim (fun h => (w + h * dw) * k) 0 (dw * k)).
    { eapply (derivable_pt_lim_ext (fun h => w * k + h * (dw * k))); [intros h; ring | apply derivable_affine]. }
    assert (C : derivable_pt_lim (fun h => cos ((w + h * dw) * k)) 0 (- sin ((w + 0 * dw) * k) * (dw * k))) by (apply (derivable_pt_lim_comp (fun h => (w + h * dw) * k) cos); [exact IN | apply derivable_pt_lim_cos]).
    assert (S : derivable_pt_lim (fun h => sin ((w + h * dw) * k)) 0 (cos ((w + 0 * dw) * k) * (dw * k))) by (apply (derivable_pt_lim_comp (fun h => (w + h * dw) * k) sin); [exact IN | apply derivable_pt_lim_sin]).
    pose proof (derivable_pt_lim_mult (fun h => a + h * da) _ 0 _ _ (derivable_affine a da 0) C) as DC. pose proof (derivable_pt_lim_mult (fun h => b + h * db) _ 0 _ _ (derivable_affine b db 0) S) as DS.
    pose proof (derivable_pt_lim_plus _ _ 0 _ _ (derivable_pt_lim_plus _ _ 0 _ _ DC DS) (derivable_affine c dc 0)) as DD.
    replace (g' t) with (da * cos ((w + 0 * dw) * k) + (a + 0 * da) * (- sin ((w + 0 * dw) * k) * (dw * k)) + (db * sin ((w + 0 * dw) * k) + (b + 0 * db) * (cos ((w + 0 * dw) * k) * (dw * k))) + dc).
    2:{ unfold g'. fold k. replace ((w + 0 * dw) * k) with (w * k) by ring. ring. }
    eapply derivable_pt_lim_ext; [| exact DD]. intros h. reflexivity. }
  pose proof (sq_error_derivative (fun t => nth t y 0) g g' (length y) D) as Q. unfold sq_error.
  enough (Z0 : rsum (length y) (fun t => -2 * ((nth t y 0 - g 0 t) * g' t)) = 0) by exact (eq_ind _ (fun v => derivable_pt_lim _ 0 v) Q _ Z0).
  rewrite rsum_scale. rewrite (rsum_ext _ _ (fun t => da * ((nth t y 0 - (a * cos (w * INR t) + b * sin (w * INR t) + c)) * cos (w * INR t)) + db * ((nth t y 0 - (a * cos (w * INR t) + b * sin (w * INR t) + c)) * sin (w * INR t))
     + dc * ((nth t y 0 - (a * cos (w * INR t) + b * sin (w * INR t) + c)) * 1) + dw * ((nth t y 0 - (a * cos (w * INR t) + b * sin (w * INR t) + c)) * (INR t * (- a * sin (w * INR t) + b * cos (w * INR t)))))).
  2:{ intros t T. unfold g, g'. replace ((w + 0 * dw) * INR t) with (w * INR t) by ring. ring. }
  rewrite !rsum_plus, !rsum_scale, N0, N1, N2, N3. ring.
Qed.

(** The exact parameters of a sampled sine are such a state. *)
Lemma c85_stationary_ex : let s' := refine_once gs_lstsq quarter_record (1 / 10 ^ 9) (mkFs (1 / 4) 2 0 1 false 0 0) in s_a s' = 2 /\ s_b s' = 0 /\ s_c s' = 1 /\ s_last s' = 0.
Proof.
  pose proof quarter_record_is as Q. replace (INR 2 / INR (length quarter_record)) with (1 / 4) in Q by (cbn; field).
  destruct (design4_exact gs_lstsq quarter_record 2 (1 / 4) 0 1 gs_least_squares ltac:(lra) ltac:(cbn; lia) ltac:(lra) Q) as (Y0 & Y1 & Y2 & Y3).
  rewrite cos_0, sin_0 in *. replace (2 * 1) with 2 in * by ring. replace (- (2) * 0) with 0 in * by ring.
  unfold refine_once. cbn [s_a s_b s_c s_last s_freq]. rewrite Y0, Y1, Y2, Y3. repeat split; unfold Rdiv; ring.
Qed.

(** ** C33 *)
(** Without normalisation the values are the average products themselves. *)
Lemma c33_unnormalised error max_lag : (0 <= max_lag < Z.of_nat (length error))%Z ->
  exists acf, error_acf error max_lag false = Ok acf /\ length acf = Z.to_nat (2 * max_lag + 1) /\
    forall lag, (- max_lag <= lag <= max_lag)%Z -> nth (Z.to_nat (lag + max_lag)) acf NaN = Fin (autocov error (Z.abs_nat lag)).
Proof.
  intros B. unfold error_acf. fold (centred error). rewrite (acf_all_ok (centred error) (fun k => Fin (autocov error (Z.abs_nat k)))).
  2:{ intros k K. apply lag_list_in in K. apply acf_at_inside. lia. }
  cbn [bind]. eexists. split; [reflexivity |]. rewrite map_length, lag_list_length. split; [reflexivity |].
  intros lag H. rewrite (nth_map_in _ _ _ 0%Z) by (rewrite lag_list_length; lia). rewrite lag_list_nth by lia. do 3 f_equal. lia.
Qed.
(** The analysis of a signal: error = signal minus fitted sine, lags -max_lag .. max_lag, and the
    autocorrelation of that error. *)
Lemma c33_analysis lstsq signal f max_lag normalize mi tol acf lags error :
  analyze_error_autocorr lstsq signal f max_lag normalize mi tol = Ok (acf, lags, error) ->
  exists fit, fit_core lstsq signal f mi tol = Ok fit /\ length error = length signal /\ (forall t, (t < length signal)%nat -> nth t error 0 = nth t signal 0 - nth t (f_fitted fit) 0) /\
  length lags = Z.to_nat (2 * max_lag + 1) /\ (forall i, (i < Z.to_nat (2 * max_lag + 1))%nat -> nth i lags 0%Z = (Z.of_nat i - max_lag)%Z) /\ error_acf error max_lag normalize = Ok acf.
Proof.
  unfold analyze_error_autocorr. destruct (fit_core lstsq signal f mi tol) as [fit |] eqn:F; [| discriminate]. cbn [bind].
  destruct (error_acf _ _ _) as [v |] eqn:E; [| discriminate]. cbn [bind]. intros H. apply Ok_inj in H. injection H as <- <- <-.
  exists fit. split; [reflexivity |]. pose proof (fitted_length _ _ _ _ _ _ F) as LF. split; [apply map2_length; congruence |].
  split; [intros t T; apply map2_nth; lia |]. split; [apply lag_list_length |]. split; [intros i I; apply lag_list_nth; exact I | exact E].
Qed.
Lemma c33_unnormalised_ex : exists acf, error_acf acf_record 2 false = Ok acf /\ nth 2 acf NaN = Fin (1 / 2).
Proof.
  destruct (c33_unnormalised acf_record 2 ltac:(cbn; lia)) as (acf & E & _ & V). exists acf. split; [exact E |]. change 2%nat with (Z.to_nat (0 + 2)). rewrite (V 0%Z ltac:(lia)). f_equal. unfold autocov. change (Z.abs_nat 0) with 0%nat. change (length acf_record) with 8%nat. cbn [Nat.sub rsum Nat.add]. rewrite !acf_record_dev. cbn. field.
Qed.

(** ** C92 *)
(** The sine behind the analysis by phase: error, phase, amplitude and offset are those of the fit, and
    the frequency reported is the one given, if one was. *)
Lemma c92_reference lstsq signal f n base mi tol r : rearrange_error_by_phase lstsq signal f n base mi tol = Ok r ->
  exists fit, fit_core lstsq signal f mi tol = Ok fit /\ p_amplitude r = f_amplitude fit /\ p_dc r = f_dc fit /\
  (forall x, f = Some x -> p_freq r = x) /\ (f = None -> p_freq r = f_frequency fit) /\
  length (p_error r) = length signal /\ length (p_phase r) = length signal /\
  forall t, (t < length signal)%nat -> nth t (p_error r) 0 = nth t signal 0 - nth t (f_fitted fit) 0 /\ nth t (p_phase r) 0 = 2 * PI * f_frequency fit * INR t + f_phase fit.
Proof.
  unfold rearrange_error_by_phase. destruct (fit_core lstsq signal f mi tol) as [fit |] eqn:F; [| discriminate]. cbn [bind]. cbv zeta.
  destruct (phase_variances _ _ _ _) as [[am pm] b0]. destruct (Z.eqb_spec n 0); [discriminate |]. cbn [raise_if]. destruct (Z.ltb_spec n 0); [discriminate |]. cbn [raise_if].
  intros HR. apply Ok_inj in HR. subst r. exists fit. cbn [p_amplitude p_dc p_freq p_error p_phase]. pose proof (fitted_length _ _ _ _ _ _ F) as LF.
  split; [reflexivity |]. split; [reflexivity |]. split; [reflexivity |]. split; [intros x ->; reflexivity |]. split; [intros ->; reflexivity |].
  split; [apply map2_length; congruence |]. split; [rewrite map_length, seq_length; reflexivity |].
  intros t T. split; [apply map2_nth; lia |]. rewrite (nth_map_in _ _ _ 0%nat) by (rewrite seq_length; exact T). rewrite seq_nth by exact T. reflexivity.
Qed.

(** ** C91 *)
(** The raw coefficient of determination is 1 - (smallest achievable squared misfit) / (total variation)
    of the squared error against am cos^2 + pm sin^2 (+ base), or 0 if the total variation is at most 1e-20. *)
Lemma c91_raw_definition lstsq signal f n base mi tol r : least_squares lstsq -> (2 <= length signal)%nat -> rearrange_error_by_phase lstsq signal f n base mi tol = Ok r ->
  let N := length signal in let q := fun t => nth t (p_error r) 0 ^ 2 in let mean := rsum N q / INR N in let tot := rsum N (fun t => (q t - mean) ^ 2) in
  let misfit := fun v => rsum N (fun t => (q t - am_pm_power v (nth t (p_phase r) 0)) ^ 2) in
  exists v, (base = false -> base_of v = 0) /\ (forall w, (base = false -> base_of w = 0) -> misfit v <= misfit w) /\
  (1 / 10 ^ 20 < tot -> p_r2_raw r = 1 - misfit v / tot) /\ (tot <= 1 / 10 ^ 20 -> p_r2_raw r = 0).
Proof.
  intros L N2 E N q mean tot misfit. destruct (by_phase_inv _ _ _ _ _ _ _ _ E) as (fit & FE & _ & PE & PP & _ & _ & _ & _ & _ & _ & _ & _ & _ & RQ & _).
  assert (LP : length (p_phase r) = N) by (rewrite PP, map_length, seq_length; reflexivity).
  assert (LE : length (p_error r) = N) by (rewrite PE, map2_length; [reflexivity | symmetry; apply (fitted_length _ _ _ _ _ _ FE)]).
  set (phi := map wrap2pi (p_phase r)) in *. set (y := map (fun e => e ^ 2) (p_error r)) in *.
  assert (LY : length y = N) by (unfold y; rewrite map_length; exact LE). assert (LH : length phi = N) by (unfold phi; rewrite map_length; exact LP).
  assert (YQ : forall t, (t < N)%nat -> nth t y 0 = q t) by (intros t T; unfold y; rewrite (nth_map_in _ _ _ 0) by lia; reflexivity).
  assert (CS : forall t, (t < N)%nat -> cos (nth t phi 0) = cos (nth t (p_phase r) 0) /\ sin (nth t phi 0) = sin (nth t (p_phase r) 0)).
  { intros t T. unfold phi. rewrite (nth_map_in _ _ _ 0) by lia. apply wrap2pi_cos. }
  unfold fit_error_phase in RQ. rewrite LY in RQ. destruct (Nat.ltb_spec N 2); [unfold N in *; lia |]. cbn [snd] in RQ. set (X := phase_design base phi) in *. set (co := lstsq X (fun i => nth i y 0)) in *.
  assert (MX : forall z t, (t < N)%nat -> mv X z t = am_pm_power (z 0%nat, z 1%nat, if base then z 2%nat else 0) (nth t (p_phase r) 0)).
  { intros z t T. destruct (CS t T) as (C1 & C2). unfold mv, X, phase_design, of_cols, am_pm_power. destruct base; cbn [length app m_m m_at rsum nth]; rewrite C1, C2; ring. }
  assert (MF : forall z, misfit (z 0%nat, z 1%nat, if base then z 2%nat else 0) = rsum (m_n X) (fun i => (rsum (m_m X) (fun j => m_at X i j * z j) - nth i y 0) ^ 2)).
  { intros z. unfold misfit. replace (m_n X) with N by (unfold X, phase_design, of_cols; cbn [m_n]; congruence). apply rsum_ext. intros t T. rewrite <- (MX z t T), YQ by exact T. unfold mv. ring. }
  exists (co 0%nat, co 1%nat, if base then co 2%nat else 0). split; [intros ->; reflexivity |]. split.
  { intros [[wa wp] wb] W. set (z := fun j => match j with 0%nat => wa | 1%nat => wp | _ => wb end).
    assert (Q : misfit (co 0%nat, co 1%nat, if base then co 2%nat else 0) <= misfit (z 0%nat, z 1%nat, if base then z 2%nat else 0)) by (rewrite !MF; apply L).
    replace (wa, wp, wb) with (z 0%nat, z 1%nat, if base then z 2%nat else 0); [exact Q |]. unfold z. destruct base; [reflexivity |]. pose proof (W eq_refl) as W0; unfold base_of in W0; cbn [snd] in W0; rewrite W0; reflexivity. }
  assert (LM : lmean y = mean). { rewrite lmean_rsum, LY. unfold mean. f_equal. apply rsum_ext. exact YQ. }
  assert (TT : lsum (map (fun a => (a - lmean y) ^ 2) y) = tot). { rewrite (lsum_map_rsum _ _ 0), LY, LM. apply rsum_ext. intros t T. rewrite YQ by exact T. reflexivity. }
  unfold r_squared in RQ. rewrite TT in RQ.
  assert (RR : lsum (map2 (fun a b => (a - b) ^ 2) y (map (mv X co) (seq 0 N))) = misfit (co 0%nat, co 1%nat, if base then co 2%nat else 0)).
  { rewrite lsum_map2_rsum by (rewrite map_length, seq_length; congruence). rewrite LY. apply rsum_ext. intros t T. rewrite (nth_map_in _ _ _ 0%nat) by (rewrite seq_length; exact T). rewrite seq_nth by exact T. rewrite MX, YQ by exact T. reflexivity. }
  rewrite RR in RQ. split; intros G; rewrite RQ; destruct (Rltb_spec (1 / 10 ^ 20) tot); try lra; reflexivity.
Qed.

(** ** C93 *)
(** For any record, the reconstruction is an offset plus harmonics whose amplitudes are half the reported
    magnitudes; the fundamental output is the offset plus the first; the reported phases are the
    harmonics' phases relative to the fundamental, sign reversed. *)
Lemma c93_components lstsq rows nh f mi tol r : decompose_harmonic_error lstsq rows nh f mi tol = Ok r ->
  let n := length (hd [] (harm_rows rows)) in let A := fun h => nth h (h_magnitudes r) 0 / 2 in
  exists dc ph, (forall t, (t < n)%nat -> nth t (h_reconstructed r) 0 = distorted (Z.to_nat nh) dc A ph (h_freq r) t /\
     nth t (h_fundamental r) 0 = dc + A 0%nat * cos (2 * PI * h_freq r * INR t + ph 0%nat)) /\
  forall h, (h < Z.to_nat nh)%nat -> same_angle (nth h (h_phases r) 0) (- (ph h - INR (S h) * ph 0%nat)).
Proof.
  intros E n A. destruct (harm_inv _ _ _ _ _ _ _ E) as (fit & _ & NH & _ & FR & _ & _ & _ & _ & V & MG & PH & _). cbv zeta in V, MG, PH.
  assert (LA : length (dec_avg rows) = n) by (unfold dec_avg, harm_average; rewrite map_length, seq_length; reflexivity). rewrite LA in *. set (H := Z.to_nat nh) in *.
  set (W := lstsq _ _) in *. set (m := lmean (dec_avg rows)) in *. set (fr := f_frequency fit) in *.
  assert (AH : forall h, (h < H)%nat -> A h = Cmod (W (2 * h + 1)%nat, W (2 * h + 2)%nat)).
  { intros h Hh. unfold A. rewrite MG, (nth_map_in _ _ _ 0%nat) by (rewrite seq_length; exact Hh). rewrite seq_nth by exact Hh. cbn [Nat.add]. field. }
  assert (TR : forall a b x, a * cos x + b * sin x = Cmod (a, b) * cos (x + - Carg (a, b))).
  { intros a b x. pose proof (polar (a, b)) as P. pose proof (f_equal fst P) as P1. pose proof (f_equal snd P) as P2. unfold Cscale, cis, Re, Im in P1, P2. cbn [fst snd] in P1, P2.
    rewrite cos_plus, cos_neg, sin_neg. set (m0 := Cmod (a, b)) in *. set (g := Carg (a, b)) in *. clearbody m0 g. rewrite P1, P2. ring. }
  exists (W 0%nat + m), (fun h => - Carg (W (2 * h + 1)%nat, W (2 * h + 2)%nat)). split.
  - intros t T. destruct (V t T) as (V1 & _ & V3 & _). rewrite V1, V3, FR, basis_mv. split.
    + unfold distorted. replace (rsum H (fun h => A h * _)) with (rsum H (fun h => W (2 * h + 1)%nat * cos (INR (S h) * (2 * PI * fr * INR t)) + W (2 * h + 2)%nat * sin (INR (S h) * (2 * PI * fr * INR t)))); [ring |].
      apply rsum_ext. intros h Hh. rewrite AH by exact Hh. apply TR.
    + rewrite AH by lia. cbn [Nat.mul Nat.add]. rewrite <- TR. ring.
  - intros h Hh. rewrite PH, (nth_map_in _ _ _ 0%nat) by (rewrite seq_length; exact Hh). rewrite seq_nth by exact Hh. cbn [Nat.add Nat.mul].
    match goal with |- same_angle (wrap_phase ?x) _ => destruct (wrap_phase_turns x) as (k & ->) end. exists k. replace (h + 1)%nat with (S h) by lia. replace (h + (h + 0))%nat with (2 * h)%nat by lia. ring.
Qed.
(** For the impulse record [1; 0; 0; 0] the single harmonic has amplitude 1/2 around the offset 1/4. *)
Lemma c93_components_ex : exists r, decompose_harmonic_error gs_lstsq [[1; 0; 0; 0]] 1 (Some (1 / 4)) 0 (1 / 10 ^ 9) = Ok r /\ nth 0 (h_reconstructed r) 0 = 3 / 4 /\ nth 2 (h_reconstructed r) 0 = - (1 / 4).
Proof.
  destruct impulse_harm as (r & E & N). exists r. split; [exact E |]. assert (NE : harm_rows [[1; 0; 0; 0]] <> []) by (cbn; discriminate).
  destruct (c36_adds_up _ _ _ _ _ _ _ E NE) as (_ & _ & _ & _ & S & _). destruct (S 0%nat ltac:(cbn; lia)) as (A0 & B0). destruct (S 2%nat ltac:(cbn; lia)) as (A2 & B2).
  rewrite N in A0, A2. unfold run_mean in A0, A2. cbn in A0, A2. rewrite B0, B2. split; lra.
Qed.
