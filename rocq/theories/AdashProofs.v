(** * The dashboards of the analogue output: the final lemmas are named c159_. *)
From Verif Require Import Base BaseLemmas Cplx FreqProofs SpecModel SpecLemmas SpecProofs SineHistModel SineHistSpec SineHistProofs SiggenModel OverModel OverProofs PlotModel PlotSpec PlotProofs DoutProofs UnitsModel CalModel CalSpec CalProofs CalExLemmas CalExProofs TiModel TiToneProofs FitModel FitSpec FitProofs HarmModel HarmSpec HarmProofs AcfModel AcfSpec AcfProofs RearModel RearSpec RearProofs AoutMoreProofs EpdfModel EpdfProofs EnvModel EnvProofs PlaneModel PlaneProofs EplaneModel EplaneSpec EplaneProofs CohModel CohProofs DrawModel DrawSpec DrawProofs PanelModel PanelProofs EplotModel EplotProofs DplotModel DplotProofs DashModel DashSpec DashProofs.
From Coq Require Import Psatz.
Local Open Scope R_scope.

(** Each panel is the single analysis with its default settings.  The frequency only reaches the autocorrelation, the
    resolution only the density, and the sampling rate only the two spectra (besides turning the frequency into a relative
    one). *)
Lemma c159_panels kz cz xa argsort lstsq signal fs freq res d : generate_aout_dashboard kz cz xa argsort lstsq signal fs freq res = Ok d ->
  let tol := 1 / 10 ^ 9 in
  (freq <> None -> fs <> 0) /\ analyze_spectrum kz cz xa [signal] fs ScaleAuto Hann None 1 5 0 None true true true 3 = Ok (ad_spectrum d) /\
  analyze_polar_plot kz cz [signal] ScaleAuto 5 1 0 fs Boxcar None = Ok (ad_polar d) /\ analyze_error_by_value lstsq signal None (Some 100%Z) (1 / 100) None true 1 tol = Ok (ad_value d) /\
  analyze_error_by_phase argsort lstsq signal None 100 true true 1 tol = Ok (ad_phase d) /\ analyze_decomposition_time lstsq signal 5 5 true None 1 tol = Ok (ad_time d) /\
  analyze_decomposition_polar lstsq signal 5 true None 1 tol = Ok (ad_decomp d) /\ analyze_error_pdf lstsq signal res None None true 1 tol = Ok (ad_pdf d) /\
  (forall f, freq = Some f -> analyze_acf lstsq signal (Some (f / fs)) 50 true true 1 tol = Ok (ad_acf d)) /\ (freq = None -> analyze_acf lstsq signal None 50 true true 1 tol = Ok (ad_acf d)).
Proof.
  intros E tol. unfold generate_aout_dashboard in E. destruct (match freq with Some _ => Reqb fs 0 | None => false end) eqn:Z; [discriminate E |]. cbn [raise_if] in E. cbv zeta in E. fold tol in E.
  split. { intros NF. destruct freq as [f |]; [| congruence]. intros ->. destruct (Reqb_spec 0 0); [discriminate | congruence]. } clear Z.
  unfold spectrum_panel in E. destruct (analyze_spectrum _ _ _ _ _ _ _ _ _ _ _ _ _ _ _ _) as [p1 |]; [| discriminate E]. cbn [bind] in E.
  destruct (analyze_polar_plot _ _ _ _ _ _ _ _ _ _) as [p2 |]; [| discriminate E]. cbn [bind] in E. destruct (analyze_error_by_value _ _ _ _ _ _ _ _ _) as [p3 |]; [| discriminate E]. cbn [bind] in E.
  destruct (analyze_error_by_phase _ _ _ _ _ _ _ _ _) as [p4 |]; [| discriminate E]. cbn [bind] in E. destruct (analyze_decomposition_time _ _ _ _ _ _ _ _) as [p5 |]; [| discriminate E]. cbn [bind] in E.
  destruct (analyze_decomposition_polar _ _ _ _ _ _ _) as [p6 |]; [| discriminate E]. cbn [bind] in E. destruct (analyze_error_pdf _ _ _ _ _ _ _ _) as [p7 |]; [| discriminate E]. cbn [bind] in E.
  destruct (analyze_acf _ _ _ _ _ _ _ _) as [p8 |] eqn:E8; [| discriminate E]. cbn [bind] in E. apply Ok_inj in E. subst d. cbn [ad_spectrum ad_polar ad_value ad_phase ad_time ad_decomp ad_pdf ad_acf].
  repeat (split; [reflexivity |]). split; [intros f ->; exact E8 | intros ->; exact E8].
Qed.
Lemma c159_arguments kz cz xa argsort lstsq signal fs fs' freq freq' res res' d d' :
  generate_aout_dashboard kz cz xa argsort lstsq signal fs freq res = Ok d -> generate_aout_dashboard kz cz xa argsort lstsq signal fs' freq' res' = Ok d' ->
  ad_value d = ad_value d' /\ ad_phase d = ad_phase d' /\ ad_time d = ad_time d' /\ ad_decomp d = ad_decomp d' /\ (fs = fs' -> ad_spectrum d = ad_spectrum d' /\ ad_polar d = ad_polar d') /\ (res = res' -> ad_pdf d = ad_pdf d') /\
  (forall f f', freq = Some f -> freq' = Some f' -> f * fs' = f' * fs -> ad_acf d = ad_acf d') /\ (freq = None -> freq' = None -> ad_acf d = ad_acf d').
Proof.
  intros E E'. destruct (c159_panels _ _ _ _ _ _ _ _ _ _ E) as (F & P1 & P2 & P3 & P4 & P5 & P6 & P7 & P8 & P8'). destruct (c159_panels _ _ _ _ _ _ _ _ _ _ E') as (F' & Q1 & Q2 & Q3 & Q4 & Q5 & Q6 & Q7 & Q8 & Q8'). cbv zeta in *.
  split; [congruence |]. split; [congruence |]. split; [congruence |]. split; [congruence |]. split; [intros <-; split; congruence |]. split; [intros <-; congruence |]. split.
  - intros f f' -> -> H. specialize (P8 f eq_refl). specialize (Q8 f' eq_refl). assert (NZ : fs <> 0) by (apply F; discriminate). assert (NZ' : fs' <> 0) by (apply F'; discriminate). replace (f' / fs') with (f / fs) in Q8; [congruence |].
    apply Rmult_eq_reg_r with (fs * fs'); [| apply Rmult_integral_contrapositive_currified; assumption]. replace (f / fs * (fs * fs')) with (f * fs') by (field; exact NZ). rewrite H. field. exact NZ'.
  - intros -> ->. specialize (P8' eq_refl). specialize (Q8' eq_refl). congruence.
Qed.
(** The dashboard with twelve panels contains the one with eight. *)
Lemma c159_twelve kz cz xa argsort lstsq signal fs freq res d : generate_aout_dashboard_3x4 kz cz xa argsort lstsq signal fs freq res = Ok d ->
  let tol := 1 / 10 ^ 9 in
  generate_aout_dashboard kz cz xa argsort lstsq signal fs freq res = Ok (ad_first d) /\ analyze_error_spectrum kz cz xa lstsq signal fs None 1 tol = Ok (ad_error d) /\
  analyze_error_envelope_spectrum kz cz xa lstsq signal fs None 1 tol = Ok (ad_envelope d) /\ analyze_phase_plane signal None true 4 true = Ok (ad_plane d) /\ analyze_error_phase_plane lstsq signal 3 true UnitAuto true = Ok (ad_eplane d) /\
  snd (ad_plane d) <> None /\ snd (ad_eplane d) <> None.
Proof.
  intros E tol. unfold generate_aout_dashboard_3x4 in E. cbv zeta in E. fold tol in E. destruct (generate_aout_dashboard _ _ _ _ _ _ _ _ _) as [p |]; [| discriminate E]. cbn [bind] in E.
  destruct (analyze_error_spectrum _ _ _ _ _ _ _ _ _) as [p9 |]; [| discriminate E]. cbn [bind] in E. destruct (analyze_error_envelope_spectrum _ _ _ _ _ _ _ _ _) as [p10 |]; [| discriminate E]. cbn [bind] in E.
  destruct (analyze_phase_plane _ _ _ _ _) as [p11 |] eqn:E11; [| discriminate E]. cbn [bind] in E. destruct (analyze_error_phase_plane _ _ _ _ _ _) as [p12 |] eqn:E12; [| discriminate E]. cbn [bind] in E. apply Ok_inj in E. subst d. cbn [ad_first ad_error ad_envelope ad_plane ad_eplane].
  repeat (split; [reflexivity |]). split.
  - unfold analyze_phase_plane in E11. destruct (phase_plane _ _ _ _) as [pp |]; [| discriminate]. cbn [bind] in E11. destruct (outlier_mask _ _ _); [| discriminate]. cbn [bind] in E11. apply Ok_inj in E11. subst p11. discriminate.
  - unfold analyze_error_phase_plane in E12. destruct (error_phase_plane _ _ _ _ _); [| discriminate]. cbn [bind] in E12. apply Ok_inj in E12. subst p12. discriminate.
Qed.

(* ---------- acceptance ---------- *)
Lemma round_ge1 u : (1 <= round_he u)%Z <-> 1 / 2 < u.
Proof.
  pose proof (round_he_half u) as H. apply Rabs_le_inv in H. split; intros K.
  - apply IZR_le in K. destruct (Req_dec u (1 / 2)) as [-> | N]; [| lra]. exfalso. assert (Z0 : round_he (1 / 2) = 0%Z).
    { unfold round_he, Znearest. assert (F : Zfloor (1 / 2) = 0%Z) by (apply Zfloor_imp; cbn; lra). rewrite F. rewrite Rcompare_Eq by (cbn; lra). reflexivity. }
    rewrite Z0 in K. lra.
  - apply Z.nlt_ge. intros L. assert (IZR (round_he u) <= 0) by (apply IZR_le; lia). lra.
Qed.
Lemma round_le98 u : (round_he u <= 98)%Z <-> u <= 197 / 2.
Proof.
  pose proof (round_he_half u) as H. apply Rabs_le_inv in H. split; intros K; [apply IZR_le in K; lra |].
  assert (Z0 : round_he (197 / 2) = 98%Z).
  { unfold round_he, Znearest. assert (F : Zfloor (197 / 2) = 98%Z) by (apply Zfloor_imp; cbn; lra). rewrite F. rewrite Rcompare_Eq by (cbn; lra). reflexivity. }
  rewrite <- Z0. apply round_he_mono. exact K.
Qed.
Lemma scale_is signal lo hi : signal <> [] -> (value_scale signal lo hi <-> infer_signal_range signal None = (lo, hi)).
Proof.
  intros NE. destruct (c88_inferred signal NE) as (_ & A & B & _). cbv zeta in *.
  assert (UN : forall lo' hi', value_scale signal lo' hi' -> infer_signal_range signal None = (lo', hi')).
  { intros l h [(X & E) | (X & [(M & -> & ->) | [(M & Y & -> & ->) | (M & Y & -> & ->)]])].
    - destruct (A X) as (C & I1 & I2). destruct (infer_signal_range signal None) as [a b]. cbn [fst snd] in *. destruct (extremes_unique signal l h a b E (conj I1 (conj I2 C))) as (-> & ->). reflexivity.
    - apply B; assumption.
    - apply B; assumption.
    - apply B; assumption. }
  split; [apply UN |]. intros E. destruct (Classical_Prop.classic (exists x, In x signal /\ 2 < Rabs x)) as [X | X].
  - left. split; [exact X |]. destruct (A X) as (C & I1 & I2). rewrite E in *. exact (conj I1 (conj I2 C)).
  - right. assert (X' : forall x, In x signal -> Rabs x <= 2) by (intros x I; apply Rnot_lt_le; intros L; apply X; exists x; split; assumption). split; [exact X' |]. destruct (B X') as (B1 & B2 & B3).
    destruct (Rlt_le_dec (1 / 10) (lmean signal)) as [M | M]; [left; specialize (B1 M); split; [exact M |]; split; congruence |]. right.
    destruct (Classical_Prop.classic (exists x, In x signal /\ 6 / 10 < Rabs x)) as [Y | Y].
    + right. specialize (B3 M Y). split; [exact M |]. split; [exact Y |]. split; congruence.
    + left. assert (Y' : forall x, In x signal -> Rabs x <= 6 / 10) by (intros x I; apply Rnot_lt_le; intros L; apply Y; exists x; split; assumption). specialize (B2 M Y'). split; [exact M |]. split; [exact Y' |]. split; congruence.
Qed.
Lemma value_panel_ok signal : (2 <= length signal)%nat -> (value_inputs_ok signal None 100 (1 / 100) None <-> inner_sample signal).
Proof.
  intros L. assert (NE : signal <> []) by (intros ->; cbn in L; lia). unfold value_inputs_ok, inner_sample.
  assert (F1 : Zfloor (100 * (1 / 100)) = 1%Z) by (replace (100 * (1 / 100)) with (IZR 1) by (cbn; lra); apply Zfloor_IZR).
  destruct (infer_signal_range signal None) as [lo hi] eqn:ER. cbn [fst snd].
  assert (EQ : forall x, lo < hi -> (inner 100 (1 / 100) (value_bin 100 lo hi x) = true <-> 1 / 198 * (hi - lo) < x - lo <= 197 / 198 * (hi - lo))).
  { intros x LH. unfold inner. rewrite F1. unfold value_bin. destruct (Reqb_spec (hi - lo) 0); [lra |]. replace (IZR (100 - 1)) with 99 by reflexivity. set (u := (x - lo) * (99 / (hi - lo))).
    assert (U : u * (hi - lo) = 99 * (x - lo)) by (unfold u; field; lra). rewrite Bool.andb_true_iff, !Z.leb_le. unfold clip_bin.
    replace ((1 <= Z.of_nat (Z.to_nat (Z.min (Z.max (round_he u) 0) (100 - 1))))%Z /\ (Z.of_nat (Z.to_nat (Z.min (Z.max (round_he u) 0) (100 - 1))) <= 100 - 1 - 1)%Z) with ((1 <= Z.min (Z.max (round_he u) 0) 99)%Z /\ (Z.min (Z.max (round_he u) 0) 99 <= 98)%Z) by (rewrite Z2Nat.id by lia; reflexivity).
    assert (W : ((1 <= Z.min (Z.max (round_he u) 0) 99)%Z /\ (Z.min (Z.max (round_he u) 0) 99 <= 98)%Z) <-> ((1 <= round_he u)%Z /\ (round_he u <= 98)%Z)) by lia. rewrite W, round_ge1, round_le98.
    split; intros (H1 & H2); split; nra. }
  split.
  - intros (_ & _ & _ & LH & _ & _ & x & I & B). exists lo, hi, x. split; [apply scale_is; assumption |]. split; [exact I |]. apply EQ; assumption.
  - intros (a & b & x & VS & I & B). apply scale_is in VS; [| exact NE]. rewrite ER in VS. injection VS as <- <-. assert (LH : lo < hi) by lra.
    split; [exact NE |]. split; [lia |]. split; [lra |]. split; [exact LH |]. split; [intros _; exact L |]. split; [rewrite F1; lia |]. exists x. split; [exact I |]. apply EQ; assumption.
Qed.
Lemma refined_range lstsq y tol fit : fit_core lstsq y None 1 tol = Ok fit -> 1 / 10 ^ 10 <= f_frequency fit <= 1 / 2 - 1 / 10 ^ 10.
Proof.
  unfold fit_core. destruct (estimate_frequency_fft y) as [f |]; [| discriminate]. cbn [bind]. change (1 <? 0)%Z with false. cbv iota. change (Z.to_nat 1) with 1%nat. cbn [FitModel.refine]. intros E. apply Ok_inj in E. subst fit. cbn [f_frequency].
  assert (Q : forall b : bool, forall s : fit_state, (if b then s else s) = s) by (intros [] s; reflexivity). rewrite Q. unfold refine_once. cbn [s_freq]. unfold rclip, Rmin, Rmax.
  assert (1 / 10 ^ 10 <= 1 / 4) by lra. repeat (destruct (Rle_dec _ _)); lra.
Qed.
Lemma harm_two lstsq signal r : decompose_harmonic_error lstsq [signal] 5 None 1 (1 / 10 ^ 9) = Ok r -> (2 <= length signal)%nat /\ 1 / 10 ^ 10 <= h_freq r <= 1 / 2 - 1 / 10 ^ 10.
Proof.
  intros E. split.
  - destruct (le_lt_dec 2 (length signal)) as [L | L]; [exact L | exfalso]. destruct (c36_accepts lstsq [signal] 5 None 1 (1 / 10 ^ 9)) as (_ & N). rewrite N in E; [discriminate |]. intros (_ & _ & H). specialize (H eq_refl).
    unfold harm_rows in H. cbn [hd] in H. destruct (Nat.eqb_spec (length signal) 1); cbn [hd map length] in H; lia.
  - unfold decompose_harmonic_error in E. destruct (fit_core _ _ _ _ _) as [fit |] eqn:F; [| discriminate]. cbn [bind] in E. change (5 <=? 0)%Z with false in E. cbn [raise_if] in E. destruct (_ =? 0)%nat; [discriminate |]. cbn [raise_if] in E. apply Ok_inj in E. subst r. cbn [h_freq]. apply (refined_range _ _ _ _ F).
Qed.
Lemma flat_extremes signal lo hi : extremes signal lo hi -> (flat signal <-> lo = hi).
Proof.
  intros (I1 & I2 & C). split.
  - intros (v & H). rewrite (H _ I1), (H _ I2). reflexivity.
  - intros <-. exists lo. intros x I. specialize (C x I). cbn [fst snd] in C. lra.
Qed.
Lemma acf_panel lstsq signal f fit : fit_core lstsq signal f 1 (1 / 10 ^ 9) = Ok fit ->
  ((50 <= length signal)%nat \/ (length signal <= 2)%nat -> exists a, analyze_acf lstsq signal f 50 true true 1 (1 / 10 ^ 9) = Ok a) /\
  ((length signal < 50)%nat -> (3 <= length signal)%nat -> analyze_acf lstsq signal f 50 true true 1 (1 / 10 ^ 9) = Err ValueError).
Proof.
  intros F. unfold analyze_acf, analyze_error_autocorr. rewrite F. cbn [bind]. set (e := map2 Rminus signal (f_fitted fit)). assert (LE : length e = length signal) by (unfold e; rewrite map2_length; [reflexivity | symmetry; apply (fitted_length _ _ _ _ _ _ F)]).
  destruct (c87_lag_limit e 50 true) as (A & B). rewrite LE in A, B. split.
  - intros H. destruct A as (a & ->); [lia |]. cbn [bind]. eexists. reflexivity.
  - intros H1 H2. rewrite B by lia. reflexivity.
Qed.
(** What a record needs for the dashboard ([r] being its decomposition): a sampling rate other than 0 if a frequency is
    given, at least 50 samples (or two), a sample at an inner level, two different samples, and something left beside the
    five harmonics.  For records of even length this is exact, all others raise. *)
Lemma c159_accepts kz cz xa argsort lstsq signal fs freq res r : decompose_harmonic_error lstsq [signal] 5 None 1 (1 / 10 ^ 9) = Ok r ->
  let dash := generate_aout_dashboard kz cz xa argsort lstsq signal fs freq res in
  let good := (freq <> None -> fs <> 0) /\ ((50 <= length signal)%nat \/ (length signal <= 2)%nat) /\ inner_sample signal /\ ~ flat signal /\ 0 < rms_of (h_noise r) in
  (forall d, dash = Ok d -> good) /\ (Nat.Even (length signal) -> good -> exists d, dash = Ok d) /\ (Nat.Even (length signal) -> ~ good -> dash = Err (if match freq with Some _ => Reqb fs 0 | None => false end then ZeroDivisionError else ValueError)).
Proof.
  intros E dash good. destruct (harm_two _ _ _ E) as (L & FR). assert (NE : signal <> []) by (intros ->; cbn in L; lia). set (tol := 1 / 10 ^ 9) in *.
  pose proof (rlist_extremes signal NE) as X. set (lo := rmin_list signal) in *. set (hi := rmax_list signal) in *. pose proof (flat_extremes _ _ _ X) as FL. assert (LH : lo <= hi) by (destruct X as (I1 & _ & C); specialize (C lo I1); cbn [fst snd] in C; lra).
  assert (FIT : forall f, exists fit, fit_core lstsq signal f 1 tol = Ok fit) by (intros f; destruct (c52_failure lstsq signal f 1 tol) as [Q | (_ & _ & Q)]; [exact Q | lia]).
  pose proof (value_panel_ok signal L) as VP. destruct (c34_accepts lstsq signal None (Some 100%Z) (1 / 100) None 1 tol) as (V1 & V2). cbn [bins_of] in V1, V2.
  assert (P4 : exists p, analyze_error_by_phase argsort lstsq signal None 100 true true 1 tol = Ok p).
  { assert (RP : exists p, rearrange_error_by_phase lstsq signal None 100 true 1 tol = Ok p). { unfold rearrange_error_by_phase. destruct (FIT None) as (fit & ->). cbn [bind]. cbv zeta. destruct (phase_variances _ _ _ _) as [[am pm] b0]. change (100 =? 0)%Z with false. change (100 <? 0)%Z with false. cbn [raise_if]. eexists. reflexivity. }
    destruct RP as (p & RP). destruct (c145_accepts argsort _ _ _ _ _ _ _ _ RP) as (_ & G & _). destruct (G NE) as (g & ->). eexists. reflexivity. }
  assert (P5 : exists p, analyze_decomposition_time lstsq signal 5 5 true None 1 tol = Ok p).
  { destruct (c142_cycles lstsq signal 5 5 None 1 tol r E ltac:(lra)) as [(_ & F0 & F1) | (g & G & _)]; [exfalso | exists (r, Some g); exact G].
    assert (10 <= 5 / h_freq r). { apply Rmult_le_reg_r with (h_freq r); [exact F0 |]. unfold Rdiv. rewrite Rmult_assoc, Rinv_l by lra. lra. } lra. }
  destruct (c143_accepts lstsq signal 5 None 1 tol r lo hi E X) as (D1 & D2).
  assert (P7 : exists p, analyze_error_pdf lstsq signal res None None true 1 tol = Ok p).
  { destruct (c116_errors lstsq signal res None None 1 tol) as (_ & _ & Q). destruct Q as (Q1 & Q2 & _); [right; exact L |]. unfold analyze_error_pdf. destruct (Classical_Prop.classic (flat signal)) as [(v & Hv) | NF].
    - rewrite Q1; [eexists; reflexivity | reflexivity |]. exists v. intros t T. apply Hv. apply nth_In. exact T.
    - destruct Q2 as (q & ->); [reflexivity | | eexists; reflexivity]. assert (NQ : lo <> hi) by (intros Q; apply NF; apply FL; exact Q). destruct X as (I1 & I2 & _). apply (In_nth _ _ 0) in I1. apply (In_nth _ _ 0) in I2. destruct I1 as (t & T & ET). destruct I2 as (u & U & EU). exists t, u. rewrite ET, EU. split; [exact T |]. split; [exact U | exact NQ]. }
  destruct P4 as (p4 & P4). destruct P5 as (p5 & P5). destruct P7 as (p7 & P7).
  assert (RN : 0 <= rms_of (h_noise r)) by (unfold rms_of; apply sqrt_pos).
  split; [| split].
  - intros d Hd. pose proof (c159_panels _ _ _ _ _ _ _ _ _ _ Hd) as PP. cbv zeta in PP. fold tol in PP. destruct PP as (Z & _ & _ & Q3 & _ & _ & Q6 & _ & Q8 & Q8'). split; [exact Z |]. split; [| split; [| split]].
    + destruct (le_lt_dec 50 (length signal)) as [B | B]; [left; exact B |]. right. destruct (le_lt_dec (length signal) 2) as [B2 | B2]; [exact B2 | exfalso].
      destruct freq as [f |].
      * destruct (FIT (Some (f / fs))) as (fit & F). specialize (Q8 f eq_refl). pose proof (proj2 (acf_panel _ _ _ _ F) B B2) as A8. fold tol in A8. rewrite A8 in Q8. discriminate.
      * destruct (FIT None) as (fit & F). specialize (Q8' eq_refl). pose proof (proj2 (acf_panel _ _ _ _ F) B B2) as A8. fold tol in A8. rewrite A8 in Q8'. discriminate.
    + apply VP. apply Classical_Prop.NNPP. intros NV. unfold analyze_error_by_value in Q3. rewrite (V2 NV) in Q3. discriminate.
    + intros FF. apply FL in FF. rewrite (D2 (or_introl FF)) in Q6. discriminate.
    + destruct (Req_dec (rms_of (h_noise r)) 0) as [Q | Q]; [| lra]. rewrite (D2 (or_intror Q)) in Q6. discriminate.
  - intros EV (Z & N50 & IS & NF & RP). unfold dash, generate_aout_dashboard. assert (match freq with Some _ => Reqb fs 0 | None => false end = false) as ->.
    { destruct freq as [f |]; [| reflexivity]. destruct (Reqb_spec fs 0) as [Q | Q]; [exfalso; apply Z; [discriminate | exact Q] | reflexivity]. }
    cbn [raise_if]. cbv zeta. fold tol. destruct (panel_defined kz cz xa signal fs NE EV) as (s1 & g1 & ->). cbn [bind].
    destruct (c121_orders kz cz signal ScaleAuto 5 1 fs Boxcar NE ltac:(lra) (peak_one signal NE)) as (s2 & z2 & E2 & L2 & _). unfold analyze_polar_plot. rewrite E2. cbn [bind]. destruct (proj1 (c146_accepts s2 z2 5 None)) as (g2 & ->); [intros ->; cbn in L2; lia |]. cbn [bind].
    unfold analyze_error_by_value. destruct (V1 (proj2 VP IS)) as (q3 & ->). cbn [bind]. rewrite P4, P5. cbn [bind]. assert (LT : lo < hi) by (destruct LH as [LT | LE]; [exact LT | exfalso; apply NF; apply FL; exact LE]). destruct (D1 LT RP) as (g6 & ->). cbn [bind]. rewrite P7. cbn [bind].
    destruct (FIT (match freq with Some f => Some (f / fs) | None => None end)) as (fit & F). destruct (proj1 (acf_panel _ _ _ _ F) N50) as (a & A). fold tol in A. rewrite A. cbn [bind]. eexists. reflexivity.
  - intros EV NG. unfold dash, generate_aout_dashboard. destruct (match freq with Some _ => Reqb fs 0 | None => false end) eqn:ZE; [reflexivity |].
    cbn [raise_if]. cbv zeta. fold tol. destruct (panel_defined kz cz xa signal fs NE EV) as (s1 & g1 & ->). cbn [bind].
    destruct (c121_orders kz cz signal ScaleAuto 5 1 fs Boxcar NE ltac:(lra) (peak_one signal NE)) as (s2 & z2 & E2 & L2 & _). unfold analyze_polar_plot. rewrite E2. cbn [bind]. destruct (proj1 (c146_accepts s2 z2 5 None)) as (g2 & ->); [intros ->; cbn in L2; lia |]. cbn [bind].
    unfold analyze_error_by_value. destruct (Classical_Prop.classic (inner_sample signal)) as [IS | IS].
    2:{ rewrite V2; [reflexivity |]. intros Q. apply IS. apply VP. exact Q. }
    destruct (V1 (proj2 VP IS)) as (q3 & ->). cbn [bind]. rewrite P4, P5. cbn [bind].
    destruct (Classical_Prop.classic (flat signal)) as [FF | NF]; [rewrite D2 by (left; apply FL; exact FF); reflexivity |].
    destruct (Req_dec (rms_of (h_noise r)) 0) as [Q | Q]; [rewrite D2 by (right; exact Q); reflexivity |].
    assert (LT : lo < hi) by (destruct LH as [LT | LE]; [exact LT | exfalso; apply NF; apply FL; exact LE]). destruct (D1 LT ltac:(lra)) as (g6 & ->). cbn [bind]. rewrite P7. cbn [bind].
    destruct (FIT (match freq with Some f => Some (f / fs) | None => None end)) as (fit & F). pose proof (proj2 (acf_panel _ _ _ _ F)) as A. fold tol in A. destruct (le_lt_dec 50 (length signal)) as [B | B]; [| destruct (le_lt_dec (length signal) 2) as [B2 | B2]].
    + exfalso. apply NG. split; [intros NF'; destruct freq as [f |]; [| congruence]; intros ->; destruct (Reqb_spec 0 0); [discriminate | congruence] |]. split; [left; exact B |]. split; [exact IS |]. split; [exact NF | lra].
    + exfalso. apply NG. split; [intros NF'; destruct freq as [f |]; [| congruence]; intros ->; destruct (Reqb_spec 0 0); [discriminate | congruence] |]. split; [right; exact B2 |]. split; [exact IS |]. split; [exact NF | lra].
    + rewrite (A B B2). reflexivity.
Qed.
(* ---------- sums of sinusoids with a long pause ---------- *)
Definition trig (K : nat) (w a b : nat -> R) (z : Z) : R := rsum K (fun i => a i * cos (w i * IZR z) + b i * sin (w i * IZR z)).
Lemma trig_step K w a b c z : trig K w a b (z + 1) - 2 * cos c * trig K w a b z + trig K w a b (z - 1) = trig K w (fun i => (2 * cos (w i) - 2 * cos c) * a i) (fun i => (2 * cos (w i) - 2 * cos c) * b i) z.
Proof.
  unfold trig. induction K as [| K IH]; [cbn; ring |]. cbn [rsum]. rewrite <- IH. rewrite plus_IZR, minus_IZR. replace (w K * (IZR z + 1)) with (w K * IZR z + w K) by ring. replace (w K * (IZR z - 1)) with (w K * IZR z - w K) by ring. rewrite cos_plus, cos_minus, sin_plus, sin_minus. ring.
Qed.
Lemma trig_pause K : forall w a b s, (forall z, (s <= z < s + 2 * Z.of_nat K)%Z -> trig K w a b z = 0) -> forall z, trig K w a b z = 0.
Proof.
  induction K as [| K IH]; [reflexivity |]. intros w a b s H.
  assert (ST : forall z, trig (S K) w a b (z + 1) - 2 * cos (w K) * trig (S K) w a b z + trig (S K) w a b (z - 1) = 0).
  { assert (LK : forall z, trig K w (fun i => (2 * cos (w i) - 2 * cos (w K)) * a i) (fun i => (2 * cos (w i) - 2 * cos (w K)) * b i) z = 0).
    { apply (IH _ _ _ (s + 1)%Z). intros z Hz. assert (Q : trig (S K) w a b (z + 1) - 2 * cos (w K) * trig (S K) w a b z + trig (S K) w a b (z - 1) = 0) by (rewrite !H by lia; ring). rewrite trig_step in Q. unfold trig in *. cbn [rsum] in Q. rewrite <- Q at 1. ring. }
    intros z. rewrite trig_step. unfold trig in *. cbn [rsum]. rewrite (LK z). ring. }
  assert (UP : forall n : nat, trig (S K) w a b (s + Z.of_nat n) = 0 /\ trig (S K) w a b (s + Z.of_nat n + 1) = 0).
  { induction n as [| n (I1 & I2)]; [split; apply H; lia |]. rewrite Nat2Z.inj_succ. replace (s + Z.succ (Z.of_nat n))%Z with (s + Z.of_nat n + 1)%Z by lia. split; [exact I2 |]. specialize (ST (s + Z.of_nat n + 1)%Z). replace (s + Z.of_nat n + 1 - 1)%Z with (s + Z.of_nat n)%Z in ST by lia. rewrite I1, I2 in ST. lra. }
  assert (DN : forall n : nat, trig (S K) w a b (s - Z.of_nat n) = 0 /\ trig (S K) w a b (s - Z.of_nat n + 1) = 0).
  { induction n as [| n (I1 & I2)]; [split; apply H; lia |]. rewrite Nat2Z.inj_succ. replace (s - Z.succ (Z.of_nat n) + 1)%Z with (s - Z.of_nat n)%Z by lia. split; [| exact I1]. specialize (ST (s - Z.of_nat n)%Z). replace (s - Z.succ (Z.of_nat n))%Z with (s - Z.of_nat n - 1)%Z by lia. rewrite I1, I2 in ST. lra. }
  intros z. destruct (Z.le_gt_cases s z) as [G | G]; [destruct (UP (Z.to_nat (z - s))) as (Q & _) | destruct (DN (Z.to_nat (s - z))) as (Q & _)]; rewrite Z2Nat.id in Q by lia; [replace (s + (z - s))%Z with z in Q by lia | replace (s - (s - z))%Z with z in Q by lia]; exact Q.
Qed.
Lemma rms_zero l : rms_of l = 0 -> forall t, (t < length l)%nat -> nth t l 0 = 0.
Proof.
  intros H t T. unfold rms_of in H. assert (P : 0 < INR (length l)) by (apply lt_0_INR; lia). assert (NN : 0 <= rsum (length l) (fun t => nth t l 0 ^ 2)) by (apply rsum_nonneg; intros; nra).
  apply sqrt_eq_0 in H; [| apply Rmult_le_pos; [exact NN | left; apply Rinv_0_lt_compat; exact P]]. assert (S0 : rsum (length l) (fun t => nth t l 0 ^ 2) = 0) by (apply Rmult_eq_reg_r with (/ INR (length l)); [rewrite Rmult_0_l; exact H | apply Rinv_neq_0_compat; lra]).
  pose proof (rsum_term_le (length l) (fun t => nth t l 0 ^ 2) t T ltac:(intros; nra)) as Q. cbv beta in Q. rewrite S0 in Q. nra.
Qed.
Lemma single_avg (signal : list R) : (length signal <> 1)%nat -> dec_avg [signal] = signal.
Proof.
  intros N. unfold dec_avg. rewrite (proj1 c36_runs signal N). unfold harm_average. cbn [hd]. apply (nth_ext _ _ 0 0); [rewrite map_length, seq_length; reflexivity |]. intros t T. rewrite map_length, seq_length in T. rewrite map_seq_nth by exact T. unfold lmean. cbn. field.
Qed.
(** The part beside the harmonics is not zero if the record stands still for twelve samples, but not for ever. *)
Lemma c159_pause kz cz xa argsort lstsq signal fs freq res s v : Nat.Even (length signal) -> (50 <= length signal)%nat -> (freq <> None -> fs <> 0) -> inner_sample signal -> ~ flat signal ->
  (s + 12 <= length signal)%nat -> (forall t, (s <= t < s + 12)%nat -> nth t signal 0 = v) ->
  exists d, generate_aout_dashboard kz cz xa argsort lstsq signal fs freq res = Ok d.
Proof.
  intros EV N Z IS NF S12 P. destruct (proj1 (c36_accepts lstsq [signal] 5 None 1 (1 / 10 ^ 9))) as (r & E).
  { split; [lia |]. unfold harm_rows. cbn [hd]. destruct (Nat.eqb_spec (length signal) 1); [lia |]. cbn [hd]. lia. }
  apply (proj1 (proj2 (c159_accepts kz cz xa argsort lstsq signal fs freq res r E)) EV). split; [exact Z |]. split; [left; exact N |]. split; [exact IS |]. split; [exact NF |].
  destruct (Rle_lt_or_eq_dec 0 (rms_of (h_noise r))) as [G | G]; [apply sqrt_pos | exact G | exfalso]. symmetry in G. apply NF.
  destruct (harm_inv _ _ _ _ _ _ _ E) as (fit & H). cbv zeta in H. rewrite single_avg in H by lia. destruct H as (_ & _ & _ & _ & LN & _ & _ & _ & V & _).
  set (W := lstsq _ _) in V. set (dc := lmean signal) in *. set (f := f_frequency fit) in *.
  pose (w := fun i : nat => INR i * (2 * PI * f)). pose (a := fun i : nat => if (i =? 0)%nat then W 0%nat + dc - v else W (2 * i - 1)%nat). pose (b := fun i : nat => if (i =? 0)%nat then 0 else W (2 * i)%nat).
  assert (T : forall t, (t < length signal)%nat -> nth t signal 0 = v + trig 6 w a b (Z.of_nat t)).
  { intros t T. destruct (V t T) as (_ & NV & _). rewrite (rms_zero _ G t ltac:(rewrite LN; exact T)) in NV. rewrite basis_mv in NV. unfold trig. rewrite <- INR_IZR_INZ.
    change 6%nat with (1 + 5)%nat. rewrite rsum_app. change (Z.to_nat 5) with 5%nat in NV. match goal with |- context [rsum 1 ?g] => replace (rsum 1 g) with (W 0%nat + dc - v) by (cbn; unfold w; cbn [INR]; rewrite !Rmult_0_l, cos_0; ring) end.
    rewrite (rsum_ext 5 (fun i => a (1 + i)%nat * cos (w (1 + i)%nat * INR t) + b (1 + i)%nat * sin (w (1 + i)%nat * INR t)) (fun h => W (2 * h + 1)%nat * cos (INR (S h) * (2 * PI * f * INR t)) + W (2 * h + 2)%nat * sin (INR (S h) * (2 * PI * f * INR t)))); [lra |].
    intros h _. unfold a, b, w. change (1 + h =? 0)%nat with false. cbv iota. replace (2 * (1 + h) - 1)%nat with (2 * h + 1)%nat by lia. replace (2 * (1 + h))%nat with (2 * h + 2)%nat by lia. change (1 + h)%nat with (S h). rewrite !Rmult_assoc. reflexivity. }
  exists v. intros x I. apply (In_nth _ _ 0) in I. destruct I as (t & Ht & <-). rewrite (T t Ht), (trig_pause 6 w a b (Z.of_nat s)); [ring |].
  intros z Hz. assert (Q : nth (Z.to_nat z) signal 0 = v) by (apply P; lia). rewrite T in Q by lia. rewrite Z2Nat.id in Q by lia. lra.
Qed.
(** A sine with a whole number of periods in the record is refused: nothing is left beside its harmonics. *)
Lemma c159_clean kz cz xa argsort lstsq signal fs freq res k A ph off : least_squares lstsq -> (0 < k)%nat -> (k < length signal / 2)%nat -> (5 <= length signal)%nat -> INR (length signal) <= 10 ^ 10 -> 0 < A ->
  is_record signal (sine A (INR k / INR (length signal)) ph off) -> forall d, generate_aout_dashboard kz cz xa argsort lstsq signal fs freq res <> Ok d.
Proof.
  intros LS K0 K2 N5 N10 PA REC d D. destruct (proj1 (c36_accepts lstsq [signal] 5 None 1 (1 / 10 ^ 9))) as (r & E).
  { split; [lia |]. unfold harm_rows. cbn [hd]. destruct (Nat.eqb_spec (length signal) 1); [lia |]. cbn [hd]. lia. }
  destruct (proj1 (c159_accepts kz cz xa argsort lstsq signal fs freq res r E) d D) as (_ & _ & _ & _ & RP).
  destruct (harm_inv _ _ _ _ _ _ _ E) as (fit & H). cbv zeta in H. rewrite single_avg in H by lia. destruct H as (FC & _ & _ & FR & LN & _). set (zm := map (fun x => x - lmean signal) signal) in *. assert (LZ : length zm = length signal) by (unfold zm; apply map_length).
  destruct (c84_auto_fit lstsq zm k A ph (off - lmean signal) 1 (1 / 10 ^ 9) LS K0 ltac:(rewrite LZ; exact K2) ltac:(lia) ltac:(rewrite LZ; exact N10) PA ltac:(lia) ltac:(lra)) as (fit' & E' & F' & _).
  { intros t T. rewrite LZ in T |- *. unfold zm. rewrite (nth_map_in _ _ _ 0) by exact T. rewrite (REC t T). unfold sine. ring. }
  rewrite FC in E'. apply Ok_inj in E'. subst fit'. rewrite F', LZ in FR.
  assert (HR : harm_rows [signal] = [signal]) by (apply (proj1 c36_runs); lia).
  destruct (c93_optimal lstsq [signal] 5 None 1 (1 / 10 ^ 9) r LS ltac:(rewrite HR; discriminate) E) as (OP & _). rewrite HR in OP. cbn [hd] in OP. specialize (OP off (fun h => if (h =? 0)%nat then A else 0) (fun _ => ph)). rewrite FR in OP.
  assert (Z0 : rsum (length signal) (fun t => (run_mean [signal] t - distorted (Z.to_nat 5) off (fun h => if (h =? 0)%nat then A else 0) (fun _ => ph) (INR k / INR (length signal)) t) ^ 2) = 0).
  { apply rsum_zero. intros t T. assert (RM : run_mean [signal] t = nth t signal 0) by (unfold run_mean; cbn; field). rewrite RM, (REC t T). unfold distorted, sine. change (Z.to_nat 5) with 5%nat. cbn [rsum Nat.eqb]. change (INR 1) with 1. rewrite Rmult_1_l. ring. }
  cbv zeta in OP. rewrite Z0 in OP. assert (RZ : rms_of (h_noise r) = 0); [| lra]. unfold rms_of. rewrite LN. assert (NN : 0 <= rsum (length signal) (fun t => nth t (h_noise r) 0 ^ 2)) by (apply rsum_nonneg; intros; nra).
  replace (rsum (length signal) (fun t => nth t (h_noise r) 0 ^ 2)) with 0 by lra. unfold Rdiv. rewrite Rmult_0_l. apply sqrt_0.
Qed.
(** Fewer than 50 samples are never enough. *)
Lemma c159_short kz cz xa argsort lstsq signal fs freq res : least_squares lstsq -> (length signal < 50)%nat -> forall d, generate_aout_dashboard kz cz xa argsort lstsq signal fs freq res <> Ok d.
Proof.
  intros LS N d D. destruct (c159_panels _ _ _ _ _ _ _ _ _ _ D) as (_ & _ & _ & _ & _ & _ & P6 & _). cbv zeta in P6. assert (ER : exists r, decompose_harmonic_error lstsq [signal] 5 None 1 (1 / 10 ^ 9) = Ok r).
  { unfold analyze_decomposition_polar in P6. destruct (decompose_harmonic_error _ _ _ _ _ _) as [r |]; [exists r; reflexivity | discriminate]. }
  destruct ER as (r & E). destruct (harm_two _ _ _ E) as (L2 & FR). destruct (proj1 (c159_accepts kz cz xa argsort lstsq signal fs freq res r E) d D) as (_ & [B | B] & _ & _ & RP); [lia |].
  assert (L : length signal = 2%nat) by lia. assert (HR : harm_rows [signal] = [signal]) by (apply (proj1 c36_runs); lia). destruct (c36_adds_up _ _ _ _ _ _ _ E) as (LN & _); [rewrite HR; discriminate |]. rewrite HR in LN. cbn [hd] in LN.
  destruct (c93_optimal lstsq [signal] 5 None 1 (1 / 10 ^ 9) r LS ltac:(rewrite HR; discriminate) E) as (OP & _). rewrite HR in OP. cbn [hd] in OP. set (th := 2 * PI * h_freq r) in *.
  assert (C1 : cos th < 1).
  { rewrite <- cos_0. assert (T10 : 0 < 1 / 10 ^ 10) by (apply Rdiv_lt_0_compat; [lra | apply pow_lt; lra]). pose proof PI_RGT_0. apply cos_decreasing_1; unfold th; nra. }
  pose (g := (nth 0 signal 0 - nth 1 signal 0) / (1 - cos th)). specialize (OP (nth 0 signal 0 - g) (fun h => if (h =? 0)%nat then g else 0) (fun _ => 0)). cbv zeta in OP. rewrite L in OP.
  assert (Z0 : rsum 2 (fun t => (run_mean [signal] t - distorted (Z.to_nat 5) (nth 0 signal 0 - g) (fun h => if (h =? 0)%nat then g else 0) (fun _ => 0) (h_freq r) t) ^ 2) = 0).
  { apply rsum_zero. intros t T. assert (RM : run_mean [signal] t = nth t signal 0) by (unfold run_mean; cbn; field). rewrite RM. unfold distorted. change (Z.to_nat 5) with 5%nat. cbn [rsum Nat.eqb]. change (INR 1) with 1.
    assert (T' : t = 0%nat \/ t = 1%nat) by lia. destruct T' as [-> | ->]; change (INR 0) with 0; change (INR 1) with 1; fold th.
    - replace (1 * (th * 0) + 0) with 0 by ring. rewrite cos_0. ring.
    - replace (1 * (th * 1) + 0) with th by ring. unfold g. field. lra. }
  rewrite Z0 in OP. assert (RZ : rms_of (h_noise r) = 0); [| lra]. unfold rms_of. rewrite LN, L. assert (NN : 0 <= rsum 2 (fun t => nth t (h_noise r) 0 ^ 2)) by (apply rsum_nonneg; intros; nra).
  replace (rsum 2 (fun t => nth t (h_noise r) 0 ^ 2)) with 0 by lra. unfold Rdiv. rewrite Rmult_0_l. apply sqrt_0.
Qed.
Lemma count_some n P : count_of n P <> 0%nat -> exists t, (t < n)%nat /\ P t = true.
Proof.
  induction n as [| n IH]; cbn [count_of]; intros H; [lia |]. destruct (P n) eqn:E; [exists n; split; [lia | exact E] |]. destruct IH as (t & T & Q); [lia |]. exists t. split; [lia | exact Q].
Qed.
(** The larger dashboard needs, beside what the smaller one needs, a sample strictly between the 2nd and the 98th percentile. *)
Lemma c159_twelve_accepts kz cz xa argsort lstsq signal fs freq res lo hi : Nat.Even (length signal) ->
  is_percentile (length signal) (fun t => nth t signal 0) 2 lo -> is_percentile (length signal) (fun t => nth t signal 0) 98 hi ->
  let small := generate_aout_dashboard kz cz xa argsort lstsq signal fs freq res in let large := generate_aout_dashboard_3x4 kz cz xa argsort lstsq signal fs freq res in
  (forall e, small = Err e -> large = Err e) /\
  (forall d, small = Ok d -> (exists x, In x signal /\ lo < x < hi) -> exists d', large = Ok d' /\ ad_first d' = d) /\
  (forall d, small = Ok d -> ~ (exists x, In x signal /\ lo < x < hi) -> large = Err TypeError).
Proof.
  intros EV PL PH small large. pose (valid := inside (fun t => nth t signal 0) lo hi). unfold large, generate_aout_dashboard_3x4. cbv zeta. fold small. split; [intros e ->; reflexivity |].
  assert (M : forall d, small = Ok d -> exists fit, error_phase_plane lstsq signal 3 true UnitAuto = (if (count_of (length signal) valid =? 0)%nat then Err TypeError else Ok fit) /\
    bind small (fun d => bind (analyze_error_spectrum kz cz xa lstsq signal fs None 1 (1 / 10 ^ 9)) (fun p9 => bind (analyze_error_envelope_spectrum kz cz xa lstsq signal fs None 1 (1 / 10 ^ 9)) (fun p10 => bind (analyze_phase_plane signal None true 4 true) (fun p11 =>
      bind (analyze_error_phase_plane lstsq signal 3 true UnitAuto true) (fun p12 => Ok (mkAD12 d p9 p10 p11 p12)))))) = bind (analyze_error_phase_plane lstsq signal 3 true UnitAuto true) (fun p12 =>
      match analyze_error_spectrum kz cz xa lstsq signal fs None 1 (1 / 10 ^ 9), analyze_error_envelope_spectrum kz cz xa lstsq signal fs None 1 (1 / 10 ^ 9), analyze_phase_plane signal None true 4 true with Ok p9, Ok p10, Ok p11 => Ok (mkAD12 d p9 p10 p11 p12) | _, _, _ => Err ValueError end) /\
    exists p9 p10 p11, analyze_error_spectrum kz cz xa lstsq signal fs None 1 (1 / 10 ^ 9) = Ok p9 /\ analyze_error_envelope_spectrum kz cz xa lstsq signal fs None 1 (1 / 10 ^ 9) = Ok p10 /\ analyze_phase_plane signal None true 4 true = Ok p11).
  { intros d D. assert (N : (2 <= length signal)%nat).
    { destruct (c159_panels _ _ _ _ _ _ _ _ _ _ D) as (_ & _ & _ & _ & _ & _ & P6 & _). cbv zeta in P6. unfold analyze_decomposition_polar in P6. destruct (decompose_harmonic_error _ _ _ _ _ _) as [r |] eqn:E; [exact (proj1 (harm_two _ _ _ E)) | discriminate]. }
    destruct (eplane_flat lstsq signal 3 true UnitAuto N ltac:(discriminate)) as (fit & lo' & hi' & _ & _ & _ & PL' & PH' & E). cbv zeta in E. rewrite (percentile_unique _ _ _ _ _ PL' PL), (percentile_unique _ _ _ _ _ PH' PH) in E. fold valid in E.
    eexists. split; [exact E |]. pose proof (c119_errors kz cz lstsq signal fs None 1 (1 / 10 ^ 9)) as CE. destruct (Nat.eqb_spec (length signal) 0); [lia |]. destruct (Nat.ltb_spec (length signal) 2); [lia |]. cbn [orb] in CE. destruct CE as (f9 & sp & spv & env & _ & ES & EE).
    destruct (proj2 (proj2 (c156_spectra kz cz xa lstsq signal fs None 1 (1 / 10 ^ 9))) EV) as [A1 A2]. destruct (A1 _ _ ES) as (g9 & G9). destruct (A2 _ _ _ EE) as (g10 & G10).
    destruct (c113_auto signal true 4 N) as (p & k & _ & _ & _ & _ & out & PP). destruct (proj1 (c154_same signal None true 4 true) _ _ PP) as (g11 & G11 & _).
    rewrite D, G9, G10, G11. cbn [bind]. split; [reflexivity |]. do 3 eexists. split; [| split]; reflexivity. }
  assert (CI : (exists x, In x signal /\ lo < x < hi) <-> count_of (length signal) valid <> 0%nat).
  { split.
    - intros (x & I & X). apply (In_nth _ _ 0) in I. destruct I as (t & T & <-). pose proof (count_of_last (inside (fun t => nth t signal 0) lo hi) (length signal) t T) as C. assert (Q : inside (fun t => nth t signal 0) lo hi t = true) by (unfold inside; destruct (Rlt_dec lo (nth t signal 0)); [destruct (Rlt_dec (nth t signal 0) hi); [reflexivity | lra] | lra]). specialize (C Q). fold valid in C. lia.
    - intros NZ. destruct (count_some _ _ NZ) as (t & T & Q). exists (nth t signal 0). split; [apply nth_In; exact T |].
      unfold valid, inside in Q. destruct (Rlt_dec lo (nth t signal 0)); [| discriminate]. destruct (Rlt_dec (nth t signal 0) hi); [split; assumption | discriminate]. }
  split; intros d D X; destruct (M d D) as (fit & E & -> & p9 & p10 & p11 & G9 & G10 & G11); clear M.
  - apply CI in X. destruct (Nat.eqb_spec (count_of (length signal) valid) 0); [contradiction |]. destruct (c155_texts _ _ _ _ _ _ E) as (g & EG & _). rewrite EG, G9, G10, G11. cbn [bind]. eexists. split; reflexivity.
  - destruct (Nat.eqb_spec (count_of (length signal) valid) 0) as [| NZ]; [| exfalso; apply X, CI, NZ]. unfold analyze_error_phase_plane. rewrite E. reflexivity.
Qed.
(* ---------- examples ---------- *)
Definition settle : list R := 3 :: 2 :: 1 :: repeat 0 47.
Lemma settle_length : length settle = 50%nat.
Proof. unfold settle. cbn [length]. rewrite repeat_length. reflexivity. Qed.
Lemma settle_late t : (3 <= t)%nat -> nth t settle 0 = 0.
Proof. intros T. do 3 (destruct t as [| t]; [lia |]). unfold settle. cbn [nth]. apply nth_repeat. Qed.
Lemma settle_inner : inner_sample settle.
Proof.
  exists 0, 3, 1. split; [| split; [unfold settle; cbn; auto | lra]]. left. split; [exists 3; split; [left; reflexivity | rewrite Rabs_right; lra] |].
  split; [right; right; right; left; reflexivity |]. split; [left; reflexivity |]. intros x I. cbn [fst snd]. unfold settle in I. destruct I as [<- | [<- | [<- | I]]]; try lra; apply repeat_spec in I; lra.
Qed.
(** 3, 2, 1 and 47 zeros: both dashboards are drawn, whatever the least squares routine returns. *)
Lemma c159_pause_ex kz cz xa argsort lstsq : exists d d', generate_aout_dashboard kz cz xa argsort lstsq settle 1 None 12 = Ok d /\ generate_aout_dashboard_3x4 kz cz xa argsort lstsq settle 1 None 12 = Ok d' /\ ad_first d' = d.
Proof.
  destruct (c159_pause kz cz xa argsort lstsq settle 1 None 12 3 0) as (d & D).
  - rewrite settle_length. exists 25%nat. reflexivity.
  - rewrite settle_length. lia.
  - intros _. lra.
  - exact settle_inner.
  - intros (v & V). pose proof (V 3 ltac:(left; reflexivity)). pose proof (V 2 ltac:(right; left; reflexivity)). lra.
  - rewrite settle_length. lia.
  - intros t T. apply settle_late. lia.
  - assert (NE : settle <> []) by discriminate. destruct (percentile_is settle 2 NE ltac:(lra)) as (lo & _ & PL). destruct (percentile_is settle 98 NE ltac:(lra)) as (hi & _ & PH).
    destruct (proj1 (proj2 (c159_twelve_accepts kz cz xa argsort lstsq settle 1 None 12 lo hi ltac:(rewrite settle_length; exists 25%nat; reflexivity) PL PH)) d D) as (d' & D' & F); [| exists d, d'; repeat split; assumption].
    exists 1. split; [right; right; left; reflexivity |]. rewrite settle_length in PL, PH. split.
    + apply Rle_lt_trans with 0; [| lra]. apply (percentile_low _ _ _ _ 0 PL). apply Rlt_le_trans with (INR 2); [cbn; lra |]. apply le_INR.
      pose proof (count_of_last (fun t => Rleb (nth t settle 0) 0) 50 4 ltac:(lia)) as C1. pose proof (count_of_last (fun t => Rleb (nth t settle 0) 0) 4 3 ltac:(lia)) as C2. cbv beta in C1, C2. rewrite settle_late in C1 by lia. rewrite settle_late in C2 by lia. assert (Q : Rleb 0 0 = true) by (unfold Rleb; destruct (Rle_dec 0 0); [reflexivity | lra]). specialize (C1 Q). specialize (C2 Q). lia.
    + apply Rlt_le_trans with 2; [lra |]. apply (percentile_high _ _ _ _ 2 PH). apply Rlt_le_trans with (INR 2); [cbn; lra |]. apply le_INR.
      pose proof (count_of_last (fun t => Rleb 2 (nth t settle 0)) 50 1 ltac:(lia)) as C1. pose proof (count_of_last (fun t => Rleb 2 (nth t settle 0)) 1 0 ltac:(lia)) as C0'. cbv beta in C1, C0'. unfold settle in C1 at 1. unfold settle in C0' at 1. cbn [nth] in C1, C0'.
      assert (Q : Rleb 2 2 = true) by (unfold Rleb; destruct (Rle_dec 2 2); [reflexivity | lra]). assert (Q' : Rleb 2 3 = true) by (unfold Rleb; destruct (Rle_dec 2 3); [reflexivity | lra]). specialize (C1 Q). specialize (C0' Q'). lia.
Qed.
(** A record with only two values never gets the larger dashboard. *)
Lemma c159_two_level kz cz xa argsort lstsq signal fs freq res v w : (forall x, In x signal -> x = v \/ x = w) -> forall d, generate_aout_dashboard_3x4 kz cz xa argsort lstsq signal fs freq res <> Ok d.
Proof.
  intros TW d D. destruct (c159_twelve _ _ _ _ _ _ _ _ _ _ D) as (_ & _ & _ & _ & E & _). destruct (Nat.le_gt_cases (length signal) 1) as [L | L].
  - unfold analyze_error_phase_plane in E. rewrite (proj1 (c115_errors lstsq signal 3 true UnitAuto)) in E by (right; left; exact L). discriminate E.
  - unfold analyze_error_phase_plane in E. rewrite (proj1 (proj2 (c115_errors lstsq signal 3 true UnitAuto))) in E; [discriminate E | discriminate | lia | lia |]. exists v, w. intros t T. apply TW, nth_In, T.
Qed.
Lemma c159_two_level_ex kz cz xa argsort lstsq : forall d, generate_aout_dashboard_3x4 kz cz xa argsort lstsq (repeat 1 100 ++ repeat 0 100) 1 None 12 <> Ok d.
Proof.
  apply (c159_two_level _ _ _ _ _ _ _ _ _ 1 0). intros x I. apply in_app_or in I. destruct I as [I | I]; apply repeat_spec in I; auto.
Qed.
(** The sampling rate changes two panels only. *)
Lemma c159_arguments_ex kz cz xa argsort lstsq : exists d d', generate_aout_dashboard kz cz xa argsort lstsq settle 1 None 12 = Ok d /\ generate_aout_dashboard kz cz xa argsort lstsq settle 2 None 8 = Ok d' /\ ad_value d = ad_value d' /\ ad_phase d = ad_phase d' /\ ad_acf d = ad_acf d'.
Proof.
  assert (H : forall fs res, exists d, generate_aout_dashboard kz cz xa argsort lstsq settle fs None res = Ok d).
  { intros fs res. apply (c159_pause kz cz xa argsort lstsq settle fs None res 3 0).
    - rewrite settle_length. exists 25%nat. reflexivity.
    - rewrite settle_length. lia.
    - intros Q. congruence.
    - exact settle_inner.
    - intros (v & V). pose proof (V 3 ltac:(left; reflexivity)). pose proof (V 2 ltac:(right; left; reflexivity)). lra.
    - rewrite settle_length. lia.
    - intros t T. apply settle_late. lia. }
  destruct (H 1 12%Z) as (d & D). destruct (H 2 8%Z) as (d' & D'). exists d, d'. destruct (c159_arguments _ _ _ _ _ _ _ _ _ _ _ _ _ _ D D') as (A & B & _ & _ & _ & _ & _ & F). repeat split; auto.
Qed.
(** A dashboard of a full period of a sine in 64 samples is not drawn, although its samples are many, different and inside the range. *)
Lemma c159_clean_refuted : exists signal, least_squares gs_lstsq /\ length signal = 64%nat /\ is_record signal (sine 1 (INR 1 / INR 64) 0 0) /\ ~ flat signal /\
  forall kz cz xa argsort fs freq res d, generate_aout_dashboard kz cz xa argsort gs_lstsq signal fs freq res <> Ok d.
Proof.
  assert (REC : is_record (map (sine 1 (INR 1 / INR 64) 0 0) (seq 0 64)) (sine 1 (INR 1 / INR 64) 0 0)).
  { intros t T. rewrite map_length, seq_length in T. apply (map_seq_nth (sine 1 (INR 1 / INR 64) 0 0)), T. }
  exists (map (sine 1 (INR 1 / INR 64) 0 0) (seq 0 64)). set (sg := map _ _) in *. assert (L : length sg = 64%nat) by (unfold sg; rewrite map_length, seq_length; reflexivity).
  split; [exact gs_least_squares |]. split; [exact L |]. split; [exact REC |]. split.
  - intros (v & V). pose proof (V _ (nth_In sg 0 (n := 0) ltac:(lia))) as V0. pose proof (V _ (nth_In sg 0 (n := 32) ltac:(lia))) as V1. rewrite REC in V0 by lia. rewrite REC in V1 by lia. unfold sine in V0, V1.
    replace (2 * PI * (INR 1 / INR 64) * INR 0 + 0) with 0 in V0 by (cbn; field). replace (2 * PI * (INR 1 / INR 64) * INR 32 + 0) with PI in V1 by (rewrite !INR_IZR_INZ; cbn; field). rewrite cos_0 in V0. rewrite cos_PI in V1. lra.
  - intros kz cz xa argsort fs freq res. apply (c159_clean kz cz xa argsort gs_lstsq sg fs freq res 1 1 0 0 gs_least_squares); rewrite ?L; try lia; try lra.
    + apply Nat.lt_le_trans with 2%nat; [lia | cbn; lia].
    + apply (Rle_trans _ (10 ^ 2)); [rewrite INR_IZR_INZ; cbn; lra | apply Rle_pow; [lra | lia]].
    + exact REC.
Qed.
Lemma c159_short_ex kz cz xa argsort : forall d, generate_aout_dashboard kz cz xa argsort gs_lstsq (3 :: 2 :: 1 :: repeat 0 45) 1 None 12 <> Ok d.
Proof.
  apply c159_short; [exact gs_least_squares |]. cbn [length]. rewrite repeat_length. lia.
Qed.
