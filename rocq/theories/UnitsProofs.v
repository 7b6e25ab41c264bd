From Verif Require Import Base BaseLemmas UnitsModel UnitsSpec.
From Coq Require Import Psatz.
Local Open Scope R_scope.

Ltac rltb := repeat match goal with |- context [Rltb ?a ?b] => destruct (Rltb_spec a b); cbn; try lra end.

Lemma ln10_pos : 0 < ln 10.
Proof. rewrite <- ln_1. apply ln_increasing; lra. Qed.
Lemma pow10_pos x : 0 < pow10 x.
Proof. unfold pow10, Rpower. apply exp_pos. Qed.
Lemma lg_pow10 x : lg (pow10 x) = x.
Proof. unfold lg, pow10, Rpower. rewrite ln_exp. pose proof ln10_pos. field. lra. Qed.
Lemma pow10_lg x : 0 < x -> pow10 (lg x) = x.
Proof.
  intros Hx. unfold lg, pow10, Rpower. pose proof ln10_pos.
  replace (ln x / ln 10 * ln 10) with (ln x) by (field; lra). apply exp_ln, Hx.
Qed.
Lemma pow10_plus x y : pow10 (x + y) = pow10 x * pow10 y.
Proof. apply Rpower_plus. Qed.
Lemma lg_mult x y : 0 < x -> 0 < y -> lg (x * y) = lg x + lg y.
Proof. intros. unfold lg. rewrite ln_mult by assumption. pose proof ln10_pos. field. lra. Qed.
Lemma lg_inv x : 0 < x -> lg (/ x) = - lg x.
Proof. intros. unfold lg. rewrite ln_Rinv by assumption. pose proof ln10_pos. field. lra. Qed.
Lemma lg_div x y : 0 < x -> 0 < y -> lg (x / y) = lg x - lg y.
Proof. intros. unfold Rdiv. rewrite lg_mult by (try apply Rinv_0_lt_compat; assumption). rewrite lg_inv by assumption. lra. Qed.
Lemma lg_lt x y : 0 < x -> x < y -> lg x < lg y.
Proof.
  intros Hx Hy. unfold lg, Rdiv. apply Rmult_lt_compat_r; [apply Rinv_0_lt_compat, ln10_pos|].
  apply ln_increasing; assumption.
Qed.
Lemma pow10_lt x y : x < y -> pow10 x < pow10 y.
Proof. intros H. unfold pow10. apply Rpower_lt; lra. Qed.
Lemma lg_sqr x : 0 < x -> lg (x ^ 2) = 2 * lg x.
Proof. intros. replace (x ^ 2) with (x * x) by ring. rewrite lg_mult by assumption. lra. Qed.
Lemma xlog10_pos x : 0 < x -> xlog10 x = Fin (lg x).
Proof. intros H. unfold xlog10. destruct (Rltb_spec 0 x); [reflexivity|lra]. Qed.
Lemma lg_10 : lg 10 = 1.
Proof. unfold lg. pose proof ln10_pos. field. lra. Qed.
Lemma lg_1 : lg 1 = 0.
Proof. unfold lg. rewrite ln_1. pose proof ln10_pos. field. lra. Qed.

(** ** C13 *)
Lemma round_he_IZR k : round_he (IZR k) = k.
Proof. apply Znearest_imp. rewrite Rminus_diag_eq by reflexivity. rewrite Rabs_R0. lra. Qed.

Lemma c13_bin_roundtrip (k n : Z) fs : fs <> 0 -> n <> 0%Z ->
  exists f, bin_to_freq (IZR k) fs n = Ok f /\ freq_to_bin f fs n = Ok k.
Proof.
  intros Hfs Hn. unfold bin_to_freq, freq_to_bin. destruct (Z.eqb_spec n 0); [contradiction|].
  eexists; split; [reflexivity|]. destruct (Reqb_spec fs 0); [contradiction|]. f_equal.
  assert (IZR n <> 0) by (apply not_0_IZR; assumption).
  replace (IZR k * fs / IZR n * IZR n / fs) with (IZR k) by (field; auto). apply round_he_IZR.
Qed.

(** The nearest bin: no bin centre is closer, and the error is at most half a bin. *)
Lemma c13_nearest_bin f fs n : 0 < fs -> (0 < n)%Z ->
  exists k, freq_to_bin f fs n = Ok k /\
    exists fk, bin_to_freq (IZR k) fs n = Ok fk /\ Rabs (f - fk) <= fs / IZR n / 2.
Proof.
  intros Hfs Hn. unfold freq_to_bin, bin_to_freq. destruct (Reqb_spec fs 0); [lra|].
  destruct (Z.eqb_spec n 0); [lia|]. eexists; split; [reflexivity|]. eexists; split; [reflexivity|].
  assert (Hn' : 0 < IZR n) by (apply IZR_lt, Hn). set (x := f * IZR n / fs).
  replace f with (x * (fs / IZR n)) by (unfold x; field; lra).
  replace (IZR (round_he x) * fs / IZR n) with (IZR (round_he x) * (fs / IZR n)) by (field; lra).
  rewrite <- Rmult_minus_distr_r, Rabs_mult, (Rabs_pos_eq (fs / IZR n)) by (apply Rdiv_le_0_compat; lra).
  assert (Hh : Rabs (x - IZR (round_he x)) <= / 2) by apply Znearest_half.
  assert (0 <= fs / IZR n) by (apply Rdiv_le_0_compat; lra). nra.
Qed.

Lemma c13_lsb_volts lsb volts vref n : 0 < vref ->
  volts_to_lsb (lsb_to_volts lsb vref n) vref n = Ok lsb /\
  (exists c, volts_to_lsb volts vref n = Ok c /\ lsb_to_volts c vref n = volts).
Proof.
  intros Hv. assert (P : 0 < powerRZ 2 n) by (apply powerRZ_lt; lra).
  assert (D : 0 < vref / powerRZ 2 n) by (apply Rdiv_lt_0_compat; lra).
  unfold volts_to_lsb, lsb_to_volts. destruct (Reqb_spec (vref / powerRZ 2 n) 0); [lra|].
  split; [f_equal; field; lra|]. eexists; split; [reflexivity|]. field. lra.
Qed.

Lemma c13_enob x y :
  snr_to_enob (enob_to_snr x) = x /\ enob_to_snr (snr_to_enob x) = x /\
  (x < y -> snr_to_enob x < snr_to_enob y /\ enob_to_snr x < enob_to_snr y).
Proof. unfold snr_to_enob, enob_to_snr. repeat split; try field; lra. Qed.

(** ** C14 *)
Lemma c14_inverse x : 
  mag_to_db (db_to_mag x) = Fin x /\ power_to_db (db_to_power x) = Fin x /\
  (0 < x -> exists d, mag_to_db x = Fin d /\ db_to_mag d = x) /\
  (0 < x -> exists d, power_to_db x = Fin d /\ db_to_power d = x).
Proof.
  unfold mag_to_db, db_to_mag, power_to_db, db_to_power. rewrite !xlog10_pos by apply pow10_pos. cbn.
  rewrite !lg_pow10. split; [f_equal; field|]. split; [f_equal; field|].
  split; intros Hx; rewrite xlog10_pos by exact Hx; eexists; (split; [reflexivity|]).
  - replace ((0 + 20 * lg x) / 20) with (lg x) by field. apply pow10_lg, Hx.
  - replace ((0 + 10 * lg x) / 10) with (lg x) by field. apply pow10_lg, Hx.
Qed.

Lemma c14_monotone x y : x < y ->
  db_to_mag x < db_to_mag y /\ db_to_power x < db_to_power y /\
  (0 < x -> finite_lt (mag_to_db x) (mag_to_db y) /\ finite_lt (power_to_db x) (power_to_db y)).
Proof.
  intros H. unfold db_to_mag, db_to_power, mag_to_db, power_to_db.
  split; [apply pow10_lt; lra|]. split; [apply pow10_lt; lra|]. intros Hx.
  rewrite !xlog10_pos by lra. pose proof (lg_lt x y Hx H). cbn.
  split; eexists; eexists; (split; [reflexivity|split; [reflexivity|lra]]).
Qed.

Lemma c14_products x y : 
  db_to_mag (x + y) = db_to_mag x * db_to_mag y /\ db_to_power (x + y) = db_to_power x * db_to_power y /\
  db_to_power x = db_to_mag x ^ 2 /\
  (0 < x -> 0 < y -> exists a b, mag_to_db x = Fin a /\ mag_to_db y = Fin b /\ mag_to_db (x * y) = Fin (a + b)).
Proof.
  unfold db_to_mag, db_to_power, mag_to_db.
  split; [rewrite <- pow10_plus; f_equal; field|]. split; [rewrite <- pow10_plus; f_equal; field|].
  split; [simpl; rewrite Rmult_1_r, <- pow10_plus; f_equal; field|].
  intros Hx Hy. rewrite !xlog10_pos by (try assumption; nra). cbn. do 2 eexists. repeat split. f_equal.
  rewrite lg_mult by assumption. lra.
Qed.

Lemma c14_dbm d v z mw : 0 < z ->
  (exists u, dbm_to_vrms d z = Fin u /\ 0 < u /\ vrms_to_dbm u z = Ok (Fin d)) /\
  (0 < v -> exists e, vrms_to_dbm v z = Ok (Fin e) /\ dbm_to_vrms e z = Fin v) /\
  mw_to_dbm (dbm_to_mw d) = Fin d /\
  (0 < mw -> exists e, mw_to_dbm mw = Fin e /\ dbm_to_mw e = mw).
Proof.
  intros Hz. split; [|split; [|split]].
  - unfold dbm_to_vrms, xsqrt, vrms_to_dbm. pose proof (pow10_pos (d / 10)) as P. fold (db_to_power d) in P.
    assert (Q : 0 < db_to_power d / 1000 * z) by (apply Rmult_lt_0_compat; lra).
    destruct (Rltb_spec (db_to_power d / 1000 * z) 0); [lra|].
    eexists; split; [reflexivity|]. split; [apply sqrt_lt_R0, Q|].
    destruct (Reqb_spec z 0); [lra|]. f_equal.
    simpl. rewrite Rmult_1_r, sqrt_sqrt by lra.
    replace (db_to_power d / 1000 * z / z * 1000) with (db_to_power d) by (field; lra).
    apply c14_inverse.
  - intros Hv. unfold vrms_to_dbm. destruct (Reqb_spec z 0); [lra|].
    assert (P : 0 < v ^ 2 / z * 1000) by (apply Rmult_lt_0_compat; [apply Rdiv_lt_0_compat; [apply pow_lt, Hv|lra]|lra]).
    destruct (proj2 (proj2 (proj2 (c14_inverse _))) P) as [e [E1 E2]].
    exists e. rewrite E1. split; [reflexivity|]. unfold dbm_to_vrms, xsqrt. rewrite E2.
    replace (v ^ 2 / z * 1000 / 1000 * z) with (v ^ 2) by (field; lra).
    destruct (Rltb_spec (v ^ 2) 0); [nra|]. f_equal. apply sqrt_lem_1; nra.
  - apply c14_inverse.
  - intros H. apply c14_inverse, H.
Qed.

(** Outside the positive reals the conversions return -inf or nan, never a number. *)
Lemma c14_domain x : x <= 0 ->
  (forall r, mag_to_db x <> Fin r) /\ (forall r, power_to_db x <> Fin r).
Proof.
  intros H. unfold mag_to_db, power_to_db, xlog10. destruct (Rltb_spec 0 x); [lra|].
  split; intros r; destruct (Reqb x 0); cbn; try discriminate; destruct (Rltb _ _); discriminate.
Qed.

(** ** C15 *)
Lemma c15_agree snr nsd fs sig osr :
  units_snr_to_nsd snr fs sig osr = snr_to_nsd snr fs osr sig /\
  units_nsd_to_snr nsd fs sig osr = nsd_to_snr nsd fs osr sig.
Proof.
  assert (P1 := pow10_pos (sig / 10)). assert (P2 := pow10_pos (snr / 10)). assert (P3 := pow10_pos (nsd / 10)).
  unfold units_snr_to_nsd, snr_to_nsd, units_nsd_to_snr, nsd_to_snr.
  destruct (Reqb_spec osr 0); [split; reflexivity|]. set (bw := fs / (2 * osr)).  clearbody bw.
  unfold xlog10_quot, xlog10. 
  destruct (Reqb_spec bw 0) as [Z|Z].
  - rewrite Z. destruct (Rltb_spec 0 0); [lra|]. destruct (Reqb_spec 0 0); [|lra].
    destruct (Reqb_spec (pow10 (nsd / 10) * 0) 0); [|lra]. cbn.
    split; rltb; reflexivity.
  - destruct (Rltb_spec 0 bw) as [B|B].
    + assert (Q1 : 0 < pow10 (sig / 10) / pow10 (snr / 10) / bw).
      { repeat apply Rdiv_lt_0_compat; assumption. }
      assert (Q2 : 0 < pow10 (nsd / 10) * bw) by (apply Rmult_lt_0_compat; assumption).
      assert (Q3 : 0 < pow10 (sig / 10) / (pow10 (nsd / 10) * bw)) by (apply Rdiv_lt_0_compat; assumption).
      destruct (Rltb_spec 0 (pow10 (sig / 10) / pow10 (snr / 10) / bw)); [|lra].
      destruct (Reqb_spec (pow10 (nsd / 10) * bw) 0); [lra|].
      destruct (Rltb_spec 0 (pow10 (sig / 10) / (pow10 (nsd / 10) * bw))); [|lra].
      cbn. repeat match goal with |- context [ln ?a / ln 10] => change (ln a / ln 10) with (lg a) end.
      rewrite !lg_div, lg_mult, !lg_pow10 by (try assumption; apply Rdiv_lt_0_compat; assumption).
      split; repeat apply f_equal; field.
    + assert (N : bw < 0) by lra.
      assert (Q1 : pow10 (sig / 10) / pow10 (snr / 10) / bw < 0).
      { unfold Rdiv at 1. pose proof (Rinv_lt_0_compat bw N).
        assert (0 < pow10 (sig / 10) / pow10 (snr / 10)) by (apply Rdiv_lt_0_compat; assumption). nra. }
      assert (Q2 : pow10 (nsd / 10) * bw < 0) by nra.
      assert (Q3 : pow10 (sig / 10) / (pow10 (nsd / 10) * bw) < 0).
      { unfold Rdiv at 1. pose proof (Rinv_lt_0_compat _ Q2). nra. }
      destruct (Rltb_spec 0 (pow10 (sig / 10) / pow10 (snr / 10) / bw)); [lra|].
      destruct (Reqb_spec (pow10 (sig / 10) / pow10 (snr / 10) / bw) 0); [lra|].
      destruct (Reqb_spec (pow10 (nsd / 10) * bw) 0); [lra|].
      destruct (Rltb_spec 0 (pow10 (sig / 10) / (pow10 (nsd / 10) * bw))); [lra|].
      destruct (Reqb_spec (pow10 (sig / 10) / (pow10 (nsd / 10) * bw)) 0); [lra|].
      split; reflexivity.
Qed.

Lemma c15_value_and_inverse snr fs sig osr : 0 < fs -> 0 < osr ->
  snr_to_nsd snr fs osr sig = Ok (Fin (sig - snr - 10 * lg (fs / (2 * osr)))) /\
  (forall nsd, snr_to_nsd snr fs osr sig = Ok (Fin nsd) -> nsd_to_snr nsd fs osr sig = Ok (Fin snr)) /\
  (forall nsd x, nsd_to_snr nsd fs osr sig = Ok (Fin x) -> snr_to_nsd x fs osr sig = Ok (Fin nsd)).
Proof.
  intros Hf Ho. assert (B : 0 < fs / (2 * osr)) by (apply Rdiv_lt_0_compat; lra).
  assert (E1 : forall s, snr_to_nsd s fs osr sig = Ok (Fin (sig - s - 10 * lg (fs / (2 * osr))))).
  { intros s. rewrite <- (proj1 (c15_agree s 0 fs sig osr)). unfold units_snr_to_nsd.
    destruct (Reqb_spec osr 0); [lra|]. rewrite xlog10_pos by exact B. cbn. repeat apply f_equal. lra. }
  assert (E2 : forall d, nsd_to_snr d fs osr sig = Ok (Fin (sig - d - 10 * lg (fs / (2 * osr))))).
  { intros d. rewrite <- (proj2 (c15_agree 0 d fs sig osr)). unfold units_nsd_to_snr.
    destruct (Reqb_spec osr 0); [lra|]. rewrite xlog10_pos by exact B. cbn. repeat apply f_equal. lra. }
  split; [apply E1|]. split.
  - intros nsd. rewrite E1, E2. intros H. injection H as <-. repeat apply f_equal. lra.
  - intros nsd x. rewrite E1, E2. intros H. injection H as <-. repeat apply f_equal. lra.
Qed.

Lemma c15_osr_doubling snr fs sig osr a b : 0 < fs -> 0 < osr ->
  snr_to_nsd snr fs osr sig = Ok (Fin a) -> snr_to_nsd snr fs (2 * osr) sig = Ok (Fin b) ->
  b - a = 10 * lg 2.
Proof.
  intros Hf Ho. rewrite (proj1 (c15_value_and_inverse snr fs sig osr Hf Ho)).
  rewrite (proj1 (c15_value_and_inverse snr fs sig (2 * osr) Hf ltac:(lra))).
  intros H1 H2. injection H1 as <-. injection H2 as <-.
  replace (fs / (2 * (2 * osr))) with (fs / (2 * osr) / 2) by (field; lra).
  rewrite (lg_div (fs / (2 * osr)) 2); [lra|apply Rdiv_lt_0_compat; lra|lra].
Qed.

(** The two modules take (signal level, osr) in opposite positional order, so the same
    positional call gives different answers. *)
Lemma c15_positional_order_refuted :
  exists snr fs x y, 0 < fs /\ 0 < x /\ 0 < y /\
    units_snr_to_nsd snr fs x y <> snr_to_nsd snr fs x y.
Proof.
  exists 0, 2, 1, 10. repeat (split; [lra|]).
  rewrite (proj1 (c15_agree 0 0 2 1 10)).
  rewrite (proj1 (c15_value_and_inverse 0 2 1 10 ltac:(lra) ltac:(lra))).
  rewrite (proj1 (c15_value_and_inverse 0 2 10 1 ltac:(lra) ltac:(lra))).
  intros H. injection H as H.
  replace (2 / (2 * 10)) with (/ 10) in H by lra. replace (2 / (2 * 1)) with 1 in H by lra.
  rewrite lg_inv, lg_10, lg_1 in H by lra. lra.
Qed.

(** ** C16 *)
Lemma c16_infinite_iff sig noise osr :
  0 <= noise -> (fst (fst (amplitudes_to_snr sig noise osr)) = PInf <-> noise = 0).
Proof.
  intros Hn. unfold amplitudes_to_snr. cbn [fst]. destruct (Reqb_spec noise 0) as [E|E].
  - split; [intros _; exact E|intros _]. cbn. destruct (Rltb_spec 0 20); [|lra].
    destruct (Rltb 1 osr); [|reflexivity]. cbn. destruct (Rltb_spec 0 1); [reflexivity|lra].
  - split; [|contradiction]. unfold xlog10.
    destruct (Rltb 0 (sig / sqrt 2 / noise)), (Reqb (sig / sqrt 2 / noise) 0), (Rltb 1 osr); cbn;
      rltb; discriminate.
Qed.

Lemma sqrt2_pos : 0 < sqrt 2.
Proof. apply sqrt_lt_R0. lra. Qed.

Lemma amp_eval sig noise osr : 0 < sig -> 0 < noise ->
  fst (fst (amplitudes_to_snr sig noise osr)) =
    Fin (20 * lg (sig / sqrt 2 / noise) + (if Rlt_dec 1 osr then 10 * lg osr else 0)).
Proof.
  intros Hs Hn. unfold amplitudes_to_snr. cbn [fst]. destruct (Reqb_spec noise 0); [lra|].
  pose proof sqrt2_pos. rewrite xlog10_pos by (repeat apply Rdiv_lt_0_compat; assumption).
  unfold Rltb. destruct (Rlt_dec 1 osr); cbn; f_equal; unfold lg; lra.
Qed.

(** For positive amplitudes: 10 log10 of signal power over noise power, plus the
    oversampling gain; the returned powers are A^2/2 and sigma^2. *)
Lemma c16_value sig noise osr : 0 < sig -> 0 < noise ->
  exists ps pn,
    amplitudes_to_snr sig noise osr =
      (Fin (10 * lg (ps / pn) + (if Rlt_dec 1 osr then 10 * lg osr else 0)), ps, pn) /\
    ps = sig ^ 2 / 2 /\ pn = noise ^ 2.
Proof.
  intros Hs Hn. exists (sig ^ 2 / 2), (noise ^ 2). split; [|split; reflexivity].
  pose proof (amp_eval sig noise osr Hs Hn) as E. pose proof sqrt2_pos as S2.
  assert (Q : 0 < sig / sqrt 2 / noise) by (repeat apply Rdiv_lt_0_compat; assumption).
  assert (E2 : (sig / sqrt 2) ^ 2 = sig ^ 2 / 2).
  { unfold Rdiv. rewrite Rpow_mult_distr. f_equal. rewrite pow_inv. f_equal. simpl. rewrite Rmult_1_r. apply sqrt_sqrt. lra. }
  assert (EL : 20 * lg (sig / sqrt 2 / noise) = 10 * lg (sig ^ 2 / 2 / noise ^ 2)).
  { rewrite <- E2. replace ((sig / sqrt 2) ^ 2 / noise ^ 2) with ((sig / sqrt 2 / noise) ^ 2) by (field; split; lra).
    rewrite lg_sqr by exact Q. lra. }
  destruct (amplitudes_to_snr sig noise osr) as [[a b] c] eqn:EA. cbn [fst] in E. subst a. rewrite EL.
  unfold amplitudes_to_snr in EA.
  assert (Eb := f_equal (fun p => snd (fst p)) EA). assert (Ec := f_equal snd EA). cbn [fst snd] in Eb, Ec.
  rewrite <- Eb, <- Ec, E2. reflexivity.
Qed.

Lemma c16_scale_and_monotone sig noise noise' osr k : 0 < sig -> 0 < noise -> 0 < k ->
  fst (fst (amplitudes_to_snr (k * sig) (k * noise) osr)) = fst (fst (amplitudes_to_snr sig noise osr)) /\
  (noise < noise' -> finite_lt (fst (fst (amplitudes_to_snr sig noise' osr))) (fst (fst (amplitudes_to_snr sig noise osr)))).
Proof.
  intros Hs Hn Hk. pose proof sqrt2_pos as S2. split.
  - rewrite !amp_eval by (try assumption; nra). do 3 f_equal. f_equal. field. split; lra.
  - intros Hnn. rewrite !amp_eval by (try assumption; lra). eexists; eexists; split; [reflexivity|]. split; [reflexivity|].
    apply Rplus_lt_compat_r, Rmult_lt_compat_l; [lra|]. apply lg_lt; [repeat apply Rdiv_lt_0_compat; lra|].
    unfold Rdiv at 1 3. apply Rmult_lt_compat_l; [apply Rdiv_lt_0_compat; lra|]. apply Rinv_lt_contravar; nra.
Qed.

Lemma c16_osr sig noise osr1 osr2 : 0 < sig -> 0 < noise -> 1 < osr1 -> osr1 < osr2 ->
  exists a b, fst (fst (amplitudes_to_snr sig noise osr1)) = Fin a /\
              fst (fst (amplitudes_to_snr sig noise osr2)) = Fin b /\ b - a = 10 * lg (osr2 / osr1).
Proof.
  intros. rewrite !amp_eval by assumption. do 2 eexists. split; [reflexivity|]. split; [reflexivity|].
  destruct (Rlt_dec 1 osr1), (Rlt_dec 1 osr2); try lra. rewrite (lg_div osr2 osr1) by lra. lra.
Qed.

(** ** C56: figures of merit *)
Lemma c56_walden p fs e : 0 < p -> 0 < fs ->
  0 < walden_fom p fs e /\
  (forall b, walden_fom p fs (INR b) = p / (2 ^ b * fs)) /\
  walden_fom p fs (e + 1) = walden_fom p fs e / 2 /\
  (forall k, walden_fom (k * p) fs e = k * walden_fom p fs e) /\
  (forall k, 0 < k -> walden_fom (k * p) (k * fs) e = walden_fom p fs e).
Proof.
  intros Hp Hf. unfold walden_fom. assert (P : 0 < Rpower 2 e) by apply exp_pos.
  split; [apply Rdiv_lt_0_compat; [lra|nra]|]. split; [intros b; rewrite Rpower_pow by lra; reflexivity|]. split; [|split].
  - rewrite Rpower_plus, Rpower_1 by lra. field. split; lra.
  - intros k. field. split; lra.
  - intros k Hk. field. repeat split; lra.
Qed.

Lemma c56_schreier p sndr bw : 0 < p -> 0 < bw ->
  exists f, schreier_fom p sndr bw = Fin f /\ f = sndr + 10 * (lg bw - lg p) /\
    (forall k, 0 < k -> schreier_fom (k * p) sndr (k * bw) = Fin f) /\
    (forall d, schreier_fom p (sndr + d) bw = Fin (f + d)).
Proof.
  intros Hp Hb. unfold schreier_fom.
  assert (Q : 0 < bw / p) by (apply Rdiv_lt_0_compat; assumption).
  rewrite xlog10_pos by exact Q. cbn. rewrite lg_div by assumption. eexists; split; [reflexivity|]. split; [reflexivity|]. split.
  - intros k Hk. replace (k * bw / (k * p)) with (bw / p) by (field; lra). rewrite xlog10_pos by exact Q. cbn.
    rewrite lg_div by assumption. reflexivity.
  - intros d. f_equal. lra.
Qed.

Lemma c56_thermal cap v k : 0 < cap -> 0 < v -> 0 < k ->
  exists s, thermal_noise_limit cap v = Fin s /\
    thermal_noise_limit (k * cap) v = Fin (s + 10 * lg k) /\
    thermal_noise_limit cap (k * v) = Fin (s + 20 * lg k).
Proof.
  intros Hc Hv Hk. unfold thermal_noise_limit.
  set (A := 1.38e-23 * 300). assert (HA : 0 < A) by (unfold A; lra).
  set (u := 1e-12). assert (Hu : 0 < u) by (unfold u; lra). clearbody A u.
  assert (Q : 0 < v ^ 2 / 8 / (A / (cap * u))).
  { apply Rdiv_lt_0_compat; [apply Rdiv_lt_0_compat; [apply pow_lt, Hv|lra]|apply Rdiv_lt_0_compat; nra]. }
  exists (10 * lg (v ^ 2 / 8 / (A / (cap * u)))).
  assert (E1 : v ^ 2 / 8 / (A / (k * cap * u)) = v ^ 2 / 8 / (A / (cap * u)) * k) by (field; lra).
  assert (E2 : (k * v) ^ 2 / 8 / (A / (cap * u)) = v ^ 2 / 8 / (A / (cap * u)) * k ^ 2) by (field; lra).
  rewrite E1, E2. pose proof (pow_lt k 2 Hk) as K2.
  rewrite !xlog10_pos by (try assumption; apply Rmult_lt_0_compat; assumption). cbn -[pow].
  rewrite (lg_mult _ k), (lg_mult _ (k ^ 2)), lg_sqr by assumption. repeat split; f_equal; lra.
Qed.

Lemma c56_jitter f tj k : 0 < f -> 0 < tj -> 0 < k ->
  exists s, jitter_limit f tj = Fin s /\
    jitter_limit (k * f) tj = Fin (s - 20 * lg k) /\ jitter_limit f (k * tj) = Fin (s - 20 * lg k).
Proof.
  intros Hf Ht Hk. unfold jitter_limit. pose proof PI_RGT_0 as HP.
  assert (Q : 0 < 2 * PI * f * tj) by (apply Rmult_lt_0_compat; [apply Rmult_lt_0_compat; lra|assumption]).
  exists (-20 * lg (2 * PI * f * tj)).
  replace (2 * PI * (k * f) * tj) with (2 * PI * f * tj * k) by ring.
  replace (2 * PI * f * (k * tj)) with (2 * PI * f * tj * k) by ring.
  rewrite !xlog10_pos by (try assumption; apply Rmult_lt_0_compat; assumption). cbn.
  rewrite (lg_mult _ k) by assumption. repeat split; f_equal; lra.
Qed.

(** A sine of amplitude A into z ohm: power A^2/(2z), consistent with the dBm conversions. *)
Lemma c56_sine_power a z : 0 < a -> 0 < z ->
  exists p, sine_amplitude_to_power a z = Ok p /\ p = a ^ 2 / (2 * z) /\
    vrms_to_dbm (a / sqrt 2) z = Ok (mw_to_dbm (p * 1000)).
Proof.
  intros Ha Hz. unfold sine_amplitude_to_power, vrms_to_dbm, mw_to_dbm. destruct (Reqb_spec z 0); [lra|].
  eexists; split; [reflexivity|]. split; [|reflexivity].
  pose proof sqrt2_pos. assert (E2 : (a / sqrt 2) ^ 2 = a ^ 2 / 2).
  { unfold Rdiv. rewrite Rpow_mult_distr. f_equal. rewrite pow_inv. f_equal. simpl. rewrite Rmult_1_r. apply sqrt_sqrt. lra. }
  rewrite E2. field. lra.
Qed.

(** Concrete values. *)
Lemma c13_values_ex :
  lsb_to_volts 3 1 3 = 3/8 /\ freq_to_bin 2.6 8 8 = Ok 3%Z /\ snr_to_enob 61.96 = 10.
Proof.
  unfold lsb_to_volts, freq_to_bin, snr_to_enob. split; [simpl; lra|]. split; [|lra].
  destruct (Reqb_spec 8 0); [lra|]. f_equal. apply Znearest_imp.
  replace (2.6 * 8 / 8 - 3) with (-0.4) by lra. rewrite Rabs_left; lra.
Qed.
Lemma c14_values_ex : mag_to_db 10 = Fin 20 /\ db_to_power 20 = 100 /\ mag_to_db 0 = NInf.
Proof.
  unfold mag_to_db, db_to_power. rewrite xlog10_pos by lra. rewrite lg_10. split; [cbn; f_equal; lra|]. split.
  - replace (20 / 10) with (lg 10 + lg 10) by (rewrite lg_10; lra). rewrite pow10_plus, pow10_lg by lra. lra.
  - unfold xlog10. destruct (Rltb_spec 0 0); [lra|]. destruct (Reqb_spec 0 0); [|lra]. cbn.
    destruct (Rltb_spec 0 20); [reflexivity|lra].
Qed.
Lemma c15_value_ex : snr_to_nsd 80 20 1 0 = Ok (Fin (-90)).
Proof.
  rewrite (proj1 (c15_value_and_inverse 80 20 0 1 ltac:(lra) ltac:(lra))).
  replace (20 / (2 * 1)) with 10 by lra. rewrite lg_10. repeat apply f_equal. lra.
Qed.
Lemma c16_value_ex : fst (fst (amplitudes_to_snr (sqrt 2) 0.1 10)) = Fin 30.
Proof.
  rewrite amp_eval by (try apply sqrt2_pos; lra). pose proof sqrt2_pos.
  replace (sqrt 2 / sqrt 2 / 0.1) with 10.
  2:{ unfold Rdiv at 2. rewrite Rinv_r by lra. lra. }
  destruct (Rlt_dec 1 10); [|lra]. rewrite lg_10. f_equal. lra.
Qed.
