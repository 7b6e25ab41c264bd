(** * Error autocorrelation: the final lemmas are named c33_, c87_. *)
From Verif Require Import Base BaseLemmas SpecLemmas DoutProofs CalModel CalSpec CalProofs CalExLemmas CalExProofs TiModel TiToneProofs FitModel FitSpec FitProofs AcfModel AcfSpec.
From Coq Require Import Psatz.
Local Open Scope R_scope.

Lemma lmean_rsum l : lmean l = rsum (length l) (fun i => nth i l 0) / INR (length l).
Proof. unfold lmean. rewrite lsum_rsum. reflexivity. Qed.
Lemma skipn_nth {A} (l : list A) k i d : nth i (skipn k l) d = nth (k + i) l d.
Proof. revert l. induction k as [| k IH]; intros l; [reflexivity |]. destruct l; [cbn; destruct i; reflexivity |]. cbn. apply IH. Qed.
Lemma firstn_nth {A} (l : list A) k i d : (i < k)%nat -> nth i (firstn k l) d = nth i l d.
Proof. revert l i. induction k as [| k IH]; intros l i H; [lia |]. destruct l; [reflexivity |]. destruct i; [reflexivity |]. cbn. apply IH. lia. Qed.
Lemma centred_nth error i : (i < length error)%nat -> nth i (map (fun x => x - lmean error) error) 0 = deviation error i.
Proof. intros I. rewrite (nth_map_in _ _ _ 0) by exact I. unfold deviation. rewrite lmean_rsum. reflexivity. Qed.
Definition centred (error : list R) : list R := map (fun x => x - lmean error) error.
Lemma centred_length error : length (centred error) = length error. Proof. apply map_length. Qed.
(** value at one lag inside the record *)
Lemma acf_at_inside error lag : (Z.abs lag < Z.of_nat (length error))%Z -> acf_at (centred error) lag = Ok (Fin (autocov error (Z.abs_nat lag))).
Proof.
  intros B. set (N := length error) in *. set (k := Z.abs_nat lag). assert (KN : (k < N)%nat) by (unfold k; lia).
  unfold acf_at. rewrite centred_length. fold N.
  assert (SK : length (skipn k (centred error)) = (N - k)%nat) by (rewrite skipn_length, centred_length; reflexivity).
  assert (FI : length (firstn (N - k) (centred error)) = (N - k)%nat) by (rewrite firstn_length, centred_length; fold N; lia).
  assert (PROD : forall a b, length a = (N - k)%nat -> length b = (N - k)%nat -> (forall i, (i < N - k)%nat -> nth i a 0 * nth i b 0 = deviation error i * deviation error (i + k)) -> bind (bmul a b) (fun p => Ok (xmean p)) = Ok (Fin (autocov error k))).
  { intros a b LA LB P. unfold bmul. rewrite LA, LB, Nat.eqb_refl. cbn [bind]. unfold xmean.
    assert (LM : length (map2 Rmult a b) = (N - k)%nat) by (rewrite map2_length; congruence).
    destruct (map2 Rmult a b) as [| x r] eqn:E; [cbn in LM; lia |]. rewrite <- E in *. rewrite lmean_rsum, LM. unfold autocov. fold N. do 3 f_equal.
    apply rsum_ext. intros i I. rewrite (map2_nth Rmult a b i 0 0 0) by lia. apply P. exact I. }
  destruct (Z.leb_spec 0 lag) as [P | P].
  - destruct (Z.ltb_spec 0 lag) as [Q | Q].
    + unfold take_py, drop_py. destruct (Z.ltb_spec (Z.of_nat N - lag) 0); [lia |]. replace (Z.to_nat (Z.of_nat N - lag)) with (N - k)%nat by (unfold k; lia). replace (Z.to_nat lag) with k by (unfold k; lia).
      apply PROD; [exact FI | exact SK |]. intros i I. rewrite firstn_nth, skipn_nth by exact I. unfold centred. rewrite !centred_nth by (fold N; lia). rewrite (Nat.add_comm k i). reflexivity.
    + assert (K0 : k = 0%nat) by (unfold k; lia). rewrite K0 in *. apply PROD; [rewrite centred_length; fold N; lia | rewrite centred_length; fold N; lia |]. intros i I. unfold centred. rewrite !centred_nth by (fold N; lia). rewrite Nat.add_0_r. reflexivity.
  - unfold take_py, drop_py. rewrite centred_length. fold N. destruct (Z.ltb_spec (Z.of_nat N - - lag) 0); [lia |]. replace (Z.to_nat (Z.of_nat N - - lag)) with (N - k)%nat by (unfold k; lia). replace (Z.to_nat (- lag)) with k by (unfold k; lia).
    apply PROD; [exact SK | exact FI |]. intros i I. rewrite firstn_nth, skipn_nth by exact I. unfold centred. rewrite !centred_nth by (fold N; lia). rewrite (Nat.add_comm k i). ring.
Qed.
Lemma acf_all_ok e (g : Z -> xr) lags : (forall k, In k lags -> acf_at e k = Ok (g k)) -> acf_all e lags = Ok (map g lags).
Proof. induction lags as [| k r IH]; intros H; [reflexivity |]. cbn [acf_all map]. rewrite (H k) by (left; reflexivity). cbn [bind]. rewrite IH by (intros j J; apply H; right; exact J). reflexivity. Qed.
Lemma lag_list_length m : length (lag_list m) = Z.to_nat (2 * m + 1). Proof. unfold lag_list. rewrite map_length, seq_length. reflexivity. Qed.
Lemma lag_list_nth m i d : (i < Z.to_nat (2 * m + 1))%nat -> nth i (lag_list m) d = (Z.of_nat i - m)%Z.
Proof. intros I. unfold lag_list. rewrite (nth_map_in _ _ _ 0%nat) by (rewrite seq_length; exact I). rewrite seq_nth by exact I. reflexivity. Qed.
Lemma lag_list_in m k : In k (lag_list m) <-> (- m <= k <= m)%Z.
Proof.
  unfold lag_list. rewrite in_map_iff. split.
  - intros (i & <- & I). apply in_seq in I. lia.
  - intros H. exists (Z.to_nat (k + m)). split; [lia |]. apply in_seq. lia.
Qed.
Lemma autocov0_pos e : not_constant e -> 0 < autocov e 0.
Proof.
  intros (i & j & I & J & D). unfold autocov. rewrite Nat.sub_0_r. apply Rdiv_lt_0_compat; [| apply lt_0_INR; lia].
  assert (NN : forall k, (k < length e)%nat -> 0 <= deviation e k * deviation e (k + 0)) by (intros k _; rewrite Nat.add_0_r; apply Rle_0_sqr).
  pose proof (rsum_nonneg _ _ NN) as [P | P]; [exact P | exfalso]. symmetry in P.
  assert (Z : forall k, (k < length e)%nat -> deviation e k = 0).
  { intros k K. assert (X : deviation e k * deviation e (k + 0) = 0) by (apply (rsum_nonneg_zero (length e) (fun i => deviation e i * deviation e (i + 0))); [exact NN | lra | exact K]).
    rewrite Nat.add_0_r in X. apply Rmult_integral in X. destruct X; assumption. }
  apply D. pose proof (Z i I). pose proof (Z j J). unfold deviation in *. lra.
Qed.
(** Inside the record every value is defined, equals the average product of deviations at that
    distance divided by the one at lag zero, is 1 at lag 0 and symmetric. *)
Lemma c33_values error max_lag : (0 <= max_lag < Z.of_nat (length error))%Z -> not_constant error ->
  exists acf, error_acf error max_lag true = Ok acf /\ length acf = Z.to_nat (2 * max_lag + 1) /\
    (forall lag, (- max_lag <= lag <= max_lag)%Z -> nth (Z.to_nat (lag + max_lag)) acf NaN = Fin (autocov error (Z.abs_nat lag) / autocov error 0)) /\
    nth (Z.to_nat max_lag) acf NaN = Fin 1 /\
    (forall lag, (- max_lag <= lag <= max_lag)%Z -> nth (Z.to_nat (- lag + max_lag)) acf NaN = nth (Z.to_nat (lag + max_lag)) acf NaN).
Proof.
  intros B NC. unfold error_acf. fold (centred error). rewrite (acf_all_ok (centred error) (fun k => Fin (autocov error (Z.abs_nat k)))).
  2:{ intros k K. apply lag_list_in in K. apply acf_at_inside. lia. }
  cbn [bind]. pose proof (autocov0_pos error NC) as P.
  assert (MID : nth (Z.to_nat max_lag) (map (fun k => Fin (autocov error (Z.abs_nat k))) (lag_list max_lag)) NaN = Fin (autocov error 0)).
  { rewrite (nth_map_in _ _ _ 0%Z) by (rewrite lag_list_length; lia). rewrite lag_list_nth by lia. f_equal. f_equal. lia. }
  rewrite MID. eexists. split; [reflexivity |]. rewrite !map_length, lag_list_length. split; [reflexivity |].
  assert (V : forall lag, (- max_lag <= lag <= max_lag)%Z -> nth (Z.to_nat (lag + max_lag)) (map (fun v => xdivide v (Fin (autocov error 0))) (map (fun k => Fin (autocov error (Z.abs_nat k))) (lag_list max_lag))) NaN = Fin (autocov error (Z.abs_nat lag) / autocov error 0)).
  { intros lag H. rewrite (nth_map_in _ _ _ NaN) by (rewrite map_length, lag_list_length; lia). rewrite (nth_map_in _ _ _ 0%Z) by (rewrite lag_list_length; lia). rewrite lag_list_nth by lia.
    replace (Z.of_nat (Z.to_nat (lag + max_lag)) - max_lag)%Z with lag by lia. cbn [xdivide]. destruct (Reqb_spec (autocov error 0) 0); [lra | reflexivity]. }
  split; [exact V |]. split.
  - pose proof (V 0%Z ltac:(lia)) as V0. rewrite Z.add_0_l in V0. rewrite V0. f_equal. change (Z.abs_nat 0) with 0%nat. field. lra.
  - intros lag H. rewrite !V by lia. do 3 f_equal. lia.
Qed.
(** |sum of products| is at most the sum of squares. *)
Lemma overlap_bound n k (d : nat -> R) : (k <= n)%nat -> Rabs (rsum (n - k) (fun i => d i * d (i + k)%nat)) <= rsum n (fun i => d i * d i).
Proof.
  intros K.
  assert (H1 : rsum (n - k) (fun i => d i * d i) <= rsum n (fun i => d i * d i)).
  { replace n with ((n - k) + k)%nat at 2 by lia. rewrite rsum_app. pose proof (rsum_nonneg k (fun i => d (n - k + i)%nat * d (n - k + i)%nat) (fun i _ => Rle_0_sqr _)). lra. }
  assert (H2 : rsum (n - k) (fun i => d (i + k)%nat * d (i + k)%nat) <= rsum n (fun i => d i * d i)).
  { replace n with (k + (n - k))%nat at 2 by lia. rewrite rsum_app. pose proof (rsum_nonneg k (fun i => d i * d i) (fun i _ => Rle_0_sqr _)).
    rewrite (rsum_ext (n - k) (fun i => d (i + k)%nat * d (i + k)%nat) (fun i => d (k + i)%nat * d (k + i)%nat)) by (intros i _; rewrite (Nat.add_comm i k); reflexivity). lra. }
  assert (U : rsum (n - k) (fun i => d i * d (i + k)%nat) <= rsum (n - k) (fun i => 1 / 2 * (d i * d i) + 1 / 2 * (d (i + k)%nat * d (i + k)%nat))).
  { apply rsum_le. intros i _. pose proof (pow2_ge_0 (d i - d (i + k)%nat)). lra. }
  assert (L : - rsum (n - k) (fun i => d i * d (i + k)%nat) <= rsum (n - k) (fun i => 1 / 2 * (d i * d i) + 1 / 2 * (d (i + k)%nat * d (i + k)%nat))).
  { rewrite <- (Rmult_1_l (rsum (n - k) (fun i => d i * d (i + k)%nat))), Ropp_mult_distr_l, <- rsum_scale. apply rsum_le. intros i _. pose proof (pow2_ge_0 (d i + d (i + k)%nat)). lra. }
  rewrite rsum_plus, !rsum_scale in U, L. apply Rabs_le. lra.
Qed.
(** The magnitude is bounded by N / (N - |lag|): the conventional estimate is bounded by 1, this one
    averages over fewer samples. *)
Lemma c33_bound error max_lag lag acf : (0 <= max_lag < Z.of_nat (length error))%Z -> not_constant error -> (- max_lag <= lag <= max_lag)%Z ->
  error_acf error max_lag true = Ok acf -> exists v, nth (Z.to_nat (lag + max_lag)) acf NaN = Fin v /\
    Rabs v <= INR (length error) / (INR (length error) - IZR (Z.abs lag)) /\ v = autocov_biased error (Z.abs_nat lag) / autocov_biased error 0 * (INR (length error) / (INR (length error) - IZR (Z.abs lag))) /\
    Rabs (autocov_biased error (Z.abs_nat lag) / autocov_biased error 0) <= 1.
Proof.
  intros B NC H E. destruct (c33_values error max_lag B NC) as (acf' & E' & _ & V & _). assert (acf' = acf) by congruence. subst acf'. eexists. split; [apply V; exact H |].
  set (k := Z.abs_nat lag). assert (KN : (k < length error)%nat) by (unfold k; lia).
  assert (KR : INR (length error) - IZR (Z.abs lag) = INR (length error - k)) by (rewrite minus_INR by lia; f_equal; unfold k; rewrite INR_IZR_INZ; f_equal; lia).
  rewrite KR. assert (NP : 0 < INR (length error)) by (apply lt_0_INR; lia). assert (NK : 0 < INR (length error - k)) by (apply lt_0_INR; lia).
  pose proof (autocov0_pos error NC) as P. unfold autocov in P |- *. unfold autocov_biased. rewrite Nat.sub_0_r in *.
  set (S0 := rsum (length error) (fun i => deviation error i * deviation error (i + 0))) in *. set (Sk := rsum (length error - k) (fun i => deviation error i * deviation error (i + k))).
  assert (SP : 0 < S0). { apply (Rmult_lt_reg_r (/ INR (length error))); [apply Rinv_0_lt_compat; exact NP |]. rewrite Rmult_0_l. exact P. }
  assert (BD : Rabs Sk <= S0). { unfold Sk, S0. eapply Rle_trans; [apply (overlap_bound (length error) k (deviation error)); lia |]. apply Req_le. apply rsum_ext. intros i _. rewrite Nat.add_0_r. reflexivity. }
  assert (Q : Rabs (Sk / S0) <= 1). { unfold Rdiv. rewrite Rabs_mult, (Rabs_pos_eq (/ S0)) by (left; apply Rinv_0_lt_compat; exact SP). apply Rdiv_le_upper; lra. }
  assert (E1 : Sk / INR (length error - k) / (S0 / INR (length error)) = Sk / S0 * (INR (length error) / INR (length error - k))) by (field; repeat split; lra).
  assert (E2 : Sk / INR (length error) / (S0 / INR (length error)) = Sk / S0) by (field; repeat split; lra).
  rewrite E1, E2. split; [| split; [reflexivity | exact Q]].
  assert (FP : 0 < INR (length error) / INR (length error - k)) by (apply Rdiv_lt_0_compat; assumption).
  rewrite Rabs_mult, (Rabs_pos_eq (INR (length error) / INR (length error - k))) by lra. nra.
Qed.
(** A constant error has no normalised autocorrelation: every value is NaN. *)
Lemma c33_constant_error error max_lag acf : (0 <= max_lag < Z.of_nat (length error))%Z -> ~ not_constant error -> error_acf error max_lag true = Ok acf ->
  forall v, In v acf -> v = NaN.
Proof.
  intros B NC. unfold error_acf. fold (centred error). rewrite (acf_all_ok (centred error) (fun k => Fin (autocov error (Z.abs_nat k)))).
  2:{ intros k K. apply lag_list_in in K. apply acf_at_inside. lia. }
  cbn [bind]. intros E. apply Ok_inj in E. subst acf.
  assert (NP : 0 < INR (length error)) by (apply lt_0_INR; lia).
  assert (C : forall i, (i < length error)%nat -> nth i error 0 = nth 0 error 0).
  { intros i I. destruct (Req_dec (nth i error 0) (nth 0 error 0)) as [| D]; [assumption | exfalso]. apply NC. exists i, 0%nat. split; [exact I | split; [lia | exact D]]. }
  assert (Z : forall i, (i < length error)%nat -> deviation error i = 0).
  { intros i I. unfold deviation. rewrite (rsum_ext _ _ (fun _ => nth 0 error 0)) by (intros j J; apply C; exact J). rewrite rsum_const, (C i I). field. lra. }
  assert (A0 : forall k, autocov error k = 0). { intros k. unfold autocov. rewrite rsum_zero; [unfold Rdiv; ring |]. intros i I. rewrite (Z i) by lia. ring. }
  assert (MID : nth (Z.to_nat max_lag) (map (fun k => Fin (autocov error (Z.abs_nat k))) (lag_list max_lag)) NaN = Fin 0).
  { rewrite (nth_map_in _ _ _ 0%Z) by (rewrite lag_list_length; lia). rewrite A0. reflexivity. }
  rewrite MID. intros v V. apply in_map_iff in V. destruct V as (u & <- & U). apply in_map_iff in U. destruct U as (k & <- & _). rewrite A0. cbn [xdivide]. destruct (Reqb_spec 0 0); [reflexivity | lra].
Qed.
(** A record uncorrelated with the sine and the constant is fitted by zero. *)
Lemma orth_zero_fit lstsq y f tol : least_squares lstsq -> 0 < f < 1 / 2 -> (3 <= length y)%nat ->
  rsum (length y) (fun t => nth t y 0 * cos (2 * PI * f * INR t)) = 0 -> rsum (length y) (fun t => nth t y 0 * sin (2 * PI * f * INR t)) = 0 -> rsum (length y) (fun t => nth t y 0) = 0 ->
  exists r, fit_core lstsq y (Some f) 0 tol = Ok r /\ f_amplitude r = 0 /\ f_phase r = Carg (0, 0) /\ f_dc r = 0 /\ f_frequency r = f /\ f_residuals r = y /\ map2 Rminus y (f_fitted r) = y.
Proof.
  intros L F N C S D. unfold fit_core. cbn [bind]. cbv zeta. change (0 <? 0)%Z with false. cbv iota. change (Z.to_nat 0) with 0%nat. cbn [refine s_freq s_a s_b s_c s_conv s_iter s_last].
  set (co := lstsq (design3 (length y) f) (fun i => nth i y 0)).
  assert (MIN : minimises (design3 (length y) f) (fun i => nth i y 0) co) by (intros z; apply L). clearbody co.
  pose proof (normal_equations _ _ _ 0%nat MIN ltac:(cbn; lia)) as N0. pose proof (normal_equations _ _ _ 1%nat MIN ltac:(cbn; lia)) as N1. pose proof (normal_equations _ _ _ 2%nat MIN ltac:(cbn; lia)) as N2.
  unfold design3, of_cols in N0, N1, N2. cbn [m_n m_m m_at length nth] in N0, N1, N2.
  set (g := fun t => co 0%nat * cos (2 * PI * f * INR t) + co 1%nat * sin (2 * PI * f * INR t) + co 2%nat).
  assert (G : forall t, rsum 3 (fun k => nth k [fun t0 => cos (2 * PI * f * INR t0); fun t0 => sin (2 * PI * f * INR t0); fun _ => 1] (fun _ => 0) t * co k) = g t) by (intros t; rewrite rsum3; cbn [nth]; unfold g; ring).
  assert (X0 : rsum (length y) (fun t => g t * cos (2 * PI * f * INR t)) = 0).
  { assert (Q : rsum (length y) (fun t => nth t y 0 * cos (2 * PI * f * INR t)) - rsum (length y) (fun t => g t * cos (2 * PI * f * INR t)) = 0) by (rewrite <- rsum_minus; etransitivity; [| exact N0]; apply rsum_ext; intros t T; rewrite G; ring). lra. }
  assert (X1 : rsum (length y) (fun t => g t * sin (2 * PI * f * INR t)) = 0).
  { assert (Q : rsum (length y) (fun t => nth t y 0 * sin (2 * PI * f * INR t)) - rsum (length y) (fun t => g t * sin (2 * PI * f * INR t)) = 0) by (rewrite <- rsum_minus; etransitivity; [| exact N1]; apply rsum_ext; intros t T; rewrite G; ring). lra. }
  assert (X2 : rsum (length y) g = 0).
  { assert (Q : rsum (length y) (fun t => nth t y 0) - rsum (length y) g = 0) by (rewrite <- rsum_minus; etransitivity; [| exact N2]; apply rsum_ext; intros t T; rewrite G; ring). lra. }
  assert (SQ : rsum (length y) (fun t => g t * g t) = 0).
  { rewrite (rsum_ext _ _ (fun t => co 0%nat * (g t * cos (2 * PI * f * INR t)) + (co 1%nat * (g t * sin (2 * PI * f * INR t)) + co 2%nat * g t))) by (intros t T; unfold g at 2; ring).
    rewrite !rsum_plus, !rsum_scale, X0, X1, X2. ring. }
  assert (GZ : forall t, (t < length y)%nat -> g t = 0).
  { intros t T. assert (P : g t * g t = 0) by (apply (rsum_nonneg_zero (length y) (fun t => g t * g t)); [intros; apply Rle_0_sqr | lra | exact T]). apply Rmult_integral in P. destruct P; assumption. }
  destruct (independent3 (length y) f _ _ _ F N GZ) as (Z0 & Z1 & Z2). rewrite Z0, Z1, Z2.
  eexists. split; [reflexivity |]. cbn [f_amplitude f_phase f_dc f_frequency f_residuals f_fitted].
  split; [replace (0 ^ 2 + 0 ^ 2) with 0 by ring; apply sqrt_0 |]. split; [rewrite Ropp_0; reflexivity |]. split; [reflexivity |]. split; [reflexivity |].
  assert (Y : map2 Rminus y (map g (seq 0 (length y))) = y).
  { apply (nth_ext_eq 0). { rewrite map2_length; [reflexivity |]. rewrite map_length, seq_length. reflexivity. }
    intros i I. rewrite map2_length in I by (rewrite map_length, seq_length; reflexivity). rewrite (map2_nth Rminus _ _ i 0 0 0) by (rewrite ?map_length, ?seq_length; lia).
    rewrite (nth_map_in _ _ _ 0%nat) by (rewrite seq_length; exact I). rewrite seq_nth by exact I. cbn [Nat.add]. rewrite (GZ i I). ring. }
  split; exact Y.
Qed.
Lemma quarter_cs t : cos (2 * PI * (1 / 4) * INR t) = cos (INR t * (PI / 2)) /\ sin (2 * PI * (1 / 4) * INR t) = sin (INR t * (PI / 2)).
Proof. split; f_equal; field. Qed.
(** An error record with which the sine fit does not interfere. *)
Definition acf_record : list R := [1; 0; 0; -1; -1; 0; 0; 1].
Lemma acf_record_fit : exists r, fit_core gs_lstsq acf_record (Some (1 / 4)) 0 (1 / 10 ^ 9) = Ok r /\ map2 Rminus acf_record (f_fitted r) = acf_record.
Proof.
  destruct (orth_zero_fit gs_lstsq acf_record (1 / 4) (1 / 10 ^ 9) gs_least_squares) as (r & E & _ & _ & _ & _ & _ & Q); [lra | cbn; lia | | | | exists r; split; assumption].
  - cbn [length acf_record]. cbn [rsum nth]. rewrite !(fun t => proj1 (quarter_cs t)), !(fun t => proj1 (quarter_trig t)). unfold qcos. cbn. lra.
  - cbn [length acf_record]. cbn [rsum nth]. rewrite !(fun t => proj2 (quarter_cs t)), !(fun t => proj2 (quarter_trig t)). unfold qsin. cbn. lra.
  - cbn. lra.
Qed.
Lemma acf_record_dev i : deviation acf_record i = nth i acf_record 0.
Proof. unfold deviation. replace (rsum (length acf_record) (fun j => nth j acf_record 0)) with 0 by (cbn; lra). cbn [length acf_record INR]. unfold Rdiv. ring. Qed.
(** The normalised autocorrelation of the analysed signal can exceed 1: at lag 7 it is 2. *)
Lemma c33_at_most_one_refuted : exists signal f acf lags error lag v, analyze_error_autocorr gs_lstsq signal (Some f) 7 true 0 (1 / 10 ^ 9) = Ok (acf, lags, error) /\
  not_constant error /\ (- 7 <= lag <= 7)%Z /\ nth (Z.to_nat (lag + 7)) acf NaN = Fin v /\ 1 < Rabs v.
Proof.
  destruct acf_record_fit as (r & E & Q). exists acf_record, (1 / 4).
  assert (NC : not_constant acf_record) by (exists 0%nat, 1%nat; cbn; repeat split; try lia; lra).
  destruct (c33_values acf_record 7 ltac:(cbn; lia) NC) as (acf & A & _ & V & _). exists acf, (lag_list 7), acf_record, 7%Z, 2.
  unfold analyze_error_autocorr. rewrite E. cbn [bind]. cbv zeta. rewrite Q, A. cbn [bind]. split; [reflexivity |]. split; [exact NC |]. split; [lia |]. split; [| rewrite Rabs_pos_eq; lra].
  rewrite V by lia. f_equal. unfold autocov. change (Z.abs_nat 7) with 7%nat. change (length acf_record) with 8%nat. cbn [Nat.sub rsum Nat.add]. rewrite !acf_record_dev. cbn. field.
Qed.
(** The whole analysis of that signal with two lags on each side. *)
Lemma c33_values_ex : exists acf, analyze_error_autocorr gs_lstsq acf_record (Some (1 / 4)) 2 true 0 (1 / 10 ^ 9) = Ok (acf, [-2; -1; 0; 1; 2]%Z, acf_record) /\
  acf = [Fin 0; Fin (2 / 7); Fin 1; Fin (2 / 7); Fin 0].
Proof.
  destruct acf_record_fit as (r & E & Q).
  assert (NC : not_constant acf_record) by (exists 0%nat, 1%nat; cbn; repeat split; try lia; lra).
  destruct (c33_values acf_record 2 ltac:(cbn; lia) NC) as (acf & A & LN & V & _). exists acf.
  unfold analyze_error_autocorr. rewrite E. cbn [bind]. cbv zeta. rewrite Q, A. cbn [bind]. split; [reflexivity |].
  assert (C : forall lag, (- 2 <= lag <= 2)%Z -> nth (Z.to_nat (lag + 2)) acf NaN = Fin (autocov acf_record (Z.abs_nat lag) / autocov acf_record 0)) by exact V.
  change (Z.to_nat (2 * 2 + 1)) with 5%nat in LN.
  assert (A0 : autocov acf_record 0 = 1 / 2) by (unfold autocov; change (length acf_record) with 8%nat; cbn [Nat.sub rsum Nat.add]; rewrite !acf_record_dev; cbn; field).
  assert (A1 : autocov acf_record 1 = 1 / 7) by (unfold autocov; change (length acf_record) with 8%nat; cbn [Nat.sub rsum Nat.add]; rewrite !acf_record_dev; cbn; field).
  assert (A2 : autocov acf_record 2 = 0) by (unfold autocov; change (length acf_record) with 8%nat; cbn [Nat.sub rsum Nat.add]; rewrite !acf_record_dev; cbn; field).
  pose proof (C (-2)%Z ltac:(lia)) as Ca. pose proof (C (-1)%Z ltac:(lia)) as Cb. pose proof (C 0%Z ltac:(lia)) as Cc. pose proof (C 1%Z ltac:(lia)) as Cd. pose proof (C 2%Z ltac:(lia)) as Ce.
  change (Z.abs_nat (-2)) with 2%nat in Ca. change (Z.abs_nat (-1)) with 1%nat in Cb. change (Z.abs_nat 0) with 0%nat in Cc. change (Z.abs_nat 1) with 1%nat in Cd. change (Z.abs_nat 2) with 2%nat in Ce.
  replace (autocov acf_record 2 / autocov acf_record 0) with 0 in Ca, Ce by (rewrite A0, A2; field). replace (autocov acf_record 1 / autocov acf_record 0) with (2 / 7) in Cb, Cd by (rewrite A0, A1; field). replace (autocov acf_record 0 / autocov acf_record 0) with 1 in Cc by (rewrite A0; field).
  destruct acf as [| a [| b [| c [| d [| e [| ? ?]]]]]]; cbn in LN; try lia. change (b = Fin (2 / 7)) in Cb. change (c = Fin 1) in Cc. change (d = Fin (2 / 7)) in Cd. change (e = Fin 0) in Ce. change (a = Fin 0) in Ca. congruence.
Qed.

(* ---------- C87: lags beyond the record ---------- *)
Lemma bmul_ok a b : length a = length b \/ length a = 1%nat \/ length b = 1%nat -> exists v, bind (bmul a b) (fun p => Ok (xmean p)) = Ok v.
Proof.
  intros H. unfold bmul. destruct (Nat.eqb_spec (length a) (length b)) as [E | E]; [eexists; reflexivity |].
  destruct H as [H | [H | H]]; [contradiction | |].
  - destruct a as [| x [| ? ?]]; cbn in H; try lia. eexists; reflexivity.
  - destruct b as [| y [| ? ?]]; cbn in H; try lia. destruct a as [| x [| ? ?]]; eexists; reflexivity.
Qed.
Lemma bmul_err a b : length a <> length b -> length a <> 1%nat -> length b <> 1%nat -> bind (bmul a b) (fun p => Ok (xmean p)) = Err ValueError.
Proof.
  intros H A B. unfold bmul. destruct (Nat.eqb_spec (length a) (length b)) as [E | E]; [contradiction |].
  destruct a as [| x [| ? ?]]; [| cbn in A; lia |]; (destruct b as [| y [| ? ?]]; [| cbn in B; lia |]); reflexivity.
Qed.
Lemma take_py_length e k : length (take_py e k) = Z.to_nat (if (k <? 0)%Z then Z.of_nat (length e) + k else Z.min k (Z.of_nat (length e))).
Proof. unfold take_py. destruct (Z.ltb_spec k 0); rewrite firstn_length; lia. Qed.
Lemma drop_py_length e k : length (drop_py e k) = (length e - Z.to_nat k)%nat. Proof. apply skipn_length. Qed.
Lemma acf_at_total e lag : (Z.abs lag <= Z.of_nat (length e))%Z \/ (length e <= 2)%nat -> exists v, acf_at e lag = Ok v.
Proof.
  intros H. unfold acf_at. apply bmul_ok. destruct (Z.leb_spec 0 lag) as [P | P]; [destruct (Z.ltb_spec 0 lag) as [Q | Q] |].
  - rewrite take_py_length, drop_py_length. destruct (Z.ltb_spec (Z.of_nat (length e) - lag) 0); lia.
  - left; reflexivity.
  - rewrite take_py_length, drop_py_length. destruct (Z.ltb_spec (Z.of_nat (length e) - - lag) 0); lia.
Qed.
Lemma acf_at_bad e : (3 <= length e)%nat -> acf_at e (- (Z.of_nat (length e) + 1)) = Err ValueError.
Proof.
  intros H. unfold acf_at. destruct (Z.leb_spec 0 (- (Z.of_nat (length e) + 1))); [lia |]. apply bmul_err; rewrite ?take_py_length, ?drop_py_length; destruct (Z.ltb_spec (Z.of_nat (length e) - - - (Z.of_nat (length e) + 1)) 0); lia.
Qed.
Lemma acf_at_err e lag x : acf_at e lag = Err x -> x = ValueError.
Proof. unfold acf_at. set (a := if (0 <=? lag)%Z then _ else _). set (b := if (0 <=? lag)%Z then _ else _). unfold bmul. destruct (length a =? length b)%nat; [discriminate |]. destruct a as [| ? [| ? ?]]; destruct b as [| ? [| ? ?]]; cbn; congruence. Qed.
Lemma acf_all_total e lags : (forall k, In k lags -> exists v, acf_at e k = Ok v) -> exists vs, acf_all e lags = Ok vs.
Proof.
  induction lags as [| k r IH]; intros H; [exists []; reflexivity |]. cbn [acf_all]. destruct (H k (or_introl eq_refl)) as (v & ->). cbn [bind]. destruct IH as (vs & ->); [intros j J; apply H; right; exact J |]. cbn [bind]. eexists; reflexivity.
Qed.
Lemma acf_all_err e lags k : In k lags -> acf_at e k = Err ValueError -> acf_all e lags = Err ValueError.
Proof.
  induction lags as [| j r IH]; intros I B; [destruct I |]. cbn [acf_all]. destruct (acf_at e j) as [v | x] eqn:E.
  - cbn [bind]. destruct I as [-> | I]; [congruence |]. rewrite (IH I B). reflexivity.
  - cbn [bind]. rewrite (acf_at_err e j x E). reflexivity.
Qed.
(** The computation succeeds exactly when max_lag does not exceed the record length (or the record
    has at most two samples); beyond that it raises ValueError.  It has 2 max_lag + 1 values. *)
Lemma c87_lag_limit error max_lag normalize :
  ((max_lag <= Z.of_nat (length error))%Z \/ (length error <= 2)%nat -> exists acf, error_acf error max_lag normalize = Ok acf) /\
  ((Z.of_nat (length error) < max_lag)%Z -> (3 <= length error)%nat -> error_acf error max_lag normalize = Err ValueError).
Proof.
  unfold error_acf. fold (centred error). split.
  - intros H. destruct (acf_all_total (centred error) (lag_list max_lag)) as (vs & ->); [| cbn [bind]; eexists; reflexivity].
    intros k K. apply lag_list_in in K. apply acf_at_total. rewrite centred_length. lia.
  - intros H N. rewrite (acf_all_err (centred error) (lag_list max_lag) (- (Z.of_nat (length error) + 1))); [reflexivity | |].
    + apply lag_list_in. lia.
    + pose proof (acf_at_bad (centred error)) as B. rewrite centred_length in B. apply B. exact N.
Qed.
(** With max_lag equal to the record length the two outermost values are means of no sample: NaN. *)
Lemma c87_edge error acf normalize : error_acf error (Z.of_nat (length error)) normalize = Ok acf -> nth 0 acf (Fin 0) = NaN /\ nth (2 * length error) acf (Fin 0) = NaN.
Proof.
  unfold error_acf. fold (centred error). set (N := length error).
  assert (EDGE : forall k, Z.abs k = Z.of_nat N -> acf_at (centred error) k = Ok NaN).
  { intros k K. unfold acf_at. rewrite centred_length. fold N. destruct (Z.leb_spec 0 k) as [P | P]; [destruct (Z.ltb_spec 0 k) as [Q | Q] |].
    - unfold take_py, drop_py. destruct (Z.ltb_spec (Z.of_nat N - k) 0); [lia |]. replace (Z.to_nat (Z.of_nat N - k)) with 0%nat by lia. rewrite skipn_all2 by (rewrite centred_length; fold N; lia). reflexivity.
    - assert (N = 0%nat) by lia. assert (centred error = []) as -> by (apply length_zero_iff_nil; rewrite centred_length; assumption). reflexivity.
    - unfold take_py, drop_py. destruct (Z.ltb_spec (Z.of_nat N - - k) 0); [lia |]. replace (Z.to_nat (Z.of_nat N - - k)) with 0%nat by lia. rewrite skipn_all2 by (rewrite centred_length; fold N; lia). reflexivity. }
  assert (NTH : forall lags vs i d, acf_all (centred error) lags = Ok vs -> (i < length lags)%nat -> acf_at (centred error) (nth i lags 0%Z) = Ok (nth i vs d) /\ (i < length vs)%nat).
  { induction lags as [| k r IH]; intros vs i d A I; [cbn in I; lia |]. cbn [acf_all] in A. destruct (acf_at (centred error) k) as [v |] eqn:E; [| discriminate]. cbn [bind] in A.
    destruct (acf_all (centred error) r) as [ws |] eqn:E2; [| discriminate]. cbn [bind] in A. apply Ok_inj in A. subst vs. destruct i as [| i]; [cbn; split; [exact E | lia] |]. cbn [nth]. destruct (IH ws i d eq_refl) as (X & Y); [cbn in I; lia |]. split; [exact X | cbn; lia]. }
  destruct (acf_all (centred error) (lag_list (Z.of_nat N))) as [vs |] eqn:A; [| discriminate]. cbn [bind]. intros H. apply Ok_inj in H.
  destruct (NTH _ _ 0%nat (Fin 0) A) as (H0 & L0); [rewrite lag_list_length; lia |]. destruct (NTH _ _ (2 * N)%nat (Fin 0) A) as (H1 & L1); [rewrite lag_list_length; lia |].
  rewrite lag_list_nth in H0, H1 by lia. rewrite EDGE in H0, H1 by lia. apply Ok_inj in H0, H1. subst acf. destruct normalize; [| split; congruence].
  rewrite !(nth_map_in _ _ _ (Fin 0)) by assumption. rewrite <- H0, <- H1. split; reflexivity.
Qed.
(** The default max_lag = 50 makes the analysis of a valid 8-sample signal raise ValueError. *)
Lemma c87_default_refuted : exists signal f, (2 <= length signal)%nat /\ (exists r, fit_core gs_lstsq signal (Some f) 1 (1 / 10 ^ 9) = Ok r) /\
  analyze_error_autocorr gs_lstsq signal (Some f) 50 true 1 (1 / 10 ^ 9) = Err ValueError.
Proof.
  exists acf_record, (1 / 4). split; [cbn; lia |]. destruct (c52_failure gs_lstsq acf_record (Some (1 / 4)) 1 (1 / 10 ^ 9)) as [(r & E) | (_ & H & _)]; [| discriminate]. split; [exists r; exact E |].
  unfold analyze_error_autocorr. rewrite E. cbn [bind]. cbv zeta.
  assert (L : length (map2 Rminus acf_record (f_fitted r)) = 8%nat).
  { unfold fit_core in E. cbn [bind] in E. apply Ok_inj in E. subst r. cbn [f_fitted]. rewrite map2_length; rewrite ?map_length, ?seq_length; reflexivity. }
  rewrite (proj2 (c87_lag_limit _ 50 true)); [reflexivity | rewrite L; lia | rewrite L; lia].
Qed.
(** Eight samples: 8 lags succeed with undefined ends, 9 lags fail. *)
Lemma c87_lag_limit_ex : (exists acf, error_acf acf_record 8 true = Ok acf /\ nth 0 acf (Fin 0) = NaN /\ nth 16 acf (Fin 0) = NaN) /\ error_acf acf_record 9 true = Err ValueError.
Proof.
  split.
  - destruct (proj1 (c87_lag_limit acf_record 8 true)) as (acf & E); [left; cbn; lia |]. exists acf. split; [exact E |]. exact (c87_edge acf_record acf true E).
  - apply (proj2 (c87_lag_limit acf_record 9 true)); cbn; lia.
Qed.
