(** * Sine fitting: the final lemmas are named c52_, c82_ .. c86_. *)
From Verif Require Import Base BaseLemmas Cplx SpecModel SpecLemmas TiModel TiToneProofs CalModel CalSpec CalProofs CalExLemmas FitModel FitSpec.
From Coq Require Import Psatz.
Local Open Scope R_scope.

(** ** C52 *)
Lemma refine_spec lstsq y tol : forall fuel s, let s' := refine lstsq y tol fuel s in
  (s_iter s <= s_iter s' <= s_iter s + fuel)%nat /\
  (s_iter s' = s_iter s -> s' = s) /\ (fuel = 0%nat \/ (s_iter s < s_iter s')%nat) /\
  ((s_iter s < s_iter s')%nat -> 1 / 10 ^ 10 <= s_freq s' <= 1 / 2 - 1 / 10 ^ 10) /\
  (s_conv s = false -> (s_conv s' = true <-> (s_iter s < s_iter s')%nat /\ Rabs (s_last s') < tol)) /\
  (s_conv s = false -> s_conv s' = false -> s_iter s' = (s_iter s + fuel)%nat).
Proof.
  induction fuel as [| k IH]; intros s; cbn [refine].
  - split; [lia |]. split; [reflexivity |]. split; [left; reflexivity |]. split; [lia |]. split; [| lia]. intros ->. split; [discriminate | lia].
  - set (s1 := refine_once lstsq y tol s). assert (I1 : s_iter s1 = S (s_iter s)) by reflexivity.
    assert (EPS : 0 < 1 / 10 ^ 10 < 1 / 4).
    { assert (4 < 10 ^ 10) by (apply (Rlt_le_trans _ (10 ^ 1)); [lra | apply Rle_pow; [lra | lia]]). split; [apply Rdiv_lt_0_compat; lra |].
      unfold Rdiv. rewrite !Rmult_1_l. apply Rinv_lt_contravar; lra. }
    assert (F1 : 1 / 10 ^ 10 <= s_freq s1 <= 1 / 2 - 1 / 10 ^ 10).
    { unfold s1, refine_once. cbn [s_freq]. set (x := s_freq s + _). unfold rclip, Rmin, Rmax. repeat destruct (Rle_dec _ _); lra. }
    assert (C1 : s_conv s1 = if Rltb (Rabs (s_last s1)) tol then true else s_conv s) by reflexivity.
    destruct (Rltb_spec (Rabs (s_last s1)) tol) as [T | T].
    + split; [lia |]. split; [lia |]. split; [right; lia |]. split; [intros _; exact F1 |]. split; [intros _; rewrite C1; split; [intros _; split; [lia | exact T] | reflexivity] |]. rewrite C1. discriminate.
    + specialize (IH s1). cbv zeta in IH. destruct IH as (A & B & Cc & D & E & F). set (s' := refine lstsq y tol k s1) in *. rewrite I1 in *.
      split; [lia |]. split; [lia |]. split; [right; lia |]. split.
      { intros _. destruct (Nat.eq_dec (s_iter s') (S (s_iter s))) as [Q | Q]; [rewrite (B Q); exact F1 | apply D; lia]. }
      split.
      * intros CF. rewrite CF in C1. destruct (E C1) as (E1 & E2). split; [intros H; destruct (E1 H); split; [lia | assumption] |].
        intros (H1 & H2). destruct (Nat.eq_dec (s_iter s') (S (s_iter s))) as [Q | Q]; [| apply E2; split; [lia | exact H2]].
        exfalso. rewrite (B Q) in H2. lra.
      * intros CF CT. rewrite CF in C1. rewrite (F C1 CT). lia.
Qed.
Lemma fit_fitted_polar a b th : a * cos th + b * sin th = sqrt (a ^ 2 + b ^ 2) * cos (th + Carg (a, - b)).
Proof.
  replace (a ^ 2 + b ^ 2) with (Cmod2 (a, - b)) by (unfold Cmod2; cbn [fst snd]; ring). fold (Cmod (a, - b)).
  rewrite <- Re_polar. unfold Cmult, cis, Re. cbn [fst snd]. ring.
Qed.
Lemma Carg_range z : - PI < Carg z <= PI.
Proof.
  unfold Carg. pose proof PI_RGT_0. pose proof (atan_bound (Im z / Re z)).
  destruct (Rltb_spec 0 (Re z)); [lra |]. destruct (Rltb_spec (Re z) 0).
  - destruct (Rleb_spec 0 (Im z)).
    + assert (atan (Im z / Re z) <= 0); [| lra]. rewrite <- atan_0. assert (X : Im z / Re z <= 0) by (unfold Rdiv; assert (/ Re z < 0) by (apply Rinv_lt_0_compat; lra); nra).
      destruct X as [X | X]; [left; apply atan_increasing; exact X | rewrite X; lra].
    + assert (0 < atan (Im z / Re z)); [| lra]. rewrite <- atan_0. apply atan_increasing. unfold Rdiv. assert (/ Re z < 0) by (apply Rinv_lt_0_compat; lra). nra.
  - destruct (Rltb_spec 0 (Im z)); [lra |]. destruct (Rltb_spec (Im z) 0); lra.
Qed.
(** The fitted record is offset + amplitude cos(2 pi frequency t + phase) for the returned
    parameters; residuals are data minus fit; amplitude is never negative; phase is in (-pi, pi];
    rmse is the root mean square of the residuals. *)
Lemma c52_parameters lstsq y f mi tol r : fit_core lstsq y f mi tol = Ok r ->
  length (f_fitted r) = length y /\ length (f_residuals r) = length y /\
  (forall t, (t < length y)%nat -> nth t (f_fitted r) 0 = f_dc r + f_amplitude r * cos (2 * PI * f_frequency r * INR t + f_phase r) /\
                                 nth t (f_residuals r) 0 = nth t y 0 - nth t (f_fitted r) 0) /\
  0 <= f_amplitude r /\ - PI < f_phase r <= PI /\
  (y <> [] -> f_rmse r = Fin (sqrt (rsum (length y) (fun t => nth t (f_residuals r) 0 ^ 2) / INR (length y)))).
Proof.
  unfold fit_core. intros H. destruct (match f with Some f0 => Ok f0 | None => estimate_frequency_fft y end) as [freq | e]; [| discriminate]. cbn [bind] in H. cbv zeta in H.
  match type of H with context [s_freq ?s] => set (fin := s) in H end. apply Ok_inj in H. subst r. cbn [f_fitted f_residuals f_dc f_amplitude f_frequency f_phase f_rmse].
  set (fitted := map _ _). assert (LF : length fitted = length y) by (unfold fitted; rewrite map_length, seq_length; reflexivity).
  assert (LR : length (map2 Rminus y fitted) = length y) by (rewrite map2_length by (symmetry; exact LF); reflexivity).
  split; [exact LF |]. split; [exact LR |]. split; [| split; [apply sqrt_pos | split; [apply Carg_range |]]].
  - intros t T. split.
    + unfold fitted. rewrite (nth_map_in _ _ _ 0%nat) by (rewrite seq_length; exact T). rewrite seq_nth by exact T. cbn [Nat.add]. rewrite fit_fitted_polar. ring.
    + rewrite (map2_nth Rminus y fitted t 0 0 0) by lia. reflexivity.
  - intros Y. destruct (Nat.eqb_spec (length y) 0) as [Z | Z]; [destruct y; [contradiction | discriminate] |]. f_equal. f_equal. unfold lmean. rewrite map_length, LR. f_equal.
    rewrite lsum_rsum, map_length, LR. apply rsum_ext. intros t T. rewrite (nth_map_in _ _ _ 0) by lia. reflexivity.
Qed.
(** Iteration bookkeeping. *)
Lemma c52_iterations lstsq y f mi tol r : (0 <= mi)%Z -> fit_core lstsq y f mi tol = Ok r ->
  (Z.of_nat (f_iterations r) <= mi)%Z /\
  (f_iterations r = 0%nat <-> mi = 0%Z) /\ (f_iterations r = 0%nat -> f_frequency r = f_initial r) /\
  ((0 < f_iterations r)%nat -> 1 / 10 ^ 10 <= f_frequency r <= 1 / 2 - 1 / 10 ^ 10) /\
  (f_converged r = true <-> mi = 0%Z \/ Rabs (f_last_delta r) < tol) /\
  (f_converged r = false -> Z.of_nat (f_iterations r) = mi) /\
  match f with Some x => f_initial r = x | None => estimate_frequency_fft y = Ok (f_initial r) end.
Proof.
  intros M. unfold fit_core. intros H. destruct (match f with Some f0 => Ok f0 | None => estimate_frequency_fft y end) as [freq | e] eqn:EF; [| discriminate]. cbn [bind] in H. cbv zeta in H.
  destruct (Z.ltb_spec mi 0); [lia |].
  match type of H with context [refine _ _ _ _ ?s] => set (s0 := s) in H end.
  pose proof (refine_spec lstsq y tol (Z.to_nat mi) s0) as P. cbv zeta in P. set (s' := refine lstsq y tol (Z.to_nat mi) s0) in *.
  apply Ok_inj in H. subst r. cbn [f_iterations f_frequency f_initial f_converged f_last_delta]. destruct P as (A & B & Cc & D & E & F).
  change (s_iter s0) with 0%nat in *. change (s_conv s0) with (mi =? 0)%Z in *. change (s_freq s0) with freq in *.
  split; [lia |]. split. { split; [intros Z0; destruct Cc; lia | lia]. } split. { intros Z0. rewrite (B Z0). reflexivity. } split; [intros Z0; apply D; lia |].
  destruct (Z.eqb_spec mi 0) as [Z0 | Z0].
  - subst mi. assert (IT : s_iter s' = 0%nat) by (change (Z.to_nat 0) with 0%nat in A; lia). rewrite (B IT). change (s_conv s0) with true. change (s_iter s0) with 0%nat.
    split; [split; [intros _; left; reflexivity | reflexivity] |]. split; [discriminate |]. destruct f; [injection EF as ->; reflexivity | exact EF].
  - destruct (E eq_refl) as (E1 & E2). split.
    + split; [intros X; right; apply E1; exact X |]. intros [X | X]; [contradiction | apply E2; split; [| exact X]]. destruct Cc; lia.
    + split; [intros X; pose proof (F eq_refl X); lia |]. destruct f; [injection EF as ->; reflexivity | exact EF].
Qed.
(** The only failure of a single record is the automatic frequency estimate on fewer than two
    samples; several channels are fitted one by one. *)
Lemma c52_failure lstsq y f mi tol : (exists r, fit_core lstsq y f mi tol = Ok r) \/ (fit_core lstsq y f mi tol = Err ValueError /\ f = None /\ (length y < 2)%nat).
Proof.
  unfold fit_core. destruct f as [x |]; [left; eexists; reflexivity |]. unfold estimate_frequency_fft, raise_if.
  destruct (Nat.eqb_spec (length y / 2) 0) as [Z | Z].
  - right. split; [reflexivity |]. split; [reflexivity |]. pose proof (Nat.div_mod (length y) 2 ltac:(lia)). pose proof (Nat.mod_upper_bound (length y) 2 ltac:(lia)). lia.
  - left. cbv zeta. match goal with |- context [if ?c then Ok ?p else Ok ?q] => destruct c end; cbn [bind]; eexists; reflexivity.
Qed.
Lemma fit_all_spec lstsq f mi tol cols : forall rs, fit_all lstsq cols f mi tol = Ok rs <-> length rs = length cols /\ forall d, (d < length cols)%nat -> exists r, nth_error rs d = Some r /\ fit_core lstsq (nth d cols []) f mi tol = Ok r.
Proof.
  induction cols as [| y cols IH]; intros rs; cbn [fit_all].
  - split. { intros H. apply Ok_inj in H. subst rs. split; [reflexivity |]. cbn. lia. } intros (L & _). destruct rs; [reflexivity | discriminate].
  - destruct (fit_core lstsq y f mi tol) as [r | e] eqn:E; cbn [bind].
    2:{ split; [discriminate |]. intros (_ & H). destruct (H 0%nat ltac:(cbn; lia)) as (r & _ & X). cbn in X. congruence. }
    split.
    + destruct (fit_all lstsq cols f mi tol) as [rs' | e] eqn:E2; cbn [bind]; [| discriminate]. intros H. apply Ok_inj in H. subst rs.
      destruct (proj1 (IH rs') eq_refl) as (L & P). split; [cbn; lia |]. intros [| d] D; [exists r; split; [reflexivity | exact E] |]. cbn in D. destruct (P d ltac:(lia)) as (r' & N & X). exists r'. split; [exact N | exact X].
    + intros (L & P). destruct rs as [| r0 rs']; [discriminate |]. destruct (P 0%nat ltac:(cbn; lia)) as (r1 & N & X). cbn in N, X. injection N as ->. assert (r1 = r) by congruence. subst r1.
      rewrite (proj2 (IH rs')); [reflexivity |]. split; [cbn in L; lia |]. intros d D. apply (P (S d)). cbn. lia.
Qed.
(** A 2-D array is fitted column by column. *)
Lemma c52_channels lstsq cols f mi tol rs : fit_sine_4param lstsq (Data2 cols) f mi tol = Ok (inr rs) <->
  cols <> [] /\ length rs = length cols /\ forall d, (d < length cols)%nat -> exists r, nth_error rs d = Some r /\ fit_sine_4param lstsq (Data1 (nth d cols [])) f mi tol = Ok (inl r).
Proof.
  assert (K : forall y r, fit_sine_4param lstsq (Data1 y) f mi tol = Ok (inl r) <-> fit_core lstsq y f mi tol = Ok r).
  { intros y r. unfold fit_sine_4param. destruct (fit_core lstsq y f mi tol); cbn [bind]; split; congruence. }
  unfold fit_sine_4param at 1. split.
  - intros H. destruct (fit_all lstsq cols f mi tol) as [rs' | e] eqn:E; [| discriminate]. cbn [bind] in H. apply fit_all_spec in E. destruct E as (L & P).
    destruct rs' as [| r' rs']; [discriminate |]. injection H as <-. split; [intros ->; discriminate |]. split; [exact L |]. intros d D. destruct (P d D) as (r & N & X). exists r. split; [exact N | apply K; exact X].
  - intros (NE & L & P). rewrite (proj2 (fit_all_spec lstsq f mi tol cols rs)). { cbn [bind]. destruct rs; [destruct cols; [contradiction | discriminate] | reflexivity]. }
    split; [exact L |]. intros d D. destruct (P d D) as (r & N & X). exists r. split; [exact N | apply K; exact X].
Qed.

(** ** C82: optimality of the three-parameter fit *)
(** The residual of a least-squares solution is orthogonal to every column. *)
Lemma quadratic_flat p q : (forall t, 0 <= 2 * t * p + t ^ 2 * q) -> p = 0.
Proof.
  intros H. destruct (Req_dec p 0) as [| N]; [assumption | exfalso].
  destruct (Rle_dec q 0) as [Q | Q]. { pose proof (H (- p)). nra. }
  pose proof (H (- (p / q))). replace (2 * - (p / q) * p + (- (p / q)) ^ 2 * q) with (- (p ^ 2 / q)) in H0 by (field; lra).
  assert (0 < p ^ 2 / q); [| lra]. apply Rdiv_lt_0_compat; [apply sq_pos; exact N | lra].
Qed.
Lemma normal_equations A b x j : minimises A b x -> (j < m_m A)%nat -> rsum (m_n A) (fun i => (b i - rsum (m_m A) (fun k => m_at A i k * x k)) * m_at A i j) = 0.
Proof.
  intros M J. apply (quadratic_flat _ (rsum (m_n A) (fun i => m_at A i j ^ 2))). intros t.
  pose proof (M (fun k => if (k =? j)%nat then x k - t else x k)) as P. cbv beta in P.
  rewrite (rsum_ext (m_n A) (fun i => (rsum (m_m A) (fun j0 => m_at A i j0 * (if (j0 =? j)%nat then x j0 - t else x j0)) - b i) ^ 2)
    (fun i => (rsum (m_m A) (fun k => m_at A i k * x k) - b i) ^ 2 + (2 * t * ((b i - rsum (m_m A) (fun k => m_at A i k * x k)) * m_at A i j) + t ^ 2 * m_at A i j ^ 2))) in P.
  2:{ intros i I. rewrite (rsum_update (m_m A) j (fun k => m_at A i k * (if (k =? j)%nat then x k - t else x k)) (fun k => m_at A i k * x k) (- t * m_at A i j)); [ring | exact J | rewrite Nat.eqb_refl; ring |].
      intros k K N. destruct (Nat.eqb_spec k j); [contradiction | reflexivity]. }
  rewrite !rsum_plus, !rsum_scale in P. lra.
Qed.
Lemma rsum3 f : rsum 3 f = f 0%nat + f 1%nat + f 2%nat. Proof. cbn. ring. Qed.
Lemma rsum4 f : rsum 4 f = f 0%nat + f 1%nat + f 2%nat + f 3%nat. Proof. cbn. ring. Qed.
(** With max_iterations = 0 no sine of the given frequency with any amplitude, phase and offset is
    closer to the data, and the residuals have zero mean and are uncorrelated with the sine. *)
Lemma c82_three_parameter_optimal lstsq y f tol : least_squares lstsq -> exists r, fit_core lstsq y (Some f) 0 tol = Ok r /\
  (forall A ph off, sq_error y (fun t => nth t (f_fitted r) 0) <= sq_error y (sine A f ph off)) /\
  rsum (length y) (fun t => nth t (f_residuals r) 0) = 0 /\
  forall ph, rsum (length y) (fun t => nth t (f_residuals r) 0 * cos (2 * PI * f * INR t + ph)) = 0.
Proof.
  intros L. destruct (c52_failure lstsq y (Some f) 0 tol) as [(r & E) | (_ & H & _)]; [| discriminate]. exists r. split; [exact E |].
  pose proof (c52_parameters _ _ _ _ _ _ E) as (_ & _ & P & _). unfold fit_core in E. cbn [bind] in E. cbv zeta in E. change (0 <? 0)%Z with false in E. cbv iota in E. change (Z.to_nat 0) with 0%nat in E. cbn [refine s_freq s_a s_b s_c] in E.
  set (co := lstsq (design3 (length y) f) (fun i => nth i y 0)) in E.
  assert (FIT : forall t, (t < length y)%nat -> nth t (f_fitted r) 0 = rsum (m_m (design3 (length y) f)) (fun k => m_at (design3 (length y) f) t k * co k)).
  { intros t T. apply Ok_inj in E. subst r. cbn [f_fitted]. rewrite (nth_map_in _ _ _ 0%nat) by (rewrite seq_length; exact T). rewrite seq_nth by exact T. unfold design3, of_cols. cbn [m_m m_at length nth]. rewrite rsum3. cbn [Nat.add nth]. ring. }
  assert (MIN : minimises (design3 (length y) f) (fun i => nth i y 0) co) by (intros z; apply L).
  assert (NE : forall j, (j < 3)%nat -> rsum (length y) (fun t => nth t (f_residuals r) 0 * m_at (design3 (length y) f) t j) = 0).
  { intros j J. etransitivity; [| apply (normal_equations _ _ _ j MIN J)]. apply rsum_ext. intros t T. rewrite (proj2 (P t T)), (FIT t T). reflexivity. }
  split; [| split].
  - intros A ph off. pose proof (MIN (fun k => nth k [A * cos ph; - A * sin ph; off] 0)) as Q. unfold sq_error.
    rewrite (rsum_ext (length y) (fun t => (nth t y 0 - nth t (f_fitted r) 0) ^ 2) (fun i => (rsum (m_m (design3 (length y) f)) (fun k => m_at (design3 (length y) f) i k * co k) - nth i y 0) ^ 2)) by (intros t T; rewrite (FIT t T); ring).
    eapply Rle_trans; [exact Q |]. apply Req_le. apply rsum_ext. intros t T. unfold design3, of_cols. cbn [m_m m_at length nth]. rewrite rsum3. cbn [nth]. unfold sine. rewrite cos_plus. ring.
  - etransitivity; [| apply (NE 2%nat ltac:(lia))]. apply rsum_ext. intros t T. unfold design3, of_cols. cbn [m_at nth]. ring.
  - intros ph. rewrite (rsum_ext _ _ (fun t => cos ph * (nth t (f_residuals r) 0 * m_at (design3 (length y) f) t 0%nat) + (- sin ph) * (nth t (f_residuals r) 0 * m_at (design3 (length y) f) t 1%nat))).
    2:{ intros t T. unfold design3, of_cols. cbn [m_at nth]. rewrite cos_plus. ring. }
    rewrite rsum_plus, !rsum_scale, (NE 0%nat), (NE 1%nat) by lia. ring.
Qed.

(** ** C83: an exact sine is a fixed point *)
Lemma sin_half_turn f : 0 < f < 1 / 2 -> 0 < sin (2 * PI * f) /\ -1 < cos (2 * PI * f) < 1.
Proof.
  intros F. pose proof PI_RGT_0. assert (S : 0 < sin (2 * PI * f)) by (apply sin_gt_0; nra). split; [exact S |].
  pose proof (sin2_cos2 (2 * PI * f)) as Q. unfold Rsqr in Q. split; nra.
Qed.
Lemma multiple_angles w : let c := cos w in let s := sin w in
  cos (w * INR 0) = 1 /\ sin (w * INR 0) = 0 /\ cos (w * INR 1) = c /\ sin (w * INR 1) = s /\
  cos (w * INR 2) = 2 * c * c - 1 /\ sin (w * INR 2) = 2 * s * c /\
  cos (w * INR 3) = 4 * c * c * c - 3 * c /\ sin (w * INR 3) = s * (4 * c * c - 1) /\
  cos (w * INR 4) = 8 * c * c * c * c - 8 * c * c + 1 /\ sin (w * INR 4) = s * (8 * c * c * c - 4 * c).
Proof.
  intros c s. assert (Q : s * s = 1 - c * c) by (pose proof (sin2_cos2 w) as Q; unfold Rsqr in Q; unfold s, c; lra).
  assert (C2 : cos (w * INR 2) = 2 * c * c - 1). { replace (w * INR 2) with (w + w) by (cbn; ring). rewrite cos_plus. fold c s. lra. }
  assert (S2 : sin (w * INR 2) = 2 * s * c). { replace (w * INR 2) with (w + w) by (cbn; ring). rewrite sin_plus. fold c s. ring. }
  assert (C3 : cos (w * INR 3) = 4 * c * c * c - 3 * c). { replace (w * INR 3) with (w * INR 2 + w) by (cbn; ring). rewrite cos_plus, C2, S2. fold c s. replace (2 * s * c * s) with (2 * c * (s * s)) by ring. rewrite Q. ring. }
  assert (S3 : sin (w * INR 3) = s * (4 * c * c - 1)). { replace (w * INR 3) with (w * INR 2 + w) by (cbn; ring). rewrite sin_plus, C2, S2. fold c s. ring. }
  repeat split; try assumption.
  - rewrite Rmult_0_r. apply cos_0. - rewrite Rmult_0_r. apply sin_0. - rewrite Rmult_1_r. reflexivity. - rewrite Rmult_1_r. reflexivity.
  - replace (w * INR 4) with (w * INR 2 + w * INR 2) by (cbn; ring). rewrite cos_plus, C2, S2. replace (2 * s * c * (2 * s * c)) with (4 * c * c * (s * s)) by ring. rewrite Q. ring.
  - replace (w * INR 4) with (w * INR 2 + w * INR 2) by (cbn; ring). rewrite sin_plus, C2, S2. ring.
Qed.
Lemma independent3 n f p q r : 0 < f < 1 / 2 -> (3 <= n)%nat -> (forall t, (t < n)%nat -> p * cos (2 * PI * f * INR t) + q * sin (2 * PI * f * INR t) + r = 0) -> p = 0 /\ q = 0 /\ r = 0.
Proof.
  intros F N H. destruct (sin_half_turn f F) as (S & C). set (w := 2 * PI * f) in *. destruct (multiple_angles w) as (A0 & B0 & A1 & B1 & A2 & B2 & _).
  pose proof (H 0%nat ltac:(lia)) as H0. pose proof (H 1%nat ltac:(lia)) as H1. pose proof (H 2%nat ltac:(lia)) as H2. rewrite A0, B0 in H0. rewrite A1, B1 in H1. rewrite A2, B2 in H2.
  set (c := cos w) in *. set (s := sin w) in *.
  assert (P : p * (2 * c - 2) = 0). { assert (R : r = - p) by lra. subst r. nra. }
  assert (p = 0) by (apply Rmult_integral in P; destruct P; [assumption | lra]). subst p. assert (R : r = 0) by lra. subst r.
  assert (Q : q * s = 0) by lra. apply Rmult_integral in Q. destruct Q; [| lra]. split; [reflexivity |]. split; [assumption | reflexivity].
Qed.
Lemma independent4 n f a b p q r d : 0 < f < 1 / 2 -> (5 <= n)%nat -> a <> 0 \/ b <> 0 ->
  (forall t, (t < n)%nat -> p * cos (2 * PI * f * INR t) + q * sin (2 * PI * f * INR t) + r + d * (INR t * (- a * sin (2 * PI * f * INR t) + b * cos (2 * PI * f * INR t))) = 0) ->
  p = 0 /\ q = 0 /\ r = 0 /\ d = 0.
Proof.
  intros F N AB H.
  assert (D : d = 0).
  { destruct (sin_half_turn f F) as (S & C). set (w := 2 * PI * f) in *. destruct (multiple_angles w) as (A0 & B0 & A1 & B1 & A2 & B2 & A3 & B3 & A4 & B4).
    pose proof (H 0%nat ltac:(lia)) as H0. pose proof (H 1%nat ltac:(lia)) as H1. pose proof (H 2%nat ltac:(lia)) as H2. pose proof (H 3%nat ltac:(lia)) as H3. pose proof (H 4%nat ltac:(lia)) as H4.
    rewrite A0, B0 in H0. rewrite A1, B1 in H1. rewrite A2, B2 in H2. rewrite A3, B3 in H3. rewrite A4, B4 in H4.
    assert (Q : sin w * sin w = 1 - cos w * cos w) by (pose proof (sin2_cos2 w) as Q; unfold Rsqr in Q; lra).
    set (c := cos w) in *. set (s := sin w) in *. cbn [INR] in H0, H1, H2, H3, H4.
    set (U := 4 * c * c * c - 2 * c * c - 4 * c + 2). set (V := 4 * c * c - 2 * c - 2).
    assert (K0 : d * (b * U - a * (s * V)) = 0).
    { match type of H0 with ?h0 = 0 => match type of H1 with ?h1 = 0 => match type of H2 with ?h2 = 0 => match type of H3 with ?h3 = 0 =>
        transitivity (h3 - (2 * c + 1) * h2 + (2 * c + 1) * h1 - h0); [unfold U, V; ring | rewrite H0, H1, H2, H3; ring] end end end end. }
    assert (K1 : d * (c * (b * U - a * (s * V)) - s * (a * U + b * (s * V))) = 0).
    { match type of H1 with ?h0 = 0 => match type of H2 with ?h1 = 0 => match type of H3 with ?h2 = 0 => match type of H4 with ?h3 = 0 =>
        transitivity (h3 - (2 * c + 1) * h2 + (2 * c + 1) * h1 - h0); [| rewrite H1, H2, H3, H4; ring] end end end end.
      transitivity (d * (c * (b * U - a * (s * V)) - s * a * U - (s * s) * b * V)); [ring |]. rewrite Q. unfold U, V. ring. }
    destruct (Req_dec d 0) as [| ND]; [assumption | exfalso].
    apply Rmult_integral in K0. destruct K0 as [K0 | K0]; [contradiction |]. apply Rmult_integral in K1. destruct K1 as [K1 | K1]; [contradiction |]. rewrite K0 in K1.
    assert (K2 : a * U + b * (s * V) = 0). { assert (X : s * (a * U + b * (s * V)) = 0) by lra. apply Rmult_integral in X. destruct X; [lra | assumption]. }
    assert (M : U * U + (s * V) * (s * V) = (2 - 2 * c) * (2 - 2 * c) * (2 + 2 * c)). { replace (s * V * (s * V)) with (s * s * (V * V)) by ring. rewrite Q. unfold U, V. ring. }
    assert (MP : 0 < (2 - 2 * c) * (2 - 2 * c) * (2 + 2 * c)) by (repeat apply Rmult_lt_0_compat; lra).
    assert (Z1 : a * (U * U + s * V * (s * V)) = 0). { replace (a * (U * U + s * V * (s * V))) with (U * (a * U + b * (s * V)) - s * V * (b * U - a * (s * V))) by ring. rewrite K0, K2. ring. }
    assert (Z2 : b * (U * U + s * V * (s * V)) = 0). { replace (b * (U * U + s * V * (s * V))) with (s * V * (a * U + b * (s * V)) + U * (b * U - a * (s * V))) by ring. rewrite K0, K2. ring. }
    rewrite M in Z1, Z2. apply Rmult_integral in Z1, Z2. destruct Z1 as [Z1 | Z1]; [| lra]. destruct Z2 as [Z2 | Z2]; [| lra]. destruct AB; contradiction. }
  subst d. destruct (independent3 n f p q r F ltac:(lia)) as (P & Q & R); [| repeat split; assumption].
  intros t T. rewrite <- (H t T). ring.
Qed.
Lemma design3_exact lstsq y A f ph off : least_squares lstsq -> 0 < f < 1 / 2 -> (3 <= length y)%nat -> is_record y (sine A f ph off) ->
  let co := lstsq (design3 (length y) f) (fun i => nth i y 0) in co 0%nat = A * cos ph /\ co 1%nat = - A * sin ph /\ co 2%nat = off.
Proof.
  intros L F N R co.
  assert (E : forall t, (t < length y)%nat -> mv (design3 (length y) f) co t = nth t y 0).
  { apply (least_squares_exact lstsq (design3 (length y) f) (fun i => nth i y 0) (fun k => nth k [A * cos ph; - A * sin ph; off] 0) L).
    intros t T. rewrite (R t T). unfold mv, design3, of_cols, sine. cbn [m_m m_at length]. rewrite rsum3. cbn [nth]. rewrite cos_plus. ring. }
  destruct (independent3 (length y) f (co 0%nat - A * cos ph) (co 1%nat + A * sin ph) (co 2%nat - off) F N) as (P & Q & S); [| repeat split; lra].
  intros t T. pose proof (E t T) as X. rewrite (R t T) in X. unfold mv, design3, of_cols, sine in X. cbn [m_m m_at length] in X. rewrite rsum3 in X. cbn [nth] in X. rewrite cos_plus in X. lra.
Qed.
Lemma design4_exact lstsq y A f ph off : least_squares lstsq -> 0 < f < 1 / 2 -> (5 <= length y)%nat -> A <> 0 -> is_record y (sine A f ph off) ->
  let co := lstsq (design4 (length y) f (A * cos ph) (- A * sin ph)) (fun i => nth i y 0) in co 0%nat = A * cos ph /\ co 1%nat = - A * sin ph /\ co 2%nat = off /\ co 3%nat = 0.
Proof.
  intros L F N NA R co. set (D := design4 (length y) f (A * cos ph) (- A * sin ph)) in *.
  assert (E : forall t, (t < length y)%nat -> mv D co t = nth t y 0).
  { apply (least_squares_exact lstsq D (fun i => nth i y 0) (fun k => nth k [A * cos ph; - A * sin ph; off; 0] 0) L).
    intros t T. rewrite (R t T). unfold mv, D, design4, of_cols, sine. cbn [m_m m_at length]. rewrite rsum4. cbn [nth]. rewrite cos_plus. ring. }
  destruct (independent4 (length y) f (A * cos ph) (- A * sin ph) (co 0%nat - A * cos ph) (co 1%nat + A * sin ph) (co 2%nat - off) (co 3%nat) F N) as (P & Q & S & T3); [| | repeat split; lra].
  - destruct (Req_dec (cos ph) 0) as [C | C]; [right | left; apply Rmult_integral_contrapositive_currified; assumption].
    pose proof (sin2_cos2 ph) as X. unfold Rsqr in X. rewrite C in X. intros Z. replace (- A * sin ph) with (- (A * sin ph)) in Z by ring. apply Ropp_eq_0_compat in Z. rewrite Ropp_involutive in Z. apply Rmult_integral in Z. destruct Z as [Z | Z]; [contradiction | rewrite Z in X; lra].
  - intros t T. pose proof (E t T) as X. rewrite (R t T) in X. unfold mv, D, design4, of_cols, sine in X. cbn [m_m m_at length] in X. rewrite rsum4 in X. cbn [nth] in X. rewrite cos_plus in X. lra.
Qed.
Lemma usable_half f : usable f -> 0 < f < 1 / 2.
Proof. intros F. unfold usable in F. assert (0 < 1 / 10 ^ 10) by (apply Rdiv_lt_0_compat; [lra | apply pow_lt; lra]). lra. Qed.
Lemma Carg_polar A ph : 0 < A -> exists k : Z, Carg (A * cos ph, - (- A * sin ph)) = ph + 2 * PI * IZR k.
Proof.
  intros P. replace (A * cos ph, - (- A * sin ph)) with (Cscale A (cis ph)). 2:{ unfold Cscale, cis. cbn [fst snd]. f_equal. ring. }
  rewrite Carg_scale by exact P. apply Carg_cis.
Qed.
Lemma amp_polar A ph : 0 < A -> sqrt ((A * cos ph) ^ 2 + (- A * sin ph) ^ 2) = A.
Proof. intros P. replace ((A * cos ph) ^ 2 + (- A * sin ph) ^ 2) with (A * A). apply sqrt_square; lra. pose proof (sin2_cos2 ph) as Q. unfold Rsqr in Q. nra. Qed.
(** An exact sine of the supplied frequency is returned with its own parameters and zero residuals,
    for any number of refinements. *)
Lemma c83_exact_sine lstsq y f A ph off mi tol : least_squares lstsq -> usable f -> 0 < A -> (5 <= length y)%nat -> (0 <= mi)%Z -> 0 < tol ->
  is_record y (sine A f ph off) ->
  exists r, fit_core lstsq y (Some f) mi tol = Ok r /\ f_frequency r = f /\ f_amplitude r = A /\ f_dc r = off /\ same_angle (f_phase r) ph /\
    (forall t, (t < length y)%nat -> nth t (f_fitted r) 0 = nth t y 0 /\ nth t (f_residuals r) 0 = 0) /\ f_rmse r = Fin 0 /\
    f_converged r = true /\ Z.of_nat (f_iterations r) = Z.min 1 mi /\ f_last_delta r = 0.
Proof.
  intros L U PA N M PT R. pose proof (usable_half f U) as F.
  destruct (c52_failure lstsq y (Some f) mi tol) as [(r & E) | (_ & H & _)]; [| discriminate]. exists r. split; [exact E |].
  pose proof (c52_parameters _ _ _ _ _ _ E) as (_ & _ & P & _ & _ & RM).
  destruct (design3_exact lstsq y A f ph off L F ltac:(lia) R) as (X0 & X1 & X2). destruct (design4_exact lstsq y A f ph off L F N ltac:(lra) R) as (Y0 & Y1 & Y2 & Y3).
  assert (CORE : f_frequency r = f /\ f_amplitude r = A /\ f_dc r = off /\ same_angle (f_phase r) ph /\ f_converged r = true /\ Z.of_nat (f_iterations r) = Z.min 1 mi /\ f_last_delta r = 0).
  { unfold fit_core in E. cbn [bind] in E. cbv zeta in E. destruct (Z.ltb_spec mi 0); [lia |]. rewrite X0, X1, X2 in E.
    assert (FIN : refine lstsq y tol (Z.to_nat mi) (mkFs f (A * cos ph) (- A * sin ph) off (mi =? 0)%Z 0 0) = mkFs f (A * cos ph) (- A * sin ph) off true (Z.to_nat (Z.min 1 mi)) 0).
    { destruct (Z.to_nat mi) as [| k] eqn:EM. { assert (mi = 0%Z) by lia. subst mi. reflexivity. }
      replace (Z.to_nat (Z.min 1 mi)) with 1%nat by lia. cbn [refine].
      assert (ONE : refine_once lstsq y tol (mkFs f (A * cos ph) (- A * sin ph) off (mi =? 0)%Z 0 0) = mkFs f (A * cos ph) (- A * sin ph) off true 1 0).
      { unfold refine_once. cbn [s_freq s_a s_b s_conv s_iter]. rewrite Y0, Y1, Y2, Y3. replace (0 / (2 * PI)) with 0 by (unfold Rdiv; ring). rewrite Rabs_R0, Rplus_0_r. destruct (Rltb_spec 0 tol); [| lra].
        f_equal. unfold usable in U. unfold rclip. rewrite Rmax_left by lra. apply Rmin_left. lra. }
      rewrite ONE. cbn [s_last]. rewrite Rabs_R0. destruct (Rltb_spec 0 tol); [reflexivity | lra]. }
    rewrite FIN in E. cbn [s_freq s_a s_b s_c s_conv s_iter s_last] in E. apply Ok_inj in E. subst r. cbn [f_frequency f_amplitude f_dc f_phase f_converged f_iterations f_last_delta].
    split; [reflexivity |]. split; [apply amp_polar; exact PA |]. split; [reflexivity |]. split; [apply Carg_polar; exact PA |]. split; [reflexivity |]. split; [lia | reflexivity]. }
  destruct CORE as (C1 & C2 & C3 & (k & C4) & C5 & C6 & C7).
  assert (FIT : forall t, (t < length y)%nat -> nth t (f_fitted r) 0 = nth t y 0).
  { intros t T. rewrite (proj1 (P t T)), C1, C2, C3, C4, (R t T). unfold sine. f_equal. f_equal.
    replace (2 * PI * f * INR t + (ph + 2 * PI * IZR k)) with (2 * PI * f * INR t + ph + 2 * PI * IZR k) by ring. exact (f_equal Re (cis_period (2 * PI * f * INR t + ph) k)). }
  repeat split; try assumption.
  - exists k. exact C4. - apply FIT; assumption. - rewrite (proj2 (P t H)), (FIT t H). ring.
  - rewrite RM by (destruct y; [cbn in N; lia | discriminate]). f_equal. rewrite rsum_zero. { unfold Rdiv. rewrite Rmult_0_l. apply sqrt_0. }
    intros t T. rewrite (proj2 (P t T)), (FIT t T). ring.
Qed.

(** ** C84: the automatic frequency estimate *)
(** The estimate is in [0, 1/2) for every record of two or more samples. *)
Lemma c84_range y x : estimate_frequency_fft y = Ok x -> 0 <= x < 1 / 2.
Proof.
  unfold estimate_frequency_fft, raise_if. destruct (Nat.eqb_spec (length y / 2) 0) as [Z | Z]; [discriminate |]. cbv zeta.
  set (n := length y) in *. set (spec := map _ _). assert (LS : length spec = (n / 2)%nat) by (unfold spec; rewrite map_length, seq_length; reflexivity). rewrite LS.
  assert (NN : (2 * (n / 2) <= n)%nat) by (apply Nat.mul_div_le; lia). assert (NP : 0 < INR n) by (apply lt_0_INR; lia).
  assert (H2 : 2 * INR (n / 2) <= INR n) by (pose proof (le_INR _ _ NN) as Q; rewrite mult_INR in Q; change (INR 2) with (1 + 1) in Q; lra).
  destruct (argmax_spec spec) as (A1 & A2 & A3); [intros E; rewrite E in LS; cbn [length] in LS; lia |]. rewrite LS in A1. set (k := argmax spec) in *.
  assert (POS : forall i, 0 <= nth i spec 0).
  { intros i. destruct (Nat.lt_ge_cases i (n / 2)) as [I | I]; [| rewrite nth_overflow by lia; lra]. unfold spec. rewrite (nth_map_in _ _ _ 0%nat) by (rewrite seq_length; exact I). destruct (_ =? 0)%nat; [lra | apply Cmod_nonneg]. }
  assert (KB : INR k + 1 <= INR (n / 2)) by (rewrite <- S_INR; apply le_INR; lia). pose proof (pos_INR k).
  destruct (Nat.ltb_spec 0 k) as [K0 | K0]; cbn [andb].
  - assert (KP : 0 < nth k spec 0) by (apply (Rle_lt_trans _ (nth 0 spec 0)); [apply POS | apply A3; exact K0]). assert (K1 : 1 <= INR k) by (replace 1 with (INR 1) by reflexivity; apply le_INR; lia).
    assert (FR : forall i, (i < n / 2)%nat -> 0 <= nth i spec 0 / (nth k spec 0 + nth i spec 0) <= 1 / 2).
    { intros i I. pose proof (POS i). pose proof (A2 i ltac:(lia)). split; [apply Rdiv_le_0_compat; lra | apply Rdiv_le_upper; lra]. }
    destruct (Nat.ltb_spec k (n / 2 - 1)) as [K2 | K2].
    + assert (KB2 : INR k + 2 <= INR (n / 2)) by (replace (INR k + 2) with (INR (k + 2)) by (rewrite plus_INR; cbn; ring); apply le_INR; lia).
      pose proof (FR (k + 1)%nat ltac:(lia)). pose proof (FR (k - 1)%nat ltac:(lia)). intros H5. apply Ok_inj in H5. subst x.
      set (d := if Rltb _ _ then _ else _). assert (D : - (1 / 2) <= d <= 1 / 2). { unfold d. destruct (Rltb _ _); [lra |]. replace (- nth (k - 1) spec 0 / (nth k spec 0 + nth (k - 1) spec 0)) with (- (nth (k - 1) spec 0 / (nth k spec 0 + nth (k - 1) spec 0))) by (field; pose proof (POS (k - 1)%nat); lra). lra. }
      split; [apply Rdiv_le_0_compat; lra |]. apply (Rmult_lt_reg_r (INR n)); [exact NP |]. unfold Rdiv at 1. rewrite Rmult_assoc, Rinv_l by lra. lra.
    + intros H5. apply Ok_inj in H5. subst x. split; [apply Rdiv_le_0_compat; lra |]. apply (Rmult_lt_reg_r (INR n)); [exact NP |]. unfold Rdiv at 1. rewrite Rmult_assoc, Rinv_l by lra. lra.
  - intros H5. apply Ok_inj in H5. subst x. split; [apply Rdiv_le_0_compat; lra |]. apply (Rmult_lt_reg_r (INR n)); [exact NP |]. unfold Rdiv at 1. rewrite Rmult_assoc, Rinv_l by lra. lra.
Qed.
Lemma tone_spectrum y k A ph off j : (0 < k)%nat -> (2 * k < length y)%nat -> (0 < j)%nat -> (j <= length y / 2)%nat -> is_record y (sine A (INR k / INR (length y)) ph off) ->
  Cmod (rdft (length y) (fun i => nth i y 0) j) = if (j =? k)%nat then INR (length y) * Rabs A / 2 else 0.
Proof.
  intros K N J JN R. set (n := length y) in *. assert (NP : 0 < INR n) by (apply lt_0_INR; lia).
  replace (rdft n (fun i => nth i y 0) j) with (Cplus (rdft n (fun t => off * cos (2 * PI * INR 0 * INR t / INR n + 0)) j) (rdft n (fun t => A * cos (2 * PI * INR k * INR t / INR n + ph)) j)).
  2:{ unfold rdft. rewrite <- dft_plus. apply dft_ext. intros i I. rewrite (R i I). unfold sine, RtoC, Cplus. cbn [fst snd]. f_equal; [| ring]. replace (2 * PI * INR 0 * INR i / INR n + 0) with 0 by (cbn; field; lra). rewrite cos_0.
      replace (2 * PI * (INR k / INR n) * INR i) with (2 * PI * INR k * INR i / INR n) by (field; lra). ring. }
  rewrite (tone_rdft n 0), (tone_rdft n k) by lia. destruct (Nat.eqb_spec j 0) as [X | _]; [lia |]. destruct (Nat.eqb_spec j k) as [-> | NE].
  - destruct (Nat.eqb_spec k 0) as [X | _]; [lia |]. replace (Cplus C0 (Cscale (INR n * A / 2) (cis ph))) with (Cscale (INR n * A / 2) (cis ph)) by (unfold Cplus, C0, Cscale; cbn [fst snd]; f_equal; ring).
    rewrite Cmod_scale, Cmod_cis. unfold Rdiv. rewrite !Rabs_mult. rewrite (Rabs_pos_eq (INR n)), (Rabs_pos_eq (/ 2)) by lra. ring.
  - replace (Cplus C0 C0) with C0 by (unfold Cplus, C0; cbn [fst snd]; f_equal; ring). apply Cmod_0.
Qed.
(** For a whole number of periods k < n // 2 the estimate is exact, whatever amplitude, phase, offset. *)
Lemma c84_coherent y k A ph off : (0 < k)%nat -> (k < length y / 2)%nat -> A <> 0 -> is_record y (sine A (INR k / INR (length y)) ph off) ->
  estimate_frequency_fft y = Ok (INR k / INR (length y)).
Proof.
  intros K N NA R. assert (N2 : (2 * k < length y)%nat) by (pose proof (Nat.mul_div_le (length y) 2); lia). assert (NP : 0 < INR (length y)) by (apply lt_0_INR; lia).
  unfold estimate_frequency_fft, raise_if. destruct (Nat.eqb_spec (length y / 2) 0) as [Z | _]; [lia |]. cbv zeta. set (spec := map _ _).
  assert (LS : length spec = (length y / 2)%nat) by (unfold spec; rewrite map_length, seq_length; reflexivity). rewrite LS.
  assert (V : forall i, nth i spec 0 = if (i =? k)%nat then INR (length y) * Rabs A / 2 else 0).
  { intros i. destruct (Nat.lt_ge_cases i (length y / 2)) as [I | I]. 2:{ rewrite nth_overflow by lia. destruct (Nat.eqb_spec i k); [lia | reflexivity]. }
    unfold spec. rewrite (nth_map_in _ _ _ 0%nat) by (rewrite seq_length; exact I). rewrite seq_nth by exact I. cbn [Nat.add]. destruct (Nat.eqb_spec i 0) as [-> | I0]. { destruct (Nat.eqb_spec 0 k); [lia | reflexivity]. }
    apply (tone_spectrum y k A ph off i); try assumption; lia. }
  assert (PK : 0 < INR (length y) * Rabs A / 2) by (pose proof (Rabs_pos_lt A NA); apply Rdiv_lt_0_compat; [apply Rmult_lt_0_compat; lra | lra]).
  assert (AM : argmax spec = k).
  { apply argmax_unique; [lia | |]. - intros j J. rewrite !V, Nat.eqb_refl. destruct (j =? k)%nat; lra. - intros j J. rewrite !V, Nat.eqb_refl. destruct (Nat.eqb_spec j k); [lia | lra]. }
  rewrite AM. match goal with |- (if ?c then _ else _) = _ => destruct c end; [| reflexivity]. rewrite !V, Nat.eqb_refl.
  destruct (Nat.eqb_spec (k - 1) k); [lia |]. destruct (Nat.eqb_spec (k + 1) k); [lia |]. destruct (Rltb_spec 0 0); [lra |]. f_equal. replace (- 0 / (INR (length y) * Rabs A / 2 + 0)) with 0 by (unfold Rdiv; ring). rewrite Rplus_0_r. reflexivity.
Qed.
(** Together: a coherent sine is recovered exactly without any frequency hint. *)
Lemma c84_auto_fit lstsq y k A ph off mi tol : least_squares lstsq -> (0 < k)%nat -> (k < length y / 2)%nat -> (5 <= length y)%nat -> INR (length y) <= 10 ^ 10 -> 0 < A -> (0 <= mi)%Z -> 0 < tol ->
  is_record y (sine A (INR k / INR (length y)) ph off) ->
  exists r, fit_core lstsq y None mi tol = Ok r /\ f_frequency r = INR k / INR (length y) /\ f_amplitude r = A /\ f_dc r = off /\ same_angle (f_phase r) ph /\
    forall t, (t < length y)%nat -> nth t (f_residuals r) 0 = 0.
Proof.
  intros L K N N5 NB PA M PT R. assert (N2 : (2 * k + 1 <= length y)%nat) by (pose proof (Nat.mul_div_le (length y) 2); lia). assert (NP : 0 < INR (length y)) by (apply lt_0_INR; lia).
  assert (T10 : 0 < 10 ^ 10) by (apply pow_lt; lra).
  assert (U : usable (INR k / INR (length y))).
  { assert (I : 1 / 10 ^ 10 <= 1 / INR (length y)) by (unfold Rdiv; rewrite !Rmult_1_l; apply Rinv_le_contravar; assumption).
    assert (K1 : 1 <= INR k) by (replace 1 with (INR 1) by reflexivity; apply le_INR; lia).
    assert (K2 : 2 * INR k + 2 <= INR (length y)). { assert (X : (2 * k + 2 <= length y)%nat) by (pose proof (Nat.mul_div_le (length y) 2); lia). apply le_INR in X. rewrite plus_INR, mult_INR in X. cbn [INR] in X. lra. }
    split.
    - eapply Rle_trans; [exact I |]. unfold Rdiv. apply Rmult_le_compat_r; [left; apply Rinv_0_lt_compat; exact NP | exact K1].
    - apply (Rle_trans _ (1 / 2 - 1 / INR (length y))); [| lra]. apply (Rmult_le_reg_r (INR (length y))); [exact NP |]. unfold Rdiv. rewrite Rmult_minus_distr_r, !Rmult_assoc, Rinv_l by lra. lra. }
  destruct (c83_exact_sine lstsq y _ A ph off mi tol L U PA N5 M PT R) as (r & E & C1 & C2 & C3 & C4 & C5 & _).
  exists r. split; [| split; [exact C1 | split; [exact C2 | split; [exact C3 | split; [exact C4 | intros t T; apply (C5 t T)]]]]].
  unfold fit_core in E |- *. cbn [bind] in E. rewrite (c84_coherent y k A ph off K N ltac:(lra) R). cbn [bind]. exact E.
Qed.
Lemma argmax_all_zero l : (forall i, nth i l 0 = 0) -> argmax l = 0%nat.
Proof.
  intros Z. destruct l as [| x l]; [reflexivity |]. apply argmax_unique; [cbn; lia | |]. - intros j J. rewrite !Z. lra. - intros j J. lia.
Qed.
(** The topmost bin of an odd-length record is not searched: a coherent sine there is estimated as
    frequency zero. *)
Lemma c84_odd_top_bin k y A ph off : (0 < k)%nat -> length y = (2 * k + 1)%nat -> is_record y (sine A (INR k / INR (length y)) ph off) ->
  estimate_frequency_fft y = Ok 0.
Proof.
  intros K N R. assert (N2 : (length y / 2)%nat = k) by (rewrite N, Nat.add_comm, Nat.mul_comm, Nat.div_add by lia; reflexivity).
  unfold estimate_frequency_fft, raise_if. destruct (Nat.eqb_spec (length y / 2) 0) as [Z | _]; [lia |]. cbv zeta. set (spec := map _ _).
  rewrite (argmax_all_zero spec). { cbn [Nat.ltb Nat.leb andb INR]. unfold Rdiv. rewrite Rmult_0_l. reflexivity. }
  intros i. destruct (Nat.lt_ge_cases i (length y / 2)) as [I | I]. 2:{ apply nth_overflow. unfold spec. rewrite map_length, seq_length. exact I. }
  unfold spec. rewrite (nth_map_in _ _ _ 0%nat) by (rewrite seq_length; exact I). rewrite seq_nth by exact I. cbn [Nat.add]. destruct (Nat.eqb_spec i 0) as [-> | I0]; [reflexivity |].
  rewrite (tone_spectrum y k A ph off i) by (try assumption; lia). destruct (Nat.eqb_spec i k); [lia | reflexivity].
Qed.
Definition odd_record : list R := map (fun t => cos (2 * PI * (2 / 5) * INR t)) (seq 0 5).
Lemma c84_odd_top_bin_refuted : exists y k A ph off, (0 < k)%nat /\ (2 * k < length y)%nat /\ A <> 0 /\ is_record y (sine A (INR k / INR (length y)) ph off) /\
  estimate_frequency_fft y <> Ok (INR k / INR (length y)).
Proof.
  exists odd_record, 2%nat, 1, 0, 0. split; [lia |]. split; [cbn; lia |]. split; [lra |].
  assert (R : is_record odd_record (sine 1 (INR 2 / INR (length odd_record)) 0 0)).
  { intros t T. change (length odd_record) with 5%nat in *. unfold odd_record. rewrite (nth_map_in _ _ _ 0%nat) by (rewrite seq_length; exact T). rewrite seq_nth by exact T. unfold sine. cbn [Nat.add].
    replace (INR 2 / INR 5) with (2 / 5) by (cbn; field). rewrite Rplus_0_r. ring. }
  split; [exact R |]. rewrite (c84_odd_top_bin 2 odd_record 1 0 0 ltac:(lia) eq_refl R). intros E. apply Ok_inj in E. change (length odd_record) with 5%nat in E. cbn in E. lra.
Qed.

(** ** C85: the refinement column *)
Lemma derivable_linear k x : derivable_pt_lim (fun w => w * k) x k.
Proof. intros eps P. exists (mkposreal 1 Rlt_0_1). intros h H _. replace (((x + h) * k - x * k) / h - k) with 0 by (field; exact H). rewrite Rabs_R0. exact P. Qed.
(** The fourth column of the design matrix is the derivative of the model with respect to the
    angular frequency, so each refinement is a Gauss-Newton step. *)
Lemma c85_derivative_column n f a b t :
  derivable_pt_lim (fun w => a * cos (w * INR t) + b * sin (w * INR t)) (2 * PI * f) (m_at (design4 n f a b) t 3).
Proof.
  unfold design4, of_cols. cbn [m_at nth]. set (w := 2 * PI * f). set (k := INR t).
  assert (C : derivable_pt_lim (fun w => cos (w * k)) w (- sin (w * k) * k)).
  { apply (derivable_pt_lim_comp (fun w => w * k) cos w k (- sin (w * k))). - apply derivable_linear. - apply derivable_pt_lim_cos. }
  assert (S : derivable_pt_lim (fun w => sin (w * k)) w (cos (w * k) * k)).
  { apply (derivable_pt_lim_comp (fun w => w * k) sin w k (cos (w * k))). - apply derivable_linear. - apply derivable_pt_lim_sin. }
  replace (k * (- a * sin (w * k) + b * cos (w * k))) with (a * (- sin (w * k) * k) + b * (cos (w * k) * k)) by ring.
  apply (derivable_pt_lim_plus (fun w => a * cos (w * k)) (fun w => b * sin (w * k))); apply derivable_pt_lim_scal; assumption.
Qed.
(** The step stored in the state is that of the linearised least-squares problem: no other change
    of amplitude, phase, offset and angular frequency fits the data better to first order. *)
Lemma c85_gauss_newton lstsq y tol s p q r d : least_squares lstsq -> let s' := refine_once lstsq y tol s in
  let model := fun a b c dw t => a * cos (2 * PI * s_freq s * INR t) + b * sin (2 * PI * s_freq s * INR t) + c + dw * m_at (design4 (length y) (s_freq s) (s_a s) (s_b s)) t 3 in
  sq_error y (model (s_a s') (s_b s') (s_c s') (2 * PI * s_last s')) <= sq_error y (model p q r d).
Proof.
  intros L s' model. pose proof (L (design4 (length y) (s_freq s) (s_a s) (s_b s)) (fun i => nth i y 0) (fun k => nth k [p; q; r; d] 0)) as Q. unfold sq_error, model. pose proof PI_RGT_0.
  eapply Rle_trans; [| eapply Rle_trans; [exact Q |]]; apply Req_le; (apply rsum_ext; intros t T; unfold design4, of_cols; cbn [m_m m_at length]; rewrite !rsum4; cbn [nth]).
  - unfold s', refine_once. cbn [s_a s_b s_c s_last]. set (co := lstsq _ _). replace (2 * PI * (co 3%nat / (2 * PI))) with (co 3%nat) by (field; lra). unfold design4, of_cols. cbn [m_at nth]. ring.
  - unfold design4, of_cols. cbn [m_at nth]. ring.
Qed.

(** ** C86: constant records *)
Lemma constant_estimate y v : (2 <= length y)%nat -> is_record y (fun _ => v) -> estimate_frequency_fft y = Ok 0.
Proof.
  intros N R. unfold estimate_frequency_fft, raise_if.
  assert (D : (1 <= length y / 2)%nat) by (apply (Nat.div_le_lower_bound (length y) 2 1); lia).
  destruct (Nat.eqb_spec (length y / 2) 0) as [Z | _]; [lia |]. cbv zeta. set (spec := map _ _).
  rewrite (argmax_all_zero spec). { cbn [Nat.ltb Nat.leb andb INR]. unfold Rdiv. rewrite Rmult_0_l. reflexivity. }
  intros i. destruct (Nat.lt_ge_cases i (length y / 2)) as [I | I]. 2:{ apply nth_overflow. unfold spec. rewrite map_length, seq_length. exact I. }
  unfold spec. rewrite (nth_map_in _ _ _ 0%nat) by (rewrite seq_length; exact I). rewrite seq_nth by exact I. cbn [Nat.add]. destruct (Nat.eqb_spec i 0) as [-> | I0]; [reflexivity |].
  replace (rdft (length y) (fun j => nth j y 0) i) with (rdft (length y) (fun t => v * cos (2 * PI * INR 0 * INR t / INR (length y) + 0)) i).
  2:{ unfold rdft. apply dft_ext. intros t T. rewrite (R t T). f_equal. replace (2 * PI * INR 0 * INR t / INR (length y) + 0) with 0 by (cbn; unfold Rdiv; ring). rewrite cos_0. ring. }
  rewrite tone_rdft by lia. destruct (Nat.eqb_spec i 0); [lia | apply Cmod_0].
Qed.
(** With numpy's minimum-norm solution a constant record is fitted as half offset, half cosine of
    frequency zero: both the offset and the amplitude come out as half the constant. *)
Lemma c86_constant_split lstsq y v tol : (2 <= length y)%nat -> is_record y (fun _ => v) ->
  minimum_norm (design3 (length y) 0) (fun i => nth i y 0) (lstsq (design3 (length y) 0) (fun i => nth i y 0)) ->
  exists r, fit_core lstsq y None 0 tol = Ok r /\ f_dc r = v / 2 /\ f_amplitude r = Rabs v / 2 /\ f_frequency r = 0 /\ forall t, (t < length y)%nat -> nth t (f_residuals r) 0 = 0.
Proof.
  intros N R (MIN & LEAST). set (co := lstsq _ _) in *.
  assert (D : forall x t, rsum (m_m (design3 (length y) 0)) (fun j => m_at (design3 (length y) 0) t j * x j) = x 0%nat + x 2%nat).
  { intros x t. unfold design3, of_cols. cbn [m_m m_at length]. rewrite rsum3. cbn [nth]. replace (2 * PI * 0 * INR t) with 0 by ring. rewrite cos_0, sin_0. ring. }
  assert (ERR : forall x, rsum (m_n (design3 (length y) 0)) (fun i => (rsum (m_m (design3 (length y) 0)) (fun j => m_at (design3 (length y) 0) i j * x j) - nth i y 0) ^ 2) = INR (length y) * (x 0%nat + x 2%nat - v) ^ 2).
  { intros x. change (m_n (design3 (length y) 0)) with (length y). rewrite <- rsum_const. apply rsum_ext. intros t T. rewrite D, (R t T). reflexivity. }
  assert (NP : 0 < INR (length y)) by (apply lt_0_INR; lia).
  assert (SUM : co 0%nat + co 2%nat = v).
  { pose proof (MIN (fun j => nth j [v; 0; 0] 0)) as P. rewrite !ERR in P. cbn [nth] in P. replace (INR (length y) * (v + 0 - v) ^ 2) with 0 in P by ring.
    assert (Q : (co 0%nat + co 2%nat - v) ^ 2 = 0). { pose proof (pow2_ge_0 (co 0%nat + co 2%nat - v)). nra. } apply sq_zero in Q. lra. }
  assert (HALF : co 0%nat = v / 2 /\ co 1%nat = 0 /\ co 2%nat = v / 2).
  { assert (M2 : minimises (design3 (length y) 0) (fun i => nth i y 0) (fun j => nth j [v / 2; 0; v / 2] 0)).
    { intros z. rewrite !ERR. cbn [nth]. replace (v / 2 + v / 2 - v) with 0 by field. pose proof (pow2_ge_0 (z 0%nat + z 2%nat - v)). nra. }
    pose proof (LEAST _ M2) as P. change (m_m (design3 (length y) 0)) with 3%nat in P. rewrite !rsum3 in P. cbn [nth] in P.
    assert (Q : (co 0%nat - v / 2) ^ 2 + (co 0%nat - v / 2) ^ 2 + co 1%nat ^ 2 <= 0). { assert (X : co 2%nat = v - co 0%nat) by lra. rewrite X in P. nra. }
    pose proof (pow2_ge_0 (co 0%nat - v / 2)). pose proof (pow2_ge_0 (co 1%nat)).
    assert (Z0 : (co 0%nat - v / 2) ^ 2 = 0) by lra. assert (Z1 : co 1%nat ^ 2 = 0) by lra. apply sq_zero in Z0, Z1. repeat split; lra. }
  destruct HALF as (H0 & H1 & H2). unfold fit_core. rewrite (constant_estimate y v N R). cbn [bind]. cbv zeta. change (0 <? 0)%Z with false. cbv iota. change (Z.to_nat 0) with 0%nat. cbn [refine s_freq s_a s_b s_c s_conv s_iter s_last]. fold co. rewrite H0, H1, H2.
  eexists. split; [reflexivity |]. cbn [f_dc f_amplitude f_frequency f_residuals]. split; [reflexivity |]. split; [| split; [reflexivity |]].
  - replace ((v / 2) ^ 2 + 0 ^ 2) with (Rsqr (v / 2)) by (unfold Rsqr; ring). rewrite sqrt_Rsqr_abs. unfold Rdiv. rewrite Rabs_mult, (Rabs_pos_eq (/ 2)) by lra. reflexivity.
  - intros t T. rewrite (map2_nth Rminus _ _ t 0 0 0) by (rewrite ?map_length, ?seq_length; lia). rewrite (nth_map_in _ _ _ 0%nat) by (rewrite seq_length; exact T). rewrite (R t T). replace (2 * PI * 0 * INR (nth t (seq 0 (length y)) 0%nat)) with 0 by ring. rewrite cos_0, sin_0. field.
Qed.
Lemma c86_constant_refuted : exists y v lstsq r, is_record y (fun _ => v) /\ v <> 0 /\
  minimum_norm (design3 (length y) 0) (fun i => nth i y 0) (lstsq (design3 (length y) 0) (fun i => nth i y 0)) /\
  fit_core lstsq y None 0 1 = Ok r /\ f_dc r <> v /\ f_amplitude r <> 0.
Proof.
  set (y := [2; 2; 2; 2]). set (ls := fun (_ : mat) (_ : vec) (j : nat) => nth j [1; 0; 1] 0).
  assert (R : is_record y (fun _ => 2)). { intros t T. cbn in T. destruct t as [| [| [| [| t]]]]; try reflexivity. lia. }
  assert (MN : minimum_norm (design3 (length y) 0) (fun i => nth i y 0) (ls (design3 (length y) 0) (fun i => nth i y 0))).
  { assert (D : forall x t, rsum (m_m (design3 (length y) 0)) (fun j => m_at (design3 (length y) 0) t j * x j) = x 0%nat + x 2%nat).
    { intros x t. unfold design3, of_cols. cbn [m_m m_at length]. rewrite rsum3. cbn [nth]. replace (2 * PI * 0 * INR t) with 0 by ring. rewrite cos_0, sin_0. ring. }
    assert (ERR : forall x, rsum (m_n (design3 (length y) 0)) (fun i => (rsum (m_m (design3 (length y) 0)) (fun j => m_at (design3 (length y) 0) i j * x j) - nth i y 0) ^ 2) = 4 * (x 0%nat + x 2%nat - 2) ^ 2).
    { intros x. change (m_n (design3 (length y) 0)) with 4%nat. replace 4 with (INR 4) by (cbn; ring). rewrite <- rsum_const. apply rsum_ext. intros t T. rewrite D, (R t T). reflexivity. }
    split.
    - intros z. rewrite !ERR. unfold ls. cbn [nth]. pose proof (pow2_ge_0 (z 0%nat + z 2%nat - 2)). lra.
    - intros z Z. pose proof (Z (fun j => nth j [1; 0; 1] 0)) as P. rewrite !ERR in P. cbn [nth] in P. pose proof (pow2_ge_0 (z 0%nat + z 2%nat - 2)).
      assert (Q : (z 0%nat + z 2%nat - 2) ^ 2 = 0) by lra. apply sq_zero in Q. change (m_m (design3 (length y) 0)) with 3%nat. rewrite !rsum3. unfold ls. cbn [nth].
      pose proof (pow2_ge_0 (z 0%nat - 1)). pose proof (pow2_ge_0 (z 1%nat)). assert (X : z 2%nat = 2 - z 0%nat) by lra. rewrite X. lra. }
  destruct (c86_constant_split ls y 2 1 ltac:(cbn; lia) R MN) as (r & E & Dc & Am & _).
  exists y, 2, ls, r. split; [exact R |]. split; [lra |]. split; [exact MN |]. split; [exact E |]. rewrite Dc, Am. rewrite (Rabs_pos_eq 2) by lra. split; lra.
Qed.

(** ** Examples *)
(** A negative iteration limit runs no fit at all. *)
Lemma c52_negative_limit lstsq y f tol : exists r, fit_core lstsq y (Some f) (-1) tol = Ok r /\ f_amplitude r = 0 /\ f_dc r = 0 /\ f_converged r = false /\ f_residuals r = y.
Proof.
  eexists. split; [reflexivity |]. cbn [f_amplitude f_dc f_converged f_residuals]. change (-1 <? 0)%Z with true. cbv iota. cbn [s_a s_b s_c s_conv s_freq].
  split; [replace (0 ^ 2 + 0 ^ 2) with 0 by ring; apply sqrt_0 |]. split; [reflexivity |]. split; [reflexivity |].
  apply (nth_ext_eq 0). { rewrite map2_length; [reflexivity |]. rewrite map_length, seq_length. reflexivity. }
  intros i I. rewrite map2_length in I by (rewrite map_length, seq_length; reflexivity). rewrite (map2_nth Rminus _ _ i 0 0 0) by (rewrite ?map_length, ?seq_length; lia).
  rewrite (nth_map_in _ _ _ 0%nat) by (rewrite seq_length; exact I). ring.
Qed.
Definition quarter_record : list R := [3; 1; -1; 1; 3; 1; -1; 1].
Lemma quarter_record_is : is_record quarter_record (sine 2 (INR 2 / INR (length quarter_record)) 0 1).
Proof.
  intros t T. change (length quarter_record) with 8%nat in *. unfold sine. replace (2 * PI * (INR 2 / INR 8) * INR t + 0) with (2 * PI * (1 / 4) * INR t) by (cbn; field). rewrite cos_quarter.
  cbn in T. do 8 (destruct t as [| t]; [cbn; ring |]). lia.
Qed.
(** 1 + 2 cos(pi t / 2), eight samples, no hint, default settings. *)
Lemma c84_auto_fit_ex : exists r, fit_core gs_lstsq quarter_record None 1 (1 / 10 ^ 9) = Ok r /\ f_frequency r = 1 / 4 /\ f_amplitude r = 2 /\ f_dc r = 1.
Proof.
  destruct (c84_auto_fit gs_lstsq quarter_record 2 2 0 1 1 (1 / 10 ^ 9) gs_least_squares) as (r & E & F & A & D & _).
  - lia. - cbn. lia. - cbn. lia. - change (length quarter_record) with 8%nat. apply (Rle_trans _ (10 ^ 1)); [cbn; lra | apply Rle_pow; [lra | lia]]. - lra. - lia.
  - apply Rdiv_lt_0_compat; [lra | apply pow_lt; lra]. - exact quarter_record_is.
  - exists r. split; [exact E |]. split; [rewrite F; change (length quarter_record) with 8%nat; cbn; field |]. split; assumption.
Qed.
(** A single impulse fitted at a quarter of the sampling rate. *)
Lemma c82_impulse_ex : exists r, fit_core gs_lstsq [1; 0; 0; 0] (Some (1 / 4)) 0 1 = Ok r /\ f_dc r = 1 / 4 /\ f_amplitude r = 1 / 2 /\ f_residuals r = [1 / 4; - (1 / 4); 1 / 4; - (1 / 4)].
Proof.
  assert (S : forall t, sin (2 * PI * (1 / 4) * INR t) = cos (2 * PI * (1 / 4) * INR (t + 3))).
  { intros t. rewrite plus_INR. replace (2 * PI * (1 / 4) * (INR t + INR 3)) with (2 * PI * (1 / 4) * INR t + 3 * (PI / 2)) by (cbn; field). rewrite cos_plus, cos_3PI2, sin_3PI2. ring. }
  set (y := [1; 0; 0; 0]). unfold fit_core. cbn [bind]. cbv zeta. change (0 <? 0)%Z with false. cbv iota. change (Z.to_nat 0) with 0%nat. cbn [refine s_freq s_a s_b s_c s_conv s_iter s_last].
  change (length y) with 4%nat. set (co := gs_lstsq _ _).
  assert (MIN : minimises (design3 4 (1 / 4)) (fun i => nth i y 0) co) by (intros z; apply gs_least_squares).
  clearbody co. assert (V : co 0%nat = 1 / 2 /\ co 1%nat = 0 /\ co 2%nat = 1 / 4).
  { pose proof (normal_equations _ _ _ 0%nat MIN ltac:(cbn; lia)) as N0. pose proof (normal_equations _ _ _ 1%nat MIN ltac:(cbn; lia)) as N1. pose proof (normal_equations _ _ _ 2%nat MIN ltac:(cbn; lia)) as N2.
    unfold design3, of_cols in N0, N1, N2. cbn [m_n m_m m_at length rsum nth y] in N0, N1, N2. rewrite !S in N0, N1, N2. rewrite !cos_quarter in N0, N1, N2. cbn in N0, N1, N2. repeat split; lra. }
  destruct V as (V0 & V1 & V2). rewrite V0, V1, V2. eexists. split; [reflexivity |]. cbn [f_dc f_amplitude f_residuals]. split; [reflexivity |]. split.
  - replace ((1 / 2) ^ 2 + 0 ^ 2) with (1 / 2 * (1 / 2)) by ring. apply sqrt_square. lra.
  - cbn [seq map]. rewrite !S, !cos_quarter. cbn. repeat (apply f_equal2; [lra |]). reflexivity.
Qed.
