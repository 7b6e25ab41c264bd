(** * The MATLAB sine fit and decomposition against the Python ones: final lemmas c168_, c169_. *)
From Coq Require Import Psatz.
From Verif Require Import Base BaseLemmas Cplx SpecModel SpecLemmas TiModel TiToneProofs CalModel CalSpec CalProofs CalExLemmas FitModel FitSpec FitProofs AcfModel HarmModel HarmSpec HarmProofs MsinModel.
Local Open Scope R_scope.

(** ** Facts about least squares *)
Lemma zero_terms n f : (forall i, (i < n)%nat -> 0 <= f i) -> rsum n f = 0 -> forall i, (i < n)%nat -> f i = 0.
Proof.
  induction n as [| n IH]; intros P E i I; [lia |]. cbn [rsum] in E. assert (0 <= rsum n f) by (apply rsum_nonneg; intros; apply P; lia). pose proof (P n ltac:(lia)).
  destruct (Nat.eq_dec i n) as [-> | N]; [lra | apply IH; [intros; apply P; lia | lra | lia]].
Qed.
Lemma ls_minimises lstsq A b : least_squares lstsq -> minimises A b (lstsq A b).
Proof. intros L z. apply L. Qed.
(** The two residuals of least-squares solutions over the same span are equal. *)
Lemma fitted_unique n m m' (P Q : nat -> nat -> R) (b : vec) (x x' z z' : vec) :
  minimises (mkMat n m P) b x -> minimises (mkMat n m' Q) b x' ->
  (forall t, (t < n)%nat -> rsum m (fun j => P t j * z j) = rsum m' (fun j => Q t j * x' j)) ->
  (forall t, (t < n)%nat -> rsum m' (fun j => Q t j * z' j) = rsum m (fun j => P t j * x j)) ->
  forall t, (t < n)%nat -> rsum m (fun j => P t j * x j) = rsum m' (fun j => Q t j * x' j).
Proof.
  intros M1 M2 Z Z'. set (p := fun t => rsum m (fun j => P t j * x j)). set (q := fun t => rsum m' (fun j => Q t j * x' j)).
  assert (O1 : forall w, rsum n (fun t => (b t - p t) * rsum m (fun j => P t j * w j)) = 0).
  { intros w. rewrite (rsum_ext n _ (fun t => rsum m (fun j => w j * ((b t - p t) * P t j)))) by (intros t _; rewrite <- rsum_scale; apply rsum_ext; intros j _; ring).
    rewrite rsum_swap. apply rsum_zero. intros j J. rewrite rsum_scale. pose proof (normal_equations _ _ _ j M1 J) as E. cbn [m_n m_m m_at] in E. fold (p) in E. unfold p. rewrite E. ring. }
  assert (O2 : forall w, rsum n (fun t => (b t - q t) * rsum m' (fun j => Q t j * w j)) = 0).
  { intros w. rewrite (rsum_ext n _ (fun t => rsum m' (fun j => w j * ((b t - q t) * Q t j)))) by (intros t _; rewrite <- rsum_scale; apply rsum_ext; intros j _; ring).
    rewrite rsum_swap. apply rsum_zero. intros j J. rewrite rsum_scale. pose proof (normal_equations _ _ _ j M2 J) as E. cbn [m_n m_m m_at] in E. unfold q. rewrite E. ring. }
  assert (S : rsum n (fun t => (p t - q t) ^ 2) = 0).
  { transitivity (rsum n (fun t => (b t - q t) * rsum m' (fun j => Q t j * z' j)) - rsum n (fun t => (b t - q t) * rsum m' (fun j => Q t j * x' j)) - (rsum n (fun t => (b t - p t) * rsum m (fun j => P t j * x j)) - rsum n (fun t => (b t - p t) * rsum m (fun j => P t j * z j)))).
    - rewrite <- !rsum_minus. apply rsum_ext. intros t T. rewrite (Z t T), (Z' t T). fold (p t) (q t). ring.
    - rewrite !O1, !O2. ring. }
  intros t T. fold (p t) (q t). assert (E : (p t - q t) ^ 2 = 0); [| apply Rminus_diag_uniq; replace ((p t - q t) ^ 2) with ((p t - q t) * (p t - q t)) in E by ring; apply Rmult_integral in E; tauto].
  apply (zero_terms n (fun t => (p t - q t) ^ 2)); [intros; apply pow2_ge_0 | exact S | exact T].
Qed.
(** Both solvers find the same three parameters. *)
Lemma solve3 lin lst (y : list R) f : least_squares lin -> least_squares lst -> 0 < f < 1 / 2 -> (3 <= length y)%nat ->
  let x := lin (m_design3 (length y) f) (fun i => nth i y 0) in let c := lst (design3 (length y) f) (fun i => nth i y 0) in
  x 0%nat = c 0%nat /\ x 1%nat = c 1%nat /\ x 2%nat = c 2%nat.
Proof.
  intros L1 L2 F N x c. set (n := length y) in *.
  assert (E : forall t, (t < n)%nat -> rsum 3 (fun j => m_at (design3 n f) t j * x j) = rsum 3 (fun j => m_at (design3 n f) t j * c j)).
  { apply (fitted_unique n 3 3 (m_at (design3 n f)) (m_at (design3 n f)) (fun i => nth i y 0) x c c x); [apply (ls_minimises lin (m_design3 n f)); exact L1 | apply (ls_minimises lst (design3 n f)); exact L2 | reflexivity | reflexivity]. }
  destruct (independent3 n f (x 0%nat - c 0%nat) (x 1%nat - c 1%nat) (x 2%nat - c 2%nat) F N) as (A & B & C); [| repeat split; lra].
  intros t T. pose proof (E t T) as Q. unfold design3, of_cols in Q. cbn [m_at] in Q. rewrite !rsum3 in Q. cbn [nth] in Q. lra.
Qed.
(** And the same four, up to the scale of the last column. *)
Lemma solve4 lin lst (y : list R) f a b : least_squares lin -> least_squares lst -> 0 < f < 1 / 2 -> (5 <= length y)%nat -> a <> 0 \/ b <> 0 ->
  let x := lin (m_design4 (length y) f a b) (fun i => nth i y 0) in let c := lst (design4 (length y) f a b) (fun i => nth i y 0) in
  x 0%nat = c 0%nat /\ x 1%nat = c 1%nat /\ x 2%nat = c 2%nat /\ x 3%nat / INR (length y) = c 3%nat / (2 * PI).
Proof.
  intros L1 L2 F N AB x c. set (n := length y) in *. assert (NP : 0 < INR n) by (apply lt_0_INR; lia). pose proof PI_RGT_0 as PP.
  assert (E : forall t, (t < n)%nat -> rsum 4 (fun j => m_at (m_design4 n f a b) t j * x j) = rsum 4 (fun j => m_at (design4 n f a b) t j * c j)).
  { apply (fitted_unique n 4 4 (m_at (m_design4 n f a b)) (m_at (design4 n f a b)) (fun i => nth i y 0) x c
      (fun j => if (j =? 3)%nat then c 3%nat * INR n / (2 * PI) else c j) (fun j => if (j =? 3)%nat then x 3%nat * (2 * PI) / INR n else x j)); [apply (ls_minimises lin (m_design4 n f a b)); exact L1 | apply (ls_minimises lst (design4 n f a b)); exact L2 | |];
      intros t T; unfold m_design4, design4, of_cols; cbn [m_at]; rewrite !rsum4; cbn [nth Nat.eqb]; unfold m_slope; field; lra. }
  destruct (independent4 n f a b (x 0%nat - c 0%nat) (x 1%nat - c 1%nat) (x 2%nat - c 2%nat) (x 3%nat * (2 * PI) / INR n - c 3%nat) F N AB) as (A & B & C & D).
  - intros t T. pose proof (E t T) as Q. unfold m_design4, design4, of_cols in Q. cbn [m_at] in Q. rewrite !rsum4 in Q. cbn [nth] in Q. unfold m_slope in Q.
    apply (Rplus_eq_compat_r (- rsum 4 (fun j => nth j [fun t0 => cos (2 * PI * f * INR t0); fun t0 => sin (2 * PI * f * INR t0); fun _ => 1; fun t0 => INR t0 * (- a * sin (2 * PI * f * INR t0) + b * cos (2 * PI * f * INR t0))] zvec t * c j))) in Q. rewrite rsum4 in Q. cbn [nth] in Q. rewrite Rplus_opp_r in Q.
    rewrite <- Q. field. lra.
  - repeat split; try lra. replace (c 3%nat) with (x 3%nat * (2 * PI) / INR n) by lra. field. lra.
Qed.
(** The argument of the conjugate. *)
Lemma Carg_conj a b : same_angle (- Carg (a, b)) (Carg (a, - b)).
Proof.
  pose proof (polar (a, b)) as E. assert (EA : a = Cmod (a, b) * cos (Carg (a, b))) by exact (f_equal Re E). assert (EB : b = Cmod (a, b) * sin (Carg (a, b))) by exact (f_equal Im E).
  set (m := Cmod (a, b)) in *. set (ph := Carg (a, b)) in *. destruct (Req_dec m 0) as [Z | NZ].
  - rewrite Z in EA, EB. rewrite !Rmult_0_l in EA, EB. subst a b. unfold ph. rewrite Ropp_0. rewrite RearProofs.Carg00. exists 0%Z. ring.
  - assert (MP : 0 < m) by (pose proof (Cmod_nonneg (a, b)); fold m in H; lra). destruct (Carg_minus m ph MP) as (k & K). replace (m * cos ph) with a in K by exact EA. replace (- m * sin ph) with (- b) in K by (rewrite EB at 1; ring). exists (- k)%Z. rewrite K, opp_IZR. ring.
Qed.
Lemma amp_zero a b : sqrt (a ^ 2 + b ^ 2) <> 0 <-> a <> 0 \/ b <> 0.
Proof.
  split.
  - intros H. destruct (Req_dec a 0) as [-> | A]; [| left; exact A]. destruct (Req_dec b 0) as [-> | B]; [| right; exact B]. exfalso. apply H. replace (0 ^ 2 + 0 ^ 2) with 0 by ring. apply sqrt_0.
  - intros H E. assert (P : 0 <= a ^ 2 + b ^ 2) by (pose proof (pow2_ge_0 a); pose proof (pow2_ge_0 b); lra). apply sqrt_eq_0 in E; [| exact P]. pose proof (pow2_ge_0 a). pose proof (pow2_ge_0 b). destruct H as [H | H]; apply H; apply Rsqr_0_uniq; unfold Rsqr; lra.
Qed.

(** ** C168: sinfit *)
(** The options refused, as one test. *)
Lemma m_opts f0 tol rate niter : 0 <= f0 <= 1 / 2 -> 0 < tol -> 0 < rate <= 1 -> (0 < niter)%Z ->
  (Rltb f0 0 || Rltb (1 / 2) f0 || Rleb tol 0 || Rleb rate 0 || Rltb 1 rate || (niter <=? 0)%Z)%bool = false.
Proof.
  intros F T R N. unfold Rltb, Rleb. destruct (Rlt_dec f0 0); [lra |]. destruct (Rlt_dec (1 / 2) f0); [lra |]. destruct (Rle_dec tol 0); [lra |]. destruct (Rle_dec rate 0); [lra |]. destruct (Rlt_dec 1 rate); [lra |]. cbn [orb]. apply Z.leb_gt. exact N.
Qed.
(** What the fit returns, from the last state of the loop. *)
Definition m_out (y : list R) (s : m_state) : m_fit :=
  mkMfit (map (fun t => ms_a s * cos (2 * PI * ms_freq s * INR t) + ms_b s * sin (2 * PI * ms_freq s * INR t) + ms_dc s) (seq 0 (length y)))
    (ms_freq s) (sqrt (ms_a s ^ 2 + ms_b s ^ 2)) (ms_dc s) (- Carg (ms_a s, ms_b s)) (ms_ii s).
Lemma sinfit_given lin rows f0 tol rate fs niter : 0 < f0 <= 1 / 2 -> 0 < tol -> 0 < rate <= 1 -> (0 < niter)%Z -> (0 < length (m_column rows))%nat ->
  let y := m_column rows in let x := lin (m_design3 (length y) f0) (fun i => nth i y 0) in let s0 := mkMs f0 (x 0%nat) (x 1%nat) (x 2%nat) 0 0 in
  m_sinfit lin rows f0 tol rate fs niter = Ok (Some (m_out y (if fs then m_refine lin y tol rate (Z.to_nat niter) s0 else s0))).
Proof.
  intros F T R N L y x s0. unfold m_sinfit. destruct (Nat.eqb_spec (length (m_column rows)) 0); [lia |]. cbn [raise_if]. rewrite m_opts by (try assumption; lra). cbn [raise_if]. unfold Reqb. destruct (Req_EM_T f0 0); [lra |]. cbn [bind]. rewrite orb_false_r. reflexivity.
Qed.
Lemma sinfit_inv lin rows f0 tol rate fs niter r : m_sinfit lin rows f0 tol rate fs niter = Ok (Some r) -> exists s, r = m_out (m_column rows) s.
Proof.
  unfold m_sinfit, raise_if. destruct (_ =? 0)%nat; [discriminate |]. destruct (_ || _)%bool; [discriminate |]. destruct (if Reqb f0 0 then m_estimate (m_column rows) else Ok (Fin f0)) as [v | e]; cbn [bind]; [| discriminate].
  destruct v as [f | | |]; try discriminate. cbv zeta. set (s := if (fs || Reqb f0 0)%bool then _ else _). intros E. exists s. apply Ok_inj in E. injection E as <-. reflexivity.
Qed.
(** The outputs describe one and the same sine: fitout = mag cos(2 pi freq t + phi) + dc. *)
Lemma c168_outputs lin rows f0 tol rate fs niter r : m_sinfit lin rows f0 tol rate fs niter = Ok (Some r) ->
  length (mf_fitout r) = length (m_column rows) /\ (forall t, (t < length (m_column rows))%nat -> nth t (mf_fitout r) 0 = sine (mf_mag r) (mf_freq r) (mf_phi r) (mf_dc r) t) /\ 0 <= mf_mag r /\ - PI <= mf_phi r < PI.
Proof.
  intros E. destruct (sinfit_inv _ _ _ _ _ _ _ _ E) as (s & ->). unfold m_out. cbn [mf_fitout mf_mag mf_freq mf_phi mf_dc]. split; [rewrite map_length, seq_length; reflexivity |]. split; [| split; [apply sqrt_pos | pose proof (Carg_range (ms_a s, ms_b s)); lra]].
  intros t T. rewrite (nth_map_in _ _ _ 0%nat) by (rewrite seq_length; exact T). rewrite seq_nth by exact T. cbn [Nat.add]. unfold sine. rewrite cos_plus, cos_neg, sin_neg.
  pose proof (polar (ms_a s, ms_b s)) as P. assert (EA : ms_a s = Cmod (ms_a s, ms_b s) * cos (Carg (ms_a s, ms_b s))) by exact (f_equal Re P). assert (EB : ms_b s = Cmod (ms_a s, ms_b s) * sin (Carg (ms_a s, ms_b s))) by exact (f_equal Im P).
  assert (M : Cmod (ms_a s, ms_b s) = sqrt (ms_a s ^ 2 + ms_b s ^ 2)) by (unfold Cmod, Cmod2; f_equal; unfold Re, Im; cbn [fst snd]; ring). rewrite M in EA, EB. clear M P. set (m := sqrt _) in *. set (ph := Carg _) in *. clearbody m ph. rewrite EA, EB. ring.
Qed.
(** At a given frequency without search: the same sine as the Python fit without refinement, by any
    two least-squares solvers. *)
Lemma c168_given lin lst rows f0 tol tol' rate niter : least_squares lin -> least_squares lst -> 0 < f0 < 1 / 2 -> 0 < tol -> 0 < rate <= 1 -> (0 < niter)%Z -> (3 <= length (m_column rows))%nat ->
  exists r r', m_sinfit lin rows f0 tol rate false niter = Ok (Some r) /\ fit_core lst (m_column rows) (Some f0) 0 tol' = Ok r' /\
  mf_fitout r = f_fitted r' /\ mf_freq r = f_frequency r' /\ mf_mag r = f_amplitude r' /\ mf_dc r = f_dc r' /\ same_angle (mf_phi r) (f_phase r') /\ mf_passes r = f_iterations r'.
Proof.
  intros L1 L2 F T R N L. set (y := m_column rows) in *. eexists _, _. split; [apply (sinfit_given lin rows f0 tol rate false niter); try assumption; [lra | fold y; lia] |]. fold y.
  split; [unfold fit_core; cbn [bind]; reflexivity |]. change (0 <? 0)%Z with false. cbv iota. change (Z.to_nat 0) with 0%nat. cbn [refine]. destruct (solve3 lin lst y f0 L1 L2 F L) as (A & B & C). unfold m_out. cbn [mf_fitout mf_freq mf_mag mf_dc mf_phi mf_passes ms_a ms_b ms_dc ms_freq ms_ii f_fitted f_frequency f_amplitude f_dc f_phase f_iterations s_a s_b s_c s_freq s_iter].
  rewrite A, B, C. repeat split. apply Carg_conj.
Qed.
(** *** The refinement *)
Definition sine_of (s : fit_state) : R * R * R * R := (s_freq s, s_a s, s_b s, s_c s).
Fixpoint py_states (lst : lstsq_fun) (y : list R) (tol : R) (j : nat) (s : fit_state) : fit_state := match j with O => s | S k => refine_once lst y tol (py_states lst y tol k s) end.
Lemma py_shift lst y tol : forall j s, py_states lst y tol j (refine_once lst y tol s) = py_states lst y tol (S j) s.
Proof. induction j as [| j IH]; intros s; [reflexivity |]. cbn [py_states]. rewrite IH. reflexivity. Qed.
Lemma refine_full lst y tol : forall fuel s, s_iter (refine lst y tol fuel s) = (s_iter s + fuel)%nat -> forall j, (j <= fuel)%nat -> refine lst y tol j s = py_states lst y tol j s.
Proof.
  induction fuel as [| k IH]; intros s E j J. { replace j with 0%nat by lia. reflexivity. }
  destruct j as [| j]; [reflexivity |]. cbn [refine] in E |- *. set (s1 := refine_once lst y tol s) in *. assert (I1 : s_iter s1 = S (s_iter s)) by reflexivity. destruct (Rltb (Rabs (s_last s1)) tol).
  - assert (k = 0%nat) by lia. subst k. replace j with 0%nat by lia. reflexivity.
  - rewrite (IH s1); [apply py_shift | lia | lia].
Qed.
Lemma py_states_core lst y tol : forall j s s', sine_of s = sine_of s' -> sine_of (py_states lst y tol j s) = sine_of (py_states lst y tol j s') /\ ((0 < j)%nat -> s_last (py_states lst y tol j s) = s_last (py_states lst y tol j s')).
Proof.
  induction j as [| j IH]; intros s s' E; [split; [exact E | lia] |]. cbn [py_states]. destruct (IH s s' E) as [Q _]. unfold sine_of in Q. injection Q as Q1 Q2 Q3 Q4. unfold refine_once, sine_of. cbn [s_freq s_a s_b s_c s_last]. rewrite Q1, Q2, Q3. split; [reflexivity | intros _; reflexivity].
Qed.
Fixpoint m_states (lin : lstsq_fun) (y : list R) (rate : R) (j : nat) (s : m_state) : m_state := match j with O => s | S k => fst (m_pass lin y rate (m_states lin y rate k s)) end.
Lemma m_shift lin y rate : forall j s, m_states lin y rate j (fst (m_pass lin y rate s)) = m_states lin y rate (S j) s.
Proof. induction j as [| j IH]; intros s; [reflexivity |]. cbn [m_states]. rewrite IH. reflexivity. Qed.
Lemma m_refine_ii lin y tol rate : forall fuel s, (ms_ii s <= ms_ii (m_refine lin y tol rate fuel s) <= ms_ii s + fuel)%nat.
Proof.
  induction fuel as [| k IH]; intros s; cbn [m_refine]; [lia |]. destruct (m_pass lin y rate s) as [s' e] eqn:E. assert (I : ms_ii s' = S (ms_ii s)) by (unfold m_pass in E; injection E as <- _; reflexivity). destruct (match e with Fin v => Rltb v tol | _ => false end); [lia |]. pose proof (IH s'). lia.
Qed.
Lemma m_refine_full lin y tol rate : forall fuel s, ms_ii (m_refine lin y tol rate fuel s) = (ms_ii s + fuel)%nat -> m_refine lin y tol rate fuel s = m_states lin y rate fuel s.
Proof.
  induction fuel as [| k IH]; intros s E; [reflexivity |]. cbn [m_refine] in E |- *. rewrite <- m_shift. destruct (m_pass lin y rate s) as [s' e] eqn:P. cbn [fst]. assert (I : ms_ii s' = S (ms_ii s)) by (unfold m_pass in P; injection P as <- _; reflexivity).
  destruct (match e with Fin v => Rltb v tol | _ => false end).
  - assert (k = 0%nat) by lia. subst k. reflexivity.
  - apply IH. lia.
Qed.
Lemma fit_core_given lst y f0 j tol : let co := lst (design3 (length y) f0) (fun i => nth i y 0) in let s := refine lst y tol j (mkFs f0 (co 0%nat) (co 1%nat) (co 2%nat) (Z.of_nat j =? 0)%Z 0 0) in
  exists r, fit_core lst y (Some f0) (Z.of_nat j) tol = Ok r /\ f_frequency r = s_freq s /\ f_amplitude r = sqrt (s_a s ^ 2 + s_b s ^ 2) /\ f_dc r = s_c s /\ f_phase r = Carg (s_a s, - s_b s) /\ f_last_delta r = s_last s /\ f_iterations r = s_iter s.
Proof. intros co s. eexists. split; [unfold fit_core; cbn [bind]; destruct (Z.ltb_spec (Z.of_nat j) 0); [lia |]; rewrite Nat2Z.id; reflexivity |]. repeat split. Qed.
(** With full steps (rate 1), while neither side stops early, no amplitude vanishes and Python's clamp
    does not act: after k passes MATLAB has the amplitude, offset and phase that Python has after k
    refinements, and the frequency that Python had one refinement earlier. *)
Lemma c168_lag lin lst rows f0 tol tol' k r : least_squares lin -> least_squares lst -> 0 < f0 < 1 / 2 -> 0 < tol -> (5 <= length (m_column rows))%nat ->
  m_sinfit lin rows f0 tol 1 true (Z.of_nat (S k)) = Ok (Some r) -> mf_passes r = S k ->
  let py j := fit_core lst (m_column rows) (Some f0) (Z.of_nat j) tol' in
  (forall q, py (S k) = Ok q -> f_iterations q = S k) ->
  (forall j q, (j <= k)%nat -> py j = Ok q -> f_amplitude q <> 0) ->
  (forall j q q', (j < k)%nat -> py j = Ok q -> py (S j) = Ok q' -> f_frequency q' = f_frequency q + f_last_delta q') ->
  exists q q1, py (S k) = Ok q /\ py k = Ok q1 /\ mf_mag r = f_amplitude q /\ mf_dc r = f_dc q /\ same_angle (mf_phi r) (f_phase q) /\ mf_freq r = f_frequency q1.
Proof.
  intros L1 L2 F T L ER EP py IT AM CL. set (y := m_column rows) in *. set (c := lst (design3 (length y) f0) (fun i => nth i y 0)). set (s0 := mkFs f0 (c 0%nat) (c 1%nat) (c 2%nat) false 0 0).
  assert (PY : forall j, (j <= S k)%nat -> exists q, py j = Ok q /\ let s := py_states lst y tol' j s0 in f_frequency q = s_freq s /\ f_amplitude q = sqrt (s_a s ^ 2 + s_b s ^ 2) /\ f_dc q = s_c s /\ f_phase q = Carg (s_a s, - s_b s) /\ ((0 < j)%nat -> f_last_delta q = s_last s)).
  { destruct (fit_core_given lst y f0 (S k) tol') as (q & E & _ & _ & _ & _ & _ & I). fold c in I. assert (ST : forall b j, (j <= S k)%nat -> refine lst y tol' j (mkFs f0 (c 0%nat) (c 1%nat) (c 2%nat) b 0 0) = py_states lst y tol' j (mkFs f0 (c 0%nat) (c 1%nat) (c 2%nat) b 0 0)).
    { intros b. apply refine_full. rewrite (IT q E) in I. cbn [s_iter Nat.add]. transitivity (s_iter (refine lst y tol' (S k) (mkFs f0 (c 0%nat) (c 1%nat) (c 2%nat) (Z.of_nat (S k) =? 0)%Z 0 0))); [| symmetry; exact I]. assert (G : forall fu a a', sine_of a = sine_of a' -> s_iter a = s_iter a' -> s_iter (refine lst y tol' fu a) = s_iter (refine lst y tol' fu a')).
      { induction fu as [| fu IHf]; intros a a' E1 E2; [exact E2 |]. cbn [refine]. unfold sine_of in E1. injection E1 as Q1 Q2 Q3 Q4. assert (D : s_last (refine_once lst y tol' a) = s_last (refine_once lst y tol' a')) by (unfold refine_once; cbn [s_last]; rewrite Q1, Q2, Q3; reflexivity). rewrite D. assert (X : s_iter (refine_once lst y tol' a) = s_iter (refine_once lst y tol' a')) by (unfold refine_once; cbn [s_iter]; lia). destruct (Rltb _ _); [exact X |]. apply IHf; [| exact X]. unfold refine_once, sine_of. cbn [s_freq s_a s_b s_c]. rewrite Q1, Q2, Q3. reflexivity. }
      apply G; reflexivity. }
    intros j J. destruct (fit_core_given lst y f0 j tol') as (q1 & E1 & A1 & A2 & A3 & A4 & A5 & _). fold c in A1, A2, A3, A4, A5. rewrite ST in A1, A2, A3, A4, A5 by exact J. exists q1. split; [exact E1 |]. destruct (py_states_core lst y tol' j (mkFs f0 (c 0%nat) (c 1%nat) (c 2%nat) (Z.of_nat j =? 0)%Z 0 0) s0 eq_refl) as [Q QL]. unfold sine_of in Q. injection Q as Q1 Q2 Q3 Q4. cbv zeta. rewrite <- Q1, <- Q2, <- Q3, <- Q4. repeat split; try assumption. intros JP. rewrite A5. apply QL, JP. }
  set (x := lin (m_design3 (length y) f0) (fun i => nth i y 0)). set (m0 := mkMs f0 (x 0%nat) (x 1%nat) (x 2%nat) 0 0).
  pose proof (sinfit_given lin rows f0 tol 1 true (Z.of_nat (S k)) ltac:(lra) T ltac:(lra) ltac:(lia)) as G. cbv zeta in G. fold y x m0 in G. rewrite Nat2Z.id in G. rewrite G in ER by lia. apply Ok_inj in ER. apply (f_equal (fun o => match o with Some v => v | None => r end)) in ER. cbv beta iota in ER. rewrite <- ER in *. clear r ER. unfold m_out in EP |- *. cbn [mf_passes mf_mag mf_dc mf_phi mf_freq] in EP |- *.
  pose proof (m_refine_full lin y tol 1 (S k) m0 EP) as FULL. rewrite FULL. destruct (solve3 lin lst y f0 L1 L2 F ltac:(lia)) as (X0 & X1 & X2). fold x c in X0, X1, X2.
  assert (UF : forall j, (j <= S k)%nat -> 0 < s_freq (py_states lst y tol' j s0) < 1 / 2).
  { intros [| j] J; [exact F |]. cbn [py_states]. apply usable_half. unfold usable, refine_once. cbn [s_freq]. set (w := s_freq _ + _). assert (EPS : 0 < 1 / 10 ^ 10 < 1 / 4).
    { assert (4 < 10 ^ 10) by (apply (Rlt_le_trans _ (10 ^ 1)); [lra | apply Rle_pow; [lra | lia]]). split; [apply Rdiv_lt_0_compat; lra |]. unfold Rdiv. rewrite !Rmult_1_l. apply Rinv_lt_contravar; lra. }
    unfold rclip, Rmin, Rmax. repeat destruct (Rle_dec _ _); lra. }
  assert (AB : forall j, (j <= k)%nat -> s_a (py_states lst y tol' j s0) <> 0 \/ s_b (py_states lst y tol' j s0) <> 0).
  { intros j J. destruct (PY j ltac:(lia)) as (q & E & _ & A & _). apply amp_zero. rewrite <- A. exact (AM j q J E). }
  assert (ST : forall j, (j <= k)%nat -> let p := py_states lst y tol' j s0 in let p' := py_states lst y tol' (S j) s0 in let m := m_states lin y 1 (S j) m0 in
    ms_freq m = s_freq p /\ ms_a m = s_a p' /\ ms_b m = s_b p' /\ ms_dc m = s_c p' /\ ms_delta m = s_last p').
  { assert (STEP : forall m p, ms_freq m + ms_delta m = s_freq p -> ms_a m = s_a p -> ms_b m = s_b p -> 0 < s_freq p < 1 / 2 -> s_a p <> 0 \/ s_b p <> 0 ->
      let m' := fst (m_pass lin y 1 m) in let p' := refine_once lst y tol' p in ms_freq m' = s_freq p /\ ms_a m' = s_a p' /\ ms_b m' = s_b p' /\ ms_dc m' = s_c p' /\ ms_delta m' = s_last p').
    { intros m p E1 E2 E3 FP AP. unfold m_pass, refine_once. cbn [fst ms_freq ms_a ms_b ms_dc ms_delta s_freq s_a s_b s_c s_last]. rewrite E1, E2, E3. destruct (solve4 lin lst y (s_freq p) (s_a p) (s_b p) L1 L2 FP L AP) as (Y0 & Y1 & Y2 & Y3). rewrite Y0, Y1, Y2, <- Y3. repeat split. rewrite Rmult_1_r. reflexivity. }
    induction j as [| j IH]; intros J; cbv zeta.
    - apply (STEP m0 s0); [unfold m0, s0; cbn [ms_freq ms_delta s_freq]; ring | exact X0 | exact X1 | apply (UF 0%nat); lia | apply (AB 0%nat); lia].
    - destruct (IH ltac:(lia)) as (I1 & I2 & I3 & _ & I5). change (m_states lin y 1 (S (S j)) m0) with (fst (m_pass lin y 1 (m_states lin y 1 (S j) m0))). change (py_states lst y tol' (S (S j)) s0) with (refine_once lst y tol' (py_states lst y tol' (S j) s0)).
      apply STEP; [| exact I2 | exact I3 | apply (UF (S j)); lia | apply (AB (S j)); lia].
      rewrite I1, I5. destruct (PY j ltac:(lia)) as (q & E & B & _). destruct (PY (S j) ltac:(lia)) as (q' & E' & B' & _ & _ & _ & LD). rewrite <- B, <- B', <- (LD ltac:(lia)). symmetry. exact (CL j q q' ltac:(lia) E E'). }
  destruct (PY (S k) ltac:(lia)) as (q & E & B1 & B2 & B3 & B4 & _). destruct (PY k ltac:(lia)) as (q1 & E1 & D1 & _). exists q, q1. split; [exact E |]. split; [exact E1 |]. destruct (ST k ltac:(lia)) as (I1 & I2 & I3 & I4 & _). rewrite I1, I2, I3, I4, B2, B3, B4, D1. repeat split. apply Carg_conj.
Qed.
(** A record that is a sine of the given frequency comes back with its own parameters, searched for
    or not. *)
Lemma c168_exact lin rows f A ph off tol rate fs niter : least_squares lin -> 0 < f < 1 / 2 -> 0 < A -> 0 < tol -> 0 < rate <= 1 -> (0 < niter)%Z -> (5 <= length (m_column rows))%nat ->
  is_record (m_column rows) (sine A f ph off) ->
  exists r, m_sinfit lin rows f tol rate fs niter = Ok (Some r) /\ mf_freq r = f /\ mf_mag r = A /\ mf_dc r = off /\ same_angle (mf_phi r) ph /\ mf_fitout r = m_column rows /\ mf_passes r = if fs then 1%nat else 0%nat.
Proof.
  intros L F PA T R N LY RC. set (y := m_column rows) in *. pose proof (sinfit_given lin rows f tol rate fs niter ltac:(lra) T R N ltac:(fold y; lia)) as G. cbv zeta in G. fold y in G.
  destruct (design3_exact lin y A f ph off L F ltac:(lia) RC) as (X0 & X1 & X2). change (design3 (length y) f) with (m_design3 (length y) f) in X0, X1, X2. rewrite X0, X1, X2 in G.
  destruct (design4_exact lin y A f ph off L F LY ltac:(lra) RC) as (C0 & C1 & C2 & C3).
  assert (AB : A * cos ph <> 0 \/ - A * sin ph <> 0). { apply amp_zero. rewrite amp_polar by exact PA. lra. }
  destruct (solve4 lin lin y f (A * cos ph) (- A * sin ph) L L F LY AB) as (Y0 & Y1 & Y2 & Y3). rewrite C0 in Y0. rewrite C1 in Y1. rewrite C2 in Y2. rewrite C3 in Y3. assert (NP : 0 < INR (length y)) by (apply lt_0_INR; lia).
  set (x := lin (m_design4 (length y) f (A * cos ph) (- A * sin ph)) (fun i => nth i y 0)) in *. assert (Y4 : x 3%nat = 0). { replace (0 / (2 * PI)) with 0 in Y3 by (unfold Rdiv; ring). apply (f_equal (fun v => v * INR (length y))) in Y3. unfold Rdiv in Y3. rewrite Rmult_assoc, Rinv_l in Y3 by lra. lra. }
  set (s0 := mkMs f (A * cos ph) (- A * sin ph) off 0 0) in *. set (s1 := mkMs f (A * cos ph) (- A * sin ph) off 0 (if fs then 1 else 0)).
  assert (PASS : m_pass lin y rate s0 = (mkMs f (A * cos ph) (- A * sin ph) off 0 1, Fin 0)).
  { assert (Z : lmean (map (fun t : nat => (x 3%nat / INR (length y) * m_slope (length y) f (A * cos ph) (- A * sin ph) t) ^ 2) (seq 0 (length y))) = 0).
    { unfold lmean. rewrite (RearProofs.lsum_map_rsum _ _ 0%nat), rsum_zero; [unfold Rdiv; ring |]. intros i _. rewrite Y4. unfold Rdiv. ring. }
    transitivity (mkMs f (x 0%nat) (x 1%nat) (x 2%nat) (x 3%nat * rate / INR (length y)) 1, if Reqb (sqrt (x 0%nat ^ 2 + x 1%nat ^ 2)) 0 then (if Reqb (sqrt (lmean (map (fun t : nat => (x 3%nat / INR (length y) * m_slope (length y) f (A * cos ph) (- A * sin ph) t) ^ 2) (seq 0 (length y))))) 0 then NaN else PInf)
      else Fin (sqrt (lmean (map (fun t : nat => (x 3%nat / INR (length y) * m_slope (length y) f (A * cos ph) (- A * sin ph) t) ^ 2) (seq 0 (length y)))) / sqrt (x 0%nat ^ 2 + x 1%nat ^ 2))).
    - unfold m_pass, s0. cbn [ms_freq ms_delta ms_a ms_b ms_ii]. rewrite Rplus_0_r. reflexivity.
    - rewrite Z, sqrt_0, Y0, Y1, Y2, Y4, amp_polar by exact PA. unfold Reqb at 1. destruct (Req_EM_T A 0); [lra |]. f_equal; [f_equal; unfold Rdiv; ring | f_equal; unfold Rdiv; ring]. }
  assert (ST : (if fs then m_refine lin y tol rate (Z.to_nat niter) s0 else s0) = s1).
  { destruct fs; [| reflexivity]. destruct (Z.to_nat niter) as [| k] eqn:EN; [lia |]. cbn [m_refine]. rewrite PASS. unfold Rltb. destruct (Rlt_dec 0 tol); [reflexivity | lra]. }
  rewrite ST in G. eexists. split; [exact G |]. unfold m_out, s1. cbn [mf_freq mf_mag mf_dc mf_phi mf_fitout mf_passes ms_freq ms_a ms_b ms_dc ms_ii]. split; [reflexivity |]. split; [apply amp_polar; exact PA |]. split; [reflexivity |].
  split. { destruct (Carg_conj (A * cos ph) (- A * sin ph)) as (k & K). destruct (Carg_polar A ph PA) as (k' & K'). exists (k + k')%Z. rewrite K, K', plus_IZR. ring. }
  split; [| reflexivity]. apply (nth_ext _ _ 0 0); rewrite map_length, seq_length; [reflexivity |]. intros t T1. rewrite (nth_map_in _ _ _ 0%nat) by (rewrite seq_length; exact T1). rewrite seq_nth by exact T1. cbn [Nat.add]. rewrite (RC t T1). unfold sine. rewrite cos_plus. ring.
Qed.
(** The estimates from the same peak of the spectrum without its mean: equal when the peak is neither
    the first nor the last bin; at the last bin MATLAB adds half a bin; without a peak (a constant
    record) MATLAB has 0/0 and Python bin 0. *)
Lemma c168_estimate y : (2 <= length y)%nat -> let n := length y in let amp j := if (j =? 0)%nat then 0 else Cmod (rdft n (fun i => nth i y 0) j) in
  exists k, (k < n / 2)%nat /\ (forall j, (j < n / 2)%nat -> amp j <= amp k) /\ (forall j, (j < k)%nat -> amp j < amp k) /\
  (k = 0%nat -> m_estimate y = Ok NaN /\ estimate_frequency_fft y = Ok 0) /\
  ((0 < k < n / 2 - 1)%nat -> exists x, m_estimate y = Ok (Fin x) /\ estimate_frequency_fft y = Ok x) /\
  ((0 < k)%nat -> k = (n / 2 - 1)%nat -> m_estimate y = Ok (Fin ((INR k + 1 / 2) / INR n)) /\ estimate_frequency_fft y = Ok (INR k / INR n)).
Proof.
  intros N2 n amp. assert (H2 : (1 <= n / 2)%nat) by (apply Nat.div_le_lower_bound; [lia | unfold n; lia]). unfold m_estimate, estimate_frequency_fft. fold n. fold amp. set (spec := map amp (seq 0 (n / 2))). change (map (fun k => if (k =? 0)%nat then 0 else Cmod (rdft n (fun i => nth i y 0) k)) (seq 0 (n / 2))) with spec.
  assert (LS : length spec = (n / 2)%nat) by (unfold spec; rewrite map_length, seq_length; reflexivity). assert (NS : forall i, (i < n / 2)%nat -> nth i spec 0 = amp i).
  { intros i I. unfold spec. rewrite (nth_map_in _ _ _ 0%nat) by (rewrite seq_length; exact I). rewrite seq_nth by exact I. reflexivity. }
  destruct (argmax_spec spec) as (A1 & A2 & A3); [intros E; rewrite E in LS; cbn [length] in LS; lia |]. rewrite LS in *. set (k := argmax spec) in *. destruct (Nat.eqb_spec (n / 2) 0); [lia |]. cbn [raise_if]. cbv zeta.
  assert (POS : forall i, 0 <= amp i) by (intros i; unfold amp; destruct (i =? 0)%nat; [lra | apply Cmod_nonneg]).
  exists k. split; [exact A1 |]. split; [intros j J; rewrite <- (NS j J), <- (NS k A1); apply A2; exact J |]. split; [intros j J; rewrite <- (NS j), <- (NS k A1) by lia; apply A3; exact J |].
  replace (k + 1 - 1)%nat with k by lia. replace (Nat.min (Nat.max (k + 1) 1) (n / 2) - 1)%nat with k by lia. replace (INR (k + 1) - 1) with (INR k) by (rewrite plus_INR; cbn; ring).
  split; [| split].
  - intros K. assert (Z : forall i, (i < n / 2)%nat -> nth i spec 0 = 0). { intros i I. pose proof (A2 i I) as Q. rewrite K in Q. rewrite (NS i I) in *. rewrite (NS 0%nat) in Q by lia. change (amp 0%nat) with 0 in Q. pose proof (POS i). lra. }
    rewrite !K. unfold Rltb, Reqb. destruct (Rlt_dec _ _) as [Q | Q]; [rewrite !Z in Q by lia; lra |]. rewrite !Z by lia. destruct (Req_EM_T (0 + 0) 0); [| lra]. split; [reflexivity |]. cbn [Nat.ltb Nat.leb andb INR]. f_equal. unfold Rdiv. ring.
  - intros K. replace (Nat.min (Nat.max k 1) (n / 2) - 1)%nat with (k - 1)%nat by lia. replace (Nat.min (Nat.max (k + 1 + 1) 1) (n / 2) - 1)%nat with (k + 1)%nat by lia. destruct (Nat.ltb_spec 0 k); [| lia]. destruct (Nat.ltb_spec k (n / 2 - 1)); [| lia]. cbn [andb].
    assert (KP : 0 < nth k spec 0). { pose proof (A3 0%nat ltac:(lia)) as Q. rewrite (NS 0%nat) in Q by lia. exact Q. }
    pose proof (POS (k - 1)%nat) as P1. pose proof (POS (k + 1)%nat) as P2. rewrite <- (NS (k - 1)%nat) in P1 by lia. rewrite <- (NS (k + 1)%nat) in P2 by lia.
    destruct (Rltb (nth (k - 1) spec 0) (nth (k + 1) spec 0)).
    + replace (Nat.min (Nat.max (k + 1 + 1) 1) (n / 2) - 1)%nat with (k + 1)%nat by lia. unfold Reqb. destruct (Req_EM_T (nth k spec 0 + nth (k + 1) spec 0) 0); [lra |]. eexists. split; [reflexivity |]. f_equal. unfold Rdiv. ring.
    + replace (Nat.min (Nat.max k 1) (n / 2) - 1)%nat with (k - 1)%nat by lia. unfold Reqb. destruct (Req_EM_T (nth k spec 0 + nth (k - 1) spec 0) 0); [lra |]. eexists. split; [reflexivity |]. f_equal. unfold Rdiv. ring.
  - intros K0 K. replace (Nat.min (Nat.max k 1) (n / 2) - 1)%nat with (k - 1)%nat by lia. replace (Nat.min (Nat.max (k + 1 + 1) 1) (n / 2) - 1)%nat with k by lia. pose proof (A3 (k - 1)%nat ltac:(lia)) as Q. unfold Rltb. destruct (Rlt_dec (nth (k - 1) spec 0) (nth k spec 0)); [| contradiction].
    replace (Nat.min (Nat.max (k + 1 + 1) 1) (n / 2) - 1)%nat with k by lia. pose proof (POS (k - 1)%nat) as P1. rewrite <- (NS (k - 1)%nat) in P1 by lia. unfold Reqb. destruct (Req_EM_T (nth k spec 0 + nth k spec 0) 0); [lra |].
    destruct (Nat.ltb_spec k (n / 2 - 1)); [lia |]. rewrite andb_false_r. split; [| reflexivity]. f_equal. f_equal. f_equal. f_equal. field. lra.
Qed.
Lemma tone_peak y k A ph off : (0 < k)%nat -> (k < length y / 2)%nat -> A <> 0 -> is_record y (sine A (INR k / INR (length y)) ph off) ->
  ((k < length y / 2 - 1)%nat -> m_estimate y = Ok (Fin (INR k / INR (length y)))) /\ (k = (length y / 2 - 1)%nat -> m_estimate y = Ok (Fin ((INR k + 1 / 2) / INR (length y)))).
Proof.
  intros K KN NA R. pose proof (Nat.mul_div_le (length y) 2 ltac:(lia)) as DM. destruct (c168_estimate y ltac:(lia)) as (k' & B1 & B2 & B3 & B4 & B5 & B6). assert (NP : 0 < INR (length y)) by (apply lt_0_INR; lia). pose proof (Rabs_pos_lt A NA).
  assert (EK : k' = k).
  { destruct (Nat.eq_dec k' k) as [E | E]; [exact E | exfalso]. pose proof (B2 k KN) as Q. cbv beta in Q. destruct (Nat.eqb_spec k 0); [lia |]. rewrite (tone_spectrum y k A ph off k) in Q by (try assumption; lia). rewrite Nat.eqb_refl in Q.
    assert (0 < INR (length y) * Rabs A / 2) by (apply Rdiv_lt_0_compat; [apply Rmult_lt_0_compat; lra | lra]). destruct (Nat.eqb_spec k' 0); [lra |]. rewrite (tone_spectrum y k A ph off k') in Q by (try assumption; lia). destruct (Nat.eqb_spec k' k); [contradiction | lra]. }
  subst k'. split; [| intros E; exact (proj1 (B6 K E))]. intros K2. destruct (B5 ltac:(lia)) as (x & E1 & E2). rewrite (c84_coherent y k A ph off K KN NA R) in E2. apply Ok_inj in E2. rewrite E1, E2. reflexivity.
Qed.
(** A coherent sine below the last bin of the half spectrum is found and fitted exactly. *)
Lemma c168_auto lin rows k A ph off tol rate fs niter : least_squares lin -> let y := m_column rows in (0 < k)%nat -> (k < length y / 2 - 1)%nat -> 0 < A -> 0 < tol -> 0 < rate <= 1 -> (0 < niter)%Z -> (5 <= length y)%nat ->
  is_record y (sine A (INR k / INR (length y)) ph off) ->
  exists r, m_sinfit lin rows 0 tol rate fs niter = Ok (Some r) /\ mf_freq r = INR k / INR (length y) /\ mf_mag r = A /\ mf_dc r = off /\ same_angle (mf_phi r) ph /\ mf_fitout r = y.
Proof.
  intros L y K KN PA T R N LY RC. pose proof (Nat.mul_div_le (length y) 2 ltac:(lia)) as DM. assert (NP : 0 < INR (length y)) by (apply lt_0_INR; lia). set (f := INR k / INR (length y)) in *.
  assert (F : 0 < f < 1 / 2). { unfold f. assert (0 < INR k) by (apply lt_0_INR; exact K). split; [apply Rdiv_lt_0_compat; lra |]. apply (Rmult_lt_reg_r (INR (length y))); [exact NP |]. unfold Rdiv at 1. rewrite Rmult_assoc, Rinv_l by lra. assert (INR (2 * k) < INR (length y)) by (apply lt_INR; lia). rewrite mult_INR in H0. cbn [INR] in H0. lra. }
  destruct (c168_exact lin rows f A ph off tol rate true niter L F PA T R N LY RC) as (r & E & E1 & E2 & E3 & E4 & E5 & _). exists r. split; [| repeat split; assumption]. rewrite <- E.
  unfold m_sinfit. rewrite !m_opts by (try assumption; lra). unfold Reqb. destruct (Req_EM_T 0 0); [| lra]. destruct (Req_EM_T f 0); [lra |]. fold y. rewrite (proj1 (tone_peak y k A ph off K ltac:(lia) ltac:(lra) RC) KN). cbn [bind]. rewrite orb_true_r. cbn [orb]. reflexivity.
Qed.
(** At the last bin the initial estimate is half a bin off, where Python's is exact. *)
Lemma c168_last_bin_refuted : exists y k, (0 < k < length y / 2)%nat /\ is_record y (sine 1 (INR k / INR (length y)) 0 0) /\ estimate_frequency_fft y = Ok (INR k / INR (length y)) /\ m_estimate y = Ok (Fin ((INR k + 1 / 2) / INR (length y))).
Proof.
  set (y := map (sine 1 (INR 1 / INR 4) 0 0) (seq 0 4)). assert (LY : length y = 4%nat) by (unfold y; rewrite map_length, seq_length; reflexivity).
  assert (R : is_record y (sine 1 (INR 1 / INR (length y)) 0 0)). { intros t T. rewrite LY in *. unfold y. rewrite (nth_map_in _ _ _ 0%nat) by (rewrite seq_length; exact T). rewrite seq_nth by exact T. reflexivity. }
  exists y, 1%nat. assert (D : (length y / 2 = 2)%nat) by (rewrite LY; reflexivity). split; [lia |]. split; [exact R |]. split; [apply (c84_coherent y 1 1 0 0); [lia | lia | lra | exact R] |]. apply (proj2 (tone_peak y 1 1 0 0 ltac:(lia) ltac:(lia) ltac:(lra) R)). lia.
Qed.
(** ** C169: tomdec *)
Lemma nth_map2 f (a b : list R) t : (t < length a)%nat -> (t < length b)%nat -> nth t (map2 f a b) 0 = f (nth t a 0) (nth t b 0).
Proof. revert b t. induction a as [| x a IH]; intros [| z b] [| t] H1 H2; cbn in *; try lia; [reflexivity |]. apply IH; lia. Qed.
Lemma m_basis_mv n f o (W : vec) t : mv (m_basis n f o) W t = W 0%nat + rsum o (fun h => W (1 + h)%nat * cos (INR (S h) * (2 * PI * f * INR t)) + W (1 + o + h)%nat * sin (INR (S h) * (2 * PI * f * INR t))).
Proof.
  unfold mv. change (m_m (m_basis n f o)) with (2 * o + 1)%nat. replace (2 * o + 1)%nat with (1 + (o + o))%nat by lia. rewrite (rsum_app 1), (rsum_app o o). cbn [rsum]. rewrite rsum_plus. rewrite Rplus_0_l. unfold m_basis. cbn [m_at Nat.eqb]. rewrite Rmult_1_l. f_equal. f_equal; apply rsum_ext; intros h H.
  - destruct (Nat.eqb_spec (1 + h) 0); [lia |]. destruct (Nat.leb_spec (1 + h) o); [| lia]. change (1 + h)%nat with (S h). rewrite Rmult_comm. f_equal. f_equal. ring.
  - replace (1 + (o + h))%nat with (1 + o + h)%nat by lia. destruct (Nat.eqb_spec (1 + o + h) 0); [lia |]. destruct (Nat.leb_spec (1 + o + h) o); [lia |]. replace (1 + o + h - o)%nat with (S h) by lia. rewrite Rmult_comm. f_equal. f_equal. ring.
Qed.
Definition parts_of (lin : lstsq_fun) (y : list R) (f : R) (o : nat) : m_parts :=
  let n := length y in let B := m_basis n f o in let W := lin B (fun i => nth i y 0) in
  let sine := map (fun t => W 0%nat + m_at B t 1 * W 1%nat + m_at B t (1 + o) * W (1 + o)%nat) (seq 0 n) in let all := map (mv B W) (seq 0 n) in
  mkParts sine (map2 Rminus y sine) (map2 Rminus all sine) (map2 Rminus y all) f.
Lemma tomdec_inv lin y freq order p : m_tomdec lin y freq order = Ok (Some p) -> (1 <= order)%Z /\ p = parts_of lin y (mp_freq p) (Z.to_nat order) /\ (forall f, freq = Some f -> 0 < f -> mp_freq p = f /\ f <= 1 / 2).
Proof.
  unfold m_tomdec, raise_if. destruct ((match freq with Some f => Rltb f 0 || Rltb (1 / 2) f | None => false end) || (order <? 1)%Z)%bool eqn:G; [discriminate |]. apply orb_false_iff in G. destruct G as [G1 G2]. apply Z.ltb_ge in G2.
  destruct freq as [f |].
  - unfold Rleb. destruct (Rle_dec f 0) as [F | F].
    + destruct (m_findfreq _ _ _) as [v | e]; cbn [bind]; [| discriminate]. destruct v; try discriminate. intros E. apply Ok_inj in E. injection E as <-. split; [exact G2 |]. split; [reflexivity |]. intros f0 E0 F0. injection E0 as <-. lra.
    + cbn [bind]. intros E. apply Ok_inj in E. injection E as <-. split; [exact G2 |]. split; [reflexivity |]. intros f0 E0 F0. injection E0 as <-. split; [reflexivity |]. apply orb_false_iff in G1. destruct G1 as [_ G1]. unfold Rltb in G1. destruct (Rlt_dec (1 / 2) f); [discriminate | lra].
  - destruct (m_findfreq _ _ _) as [v | e]; cbn [bind]; [| discriminate]. destruct v; try discriminate. intros E. apply Ok_inj in E. injection E as <-. split; [exact G2 |]. split; [reflexivity |]. discriminate.
Qed.
(** sig = sine + err and err = har + oth, whatever the solver returns; without harmonics (order 1)
    har is zero. *)
Lemma c169_adds_up lin y freq order p : m_tomdec lin y freq order = Ok (Some p) ->
  length (mp_sine p) = length y /\ length (mp_err p) = length y /\ length (mp_har p) = length y /\ length (mp_oth p) = length y /\
  forall t, (t < length y)%nat -> nth t y 0 = nth t (mp_sine p) 0 + nth t (mp_err p) 0 /\ nth t (mp_err p) 0 = nth t (mp_har p) 0 + nth t (mp_oth p) 0 /\ (order = 1%Z -> nth t (mp_har p) 0 = 0).
Proof.
  intros E. destruct (tomdec_inv _ _ _ _ _ E) as (O & -> & _). unfold parts_of. cbv zeta. cbn [mp_sine mp_err mp_har mp_oth]. set (o := Z.to_nat order). set (B := m_basis (length y) (mp_freq p) o). set (W := lin B _). set (sn := map _ (seq 0 (length y))). set (al := map (mv B W) _).
  assert (LS : length sn = length y) by (unfold sn; rewrite map_length, seq_length; reflexivity). assert (LA : length al = length y) by (unfold al; rewrite map_length, seq_length; reflexivity).
  split; [exact LS |]. split; [apply map2_length; symmetry; exact LS |]. split; [rewrite map2_length; [exact LA | congruence] |]. split; [apply map2_length; symmetry; exact LA |]. intros t T. rewrite !nth_map2 by lia. split; [ring |]. split; [ring |].
  intros O1. unfold al, sn. rewrite !(nth_map_in _ _ _ 0%nat) by (rewrite seq_length; exact T). rewrite seq_nth by exact T. cbn [Nat.add]. unfold B. rewrite m_basis_mv. assert (EO : o = 1%nat) by (unfold o; rewrite O1; reflexivity). unfold m_basis. cbn [m_at Nat.eqb]. rewrite EO. cbn [Nat.leb Nat.sub Nat.add INR Nat.eqb rsum].
  replace (1 * (2 * PI * mp_freq p * INR t)) with (INR t * mp_freq p * 1 * 2 * PI) by ring. ring.
Qed.

(** The coefficients in the order of the other basis. *)
Definition to_harm (o : nat) (W : vec) : vec := fun j => if (j =? 0)%nat then W 0%nat else if Nat.odd j then W (1 + (j - 1) / 2)%nat else W (1 + o + (j - 2) / 2)%nat.
Definition to_mat (o : nat) (X : vec) : vec := fun j => if (j =? 0)%nat then X 0%nat else if (j <=? o)%nat then X (2 * (j - 1) + 1)%nat else X (2 * (j - o - 1) + 2)%nat.
Lemma to_harm_at o W (h : nat) : to_harm o W (2 * h + 1)%nat = W (1 + h)%nat /\ to_harm o W (2 * h + 2)%nat = W (1 + o + h)%nat.
Proof.
  unfold to_harm. split.
  - destruct (Nat.eqb_spec (2 * h + 1) 0); [lia |]. replace (Nat.odd (2 * h + 1)) with true; [| symmetry; apply Nat.odd_spec; exists h; lia]. replace ((2 * h + 1 - 1) / 2)%nat with h; [reflexivity |]. replace (2 * h + 1 - 1)%nat with (h * 2)%nat by lia. rewrite Nat.div_mul; lia.
  - destruct (Nat.eqb_spec (2 * h + 2) 0); [lia |]. replace (Nat.odd (2 * h + 2)) with false. 2:{ symmetry. apply not_true_iff_false. intros O. apply Nat.odd_spec in O. destruct O as (k & K). lia. }
    replace ((2 * h + 2 - 2) / 2)%nat with h; [reflexivity |]. replace (2 * h + 2 - 2)%nat with (h * 2)%nat by lia. rewrite Nat.div_mul; lia.
Qed.
Lemma to_harm_mv n f o W t : mv (harm_basis n f o) (to_harm o W) t = mv (m_basis n f o) W t.
Proof. rewrite basis_mv, m_basis_mv. f_equal. apply rsum_ext. intros h _. rewrite (proj1 (to_harm_at o W h)), (proj2 (to_harm_at o W h)). reflexivity. Qed.
Lemma to_mat_mv n f o X t : mv (m_basis n f o) (to_mat o X) t = mv (harm_basis n f o) X t.
Proof.
  rewrite basis_mv, m_basis_mv. f_equal. apply rsum_ext. intros h H. unfold to_mat. destruct (Nat.eqb_spec (1 + h) 0); [lia |]. destruct (Nat.leb_spec (1 + h) o); [| lia]. destruct (Nat.eqb_spec (1 + o + h) 0); [lia |]. destruct (Nat.leb_spec (1 + o + h) o); [lia |].
  replace (1 + h - 1)%nat with h by lia. replace (1 + o + h - o - 1)%nat with h by lia. reflexivity.
Qed.
(** Against decompose_harmonic_error at the same given frequency, for any two least-squares solvers:
    the remaining error and the sum of sine and harmonics are always the same; the split between
    the sine and its harmonics is the same when the sines are independent (for instance coherent
    frequencies below Nyquist, c94_coherent_independent). *)
Lemma c169_agree lin lst y f order tol p r : least_squares lin -> least_squares lst -> (2 <= length y)%nat -> 0 < f ->
  m_tomdec lin y (Some f) order = Ok (Some p) -> decompose_harmonic_error lst [y] order (Some f) 0 tol = Ok r ->
  mp_freq p = h_freq r /\ mp_oth p = h_noise r /\ (forall t, (t < length y)%nat -> nth t (mp_sine p) 0 + nth t (mp_har p) 0 = nth t (h_reconstructed r) 0) /\
  (independent (harm_basis (length y) f (Z.to_nat order)) -> mp_sine p = h_fundamental r /\ mp_har p = h_harmonic r).
Proof.
  intros L1 L2 N F E1 E2. pose proof (c169_adds_up _ _ _ _ _ E1) as (S1 & _ & S3 & S4 & _). destruct (tomdec_inv _ _ _ _ _ E1) as (O & EP & FR). destruct (FR f eq_refl F) as [FP _]. rewrite FP in EP. clear E1 FR.
  pose proof (c95_no_refinement _ _ _ _ _ _ E2) as HF. destruct (harm_inv _ _ _ _ _ _ _ E2) as (fit & FC & _ & _ & FQ & B1 & B2 & B3 & B4 & B5 & _). cbv zeta in B1, B2, B3, B4, B5.
  assert (AV : dec_avg [y] = y). { unfold dec_avg. rewrite (proj1 c36_runs) by lia. unfold harm_average. cbn [hd]. apply (nth_ext _ _ 0 0); rewrite map_length, seq_length; [reflexivity |]. intros t T. rewrite (nth_map_in _ _ _ 0%nat) by (rewrite seq_length; exact T). rewrite seq_nth by exact T. unfold lmean. cbn. field. }
  rewrite AV in *. rewrite <- FQ, HF in *. clear FC. set (o := Z.to_nat order) in *. set (n := length y) in *. set (H := harm_basis n f o) in *. set (mean := lmean y) in *. set (W := lst H _) in *. set (V := lin (m_basis n f o) (fun i => nth i y 0)) in *.
  set (W1 := fun j => if (j =? 0)%nat then W 0%nat + mean else W j). assert (MV1 : forall t, mv H W1 t = mv H W t + mean). { intros t. unfold H. rewrite !basis_mv. unfold W1. cbn [Nat.eqb]. rewrite (rsum_ext o _ (fun h => W (2 * h + 1)%nat * cos (INR (S h) * (2 * PI * f * INR t)) + W (2 * h + 2)%nat * sin (INR (S h) * (2 * PI * f * INR t)))); [ring |]. intros h _. destruct (Nat.eqb_spec (2 * h + 1) 0); [lia |]. destruct (Nat.eqb_spec (2 * h + 2) 0); [lia |]. reflexivity. }
  assert (MIN : minimises H (fun i => nth i y 0) W1).
  { intros z. pose proof (ls_minimises lst H (fun i => nth i (map (fun x => x - mean) y) 0) L2 (fun j => if (j =? 0)%nat then z 0%nat - mean else z j)) as Q. fold W in Q.
    assert (MV2 : forall t, mv H (fun j => if (j =? 0)%nat then z 0%nat - mean else z j) t = mv H z t - mean). { intros t. unfold H. rewrite !basis_mv. cbn [Nat.eqb]. rewrite (rsum_ext o (fun h => (if (2 * h + 1 =? 0)%nat then _ else _) * _ + _) (fun h => z (2 * h + 1)%nat * cos (INR (S h) * (2 * PI * f * INR t)) + z (2 * h + 2)%nat * sin (INR (S h) * (2 * PI * f * INR t)))); [ring |]. intros h _. destruct (Nat.eqb_spec (2 * h + 1) 0); [lia |]. destruct (Nat.eqb_spec (2 * h + 2) 0); [lia |]. reflexivity. }
    change (m_n H) with n in *. eapply Rle_trans; [| eapply Rle_trans; [exact Q |]]; apply Req_le, rsum_ext; intros t T; rewrite (nth_map_in _ _ _ 0) by exact T; f_equal.
    - pose proof (MV1 t) as E. unfold mv in E. rewrite E. ring.
    - pose proof (MV2 t) as E. unfold mv in E. rewrite E. ring. }
  assert (FIT : forall t, (t < n)%nat -> mv (m_basis n f o) V t = mv H W1 t).
  { intros t T. unfold mv. apply (fitted_unique n (2 * o + 1) (2 * o + 1) (m_at (m_basis n f o)) (m_at H) (fun i => nth i y 0) V W1 (to_mat o W1) (to_harm o V)); [apply (ls_minimises lin (m_basis n f o)); exact L1 | exact MIN | | | exact T]; intros u U.
    - exact (to_mat_mv n f o W1 u). - exact (to_harm_mv n f o V u). }
  assert (SN : forall t, (t < n)%nat -> nth t (mp_sine p) 0 = V 0%nat + V 1%nat * cos (2 * PI * f * INR t) + V (1 + o)%nat * sin (2 * PI * f * INR t)).
  { intros t T. rewrite EP. unfold parts_of. cbn [mp_sine]. fold n o. fold V. rewrite (nth_map_in _ _ _ 0%nat) by (rewrite seq_length; exact T). rewrite seq_nth by exact T. cbn [Nat.add]. unfold m_basis. cbn [m_at Nat.eqb]. destruct (Nat.leb_spec 1 o) as [O1 | O1]; [| unfold o in O1; lia]. destruct (Nat.leb_spec (S o) o); [lia |]. replace (S o - o)%nat with 1%nat by lia. cbn [INR].
    replace (INR t * f * 1 * 2 * PI) with (2 * PI * f * INR t) by ring. ring. }
  assert (AL : forall t, (t < n)%nat -> nth t (mp_oth p) 0 = nth t y 0 - mv H W1 t /\ nth t (mp_har p) 0 = mv H W1 t - nth t (mp_sine p) 0).
  { intros t T. rewrite <- (FIT t T). rewrite EP. unfold parts_of. cbn [mp_oth mp_har mp_sine]. fold n o. fold V. rewrite !nth_map2 by (rewrite ?map_length, ?seq_length; exact T). rewrite (nth_map_in (mv (m_basis n f o) V) _ _ 0%nat) by (rewrite seq_length; exact T). rewrite seq_nth by exact T. split; reflexivity. }
  split; [exact FP |]. split; [| split].
  - apply (nth_ext _ _ 0 0); [rewrite S4, B1; reflexivity |]. intros t T. rewrite S4 in T. destruct (B5 t T) as (_ & Q & _). rewrite (proj1 (AL t T)), Q, MV1. ring.
  - intros t T. destruct (B5 t T) as (Q & _). rewrite (proj2 (AL t T)), Q, MV1. ring.
  - intros IND. assert (CO : forall j, (j < 2 * o + 1)%nat -> to_harm o V j = W1 j).
    { intros j J. apply Rminus_diag_uniq. apply (IND (fun j => to_harm o V j - W1 j)); [| exact J]. intros t T. change (m_n H) with n in T. change (m_m H) with (2 * o + 1)%nat.
      rewrite (rsum_ext _ _ (fun j => m_at H t j * to_harm o V j - m_at H t j * W1 j)) by (intros; ring). rewrite rsum_minus. pose proof (FIT t T) as Q. rewrite <- to_harm_mv in Q. unfold mv in Q. fold H in Q. change (m_m H) with (2 * o + 1)%nat in Q. lra. }
    assert (O1 : (1 <= o)%nat) by (unfold o; lia). pose proof (CO 0%nat ltac:(lia)) as C0. pose proof (CO (2 * 0 + 1)%nat ltac:(lia)) as C1. pose proof (CO (2 * 0 + 2)%nat ltac:(lia)) as C2. rewrite (proj1 (to_harm_at o V 0)) in C1. rewrite (proj2 (to_harm_at o V 0)) in C2. unfold to_harm, W1 in C0, C1, C2. cbn [Nat.eqb Nat.mul Nat.add] in C0, C1, C2. rewrite Nat.add_0_r in C2.
    assert (SE : forall t, (t < n)%nat -> nth t (mp_sine p) 0 = nth t (h_fundamental r) 0). { intros t T. destruct (B5 t T) as (_ & _ & Q & _). rewrite (SN t T), Q, C0, C1. change (1 + o)%nat with (S o). rewrite C2. ring. }
    split; apply (nth_ext _ _ 0 0); try (rewrite S1, B3; reflexivity); try (rewrite S3, B4; reflexivity); intros t T; [rewrite S1 in T | rewrite S3 in T]; [exact (SE t T) |].
    rewrite (proj2 (AL t T)), (SE t T), MV1. destruct (B5 t T) as (_ & _ & Q1 & Q2). rewrite Q1, Q2. ring.
Qed.
(** What is refused: no samples, an option out of its range, and the estimate from one sample. *)
Lemma c168_refuses lin rows f0 tol rate fs niter : let n := length (m_column rows) in
  let good := 0 <= f0 <= 1 / 2 /\ 0 < tol /\ 0 < rate <= 1 /\ (0 < niter)%Z /\ (0 < n)%nat /\ (f0 = 0 -> (2 <= n)%nat) in
  (good -> exists o, m_sinfit lin rows f0 tol rate fs niter = Ok o) /\ (~ good -> m_sinfit lin rows f0 tol rate fs niter = Err RuntimeError).
Proof.
  intros n good. split.
  - intros (F & T & R & N & L & E). unfold m_sinfit. fold n. destruct (Nat.eqb_spec n 0); [lia |]. cbn [raise_if]. rewrite m_opts by assumption. cbn [raise_if]. unfold Reqb at 1. destruct (Req_EM_T f0 0) as [Z | Z]; [| cbn [bind]; eexists; reflexivity].
    destruct (c168_estimate (m_column rows) (E Z)) as (k & B1 & _ & _ & B4 & B5 & B6). cbv zeta in *. fold n in B1, B4, B5, B6. destruct (Nat.eq_dec k 0) as [K0 | K0]; [rewrite (proj1 (B4 K0)); cbn [bind]; eexists; reflexivity |]. destruct (Nat.eq_dec k (n / 2 - 1)) as [K1 | K1]; [rewrite (proj1 (B6 ltac:(lia) K1)); cbn [bind]; eexists; reflexivity |].
    destruct (B5 ltac:(lia)) as (x & -> & _). cbn [bind]. eexists; reflexivity.
  - intros NG. unfold m_sinfit. fold n. destruct (Nat.eqb_spec n 0) as [Z | Z]; [reflexivity |]. cbn [raise_if]. destruct (Rltb f0 0 || Rltb (1 / 2) f0 || Rleb tol 0 || Rleb rate 0 || Rltb 1 rate || (niter <=? 0)%Z)%bool eqn:G; [reflexivity |]. cbn [raise_if].
    rewrite !orb_false_iff in G. destruct G as (((((G1 & G2) & G3) & G4) & G5) & G6). unfold Rltb, Rleb in *. destruct (Rlt_dec f0 0); [discriminate |]. destruct (Rlt_dec (1 / 2) f0); [discriminate |]. destruct (Rle_dec tol 0); [discriminate |]. destruct (Rle_dec rate 0); [discriminate |]. destruct (Rlt_dec 1 rate); [discriminate |]. apply Z.leb_gt in G6.
    assert (f0 = 0 /\ (n < 2)%nat) as [E0 L0]. { destruct (Req_dec f0 0) as [E0 | E0]; [| exfalso; apply NG; unfold good; repeat split; try lra; try lia; try contradiction]. split; [exact E0 |]. destruct (Nat.le_gt_cases 2 n); [| lia]. exfalso. apply NG. unfold good. repeat split; try lra; try lia. }
    unfold Reqb. destruct (Req_EM_T f0 0); [| contradiction]. unfold m_estimate. fold n. replace (n / 2)%nat with 0%nat by (replace n with 1%nat by lia; reflexivity). reflexivity.
Qed.
(** A constant record has no peak: every output is NaN, where Python (C86) returns a fit. *)
Lemma c168_constant lin rows v tol rate fs niter : (2 <= length (m_column rows))%nat -> is_record (m_column rows) (fun _ => v) -> 0 < tol -> 0 < rate <= 1 -> (0 < niter)%Z ->
  m_sinfit lin rows 0 tol rate fs niter = Ok None /\ estimate_frequency_fft (m_column rows) = Ok 0.
Proof.
  intros L R T RT N. destruct (c168_estimate (m_column rows) L) as (k & B1 & _ & B3 & B4 & _). cbv beta zeta in *. set (y := m_column rows) in *. assert (K : k = 0%nat).
  { destruct (Nat.eq_dec k 0) as [| K]; [assumption | exfalso]. pose proof (Nat.mul_div_le (length y) 2 ltac:(lia)). pose proof (B3 0%nat ltac:(lia)) as Q. cbn [Nat.eqb] in Q. destruct (Nat.eqb_spec k 0); [contradiction |].
    rewrite (tone_spectrum y k 0 0 v k) in Q; [| lia | lia | lia | lia | intros t Ht; rewrite (R t Ht); unfold sine; ring]. rewrite Nat.eqb_refl, Rabs_R0 in Q. lra. }
  destruct (B4 K) as [E1 E2]. split; [| exact E2]. unfold m_sinfit. fold y. destruct (Nat.eqb_spec (length y) 0); [lia |]. cbn [raise_if]. rewrite m_opts by (try assumption; lra). cbn [raise_if]. unfold Reqb at 1. destruct (Req_EM_T 0 0); [| lra]. rewrite E1. reflexivity.
Qed.
Lemma c168_constant_refuted : exists rows, m_sinfit gs_lstsq rows 0 (1 / 10 ^ 12) (1 / 2) false 100 = Ok None /\ exists r, fit_core gs_lstsq (m_column rows) None 0 (1 / 10 ^ 9) = Ok r.
Proof.
  exists [[1; 1; 1; 1]]. split.
  - apply (c168_constant gs_lstsq [[1; 1; 1; 1]] 1); [cbn; lia | intros t T; cbn in T; cbn [m_column]; do 4 (destruct t as [| t]; [reflexivity |]); lia | apply Rdiv_lt_0_compat; [lra | apply pow_lt; lra] | lra | lia].
  - destruct (c52_failure gs_lstsq (m_column [[1; 1; 1; 1]]) None 0 (1 / 10 ^ 9)) as [H | (_ & _ & H)]; [exact H | cbn in H; lia].
Qed.

Definition eighth_record : list R := map (sine 2 (1 / 8) 0 1) (seq 0 8).
Lemma eighth_is : is_record eighth_record (sine 2 (1 / 8) 0 1).
Proof. intros t T. unfold eighth_record in *. rewrite map_length, seq_length in T. rewrite (nth_map_in _ _ _ 0%nat) by (rewrite seq_length; exact T). rewrite seq_nth by exact T. reflexivity. Qed.
Example c168_exact_ex : exists r, m_sinfit gs_lstsq [eighth_record] (1 / 8) (1 / 100) (1 / 2) true 100 = Ok (Some r) /\ mf_freq r = 1 / 8 /\ mf_mag r = 2 /\ mf_dc r = 1 /\ mf_fitout r = eighth_record /\ mf_passes r = 1%nat.
Proof.
  destruct (c168_exact gs_lstsq [eighth_record] (1 / 8) 2 0 1 (1 / 100) (1 / 2) true 100 gs_least_squares) as (r & E & E1 & E2 & E3 & _ & E5 & E6); try lra; try lia; [cbn [m_column]; unfold eighth_record; rewrite map_length, seq_length; lia | exact eighth_is | exists r; repeat split; assumption].
Qed.
Example c168_auto_ex : exists r, m_sinfit gs_lstsq [eighth_record] 0 (1 / 100) (1 / 2) false 100 = Ok (Some r) /\ mf_mag r = 2 /\ mf_dc r = 1.
Proof.
  assert (L : length eighth_record = 8%nat) by (unfold eighth_record; rewrite map_length, seq_length; reflexivity).
  destruct (c168_auto gs_lstsq [eighth_record] 1 2 0 1 (1 / 100) (1 / 2) false 100 gs_least_squares) as (r & E & _ & E2 & E3 & _); cbn [m_column]; try lra; try lia; try (rewrite L; cbn; lia); [rewrite L; replace (INR 1 / INR 8) with (1 / 8) by (cbn; lra); exact eighth_is | exists r; repeat split; assumption].
Qed.
Example c168_estimate_ex : exists x, m_estimate eighth_record = Ok (Fin x) /\ estimate_frequency_fft eighth_record = Ok x /\ x = 1 / 8.
Proof.
  assert (L : length eighth_record = 8%nat) by (unfold eighth_record; rewrite map_length, seq_length; reflexivity). assert (Q : INR 1 / INR (length eighth_record) = 1 / 8) by (rewrite L; cbn; lra). exists (1 / 8).
  pose proof eighth_is as R. rewrite <- Q in R. split; [rewrite <- Q; apply (proj1 (tone_peak eighth_record 1 2 0 1 ltac:(lia) ltac:(rewrite L; cbn; lia) ltac:(lra) R)); rewrite L; cbn; lia |]. split; [| reflexivity]. rewrite <- Q. apply (c84_coherent eighth_record 1 2 0 1); [lia | rewrite L; cbn; lia | lra | exact R].
Qed.
Example c168_outputs_ex : exists r, m_sinfit gs_lstsq [eighth_record] (1 / 8) (1 / 100) (1 / 2) true 100 = Ok (Some r) /\ nth 4 (mf_fitout r) 0 = -1.
Proof.
  destruct c168_exact_ex as (r & E & _ & _ & _ & E5 & _). exists r. split; [exact E |]. rewrite E5, (eighth_is 4%nat) by (unfold eighth_record; rewrite map_length, seq_length; lia). unfold sine. replace (2 * PI * (1 / 8) * INR 4 + 0) with PI by (cbn; lra). rewrite cos_PI. lra.
Qed.
Example c168_given_ex : exists r, m_sinfit gs_lstsq [[1; 0; 0; 0]] (1 / 4) 1 1 false 100 = Ok (Some r) /\ mf_mag r = 1 / 2 /\ mf_dc r = 1 / 4.
Proof.
  destruct (c168_given gs_lstsq gs_lstsq [[1; 0; 0; 0]] (1 / 4) 1 1 1 100 gs_least_squares gs_least_squares) as (r & r' & E & E' & _ & _ & A & D & _); try lra; try lia; [cbn; lia |]. exists r. split; [exact E |]. destruct c82_impulse_ex as (q & Q & Q1 & Q2 & _). cbn [m_column] in E'. rewrite E' in Q. apply Ok_inj in Q. subst q. rewrite A, D, Q1, Q2. split; reflexivity.
Qed.
Example c168_lag_ex : exists r q, m_sinfit gs_lstsq [eighth_record] (1 / 8) (1 / 100) 1 true 1 = Ok (Some r) /\ fit_core gs_lstsq eighth_record (Some (1 / 8)) 1 (1 / 100) = Ok q /\ mf_mag r = f_amplitude q /\ mf_dc r = f_dc q.
Proof.
  assert (L : length eighth_record = 8%nat) by (unfold eighth_record; rewrite map_length, seq_length; reflexivity).
  destruct (c168_exact gs_lstsq [eighth_record] (1 / 8) 2 0 1 (1 / 100) 1 true 1 gs_least_squares) as (r & E & _ & _ & _ & _ & _ & P); try lra; try lia; [cbn [m_column]; lia | exact eighth_is |].
  assert (US : usable (1 / 8)). { unfold usable. assert (8 < 10 ^ 10) by (apply (Rlt_le_trans _ (10 ^ 1)); [lra | apply Rle_pow; [lra | lia]]). assert (1 / 10 ^ 10 < 1 / 8) by (unfold Rdiv; rewrite !Rmult_1_l; apply Rinv_lt_contravar; lra). lra. }
  destruct (c168_lag gs_lstsq gs_lstsq [eighth_record] (1 / 8) (1 / 100) (1 / 100) 0 r gs_least_squares gs_least_squares ltac:(lra) ltac:(lra) ltac:(cbn [m_column]; lia) E P) as (q & q1 & E1 & _ & A & D & _).
  - cbn [m_column]. intros q E1. destruct (c83_exact_sine gs_lstsq eighth_record (1 / 8) 2 0 1 (Z.of_nat 1) (1 / 100) gs_least_squares US) as (q' & E' & X); try lra; try lia; [exact eighth_is |]. rewrite E1 in E'. apply Ok_inj in E'. subst q'. destruct X as (_ & _ & _ & _ & _ & _ & _ & I & _). cbn in I. lia.
  - cbn [m_column]. intros j q J E1. replace j with 0%nat in E1 by lia. destruct (c83_exact_sine gs_lstsq eighth_record (1 / 8) 2 0 1 (Z.of_nat 0) (1 / 100) gs_least_squares US) as (q' & E' & X); try lra; try lia; [exact eighth_is |]. rewrite E1 in E'. apply Ok_inj in E'. subst q'. destruct X as (_ & A & _). rewrite A. lra.
  - intros j q q' J. lia.
  - exists r, q. cbn [m_column] in E1. repeat split; assumption.
Qed.
Example c168_refuses_ex : m_sinfit gs_lstsq [[1; 2; 3]] (3 / 5) (1 / 100) (1 / 2) false 100 = Err RuntimeError.
Proof. apply (proj2 (c168_refuses gs_lstsq [[1; 2; 3]] (3 / 5) (1 / 100) (1 / 2) false 100)). intros (H & _). lra. Qed.
Lemma tomdec_given lin y f order : 0 < f <= 1 / 2 -> (1 <= order)%Z -> exists p, m_tomdec lin y (Some f) order = Ok (Some p).
Proof. intros F O. unfold m_tomdec, Rltb, Rleb. destruct (Rlt_dec f 0); [lra |]. destruct (Rlt_dec (1 / 2) f); [lra |]. destruct (Z.ltb_spec order 1); [lia |]. destruct (Rle_dec f 0); [lra |]. cbn [orb raise_if bind]. eexists. reflexivity. Qed.
Example c169_adds_up_ex : exists p, m_tomdec gs_lstsq [1; 2; 4; 3] (Some (1 / 4)) 1 = Ok (Some p) /\ nth 2 (mp_sine p) 0 + nth 2 (mp_har p) 0 + nth 2 (mp_oth p) 0 = 4.
Proof.
  destruct (tomdec_given gs_lstsq [1; 2; 4; 3] (1 / 4) 1 ltac:(lra) ltac:(lia)) as (p & E). exists p. split; [exact E |]. pose proof (c169_adds_up _ _ _ _ _ E) as (_ & _ & _ & _ & H). destruct (H 2%nat ltac:(cbn; lia)) as (A & B & _). cbn [nth] in A. change (nth 2 [1; 2; 4; 3] 0) with 4 in A. lra.
Qed.
Example c169_agree_ex : exists p r, m_tomdec gs_lstsq quad_record (Some (1 / 8)) 2 = Ok (Some p) /\ decompose_harmonic_error gs_lstsq [quad_record] 2 (Some (1 / 8)) 0 (1 / 10 ^ 9) = Ok r /\ mp_sine p = h_fundamental r /\ mp_har p = h_harmonic r.
Proof.
  assert (L : length quad_record = 16%nat) by (unfold quad_record; rewrite map_length, seq_length; reflexivity).
  destruct (tomdec_given gs_lstsq quad_record (1 / 8) 2 ltac:(lra) ltac:(lia)) as (p & E). destruct (proj1 (c36_accepts gs_lstsq [quad_record] 2 (Some (1 / 8)) 0 (1 / 10 ^ 9))) as (r & E2). { rewrite (proj1 c36_runs) by lia. cbn [hd]. rewrite L. split; [lia |]. split; [lia | discriminate]. }
  exists p, r. destruct (c169_agree gs_lstsq gs_lstsq quad_record (1 / 8) 2 (1 / 10 ^ 9) p r gs_least_squares gs_least_squares ltac:(lia) ltac:(lra) E E2) as (_ & _ & _ & H). split; [exact E |]. split; [exact E2 |]. apply H. rewrite L. replace (1 / 8) with (INR 2 / INR 16) by (cbn; lra). apply c94_coherent_independent; cbn; lia.
Qed.
