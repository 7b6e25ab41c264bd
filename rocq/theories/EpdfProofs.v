(** * Proofs about the error density analysis. *)
From Verif Require Import Base BaseLemmas Cplx SpecModel DoutProofs CalModel CalSpec CalProofs CalExLemmas CohLemmas FitModel FitSpec FitProofs HarmProofs RampModel RearProofs NonlinModel NonlinSpec NonlinProofs EpdfModel EpdfSpec.
Local Open Scope R_scope.

Lemma lmean_average l : lmean l = average (length l) (fun t => nth t l 0).
Proof. unfold lmean, average. rewrite lsum_rsum. reflexivity. Qed.
Lemma fold_abs_bounds l : 0 <= fold_right Rmax 0 (map Rabs l) /\ (forall v, In v l -> Rabs v <= fold_right Rmax 0 (map Rabs l)) /\ (l <> [] -> exists v, In v l /\ fold_right Rmax 0 (map Rabs l) = Rabs v).
Proof.
  induction l as [| a l (IH1 & IH2 & IH3)]; [split; [cbn; lra |]; split; [intros v [] | contradiction] |]. cbn [map fold_right]. split; [| split].
  - eapply Rle_trans; [exact IH1 | apply Rmax_r].
  - intros v [-> | V]; [apply Rmax_l | eapply Rle_trans; [apply IH2, V | apply Rmax_r]].
  - intros _. unfold Rmax at 1. destruct (Rle_dec (Rabs a) (fold_right Rmax 0 (map Rabs l))) as [L | L]; [| exists a; split; [left; reflexivity | reflexivity]].
    destruct l as [| b l]; [cbn in *; exists a; split; [left; reflexivity | pose proof (Rabs_pos a); lra] |]. destruct IH3 as (v & V & E); [discriminate |]. exists v. split; [right; exact V | exact E].
Qed.
Lemma std1_variance e : (2 <= length e)%nat -> exists s, std1 e = Fin s /\ 0 <= s /\ s ^ 2 = sample_variance (length e) (fun t => nth t e 0).
Proof.
  intros N. unfold std1. destruct (Nat.leb_spec (length e) 1); [lia |]. eexists. split; [reflexivity |]. split; [apply sqrt_pos |]. rewrite pow2_sqrt.
  - unfold sample_variance. rewrite lsum_rsum, map_length. unfold Rdiv. f_equal. apply rsum_ext. intros i Hi. rewrite (nth_map_in (fun v => (v - lmean e) ^ 2) e i 0) by exact Hi. rewrite lmean_average. reflexivity.
  - apply le_INR in N. change (INR 2) with 2 in N. apply Rdiv_le_0_compat; [| lra]. rewrite lsum_rsum. apply rsum_nonneg. intros i Hi. rewrite map_length in Hi. rewrite (nth_map_in (fun v => (v - lmean e) ^ 2) e i 0) by exact Hi. apply pow2_ge_0.
Qed.
Lemma bandwidth_silverman s n : 0 < s -> (1 <= n)%nat -> silverman n s (bandwidth s n).
Proof.
  intros S N. unfold silverman, bandwidth. assert (P : 0 < INR n) by (apply lt_0_INR; lia). assert (Q : 0 < Rpower (INR n) (- (1 / 5))) by apply exp_pos.
  split; [apply Rmult_lt_0_compat; lra |]. rewrite Rpow_mult_distr, Rmult_assoc. assert (E : Rpower (INR n) (- (1 / 5)) ^ 5 * INR n = 1); [| rewrite E; ring].
  rewrite <- Rpower_pow by exact Q. rewrite Rpower_mult. replace (- (1 / 5) * INR 5) with (- (1)) by (rewrite (INR_IZR_INZ 5); simpl (IZR (Z.of_nat 5)); lra). rewrite Rpower_Ropp, Rpower_1 by exact P. apply Rinv_l. lra.
Qed.
Lemma pow5_lt a b : 0 < a -> a < b -> a ^ 5 < b ^ 5.
Proof.
  intros A B. assert (S : 0 < a * a < b * b) by nra. assert (Q : 0 < (a * a) * (a * a) < (b * b) * (b * b)) by nra. replace (a ^ 5) with ((a * a) * (a * a) * a) by ring. replace (b ^ 5) with ((b * b) * (b * b) * b) by ring.
  destruct S, Q. apply Rmult_gt_0_lt_compat; lra.
Qed.
Lemma silverman_unique n s h h' : (1 <= n)%nat -> silverman n s h -> silverman n s h' -> h = h'.
Proof.
  intros N (H1 & E1) (H2 & E2). rewrite <- E2 in E1. assert (P : 0 < INR n) by (apply lt_0_INR; lia). apply Rmult_eq_reg_r in E1; [| lra].
  assert (M : forall a b, 0 < a -> a < b -> a ^ 5 < b ^ 5) by (intros a b A B; apply pow5_lt; assumption).
  destruct (Rtotal_order h h') as [L | [-> | L]]; [| reflexivity |]; [pose proof (M h h' H1 L) | pose proof (M h' h H2 L)]; lra.
Qed.
Lemma gauss_bell mu s x : s <> 0 -> gauss mu s x = bell s (x - mu).
Proof. intros S. unfold gauss, bell. unfold Rdiv. ring. Qed.
Lemma kde_mixture e h x : 0 < h -> kde e h x = mixture (length e) (fun t => nth t e 0) h x.
Proof.
  intros H. unfold kde, mixture, average, lmean. rewrite lsum_rsum, map_length. assert (S : 0 < sqrt (2 * PI)) by (apply sqrt_lt_R0; pose proof PI_RGT_0; lra).
  rewrite (rsum_ext _ (fun t => bell h (x - nth t e 0)) (fun t => / (h * sqrt (2 * PI)) * nth t (map (fun v => exp (- (1 / 2) * ((x - v) / h) ^ 2)) e) 0)).
  - rewrite rsum_scale. unfold Rdiv. ring.
  - intros t Ht. rewrite (nth_map_in (fun v => exp (- (1 / 2) * ((x - v) / h) ^ 2)) e t 0) by exact Ht. unfold bell. unfold Rdiv at 1. rewrite Rmult_comm. f_equal. f_equal. field. lra.
Qed.

(** the parts of the result *)
Lemma pdf_of_parts e : p_err (pdf_of e) = e /\ p_mu (pdf_of e) = lmean e /\ p_x (pdf_of e) = map (linspace_at (- Rmax 0.5 (fold_right Rmax 0 (map Rabs e))) (Rmax 0.5 (fold_right Rmax 0 (map Rabs e))) 200) (seq 0 200) /\
  p_sigma (pdf_of e) = std1 e.
Proof. unfold pdf_of. cbv zeta. destruct (std1 e) as [s | | |]; [destruct (Reqb_spec s 0) as [-> | N] | | |]; repeat split; reflexivity. Qed.
Lemma pdf_inv lstsq signal res fs freq mi tol r : error_pdf lstsq signal res fs freq mi tol = Ok (Numbers r) -> exists fit full, fit_core lstsq signal freq mi tol = Ok fit /\ (1 <= length signal)%nat /\
  match fs with Some v => full = v | None => is_span (length signal) (fun t => nth t signal 0) full end /\ full <> 0 /\ r = pdf_of (map (fun v => v / (full / powerRZ 2 res)) (map2 Rminus signal (f_fitted fit))).
Proof.
  unfold error_pdf. intros E. destruct (fit_core lstsq signal freq mi tol) as [fit |] eqn:F; [cbn [bind] in E | discriminate]. destruct signal as [| s0 rest]; [discriminate |].
  set (full := match fs with Some v => v | None => lmax1 s0 rest - lmin1 s0 rest end) in *. cbv zeta in E. exists fit, full. split; [reflexivity |]. split; [cbn [length]; lia |].
  destruct (Reqb_spec (full / powerRZ 2 res) 0) as [Z | Z]; [discriminate |]. injection E as <-. split; [| split; [| reflexivity]].
  - unfold full. destruct fs as [v |]; [reflexivity |]. destruct (In_nth _ _ 0 (lmax1_in s0 rest)) as (i & I1 & I2). destruct (In_nth _ _ 0 (lmin1_in s0 rest)) as (j & J1 & J2). exists i, j. split; [exact I1 |]. split; [exact J1 |]. split; [| rewrite I2, J2; reflexivity].
    intros t Ht. rewrite I2, J2. destruct t as [| t]; cbn [nth]; [split; [apply lmin1_le_init | apply lmax1_ge_init] |]. cbn [length] in Ht. split; [apply lmin1_le | apply lmax1_ge]; apply nth_In; lia.
  - intros Z0. apply Z. rewrite Z0. unfold Rdiv. apply Rmult_0_l.
Qed.
Lemma lin_at lim i : linspace_at (- lim) lim 200 i = lim * (2 * INR i / 199 - 1).
Proof. unfold linspace_at. rewrite (INR_IZR_INZ 200). simpl (IZR (Z.of_nat 200)). field. Qed.

(** What is reported.  The errors are (record - fitted sine) in steps of full scale / 2^resolution (the full scale given, or the
    span of the record); mu is their mean, sigma their unbiased deviation (NaN for one sample); the grid has 200 equally spaced
    points from -X to X, where X is the largest |error|, but at least half an LSB; when sigma is positive the density is the mean of
    normal densities of Silverman's bandwidth around the errors, the Gaussian is the normal density of mean mu and deviation sigma,
    and the divergence is the Kullback-Leibler sum of the two, each raised by 2^-52; when sigma is zero all three are NaN. *)
Lemma c116_values lstsq signal res fs freq mi tol r : error_pdf lstsq signal res fs freq mi tol = Ok (Numbers r) ->
  let n := length signal in let e := fun t => nth t (p_err r) 0 in let x := fun i => nth i (p_x r) 0 in
  exists fit full X, fit_core lstsq signal freq mi tol = Ok fit /\
  match fs with Some v => full = v | None => is_span n (fun t => nth t signal 0) full end /\ full <> 0 /\
  length (p_err r) = n /\ (forall t, (t < n)%nat -> e t = (nth t signal 0 - nth t (f_fitted fit) 0) * powerRZ 2 res / full) /\
  p_mu r = average n e /\
  (n = 1%nat -> p_sigma r = NaN) /\ ((2 <= n)%nat -> exists s, p_sigma r = Fin s /\ 0 <= s /\ s ^ 2 = sample_variance n e) /\
  length (p_x r) = 200%nat /\ (forall i, (i < 200)%nat -> x i = X * (2 * INR i / 199 - 1)) /\ 0.5 <= X /\ (forall t, (t < n)%nat -> Rabs (e t) <= X) /\ (X = 0.5 \/ exists t, (t < n)%nat /\ X = Rabs (e t)) /\
  (p_sigma r = Fin 0 \/ p_sigma r = NaN -> p_pdf r = None /\ p_gauss r = None /\ p_kl r = None) /\
  (forall s, p_sigma r = Fin s -> 0 < s -> exists h f g kl, silverman n s h /\ p_pdf r = Some f /\ p_gauss r = Some g /\ p_kl r = Some kl /\ length f = 200%nat /\ length g = 200%nat /\
     (forall i, (i < 200)%nat -> nth i f 0 = mixture n e h (x i)) /\ (forall i, (i < 200)%nat -> nth i g 0 = bell s (x i - p_mu r)) /\
     kl = kl_sum 200 (x 1%nat - x 0%nat) (fun i => nth i f 0 + / 2 ^ 52) (fun i => nth i g 0 + / 2 ^ 52)).
Proof.
  intros E n e x. destruct (pdf_inv _ _ _ _ _ _ _ _ E) as (fit & full & F & N1 & FS & FN & ER). set (le := map (fun v => v / (full / powerRZ 2 res)) (map2 Rminus signal (f_fitted fit))) in *.
  assert (LF : length (f_fitted fit) = length signal) by (eapply fitted_length; exact F).
  assert (LE : length le = n) by (unfold le; rewrite map_length, map2_length by (symmetry; exact LF); reflexivity).
  destruct (pdf_of_parts le) as (P1 & P2 & P3 & P4). set (X := Rmax 0.5 (fold_right Rmax 0 (map Rabs le))) in *. rewrite <- ER in P1, P2, P3, P4.
  assert (EE : forall t, e t = nth t le 0) by (intros t; unfold e; rewrite P1; reflexivity).
  assert (XX : forall i, (i < 200)%nat -> x i = X * (2 * INR i / 199 - 1)) by (intros i Hi; unfold x; rewrite P3, nth_map_seq by exact Hi; apply lin_at).
  assert (PW : powerRZ 2 res <> 0) by (apply powerRZ_NOR; lra).
  assert (AV : p_mu r = average n e) by (rewrite P2, lmean_average, LE; unfold average; f_equal; apply rsum_ext; intros t _; symmetry; apply EE).
  exists fit, full, X. split; [exact F |]. split; [exact FS |]. split; [exact FN |]. split; [rewrite P1; exact LE |]. split.
  { intros t Ht. rewrite EE. unfold le. rewrite (nth_map_in (fun v => v / (full / powerRZ 2 res)) _ t 0) by (rewrite map2_length by (symmetry; exact LF); exact Ht). rewrite (map2_nth Rminus _ _ t 0 0) by (fold n in Ht; lia). field. split; assumption. }
  split; [exact AV |]. split.
  { intros N. rewrite P4. unfold std1. rewrite LE, N. reflexivity. } split.
  { intros N2. destruct (std1_variance le) as (s & S1 & S2 & S3); [lia |]. exists s. rewrite P4. split; [exact S1 |]. split; [exact S2 |]. rewrite S3, LE. unfold sample_variance. f_equal. apply rsum_ext. intros t _. rewrite EE. f_equal. f_equal.
    unfold average. f_equal. apply rsum_ext. intros u _. symmetry. apply EE. } split; [rewrite P3, map_length, seq_length; reflexivity |]. split; [exact XX |].
  destruct (fold_abs_bounds le) as (B1 & B2 & B3). split; [apply Rmax_l |]. split.
  { intros t Ht. rewrite EE. eapply Rle_trans; [apply B2, nth_In; rewrite LE; exact Ht | apply Rmax_r]. } split.
  { unfold X, Rmax at 1 3. destruct (Rle_dec 0.5 (fold_right Rmax 0 (map Rabs le))); [right | left; reflexivity]. destruct B3 as (v & V1 & V2); [intros Z; rewrite Z in LE; cbn in LE; fold n in N1; lia |]. destruct (In_nth _ _ 0 V1) as (t & T1 & T2). exists t. split; [lia |]. rewrite EE, T2. exact V2. } split.
  { rewrite P4. rewrite ER. unfold pdf_of. cbv zeta. intros [-> | ->]; [destruct (Reqb_spec 0 0); [| contradiction] |]; repeat split; reflexivity. }
  intros s S1 S2. rewrite P4 in S1. exists (bandwidth s n), (map (kde le (bandwidth s n)) (p_x r)), (map (gauss (lmean le) s) (p_x r)).
  assert (LX : length (p_x r) = 200%nat) by (rewrite P3, map_length, seq_length; reflexivity).
  eexists. split; [apply bandwidth_silverman; assumption |].
  assert (PP : p_pdf r = Some (map (kde le (bandwidth s n)) (p_x r)) /\ p_gauss r = Some (map (gauss (lmean le) s) (p_x r)) /\
    p_kl r = Some (lsum (map2 (fun a b => (a + eps64) * ln ((a + eps64) / (b + eps64))) (map (kde le (bandwidth s n)) (p_x r)) (map (gauss (lmean le) s) (p_x r))) * (x 1%nat - x 0%nat))).
  { unfold x. rewrite P3. rewrite ER. unfold pdf_of. cbv zeta. rewrite S1. destruct (Reqb_spec s 0); [lra |]. cbn [p_pdf p_gauss p_kl]. rewrite LE. fold X. repeat split; reflexivity. }
  destruct PP as (PP1 & PP2 & PP3). split; [exact PP1 |]. split; [exact PP2 |]. split; [exact PP3 |]. split; [rewrite map_length; exact LX |]. split; [rewrite map_length; exact LX |].
  assert (HB : 0 < bandwidth s n) by (apply bandwidth_silverman; assumption).
  split; [| split].
  - intros i Hi. rewrite (nth_map_in _ _ i 0) by (rewrite LX; exact Hi). fold (x i). rewrite kde_mixture by exact HB. rewrite LE. unfold mixture, average. f_equal. apply rsum_ext. intros t _. rewrite EE. reflexivity.
  - intros i Hi. rewrite (nth_map_in _ _ i 0) by (rewrite LX; exact Hi). fold (x i). rewrite gauss_bell by lra. rewrite P2. reflexivity.
  - unfold kl_sum. rewrite Rmult_comm. f_equal. rewrite lsum_rsum, map2_length, map_length, LX by (rewrite !map_length; reflexivity). apply rsum_ext. intros i Hi. rewrite (map2_nth _ _ _ i 0 0) by (rewrite !map_length, ?LX; (exact Hi || reflexivity)). reflexivity.
Qed.
Lemma bell_bounds s u : 0 < s -> 0 < bell s u <= 1 / (s * sqrt (2 * PI)).
Proof.
  intros S. assert (Q : 0 < sqrt (2 * PI)) by (apply sqrt_lt_R0; pose proof PI_RGT_0; lra). assert (D : 0 < s * sqrt (2 * PI)) by (apply Rmult_lt_0_compat; assumption). unfold bell. split; [apply Rdiv_lt_0_compat; [apply exp_pos | exact D] |].
  unfold Rdiv at 1 3. apply Rmult_le_compat_r; [left; apply Rinv_0_lt_compat; exact D |]. rewrite <- exp_0. assert (H : - u ^ 2 / (2 * s ^ 2) <= 0).
  { assert (0 <= u ^ 2 / (2 * s ^ 2)) by (apply Rdiv_le_0_compat; [apply pow2_ge_0 | nra]). unfold Rdiv in *. lra. }
  destruct H as [H | ->]; [left; apply exp_increasing; exact H | lra].
Qed.
Lemma average_bounds n g a b : (1 <= n)%nat -> (forall t, (t < n)%nat -> a <= g t <= b) -> a <= average n g <= b.
Proof.
  intros N H. assert (P : 0 < INR n) by (apply lt_0_INR; lia). unfold average. assert (C : forall c, rsum n (fun _ => c) = INR n * c) by (intros; apply rsum_const).
  split; apply (Rmult_le_reg_r (INR n)); try exact P; unfold Rdiv; rewrite Rmult_assoc, Rinv_l, Rmult_1_r by lra; rewrite (Rmult_comm _ (INR n)), <- C; apply rsum_le; intros t Ht; apply H; exact Ht.
Qed.
Lemma rsum_one_le n g : (forall t, (t < n)%nat -> 0 <= g t) -> forall t, (t < n)%nat -> g t <= rsum n g.
Proof.
  induction n as [| n IH]; intros H t Ht; [lia |]. cbn [rsum]. assert (0 <= rsum n g) by (apply rsum_nonneg; intros u Hu; apply H; lia). destruct (Nat.eq_dec t n) as [-> | NE]; [lra |].
  pose proof (IH ltac:(intros u Hu; apply H; lia) t ltac:(lia)). pose proof (H n ltac:(lia)). lra.
Qed.
Lemma average_pos n g : (1 <= n)%nat -> (forall t, (t < n)%nat -> 0 < g t) -> 0 < average n g.
Proof.
  intros N H. unfold average. apply Rdiv_lt_0_compat; [| apply lt_0_INR; lia]. destruct n as [| n]; [lia |]. cbn [rsum]. assert (0 <= rsum n g) by (apply rsum_nonneg; intros t Ht; left; apply H; lia). specialize (H n ltac:(lia)). lra.
Qed.
(** Both densities are positive everywhere and bounded by the height of one normal density; the estimate at a grid point is at
    least one n-th of the kernel around any single error. *)
Lemma c116_positive lstsq signal res fs freq mi tol r s f g : error_pdf lstsq signal res fs freq mi tol = Ok (Numbers r) -> p_sigma r = Fin s -> p_pdf r = Some f -> p_gauss r = Some g ->
  let n := length signal in 0 < s /\ exists h, silverman n s h /\ forall i, (i < 200)%nat ->
  0 < nth i f 0 <= 1 / (h * sqrt (2 * PI)) /\ 0 < nth i g 0 <= 1 / (s * sqrt (2 * PI)) /\
  forall t, (t < n)%nat -> bell h (nth i (p_x r) 0 - nth t (p_err r) 0) / INR n <= nth i f 0.
Proof.
  intros E S F G n. destruct (c116_values _ _ _ _ _ _ _ _ E) as (fit & full & X & _ & _ & _ & LE & _ & _ & S1 & S2 & _ & _ & _ & _ & _ & ZZ & D). fold n in LE, S1, S2, D.
  assert (N1 : (1 <= n)%nat) by (destruct (pdf_inv _ _ _ _ _ _ _ _ E) as (? & ? & _ & ? & _); assumption).
  assert (SP : 0 < s). { destruct (Nat.eq_dec n 1) as [N | N]; [rewrite (S1 N) in S; discriminate |]. destruct (S2 ltac:(lia)) as (s' & E' & P & _). rewrite S in E'. injection E' as <-. destruct P as [P | P]; [exact P |]. rewrite <- P in S. destruct (ZZ (or_introl S)) as (Z & _). rewrite F in Z. discriminate. }
  split; [exact SP |]. destruct (D s S SP) as (h & f' & g' & kl & H & F' & G' & _ & _ & _ & FM & GM & _). rewrite F in F'. rewrite G in G'. injection F' as <-. injection G' as <-. exists h. split; [exact H |].
  destruct H as (HP & _). intros i Hi. rewrite (FM i Hi), (GM i Hi). split; [| split; [apply bell_bounds; exact SP |]].
  - unfold mixture. split; [apply average_pos; [exact N1 |]; intros; apply bell_bounds; exact HP | apply (average_bounds n _ 0); [exact N1 |]; intros t _; destruct (bell_bounds h (nth i (p_x r) 0 - nth t (p_err r) 0) HP); lra].
  - intros t Ht. unfold mixture, average, Rdiv. apply Rmult_le_compat_r; [left; apply Rinv_0_lt_compat, lt_0_INR; lia |]. apply (rsum_one_le n (fun t => bell h (nth i (p_x r) 0 - nth t (p_err r) 0))); [| exact Ht]. intros j _. left. apply bell_bounds. exact HP.
Qed.
(** The errors have deviation zero exactly when they are all equal. *)
Lemma c116_spread lstsq signal res fs freq mi tol r : error_pdf lstsq signal res fs freq mi tol = Ok (Numbers r) -> (2 <= length signal)%nat ->
  (p_sigma r = Fin 0 <-> forall t u, (t < length signal)%nat -> (u < length signal)%nat -> nth t (p_err r) 0 = nth u (p_err r) 0).
Proof.
  intros E N. destruct (c116_values _ _ _ _ _ _ _ _ E) as (fit & full & X & _ & _ & _ & LE & _ & _ & _ & S2 & _). destruct (S2 N) as (s & Es & SP & SV). set (n := length signal) in *. set (e := fun t => nth t (p_err r) 0) in *.
  assert (P : 0 < INR n - 1) by (apply le_INR in N; change (INR 2) with 2 in N; lra).
  assert (NZ : forall t, (t < n)%nat -> 0 <= (e t - average n e) ^ 2) by (intros; apply pow2_ge_0). split.
  - intros Z t u Ht Hu. rewrite Es in Z. injection Z as ->. assert (Q : rsum n (fun t => (e t - average n e) ^ 2) = 0).
    { unfold sample_variance in SV. apply (Rmult_eq_compat_r (INR n - 1)) in SV. unfold Rdiv in SV. rewrite Rmult_assoc, Rinv_l in SV by lra. lra. }
    assert (A : forall v, (v < n)%nat -> e v = average n e) by (intros v Hv; pose proof (rsum_nonneg_zero n _ NZ (Req_le _ _ Q) v Hv) as H; cbv beta in H; nra). fold (e t) (e u). rewrite (A t Ht), (A u Hu). reflexivity.
  - intros A. assert (AV : forall t, (t < n)%nat -> average n e = e t).
    { intros t Ht. unfold average. rewrite (rsum_ext n e (fun _ => e t)) by (intros u Hu; apply A; assumption). rewrite rsum_const. field. lra. }
    assert (V0 : sample_variance n e = 0). { unfold sample_variance. rewrite rsum_zero; [unfold Rdiv; apply Rmult_0_l |]. intros t Ht. rewrite (AV t Ht). ring. }
    rewrite Es. f_equal. rewrite V0 in SV. nra.
Qed.
(** Without frequency refinement (max_iterations = 0) the errors have mean zero, so mu = 0 and sigma^2 (n - 1) is their energy. *)
Lemma c116_centred lstsq signal res fs freq tol r : least_squares lstsq -> error_pdf lstsq signal res fs freq 0 tol = Ok (Numbers r) ->
  p_mu r = 0 /\ forall s, p_sigma r = Fin s -> s ^ 2 * (INR (length signal) - 1) = rsum (length signal) (fun t => nth t (p_err r) 0 ^ 2).
Proof.
  intros L E. destruct (c116_values _ _ _ _ _ _ _ _ E) as (fit & full & X & F & _ & FN & LE & EE & AV & S1 & S2 & _). set (n := length signal) in *. set (e := fun t => nth t (p_err r) 0) in *.
  assert (N1 : (1 <= n)%nat) by (destruct (pdf_inv _ _ _ _ _ _ _ _ E) as (? & ? & _ & ? & _); assumption).
  assert (RZ : rsum n (fun t => nth t signal 0 - nth t (f_fitted fit) 0) = 0).
  { assert (GO : forall q, fit_core lstsq signal (Some q) 0 tol = Ok fit -> rsum n (fun t => nth t signal 0 - nth t (f_fitted fit) 0) = 0).
    { intros q Fq. destruct (c82_three_parameter_optimal lstsq signal q tol L) as (fit' & F' & _ & Z & _). rewrite Fq in F'. injection F' as <-. etransitivity; [| exact Z]. apply rsum_ext. intros t Ht.
      destruct (c52_parameters _ _ _ _ _ _ Fq) as (_ & _ & RR & _). symmetry. apply (proj2 (RR t Ht)). }
    destruct freq as [q |]; [apply (GO q F) |]. unfold fit_core in F. destruct (estimate_frequency_fft signal) as [q |] eqn:EQ; [| discriminate]. apply (GO q). exact F. }
  assert (M0 : p_mu r = 0). { rewrite AV. unfold average. rewrite (rsum_ext n e (fun t => (powerRZ 2 res / full) * (nth t signal 0 - nth t (f_fitted fit) 0))) by (intros t Ht; unfold e; rewrite (EE t Ht); field; exact FN). rewrite rsum_scale, RZ, Rmult_0_r. unfold Rdiv. apply Rmult_0_l. }
  split; [exact M0 |]. intros s Es. destruct (Nat.eq_dec n 1) as [Q | Q]; [rewrite (S1 Q) in Es; discriminate |]. destruct (S2 ltac:(lia)) as (s' & Es' & _ & SV). rewrite Es in Es'. injection Es' as <-.
  rewrite SV. unfold sample_variance. rewrite <- AV, M0. assert (P : INR n - 1 <> 0) by (assert (N2 : (2 <= n)%nat) by lia; apply le_INR in N2; change (INR 2) with 2 in N2; lra).
  unfold Rdiv. rewrite Rmult_assoc, Rinv_l, Rmult_1_r by exact P. apply rsum_ext. intros t _. unfold e. ring.
Qed.
(** One more bit of resolution doubles the errors, their mean and their deviation. *)
Lemma c116_resolution lstsq signal res fs freq mi tol r r' : error_pdf lstsq signal res fs freq mi tol = Ok (Numbers r) -> error_pdf lstsq signal (res + 1) fs freq mi tol = Ok (Numbers r') ->
  (forall t, (t < length signal)%nat -> nth t (p_err r') 0 = 2 * nth t (p_err r) 0) /\ p_mu r' = 2 * p_mu r /\ (forall s, p_sigma r = Fin s -> p_sigma r' = Fin (2 * s)).
Proof.
  intros E E'. destruct (c116_values _ _ _ _ _ _ _ _ E) as (fit & full & X & F & FS & FN & LE & EE & AV & S1 & S2 & _). destruct (c116_values _ _ _ _ _ _ _ _ E') as (fit' & full' & X' & F' & FS' & FN' & LE' & EE' & AV' & S1' & S2' & _).
  rewrite F in F'. injection F' as <-.
  assert (full' = full). { destruct fs as [v |]; [congruence |]. destruct FS as (i & j & I & J & B & ->), FS' as (i' & j' & I' & J' & B' & ->). pose proof (B i' I'). pose proof (B j' J'). pose proof (B' i I). pose proof (B' j J). lra. } subst full'.
  set (n := length signal) in *.
  assert (EQ : forall t, (t < n)%nat -> nth t (p_err r') 0 = 2 * nth t (p_err r) 0). { intros t Ht. rewrite (EE t Ht), (EE' t Ht). rewrite powerRZ_add by lra. change (powerRZ 2 1) with (2 * 1). field. exact FN. }
  assert (MU : p_mu r' = 2 * p_mu r). { rewrite AV, AV'. unfold average. rewrite (rsum_ext n (fun t => nth t (p_err r') 0) (fun t => 2 * nth t (p_err r) 0)) by exact EQ. rewrite rsum_scale. unfold Rdiv. ring. }
  split; [exact EQ |]. split; [exact MU |]. intros s Es. destruct (Nat.eq_dec n 1) as [Q | Q]; [rewrite (S1 Q) in Es; discriminate |].
  assert (N1 : (1 <= n)%nat) by (destruct (pdf_inv _ _ _ _ _ _ _ _ E) as (? & ? & _ & ? & _); assumption).
  destruct (S2 ltac:(lia)) as (s1 & A1 & A2 & A3). destruct (S2' ltac:(lia)) as (s2 & B1 & B2 & B3). rewrite Es in A1. injection A1 as <-. rewrite B1. f_equal.
  assert (V : s2 ^ 2 = (2 * s) ^ 2). { rewrite B3. replace ((2 * s) ^ 2) with (4 * s ^ 2) by ring. rewrite A3. unfold sample_variance. rewrite <- AV, <- AV'. rewrite (rsum_ext n _ (fun t => 4 * (nth t (p_err r) 0 - p_mu r) ^ 2)) by (intros t Ht; cbv beta; rewrite (EQ t Ht), MU; ring). rewrite rsum_scale. unfold Rdiv. ring. }
  apply Rsqr_inj; [exact B2 | lra |]. unfold Rsqr. replace (s2 * s2) with (s2 ^ 2) by ring. rewrite V. ring.
Qed.
(** Failures: fewer than two samples without a frequency, and no samples without a full scale, raise ValueError; no samples with a
    full scale ZeroDivisionError; a constant record without a full scale has LSB zero and no finite numbers are reported; in all
    other cases numbers are reported exactly when the full scale is not zero. *)
Lemma c116_errors lstsq signal res fs freq mi tol :
  (freq = None -> (length signal <= 1)%nat -> error_pdf lstsq signal res fs freq mi tol = Err ValueError) /\
  (freq <> None -> signal = [] -> error_pdf lstsq signal res fs freq mi tol = Err (match fs with Some _ => ZeroDivisionError | None => ValueError end)) /\
  ((freq <> None /\ signal <> [] \/ (2 <= length signal)%nat) ->
     (fs = None -> (exists v, forall t, (t < length signal)%nat -> nth t signal 0 = v) -> error_pdf lstsq signal res fs freq mi tol = Ok NotFinite) /\
     (fs = None -> (exists t u, (t < length signal)%nat /\ (u < length signal)%nat /\ nth t signal 0 <> nth u signal 0) -> exists r, error_pdf lstsq signal res fs freq mi tol = Ok (Numbers r)) /\
     (forall v, fs = Some v -> v = 0 -> error_pdf lstsq signal res fs freq mi tol = Ok NotFinite) /\
     (forall v, fs = Some v -> v <> 0 -> exists r, error_pdf lstsq signal res fs freq mi tol = Ok (Numbers r))).
Proof.
  split; [| split].
  - intros -> N. unfold error_pdf, fit_core, estimate_frequency_fft. cbv zeta. rewrite (Nat.div_small (length signal) 2) by lia. reflexivity.
  - intros Q ->. destruct freq as [q |]; [| contradiction]. reflexivity.
  - intros H. assert (F : exists fit, fit_core lstsq signal freq mi tol = Ok fit). { destruct (c52_failure lstsq signal freq mi tol) as [F | (_ & FN & N)]; [exact F |]. destruct H as [[H _] | H]; [contradiction | lia]. }
    assert (NE : signal <> []) by (destruct H as [[_ H] | H]; [exact H | intros ->; cbn in H; lia]). destruct F as (fit & F). unfold error_pdf. rewrite F. cbn [bind]. destruct signal as [| s0 rest]; [contradiction |]. cbv zeta.
    assert (PW : powerRZ 2 res <> 0) by (apply powerRZ_NOR; lra).
    assert (LS : forall full, full / powerRZ 2 res = 0 <-> full = 0). { intros full. split; [| intros ->; unfold Rdiv; apply Rmult_0_l]. intros Z. apply (Rmult_eq_compat_r (powerRZ 2 res)) in Z. unfold Rdiv in Z. rewrite Rmult_assoc, Rinv_l in Z by exact PW. lra. }
    split; [| split; [| split]].
    + intros -> (v & V). destruct (In_nth _ _ 0 (lmax1_in s0 rest)) as (i & I1 & I2). destruct (In_nth _ _ 0 (lmin1_in s0 rest)) as (j & J1 & J2). rewrite (V i I1) in I2. rewrite (V j J1) in J2. rewrite <- I2, <- J2. unfold Rminus at 1. rewrite Rplus_opp_r. rewrite (proj2 (LS 0) eq_refl). destruct (Reqb_spec 0 0); [reflexivity | contradiction].
    + intros -> (t & u & T & U & NQ). destruct (Reqb_spec ((lmax1 s0 rest - lmin1 s0 rest) / powerRZ 2 res) 0) as [Z | Z]; [exfalso | eexists; reflexivity]. apply (proj1 (LS _)) in Z.
      assert (B : forall k, (k < length (s0 :: rest))%nat -> lmin1 s0 rest <= nth k (s0 :: rest) 0 <= lmax1 s0 rest).
      { intros [| k] Hk; cbn [nth]; [split; [apply lmin1_le_init | apply lmax1_ge_init] |]. cbn [length] in Hk. split; [apply lmin1_le | apply lmax1_ge]; apply nth_In; lia. }
      pose proof (B t T). pose proof (B u U). apply NQ. lra.
    + intros v -> ->. rewrite (proj2 (LS 0) eq_refl). destruct (Reqb_spec 0 0); [reflexivity | contradiction].
    + intros v -> V. destruct (Reqb_spec (v / powerRZ 2 res) 0) as [Z | Z]; [apply (proj1 (LS _)) in Z; contradiction | eexists; reflexivity].
Qed.

(* ---------- C117: the divergence ---------- *)
Lemma ln_lower t : 0 < t -> 1 - / t <= ln t.
Proof.
  intros T. pose proof (exp_ineq1_le (ln (/ t))) as H. rewrite exp_ln in H by (apply Rinv_0_lt_compat; exact T). rewrite ln_Rinv in H by exact T. lra.
Qed.
Lemma gibbs_term p q : 0 < p -> 0 < q -> p - q <= p * ln (p / q).
Proof.
  intros P Q. assert (T : 0 < p / q) by (apply Rdiv_lt_0_compat; assumption). pose proof (ln_lower (p / q) T) as H. apply (Rmult_le_compat_l p) in H; [| lra].
  replace (p * (1 - / (p / q))) with (p - q) in H by (field; split; lra). exact H.
Qed.
Lemma gibbs_strict p q : 0 < p -> 0 < q -> p * ln (p / q) <= p - q -> p = q.
Proof.
  intros P Q H. destruct (Req_dec p q) as [-> | NE]; [reflexivity | exfalso]. assert (T : 0 < p / q) by (apply Rdiv_lt_0_compat; assumption).
  assert (L : ln (/ (p / q)) <> 0). { intros Z. apply NE. assert (X : / (p / q) = 1) by (rewrite <- (exp_ln (/ (p / q))) by (apply Rinv_0_lt_compat; exact T); rewrite Z; apply exp_0). apply (Rmult_eq_compat_l (p / q)) in X. rewrite Rinv_r in X by lra. apply (Rmult_eq_compat_r q) in X. unfold Rdiv in X. rewrite !Rmult_1_r, Rmult_1_l, Rmult_assoc, Rinv_l in X by lra. lra. }
  pose proof (exp_ineq1 _ L) as G. rewrite exp_ln in G by (apply Rinv_0_lt_compat; exact T). rewrite ln_Rinv in G by exact T. apply (Rmult_lt_compat_l p) in G; [| exact P].
  replace (p * / (p / q)) with q in G by (field; split; lra). lra.
Qed.
(** Log-sum inequality. *)
Lemma kl_mass m dx p q : 0 < dx -> (1 <= m)%nat -> (forall i, (i < m)%nat -> 0 < p i /\ 0 < q i) ->
  mass m dx p * ln (mass m dx p / mass m dx q) <= kl_sum m dx p q /\ (kl_sum m dx p q <= mass m dx p * ln (mass m dx p / mass m dx q) -> forall i, (i < m)%nat -> p i / mass m dx p = q i / mass m dx q).
Proof.
  intros D M PQ. unfold mass, kl_sum. set (P := rsum m p). set (Q := rsum m q).
  assert (PS : forall g, (forall i, (i < m)%nat -> 0 < g i) -> 0 < rsum m g) by (intros g G; destruct m as [| m]; [lia |]; cbn [rsum]; assert (0 <= rsum m g) by (apply rsum_nonneg; intros; left; apply G; lia); specialize (G m ltac:(lia)); lra).
  assert (P0 : 0 < P) by (apply PS; intros; apply PQ; assumption). assert (Q0 : 0 < Q) by (apply PS; intros; apply PQ; assumption).
  replace (dx * P / (dx * Q)) with (P / Q) by (field; split; lra).
  assert (PQ0 : 0 < P / Q) by (apply Rdiv_lt_0_compat; assumption).
  assert (T : forall i, (i < m)%nat -> p i * ln (p i / q i) = p i * ln (P / Q) + p i * ln (p i / (q i * (P / Q)))).
  { intros i Hi. destruct (PQ i Hi) as [A B]. rewrite <- Rmult_plus_distr_l. f_equal. rewrite <- ln_mult; [| exact PQ0 | apply Rdiv_lt_0_compat; [exact A | apply Rmult_lt_0_compat; assumption]]. f_equal. field. repeat split; lra. }
  assert (S1 : rsum m (fun i => p i - q i * (P / Q)) = 0).
  { rewrite (rsum_ext m _ (fun i => p i + - (P / Q) * q i)) by (intros; ring). rewrite rsum_plus, rsum_scale. fold P Q. field. lra. }
  assert (S2 : rsum m (fun i => p i * ln (p i / q i)) = P * ln (P / Q) + rsum m (fun i => p i * ln (p i / (q i * (P / Q))))).
  { rewrite (rsum_ext m _ (fun i => ln (P / Q) * p i + p i * ln (p i / (q i * (P / Q))))) by (intros i Hi; rewrite (T i Hi); ring). rewrite rsum_plus, rsum_scale. fold P. ring. }
  assert (G : forall i, (i < m)%nat -> 0 <= p i * ln (p i / (q i * (P / Q))) - (p i - q i * (P / Q))).
  { intros i Hi. destruct (PQ i Hi) as [A B]. pose proof (gibbs_term (p i) (q i * (P / Q)) A ltac:(apply Rmult_lt_0_compat; assumption)). lra. }
  assert (S3 : rsum m (fun i => p i * ln (p i / (q i * (P / Q)))) = rsum m (fun i => p i * ln (p i / (q i * (P / Q))) - (p i - q i * (P / Q)))).
  { rewrite (rsum_ext m (fun i => p i * ln (p i / (q i * (P / Q))) - (p i - q i * (P / Q))) (fun i => p i * ln (p i / (q i * (P / Q))) + (-1) * (p i - q i * (P / Q)))) by (intros; ring). rewrite rsum_plus, rsum_scale, S1. ring. }
  split.
  - rewrite Rmult_assoc. apply Rmult_le_compat_l; [lra |]. rewrite S2, S3. pose proof (rsum_nonneg m _ G). lra.
  - intros LE i Hi. rewrite Rmult_assoc in LE. apply Rmult_le_reg_l in LE; [| exact D]. rewrite S2, S3 in LE.
    pose proof (rsum_nonneg_zero m _ G ltac:(lra) i Hi) as Z. cbv beta in Z. destruct (PQ i Hi) as [A B].
    pose proof (gibbs_strict (p i) (q i * (P / Q)) A ltac:(apply Rmult_lt_0_compat; assumption) ltac:(lra)) as E. rewrite E at 1. field. repeat split; lra.
Qed.
Lemma kl_bounds m dx p q : 0 < dx -> (forall i, (i < m)%nat -> 0 < p i /\ 0 < q i) -> mass m dx p - mass m dx q <= kl_sum m dx p q.
Proof.
  intros D PQ. unfold mass, kl_sum. rewrite <- Rmult_minus_distr_l. apply Rmult_le_compat_l; [lra |]. rewrite <- rsum_minus. apply rsum_le. intros i Hi. apply gibbs_term; apply PQ; exact Hi.
Qed.
(** What the reported divergence says: with P and Q the masses of the two (raised) densities on the grid, it is at least P ln (P/Q) and
    at least P - Q, with equality in the first only if the two are proportional; so it is nonnegative whenever the estimate has at least
    the mass of the Gaussian on the grid, and zero for equal masses only if the densities agree at every grid point. *)
Lemma c117_lower_bound lstsq signal res fs freq mi tol r f g kl : error_pdf lstsq signal res fs freq mi tol = Ok (Numbers r) -> p_pdf r = Some f -> p_gauss r = Some g -> p_kl r = Some kl ->
  let dx := nth 1 (p_x r) 0 - nth 0 (p_x r) 0 in let p := fun i => nth i f 0 + / 2 ^ 52 in let q := fun i => nth i g 0 + / 2 ^ 52 in let P := mass 200 dx p in let Q := mass 200 dx q in
  0 < P /\ 0 < Q /\ P * ln (P / Q) <= kl /\ P - Q <= kl /\ (Q <= P -> 0 <= kl) /\ (P = Q -> (kl <= 0 <-> forall i, (i < 200)%nat -> nth i f 0 = nth i g 0)).
Proof.
  intros E F G K dx p q P Q. destruct (c116_values _ _ _ _ _ _ _ _ E) as (fit & full & X & _ & _ & _ & _ & _ & _ & S1 & S2 & _ & XX & X5 & _ & _ & ZZ & D).
  assert (N1 : (1 <= length signal)%nat) by (destruct (pdf_inv _ _ _ _ _ _ _ _ E) as (? & ? & _ & ? & _); assumption).
  assert (SP : exists s, p_sigma r = Fin s /\ 0 < s).
  { destruct (Nat.eq_dec (length signal) 1) as [N | N]; [destruct (ZZ (or_intror (S1 N))) as (Z & _); rewrite F in Z; discriminate |]. destruct (S2 ltac:(lia)) as (s & E' & PP & _). exists s. split; [exact E' |]. destruct PP as [PP | <-]; [exact PP |]. destruct (ZZ (or_introl E')) as (Z & _). rewrite F in Z. discriminate. }
  destruct SP as (s & Es & SP). destruct (D s Es SP) as (h & f' & g' & kl' & _ & F' & G' & K' & _ & _ & _ & _ & KE). rewrite F in F'. rewrite G in G'. rewrite K in K'. injection F' as <-. injection G' as <-. injection K' as <-.
  destruct (c116_positive _ _ _ _ _ _ _ _ s f g E Es F G) as (_ & h' & _ & POS).
  assert (DX : 0 < dx). { unfold dx. rewrite !XX by lia. change (INR 1) with 1. change (INR 0) with 0. lra. }
  assert (E52 : 0 < / 2 ^ 52) by (apply Rinv_0_lt_compat, pow_lt; lra).
  assert (PQ : forall i, (i < 200)%nat -> 0 < p i /\ 0 < q i) by (intros i Hi; destruct (POS i Hi) as (A & B & _); unfold p, q; lra).
  assert (MP : forall w, (forall i, (i < 200)%nat -> 0 < w i) -> 0 < mass 200 dx w). { intros w W. unfold mass. apply Rmult_lt_0_compat; [exact DX |]. apply Rlt_le_trans with (w 0%nat); [apply W; lia |]. apply (rsum_one_le 200 w); [intros; left; apply W; assumption | lia]. }
  assert (P0 : 0 < P) by (apply MP; intros; apply PQ; assumption). assert (Q0 : 0 < Q) by (apply MP; intros; apply PQ; assumption).
  fold dx p q in KE. change (fun i : nat => nth i f 0 + / 2 ^ 52) with p in KE. change (fun i : nat => nth i g 0 + / 2 ^ 52) with q in KE.
  destruct (kl_mass 200 dx p q DX ltac:(lia) PQ) as (B1 & B2). fold P Q in B1, B2. pose proof (kl_bounds 200 dx p q DX PQ) as B3. fold P Q in B3. rewrite <- KE in B1, B2, B3.
  split; [exact P0 |]. split; [exact Q0 |]. split; [exact B1 |]. split; [exact B3 |]. split; [intros; lra |]. intros EQ. split.
  - intros KZ i Hi. assert (LZ : ln (P / Q) = 0) by (rewrite EQ; unfold Rdiv; rewrite Rinv_r by lra; apply ln_1). rewrite LZ, Rmult_0_r in B2. specialize (B2 KZ i Hi). rewrite EQ in B2. apply (Rmult_eq_compat_r Q) in B2. unfold Rdiv in B2. rewrite !Rmult_assoc, Rinv_l, !Rmult_1_r in B2 by lra. unfold p, q in B2. lra.
  - intros SAME. rewrite KE. unfold kl_sum. rewrite rsum_zero; [lra |]. intros i Hi. unfold p, q. rewrite (SAME i Hi). unfold Rdiv. rewrite Rinv_r by (destruct (PQ i Hi) as [_ B]; unfold q in B; lra). rewrite ln_1. ring.
Qed.
(** If the estimate is below the Gaussian on the whole grid the divergence is negative. *)
Lemma c117_negative lstsq signal res fs freq mi tol r f g kl : error_pdf lstsq signal res fs freq mi tol = Ok (Numbers r) -> p_pdf r = Some f -> p_gauss r = Some g -> p_kl r = Some kl ->
  (forall i, (i < 200)%nat -> nth i f 0 < nth i g 0) -> kl < 0.
Proof.
  intros E F G K LT. destruct (c116_values _ _ _ _ _ _ _ _ E) as (fit & full & X & _ & _ & _ & _ & _ & _ & S1 & S2 & _ & XX & X5 & _ & _ & ZZ & D).
  assert (N1 : (1 <= length signal)%nat) by (destruct (pdf_inv _ _ _ _ _ _ _ _ E) as (? & ? & _ & ? & _); assumption).
  assert (SP : exists s, p_sigma r = Fin s /\ 0 < s).
  { destruct (Nat.eq_dec (length signal) 1) as [N | N]; [destruct (ZZ (or_intror (S1 N))) as (Z & _); rewrite F in Z; discriminate |]. destruct (S2 ltac:(lia)) as (s & E' & PP & _). exists s. split; [exact E' |]. destruct PP as [PP | <-]; [exact PP |]. destruct (ZZ (or_introl E')) as (Z & _). rewrite F in Z. discriminate. }
  destruct SP as (s & Es & SP). destruct (D s Es SP) as (h & f' & g' & kl' & _ & F' & G' & K' & _ & _ & _ & _ & KE). rewrite F in F'. rewrite G in G'. rewrite K in K'. injection F' as <-. injection G' as <-. injection K' as <-.
  destruct (c116_positive _ _ _ _ _ _ _ _ s f g E Es F G) as (_ & h' & _ & POS). assert (E52 : 0 < / 2 ^ 52) by (apply Rinv_0_lt_compat, pow_lt; lra).
  rewrite KE. unfold kl_sum. rewrite !XX by lia. change (INR 1) with 1. change (INR 0) with 0.
  assert (NG : forall i, (i < 200)%nat -> 0 < - ((nth i f 0 + / 2 ^ 52) * ln ((nth i f 0 + / 2 ^ 52) / (nth i g 0 + / 2 ^ 52)))).
  { intros i Hi. destruct (POS i Hi) as (A & B & _). specialize (LT i Hi). set (a := nth i f 0 + / 2 ^ 52). set (b := nth i g 0 + / 2 ^ 52). assert (AB : 0 < a < b) by (unfold a, b; lra).
    assert (L : ln (a / b) < 0). { rewrite <- ln_1. apply ln_increasing; [apply Rdiv_lt_0_compat; lra |]. apply (Rmult_lt_reg_r b); [lra |]. unfold Rdiv. rewrite Rmult_assoc, Rinv_l by lra. lra. } nra. }
  assert (S0 : 0 < rsum 200 (fun i => - ((nth i f 0 + / 2 ^ 52) * ln ((nth i f 0 + / 2 ^ 52) / (nth i g 0 + / 2 ^ 52))))).
  { eapply Rlt_le_trans; [apply (NG 0%nat); lia |]. apply (rsum_one_le 200 (fun i => - ((nth i f 0 + / 2 ^ 52) * ln ((nth i f 0 + / 2 ^ 52) / (nth i g 0 + / 2 ^ 52))))); [intros; left; apply NG; assumption | lia]. }
  rewrite (rsum_ext 200 _ (fun i => (-1) * ((nth i f 0 + / 2 ^ 52) * ln ((nth i f 0 + / 2 ^ 52) / (nth i g 0 + / 2 ^ 52))))) in S0 by (intros; ring). rewrite rsum_scale in S0. nra.
Qed.

(** The two-sample example: errors +a and -a. *)
Lemma exp_le x y : x <= y -> exp x <= exp y.
Proof. intros [L | ->]; [left; apply exp_increasing; exact L | lra]. Qed.
Lemma exp_le_1 x : x <= 0 -> exp x <= 1.
Proof. intros H. pose proof (exp_le x 0 H) as L. rewrite exp_0 in L. exact L. Qed.
Lemma exp_quarter x : x < 4 -> exp x <= (/ (1 - x / 4)) ^ 4.
Proof.
  intros X. assert (P : 0 < 1 - x / 4) by lra. pose proof (exp_ineq1_le (- (x / 4))) as H. assert (E : exp (x / 4) <= / (1 - x / 4)).
  { rewrite <- (Rinv_inv (exp (x / 4))). apply Rinv_le_contravar; [exact P |]. rewrite <- exp_Ropp. lra. }
  replace (exp x) with (exp (x / 4) ^ 4); [apply pow_incr; split; [left; apply exp_pos | exact E] |]. simpl. rewrite Rmult_1_r, <- !exp_plus. f_equal. field.
Qed.
Lemma two_ratio t : 0.5829 < t < 0.5874 -> sqrt (2 * t) * ((exp (t / 2) + exp (- (3 * t / 2))) / 2) < 1.
Proof.
  intros T. assert (A : exp (t / 2) <= 1.357). { apply Rle_trans with (exp 0.2937); [destruct (Rle_lt_or_eq_dec (t / 2) 0.2937 ltac:(lra)) as [L | ->]; [left; apply exp_increasing; exact L | lra] |]. eapply Rle_trans; [apply exp_quarter; lra |]. lra. }
  assert (B : exp (- (3 * t / 2)) <= 0.4538). { apply Rle_trans with (exp (- 0.87435)); [destruct (Rle_lt_or_eq_dec (- (3 * t / 2)) (- 0.87435) ltac:(lra)) as [L | ->]; [left; apply exp_increasing; exact L | lra] |]. eapply Rle_trans; [apply exp_quarter; lra |]. lra. }
  assert (S : sqrt (2 * t) <= 1.084). { rewrite <- (sqrt_pow2 1.084) by lra. apply sqrt_le_1_alt. lra. }
  pose proof (exp_pos (t / 2)). pose proof (exp_pos (- (3 * t / 2))). pose proof (sqrt_pos (2 * t)). apply Rle_lt_trans with (1.084 * 0.9054); [| lra]. apply Rmult_le_compat; lra.
Qed.
Lemma two_bandwidth a s h : 0 < a -> 0 < s -> s ^ 2 = 2 * a ^ 2 -> silverman 2 s h -> 0.5829 < (a / h) ^ 2 < 0.5874.
Proof.
  intros A S S2 (H & HE). set (t := (a / h) ^ 2). assert (T0 : 0 < t) by (apply pow_lt, Rdiv_lt_0_compat; assumption).
  assert (T5 : t ^ 5 * (8 * 1.06 ^ 10) = 1).
  { change (INR 2) with 2 in HE. assert (HS : (h ^ 5 * 2) ^ 2 = ((1.06 * s) ^ 5) ^ 2) by (rewrite HE; reflexivity). replace (((1.06 * s) ^ 5) ^ 2) with (1.06 ^ 10 * (s ^ 2) ^ 5) in HS by ring. rewrite S2 in HS.
    assert (HT : a ^ 2 = t * h ^ 2) by (unfold t; field; lra). rewrite HT in HS. replace ((h ^ 5 * 2) ^ 2) with (4 * (h ^ 2) ^ 5) in HS by ring. replace (1.06 ^ 10 * (2 * (t * h ^ 2)) ^ 5) with (4 * (h ^ 2) ^ 5 * (t ^ 5 * (8 * 1.06 ^ 10))) in HS by ring.
    assert (NZ : 4 * (h ^ 2) ^ 5 <> 0) by (apply Rmult_integral_contrapositive; split; [lra | apply pow_nonzero, pow_nonzero; lra]).
    apply (Rmult_eq_reg_l (4 * (h ^ 2) ^ 5)); [| exact NZ]. rewrite <- HS. ring. }
  split.
  - destruct (Rlt_le_dec 0.5829 t) as [L | L]; [exact L | exfalso]. assert (t ^ 5 <= 0.5829 ^ 5) by (apply pow_incr; lra). assert (Q : 0 < 8 * 1.06 ^ 10) by lra. assert (t ^ 5 * (8 * 1.06 ^ 10) <= 0.5829 ^ 5 * (8 * 1.06 ^ 10)) by (apply Rmult_le_compat_r; lra). lra.
  - destruct (Rlt_le_dec t 0.5874) as [L | L]; [exact L | exfalso]. assert (0.5874 ^ 5 <= t ^ 5) by (apply pow_incr; lra). assert (Q : 0 < 8 * 1.06 ^ 10) by lra. assert (0.5874 ^ 5 * (8 * 1.06 ^ 10) <= t ^ 5 * (8 * 1.06 ^ 10)) by (apply Rmult_le_compat_r; lra). lra.
Qed.
Lemma two_below a s h x : 0 < a -> 0 < s -> s ^ 2 = 2 * a ^ 2 -> silverman 2 s h -> - a <= x <= a -> (bell h (x - a) + bell h (x + a)) / 2 < bell s x.
Proof.
  intros A S S2 SH X. pose proof (two_bandwidth a s h A S S2 SH) as TB. destruct SH as (H & _). set (t := (a / h) ^ 2) in *. set (y := x / a).
  assert (Y : -1 <= y <= 1). { unfold y. split; apply (Rmult_le_reg_r a); try exact A; unfold Rdiv; rewrite Rmult_assoc, Rinv_l by lra; lra. }
  assert (XY : x = y * a) by (unfold y; field; lra). assert (HT : a ^ 2 = t * h ^ 2) by (unfold t; field; lra).
  assert (RT : s / h = sqrt (2 * t)). { symmetry. apply sqrt_lem_1; [lra | left; apply Rdiv_lt_0_compat; assumption |]. replace (s / h * (s / h)) with (s ^ 2 / h ^ 2) by (field; lra). rewrite S2. unfold t. field. lra. }
  assert (Q : 0 < sqrt (2 * PI)) by (apply sqrt_lt_R0; pose proof PI_RGT_0; lra).
  unfold bell. replace (- (x - a) ^ 2 / (2 * h ^ 2)) with (- (y - 1) ^ 2 * t / 2) by (rewrite XY; unfold t; field; lra). replace (- (x + a) ^ 2 / (2 * h ^ 2)) with (- (y + 1) ^ 2 * t / 2) by (rewrite XY; unfold t; field; lra).
  replace (- x ^ 2 / (2 * s ^ 2)) with (- y ^ 2 / 4) by (rewrite S2, XY; field; lra).
  apply (Rmult_lt_reg_r (s * sqrt (2 * PI))); [apply Rmult_lt_0_compat; assumption |].
  replace ((exp (- (y - 1) ^ 2 * t / 2) / (h * sqrt (2 * PI)) + exp (- (y + 1) ^ 2 * t / 2) / (h * sqrt (2 * PI))) / 2 * (s * sqrt (2 * PI))) with (s / h * ((exp (- (y - 1) ^ 2 * t / 2) + exp (- (y + 1) ^ 2 * t / 2)) / 2)) by (field; lra).
  replace (exp (- y ^ 2 / 4) / (s * sqrt (2 * PI)) * (s * sqrt (2 * PI))) with (exp (- y ^ 2 / 4)) by (field; lra).
  rewrite RT. set (w := exp (- y ^ 2 / 4)). assert (W : 0 < w) by apply exp_pos.
  set (z := exp ((1 / 4 - t / 2) * y ^ 2)). assert (Z : 0 < z <= 1). { split; [apply exp_pos |]. apply exp_le_1. pose proof (pow2_ge_0 y). nra. }
  replace (exp (- (y - 1) ^ 2 * t / 2)) with (w * z * exp (- (t / 2)) * exp (y * t)) by (unfold w, z; rewrite <- !exp_plus; f_equal; field).
  replace (exp (- (y + 1) ^ 2 * t / 2)) with (w * z * exp (- (t / 2)) * exp (- (y * t))) by (unfold w, z; rewrite <- !exp_plus; f_equal; field).
  assert (CH : exp (y * t) + exp (- (y * t)) <= exp t + exp (- t)).
  { assert (M1 : exp (y * t) <= exp t) by (apply exp_le; nra).
    assert (M2 : exp (- t - y * t) <= 1) by (apply exp_le_1; nra).
    assert (E1 : exp (- t - y * t) * exp t = exp (- (y * t))) by (rewrite <- exp_plus; f_equal; ring). assert (E2 : exp (- t - y * t) * exp (y * t) = exp (- t)) by (rewrite <- exp_plus; f_equal; ring). nra. }
  pose proof (two_ratio t TB) as TR. pose proof (sqrt_pos (2 * t)) as SQ. set (q := sqrt (2 * t)) in *.
  assert (E1 : exp (- (t / 2)) * (exp t + exp (- t)) = exp (t / 2) + exp (- (3 * t / 2))) by (rewrite Rmult_plus_distr_l, <- !exp_plus; f_equal; f_equal; field).
  assert (EP : 0 < exp (- (t / 2))) by apply exp_pos. pose proof (exp_pos (y * t)) as P1. pose proof (exp_pos (- (y * t))) as P2.
  replace (q * ((w * z * exp (- (t / 2)) * exp (y * t) + w * z * exp (- (t / 2)) * exp (- (y * t))) / 2)) with (w * (z * (q * (exp (- (t / 2)) * (exp (y * t) + exp (- (y * t))) / 2)))) by field.
  rewrite <- (Rmult_1_r w) at 2. apply Rmult_lt_compat_l; [exact W |].
  assert (B : 0 <= q * (exp (- (t / 2)) * (exp (y * t) + exp (- (y * t))) / 2) < 1).
  { split; [apply Rmult_le_pos; [exact SQ |]; apply Rmult_le_pos; [| lra]; apply Rmult_le_pos; lra |]. eapply Rle_lt_trans; [| exact TR]. apply Rmult_le_compat_l; [exact SQ |]. rewrite <- E1. apply Rmult_le_compat_r; [lra |]. apply Rmult_le_compat_l; [lra | exact CH]. }
  apply Rle_lt_trans with (1 * (q * (exp (- (t / 2)) * (exp (y * t) + exp (- (y * t))) / 2))); [apply Rmult_le_compat_r; [apply B | apply Z] | rewrite Rmult_1_l; apply B].
Qed.
(** Two samples 1 and -1 with frequency 0: for every least-squares routine the errors are +2048 and -2048 LSB, and the divergence is negative. *)
Lemma two_samples lstsq tol : least_squares lstsq -> exists r f g kl, error_pdf lstsq [1; -1] 12 None (Some 0) 0 tol = Ok (Numbers r) /\ nth 0 (p_err r) 0 = 2048 /\ nth 1 (p_err r) 0 = -2048 /\ p_mu r = 0 /\ p_sigma r = Fin (2048 * sqrt 2) /\
  p_pdf r = Some f /\ p_gauss r = Some g /\ p_kl r = Some kl /\ kl < 0.
Proof.
  intros L. destruct (c116_errors lstsq [1; -1] 12 None (Some 0) 0 tol) as (_ & _ & HE). destruct (HE ltac:(right; cbn; lia)) as (_ & HR & _). destruct HR as (r & E); [reflexivity | exists 0%nat, 1%nat; cbn; repeat split; try lia; lra |].
  destruct (c116_values _ _ _ _ _ _ _ _ E) as (fit & full & X & F & FS & _ & LE & EE & AV & _ & S2 & _ & XX & X5 & XB & XA & _ & D). cbn [length] in *.
  assert (FU : full = 2). { destruct FS as (i & j & I & J & B & ->). pose proof (B 0%nat ltac:(lia)) as B0. pose proof (B 1%nat ltac:(lia)) as B1. cbn [nth] in B0, B1. assert (II : (i = 0 \/ i = 1)%nat) by lia. assert (JJ : (j = 0 \/ j = 1)%nat) by lia. destruct II as [-> | ->], JJ as [-> | ->]; cbn [nth] in *; lra. } subst full.
  destruct (c82_three_parameter_optimal lstsq [1; -1] 0 tol L) as (fit' & F' & _ & Z & _). rewrite F in F'. injection F' as <-. destruct (c52_parameters _ _ _ _ _ _ F) as (_ & _ & RR & _). cbn [length] in *.
  destruct (RR 0%nat ltac:(lia)) as (G0 & R0). destruct (RR 1%nat ltac:(lia)) as (G1 & R1). cbn [rsum] in Z.
  assert (FQ : f_frequency fit = 0). { unfold fit_core in F. cbn [bind] in F. injection F as <-. reflexivity. }
  rewrite FQ in G0, G1. replace (2 * PI * 0 * INR 0 + f_phase fit) with (f_phase fit) in G0 by ring. replace (2 * PI * 0 * INR 1 + f_phase fit) with (f_phase fit) in G1 by ring.
  assert (C0 : nth 0 (f_fitted fit) 0 = 0 /\ nth 1 (f_fitted fit) 0 = 0) by (cbn [nth] in R0, R1; lra). destruct C0 as (C0 & C1).
  assert (PW : powerRZ 2 12 = 4096) by (change (powerRZ 2 12) with (2 ^ 12)%R; lra).
  assert (E0 : nth 0 (p_err r) 0 = 2048) by (rewrite (EE 0%nat) by lia; rewrite C0, PW; cbn [nth]; lra). assert (E1 : nth 1 (p_err r) 0 = -2048) by (rewrite (EE 1%nat) by lia; rewrite C1, PW; cbn [nth]; lra).
  assert (MU : p_mu r = 0) by (rewrite AV; unfold average; cbn [rsum]; rewrite E0, E1; unfold Rdiv; lra).
  destruct (S2 ltac:(lia)) as (s & Es & SP & SV).
  assert (SS : s ^ 2 = 2 * 2048 ^ 2). { rewrite SV. unfold sample_variance. rewrite <- AV, MU. cbn [rsum]. rewrite E0, E1. change (INR 2) with 2. field. }
  assert (S0 : 0 < s) by nra. assert (SQ : s = 2048 * sqrt 2). { apply Rsqr_inj; [lra | apply Rmult_le_pos; [lra | apply sqrt_pos] |]. unfold Rsqr. replace (s * s) with (s ^ 2) by ring. rewrite SS. replace (2048 * sqrt 2 * (2048 * sqrt 2)) with (2048 ^ 2 * (sqrt 2 * sqrt 2)) by ring. rewrite sqrt_sqrt by lra. ring. }
  destruct (D s Es S0) as (h & f & g & kl & SH & PF & PG & PK & _ & _ & FM & GM & _).
  assert (XE : X = 2048). { pose proof (XB 0%nat ltac:(lia)) as B0. cbv beta in B0. rewrite E0 in B0. rewrite Rabs_right in B0 by lra. destruct XA as [XA | (t & T & XA)]; [lra |]. assert (TT : (t = 0 \/ t = 1)%nat) by lia. destruct TT as [-> | ->]; rewrite ?E0, ?E1 in XA; [rewrite Rabs_right in XA by lra | rewrite Rabs_left in XA by lra]; lra. }
  exists r, f, g, kl. split; [exact E |]. split; [exact E0 |]. split; [exact E1 |]. split; [exact MU |]. split; [rewrite Es, SQ; reflexivity |]. split; [exact PF |]. split; [exact PG |]. split; [exact PK |].
  apply (c117_negative _ _ _ _ _ _ _ _ f g kl E PF PG PK). intros i Hi. rewrite (FM i Hi), (GM i Hi), MU, Rminus_0_r. unfold mixture, average. cbn [rsum]. rewrite E0, E1. change (INR 2) with 2. set (x := nth i (p_x r) 0).
  replace (x - -2048) with (x + 2048) by lra. rewrite Rplus_0_l. apply two_below; [lra | exact S0 | rewrite SS; ring | exact SH |]. unfold x. rewrite (XX i Hi), XE. apply le_INR in Hi. rewrite S_INR, (INR_IZR_INZ 200) in Hi. simpl (IZR (Z.of_nat 200)) in Hi. pose proof (pos_INR i). lra.
Qed.
(** The divergence is not a measure of distance: it can be negative. *)
Lemma c117_nonnegative_refuted : exists lstsq signal res tol r kl, least_squares lstsq /\ error_pdf lstsq signal res None (Some 0) 0 tol = Ok (Numbers r) /\ p_kl r = Some kl /\ kl < 0.
Proof.
  destruct (two_samples gs_lstsq (1 / 10 ^ 9) gs_least_squares) as (r & f & g & kl & E & _ & _ & _ & _ & _ & _ & K & N). exists gs_lstsq, [1; -1], 12%Z, (1 / 10 ^ 9), r, kl. split; [exact gs_least_squares |]. split; [exact E |]. split; [exact K | exact N].
Qed.

(* ---------- examples ---------- *)
Lemma c116_values_ex : exists r, error_pdf gs_lstsq [1; -1] 12 None (Some 0) 0 (1 / 10 ^ 9) = Ok (Numbers r) /\ nth 0 (p_err r) 0 = 2048 /\ nth 1 (p_err r) 0 = -2048 /\ p_sigma r = Fin (2048 * sqrt 2).
Proof. destruct (two_samples gs_lstsq (1 / 10 ^ 9) gs_least_squares) as (r & f & g & kl & E & A & B & _ & S & _). exists r. repeat split; assumption. Qed.
Lemma c116_positive_ex : exists r f, error_pdf gs_lstsq [1; -1] 12 None (Some 0) 0 (1 / 10 ^ 9) = Ok (Numbers r) /\ p_pdf r = Some f /\ 0 < nth 100 f 0.
Proof.
  destruct (two_samples gs_lstsq (1 / 10 ^ 9) gs_least_squares) as (r & f & g & kl & E & _ & _ & _ & S & F & G & _). exists r, f. split; [exact E |]. split; [exact F |].
  destruct (c116_positive _ _ _ _ _ _ _ _ _ _ _ E S F G) as (_ & h & _ & H). apply (H 100%nat). lia.
Qed.
Lemma c116_spread_ex : exists r, error_pdf gs_lstsq [1; -1] 12 None (Some 0) 0 (1 / 10 ^ 9) = Ok (Numbers r) /\ p_sigma r <> Fin 0.
Proof.
  destruct (two_samples gs_lstsq (1 / 10 ^ 9) gs_least_squares) as (r & f & g & kl & E & A & B & _). exists r. split; [exact E |]. intros Z. pose proof (proj1 (c116_spread _ _ _ _ _ _ _ _ E ltac:(cbn; lia)) Z) as Y.
  specialize (Y 0%nat 1%nat ltac:(cbn; lia) ltac:(cbn; lia)). lra.
Qed.
Lemma c116_centred_ex : exists r, error_pdf gs_lstsq [1; -1] 12 None (Some 0) 0 (1 / 10 ^ 9) = Ok (Numbers r) /\ p_mu r = 0.
Proof. destruct (two_samples gs_lstsq (1 / 10 ^ 9) gs_least_squares) as (r & f & g & kl & E & _ ). exists r. split; [exact E |]. exact (proj1 (c116_centred _ _ _ _ _ _ _ gs_least_squares E)). Qed.
Lemma c116_resolution_ex : exists r, error_pdf gs_lstsq [1; -1] 13 None (Some 0) 0 (1 / 10 ^ 9) = Ok (Numbers r) /\ nth 0 (p_err r) 0 = 4096 /\ p_sigma r = Fin (2 * (2048 * sqrt 2)).
Proof.
  destruct (two_samples gs_lstsq (1 / 10 ^ 9) gs_least_squares) as (r & f & g & kl & E & A & _ & _ & S & _). destruct (c116_errors gs_lstsq [1; -1] 13 None (Some 0) 0 (1 / 10 ^ 9)) as (_ & _ & HE). destruct (HE ltac:(right; cbn; lia)) as (_ & HR & _). destruct HR as (r' & E'); [reflexivity | exists 0%nat, 1%nat; cbn; repeat split; try lia; lra |].
  exists r'. split; [exact E' |]. destruct (c116_resolution _ _ 12 _ _ _ _ _ _ E E') as (R1 & _ & R2). split; [rewrite (R1 0%nat) by (cbn; lia); lra | apply R2; exact S].
Qed.
Lemma c116_errors_ex : error_pdf gs_lstsq [5; 5; 5] 12 None None 1 (1 / 10 ^ 9) = Ok NotFinite /\ error_pdf gs_lstsq [5] 12 None None 1 (1 / 10 ^ 9) = Err ValueError /\ error_pdf gs_lstsq [] 12 (Some 1) (Some (1 / 4)) 1 (1 / 10 ^ 9) = Err ZeroDivisionError.
Proof.
  split; [| split; [apply (proj1 (c116_errors gs_lstsq [5] 12 None None 1 (1 / 10 ^ 9))); [reflexivity | cbn; lia] | reflexivity]].
  destruct (c116_errors gs_lstsq [5; 5; 5] 12 None None 1 (1 / 10 ^ 9)) as (_ & _ & H). destruct (H ltac:(right; cbn; lia)) as (A & _). apply A; [reflexivity |]. exists 5. intros t Ht. cbn [length] in Ht. do 3 (destruct t as [| t]; [reflexivity |]). lia.
Qed.
Lemma c117_lower_bound_ex : exists r f g kl, error_pdf gs_lstsq [1; -1] 12 None (Some 0) 0 (1 / 10 ^ 9) = Ok (Numbers r) /\ p_pdf r = Some f /\ p_gauss r = Some g /\ p_kl r = Some kl /\
  let dx := nth 1 (p_x r) 0 - nth 0 (p_x r) 0 in mass 200 dx (fun i => nth i f 0 + / 2 ^ 52) - mass 200 dx (fun i => nth i g 0 + / 2 ^ 52) <= kl < 0.
Proof.
  destruct (two_samples gs_lstsq (1 / 10 ^ 9) gs_least_squares) as (r & f & g & kl & E & _ & _ & _ & _ & F & G & K & N). exists r, f, g, kl. split; [exact E |]. split; [exact F |]. split; [exact G |]. split; [exact K |]. intros dx.
  destruct (c117_lower_bound _ _ _ _ _ _ _ _ _ _ _ E F G K) as (_ & _ & _ & B & _). split; [exact B | exact N].
Qed.
Lemma c117_negative_ex : forall a s h x, 0 < a -> 0 < s -> s ^ 2 = 2 * a ^ 2 -> silverman 2 s h -> - a <= x <= a -> (bell h (x - a) + bell h (x + a)) / 2 < bell s x.
Proof. exact two_below. Qed.
