(** * Static nonlinearity fit: the final lemmas are named c97_ - c99_. *)
From Verif Require Import Base BaseLemmas Cplx SpecModel SpecLemmas DoutProofs SiggenProofs CalModel CalSpec CalProofs CalExLemmas CalExProofs TiModel TiToneProofs SpecToneProofs RampModel FitModel FitSpec FitProofs AcfModel AcfProofs RearProofs HarmSpec HarmProofs NonlinModel NonlinSpec.
From Coq Require Import Psatz.
Local Open Scope R_scope.

Lemma poly_rev deg (p : nat -> R) x : poly deg (fun i => p (deg - i)%nat) x = rsum (S deg) (fun j => p j * x ^ (deg - j)).
Proof.
  unfold poly. rewrite <- (rsum_rev deg (fun i => p (deg - i)%nat * x ^ i)). apply rsum_ext. intros j J. replace (deg - (deg - j))%nat with j by lia. reflexivity.
Qed.
Lemma poly_ext deg c d x : (forall i, (i <= deg)%nat -> c i = d i) -> poly deg c x = poly deg d x.
Proof. intros E. apply rsum_ext. intros i I. rewrite E by lia. reflexivity. Qed.
Lemma poly_scale deg c s x : s <> 0 -> poly deg c (x / s) = poly deg (fun i => c i / s ^ i) x.
Proof. intros N. apply rsum_ext. intros i I. unfold Rdiv. rewrite Rpow_mult_distr, pow_inv. ring. Qed.
Lemma vander_norm x deg j : (exists t, (t < length x)%nat /\ nth t x 0 <> 0) -> 0 < col_norm (vander x deg) j.
Proof.
  intros (t & T & X). unfold col_norm. apply sqrt_lt_R0. cbn [vander m_n m_at].
  set (g := fun u => nth u x 0 ^ (deg - j) * nth u x 0 ^ (deg - j)). destruct (Rle_lt_dec (rsum (length x) g) 0) as [Z | P]; [exfalso | exact P].
  assert (G : g t = 0) by (apply (rsum_nonneg_zero (length x) g); [intros; apply Rle_0_sqr | exact Z | exact T]). unfold g in G. apply Rmult_integral in G. pose proof (pow_nonzero _ (deg - j) X). destruct G; contradiction.
Qed.
Lemma polyfit_optimal lstsq x y deg d : least_squares lstsq -> (exists t, (t < length x)%nat /\ nth t x 0 <> 0) ->
  rsum (length x) (fun t => (poly deg (fun i => polyfit lstsq x y deg (deg - i)%nat) (nth t x 0) - nth t y 0) ^ 2) <= rsum (length x) (fun t => (poly deg d (nth t x 0) - nth t y 0) ^ 2).
Proof.
  intros L NZ. set (V := vander x deg). assert (NP : forall j, 0 < col_norm V j) by (intros j; apply vander_norm; exact NZ).
  set (B := mkMat (m_n V) (m_m V) (fun t j => m_at V t j / col_norm V j)).
  pose proof (L B (fun t => nth t y 0) (fun j => d (deg - j)%nat * col_norm V j)) as Q. change (m_n B) with (length x) in Q. change (m_m B) with (S deg) in Q.
  rewrite (rsum_ext (length x) (fun t => (poly deg (fun i => polyfit lstsq x y deg (deg - i)%nat) (nth t x 0) - nth t y 0) ^ 2) (fun i => (rsum (S deg) (fun j => m_at B i j * lstsq B (fun t => nth t y 0) j) - nth i y 0) ^ 2)).
  2:{ intros t T. rewrite poly_rev. do 2 f_equal. apply rsum_ext. intros j J. unfold polyfit. fold V. fold B. unfold B at 2. cbn [m_at V vander]. fold V. specialize (NP j). field. lra. }
  eapply Rle_trans; [exact Q |]. apply Req_le. apply rsum_ext. intros t T. do 2 f_equal. unfold poly. rewrite <- (rsum_rev deg (fun i => d i * nth t x 0 ^ i)). apply rsum_ext. intros j J. unfold B. cbn [m_at]. unfold V at 1. cbn [vander m_at]. fold V. specialize (NP j). field. lra.
Qed.
(** A polynomial with more different zeros than its degree vanishes. *)
Lemma poly_factor deg c r x : poly (S deg) c x = poly (S deg) c r + (x - r) * poly deg (fun i => rsum (S deg - i) (fun j => c (i + 1 + j)%nat * r ^ j)) x.
Proof.
  set (q := fun i => rsum (S deg - i) (fun j => c (i + 1 + j)%nat * r ^ j)).
  assert (STEP : forall i, (i <= deg)%nat -> q i = c (S i) + r * q (S i)).
  { intros i I. unfold q. replace (S deg - i)%nat with (S (S deg - S i)) by lia. rewrite rsum_shift. rewrite <- rsum_scale. replace (i + 1 + 0)%nat with (S i) by lia. cbn [pow]. rewrite Rmult_1_r. f_equal. apply rsum_ext. intros j J. replace (S i + 1 + j)%nat with (i + 1 + S j)%nat by lia. cbn [pow]. ring. }
  assert (TOP : q (S deg) = 0) by (unfold q; rewrite Nat.sub_diag; reflexivity).
  assert (C0r : poly (S deg) c r = c 0%nat + r * q 0%nat).
  { unfold poly. rewrite rsum_shift. cbn [pow]. rewrite Rmult_1_r. f_equal. unfold q. rewrite <- rsum_scale. rewrite Nat.sub_0_r. apply rsum_ext. intros j J. replace (0 + 1 + j)%nat with (S j) by lia. cbn [pow]. ring. }
  rewrite C0r. unfold poly at 1. rewrite rsum_shift. cbn [pow]. rewrite Rmult_1_r.
  rewrite (rsum_ext (S deg) _ (fun i => x * (q i * x ^ i) - r * (q (S i) * x ^ S i))) by (intros i I; rewrite (STEP i) by lia; cbn [pow]; ring).
  rewrite rsum_minus, !rsum_scale. fold (poly deg q x).
  assert (SH : rsum (S deg) (fun i => q (S i) * x ^ S i) = poly deg q x - q 0%nat).
  { pose proof (rsum_shift (S deg) (fun i => q i * x ^ i)) as E. change (rsum (S (S deg)) (fun i => q i * x ^ i)) with (poly deg q x + q (S deg) * x ^ S deg) in E. rewrite TOP in E. cbn [pow] in *. lra. }
  rewrite SH. fold q. ring.
Qed.
Lemma poly_zeros : forall deg c zs, length zs = S deg -> NoDup zs -> (forall z, In z zs -> poly deg c z = 0) -> forall i, (i <= deg)%nat -> c i = 0.
Proof.
  induction deg as [| deg IH]; intros c zs LN ND Z i I.
  - destruct zs as [| z zs]; [discriminate |]. specialize (Z z (or_introl eq_refl)). unfold poly in Z. cbn [rsum pow] in Z. assert (i = 0%nat) by lia. subst i. lra.
  - destruct zs as [| r zs]; [discriminate |]. inversion ND as [| ? ? NI ND']; subst.
    set (q := fun i => rsum (S deg - i) (fun j => c (i + 1 + j)%nat * r ^ j)).
    assert (R0 : poly (S deg) c r = 0) by (apply Z; left; reflexivity).
    assert (Q0 : forall i, (i <= deg)%nat -> q i = 0).
    { apply (IH q zs); [cbn in LN; lia | exact ND' |]. intros z Hz. pose proof (Z z (or_intror Hz)) as P. rewrite (poly_factor deg c r z), R0, Rplus_0_l in P. apply Rmult_integral in P. destruct P as [P | P]; [| exact P]. assert (z = r) by lra. subst z. contradiction. }
    destruct i as [| i].
    + unfold poly in R0. rewrite rsum_shift in R0. cbn [pow] in R0. rewrite Rmult_1_r in R0. assert (X : rsum (S deg) (fun i => c (S i) * (r * r ^ i)) = r * q 0%nat). { unfold q. rewrite Nat.sub_0_r, <- rsum_scale. apply rsum_ext. intros j J. replace (0 + 1 + j)%nat with (S j) by lia. ring. }
      rewrite X, (Q0 0%nat ltac:(lia)) in R0. lra.
    + pose proof (Q0 i ltac:(lia)) as Qi. unfold q in Qi. replace (S deg - i)%nat with (S (deg - i)) in Qi by lia. rewrite rsum_shift in Qi. replace (i + 1 + 0)%nat with (S i) in Qi by lia. cbn [pow] in Qi. rewrite Rmult_1_r in Qi.
      destruct (Nat.eq_dec i deg) as [-> | NE]; [rewrite Nat.sub_diag in Qi; cbn [rsum] in Qi; lra |].
      assert (X : rsum (deg - i) (fun i0 => c (i + 1 + S i0)%nat * (r * r ^ i0)) = r * q (S i)). { unfold q. replace (S deg - S i)%nat with (deg - i)%nat by lia. rewrite <- rsum_scale. apply rsum_ext. intros j J. replace (S i + 1 + j)%nat with (i + 1 + S j)%nat by lia. ring. }
      rewrite X, (Q0 (S i) ltac:(lia)) in Qi. lra.
Qed.
Lemma poly_minus deg c d x : poly deg (fun i => c i - d i) x = poly deg c x - poly deg d x.
Proof. unfold poly. rewrite <- rsum_minus. apply rsum_ext. intros. ring. Qed.
Lemma quotient_xdivide a b : quotient a b (xdivide (Fin a) (Fin b)).
Proof.
  unfold xdivide. repeat split; intros.
  - destruct (Reqb_spec b 0); [contradiction | reflexivity].
  - destruct (Reqb_spec b 0); [| contradiction]. destruct (Reqb_spec a 0); [reflexivity | contradiction].
  - destruct (Reqb_spec b 0); [| contradiction]. destruct (Reqb_spec a 0); [lra |]. destruct (Rltb_spec 0 a); [reflexivity | lra].
  - destruct (Reqb_spec b 0); [| contradiction]. destruct (Reqb_spec a 0); [lra |]. destruct (Rltb_spec 0 a); [lra | reflexivity].
Qed.
Lemma xmax_pos (l : list R) (m : R) : lmax1 (hd 0 (map Rabs l)) (map Rabs l) = m -> 0 < m -> exists t, (t < length l)%nat /\ nth t l 0 <> 0.
Proof.
  intros E P. destruct (lmax1_in (hd 0 (map Rabs l)) (map Rabs l)) as [H | H].
  - destruct l as [| x l]; [cbn in E; lra |]. exists 0%nat. split; [cbn; lia |]. cbn [nth]. cbn [hd map] in H. intros ->. rewrite Rabs_R0 in H. cbn [hd map] in E. rewrite Rabs_R0 in E. lra.
  - apply in_map_iff in H. destruct H as (v & V & I). destruct (In_nth _ _ 0 I) as (t & T & N). exists t. split; [exact T |]. rewrite N. intros ->. rewrite Rabs_R0 in V. lra.
Qed.
Lemma xmax_ge (l : list R) t : (t < length l)%nat -> Rabs (nth t l 0) <= lmax1 (hd 0 (map Rabs l)) (map Rabs l).
Proof. intros T. apply lmax1_ge. apply in_map. apply nth_In. exact T. Qed.
(** What a successful call returns. *)
Lemma nonlin_inv lstsq sig order r : fit_static_nonlin lstsq sig order = Ok r ->
  exists fit, let n := length sig in let mf := lmean (f_fitted fit) in let X := map (fun v => v - mf) (f_fitted fit) in let Y := map (fun v => v - lmean sig) sig in
  let xm := lmax1 (hd 0 (map Rabs X)) (map Rabs X) in let deg := Z.to_nat order in let p := polyfit lstsq (map (fun v => v / xm) X) Y deg in
  fit_core lstsq sig None 1 (1 / 10 ^ 9) = Ok fit /\ (2 <= order)%Z /\ (order + 2 <= Z.of_nat n)%Z /\ 1 / 10 ^ 10 <= xm /\ nl_fitted r = f_fitted fit /\
  nl_k2 r = xdivide (Fin (p (deg + 1 - 3)%nat / xm ^ 2)) (Fin (p (deg + 1 - 2)%nat / xm)) /\
  nl_k3 r = (if (3 <=? order)%Z then xdivide (Fin (p (deg + 1 - 4)%nat / xm ^ 3)) (Fin (p (deg + 1 - 2)%nat / xm)) else NaN) /\
  nl_x r = map (linspace_at (lmin1 (hd 0 (f_fitted fit)) (f_fitted fit)) (lmax1 (hd 0 (f_fitted fit)) (f_fitted fit)) 1000) (seq 0 1000) /\
  nl_y r = map (fun v => polyval p deg ((v - mf) / xm) + lmean sig) (nl_x r).
Proof.
  unfold fit_static_nonlin, raise_if. destruct (Z.ltb_spec order 2); [discriminate |]. cbv zeta. destruct (Z.ltb_spec (Z.of_nat (length sig)) (order + 2)); [discriminate |].
  destruct (fit_core lstsq sig None 1 (1 / 10 ^ 9)) as [fit |]; [| discriminate]. cbn [bind]. match goal with |- (if Rltb ?a ?b then _ else _) = _ -> _ => destruct (Rltb_spec a b) as [| G]; [discriminate |] end.
  intros E. apply Ok_inj in E. subst r. exists fit. cbn [nl_fitted nl_k2 nl_k3 nl_x nl_y]. split; [reflexivity |]. split; [assumption |]. split; [assumption |]. split; [exact G |]. repeat split.
Qed.
Lemma mean_average l : lmean l = average (length l) (fun t => nth t l 0).
Proof. apply lmean_rsum. Qed.
(** The coefficients are those of the least-squares polynomial of the zero-mean record in the zero-mean
    fitted sine, whatever the normalisation; k2 and k3 are their ratios to the linear one; the transfer
    curve is that polynomial on 1000 even steps over the range of the fitted sine. *)
Lemma c97_transfer lstsq sig order r : least_squares lstsq -> fit_static_nonlin lstsq sig order = Ok r ->
  let n := length sig in let deg := Z.to_nat order in
  let F := fun t => nth t (nl_fitted r) 0 in let S := fun t => nth t sig 0 in
  let x := fun t => F t - average n F in let y := fun t => S t - average n S in
  exists c, (forall d, rsum n (fun t => (y t - poly deg c (x t)) ^ 2) <= rsum n (fun t => (y t - poly deg d (x t)) ^ 2)) /\
  quotient (c 2%nat) (c 1%nat) (nl_k2 r) /\ ((3 <= order)%Z -> quotient (c 3%nat) (c 1%nat) (nl_k3 r)) /\ (order = 2%Z -> nl_k3 r = NaN) /\
  length (nl_x r) = 1000%nat /\ length (nl_y r) = 1000%nat /\
  (forall i, (i < 1000)%nat -> nth i (nl_y r) 0 = average n S + poly deg c (nth i (nl_x r) 0 - average n F)) /\
  (forall lo hi, spans n F lo hi -> forall i, (i < 1000)%nat -> nth i (nl_x r) 0 = lo + INR i * ((hi - lo) / 999)).
Proof.
  intros L E n deg F S x y. destruct (nonlin_inv _ _ _ _ E) as (fit & FC & O2 & NO & XM & FT & K2 & K3 & NX & NY). cbv zeta in FC, O2, NO, XM, FT, K2, K3, NX, NY. fold n in NO. fold deg in K2, K3, NY.
  destruct (c52_parameters _ _ _ _ _ _ FC) as (LF & _ & _). fold n in LF.
  assert (MF : lmean (f_fitted fit) = average n F) by (rewrite mean_average, LF; unfold F; rewrite FT; reflexivity).
  assert (MS : lmean sig = average n S) by apply mean_average.
  set (X := map (fun v => v - lmean (f_fitted fit)) (f_fitted fit)) in *. set (Y := map (fun v => v - lmean sig) sig) in *. set (xm := lmax1 (hd 0 (map Rabs X)) (map Rabs X)) in *.
  assert (EPS : 0 < 1 / 10 ^ 10) by (apply Rdiv_lt_0_compat; [lra | apply pow_lt; lra]). assert (XP : 0 < xm) by lra.
  set (p := polyfit lstsq (map (fun v => v / xm) X) Y deg) in *. assert (LX : length X = n) by (unfold X; rewrite map_length; exact LF).
  assert (XT : forall t, (t < n)%nat -> nth t X 0 = x t). { intros t T. unfold X. rewrite (nth_map_in _ _ _ 0) by lia. unfold x, F. rewrite <- FT in *. rewrite MF. reflexivity. }
  assert (YT : forall t, (t < n)%nat -> nth t Y 0 = y t). { intros t T. unfold Y. rewrite (nth_map_in _ _ _ 0) by exact T. unfold y. rewrite MS. reflexivity. }
  set (c := fun i => p (deg - i)%nat / xm ^ i). exists c.
  assert (PC : forall v, poly deg c v = poly deg (fun i => p (deg - i)%nat) (v / xm)) by (intros v; rewrite poly_scale by lra; reflexivity).
  assert (DG : (2 <= deg)%nat) by (unfold deg; lia).
  split; [| split; [| split; [| split; [| split; [| split; [| split]]]]]].
  - intros d. destruct (xmax_pos X xm eq_refl XP) as (t0 & T0 & N0).
    pose proof (polyfit_optimal lstsq (map (fun v => v / xm) X) Y deg (fun i => d i * xm ^ i) L) as Q. rewrite map_length, LX in Q.
    assert (NZ : exists t, (t < n)%nat /\ nth t (map (fun v => v / xm) X) 0 <> 0).
    { exists t0. split; [lia |]. rewrite (nth_map_in _ _ _ 0) by exact T0. unfold Rdiv. apply Rmult_integral_contrapositive_currified; [exact N0 | apply Rinv_neq_0_compat; lra]. }
    specialize (Q NZ). fold p in Q.
    rewrite (rsum_ext n (fun t => (y t - poly deg c (x t)) ^ 2) (fun t => (poly deg (fun i => p (deg - i)%nat) (nth t (map (fun v => v / xm) X) 0) - nth t Y 0) ^ 2)).
    2:{ intros t T. rewrite (nth_map_in _ _ _ 0) by lia. rewrite PC, XT, YT by exact T. ring. }
    eapply Rle_trans; [exact Q |]. apply Req_le. apply rsum_ext. intros t T. rewrite (nth_map_in _ _ _ 0) by lia. rewrite poly_scale by lra. rewrite XT, YT by exact T.
    replace (poly deg (fun i => d i * xm ^ i / xm ^ i) (x t)) with (poly deg d (x t)). ring. apply poly_ext. intros i I. field. apply pow_nonzero. lra.
  - rewrite K2. unfold c. replace (deg + 1 - 3)%nat with (deg - 2)%nat by lia. replace (deg + 1 - 2)%nat with (deg - 1)%nat by lia. rewrite pow_1. apply quotient_xdivide.
  - intros O3. rewrite K3. destruct (Z.leb_spec 3 order); [| lia]. unfold c. replace (deg + 1 - 4)%nat with (deg - 3)%nat by lia. replace (deg + 1 - 2)%nat with (deg - 1)%nat by lia. rewrite pow_1. apply quotient_xdivide.
  - intros ->. rewrite K3. reflexivity.
  - rewrite NX, map_length, seq_length. reflexivity.
  - rewrite NY, NX, !map_length, seq_length. reflexivity.
  - intros i I. rewrite NY. rewrite (nth_map_in _ _ _ 0) by (rewrite NX, map_length, seq_length; exact I). rewrite PC, poly_rev, MF, MS. unfold polyval. ring.
  - intros lo hi ((i0 & I0 & LO) & (j0 & J0 & HI) & B) i I. rewrite NX, (nth_map_in _ _ _ 0%nat) by (rewrite seq_length; exact I). rewrite seq_nth by exact I. cbn [Nat.add]. unfold linspace_at.
    assert (IN : forall v, In v (f_fitted fit) -> lo <= v <= hi) by (intros v V; destruct (In_nth _ _ 0 V) as (t & T & <-); rewrite <- FT; apply B; lia).
    assert (HD : In (hd 0 (f_fitted fit)) (f_fitted fit)) by (destruct (f_fitted fit); [cbn in LF; lia | left; reflexivity]).
    assert (I1 : In lo (f_fitted fit)) by (rewrite <- LO; unfold F; rewrite FT; apply nth_In; lia). assert (J1 : In hi (f_fitted fit)) by (rewrite <- HI; unfold F; rewrite FT; apply nth_In; lia).
    replace (lmax1 (hd 0 (f_fitted fit)) (f_fitted fit)) with hi. replace (lmin1 (hd 0 (f_fitted fit)) (f_fitted fit)) with lo. { replace (INR 1000 - 1) with 999; [reflexivity |]. rewrite INR_IZR_INZ. change (Z.of_nat 1000) with 1000%Z. lra. }
    + apply Rle_antisym; [destruct (lmin1_in (hd 0 (f_fitted fit)) (f_fitted fit)) as [<- | Z]; [apply IN; exact HD | apply IN; exact Z] | apply lmin1_le; exact I1].
    + apply Rle_antisym; [apply lmax1_ge; exact J1 | destruct (lmax1_in (hd 0 (f_fitted fit)) (f_fitted fit)) as [<- | Z]; [apply IN; exact HD | apply IN; exact Z]].
Qed.
(** Exactly which calls are refused. *)
Lemma c97_accepts lstsq sig order :
  ((order < 2)%Z \/ (Z.of_nat (length sig) < order + 2)%Z -> fit_static_nonlin lstsq sig order = Err ValueError) /\
  ((2 <= order)%Z -> (order + 2 <= Z.of_nat (length sig))%Z -> exists fit, fit_core lstsq sig None 1 (1 / 10 ^ 9) = Ok fit /\
     let F := fun t => nth t (f_fitted fit) 0 in
     ((exists t, (t < length sig)%nat /\ 1 / 10 ^ 10 <= Rabs (F t - average (length sig) F)) -> exists r, fit_static_nonlin lstsq sig order = Ok r) /\
     ((forall t, (t < length sig)%nat -> Rabs (F t - average (length sig) F) < 1 / 10 ^ 10) -> fit_static_nonlin lstsq sig order = Err ValueError)).
Proof.
  unfold fit_static_nonlin, raise_if. split.
  - intros [O | O]; [destruct (Z.ltb_spec order 2); [reflexivity | lia] |]. destruct (Z.ltb_spec order 2); [reflexivity |]. cbv zeta. destruct (Z.ltb_spec (Z.of_nat (length sig)) (order + 2)); [reflexivity | lia].
  - intros O N. destruct (Z.ltb_spec order 2); [lia |]. cbv zeta. destruct (Z.ltb_spec (Z.of_nat (length sig)) (order + 2)); [lia |].
    destruct (c52_failure lstsq sig None 1 (1 / 10 ^ 9)) as [(fit & E) | (_ & _ & S)]; [| lia]. exists fit. rewrite E. split; [reflexivity |]. cbn [bind].
    destruct (c52_parameters _ _ _ _ _ _ E) as (LF & _ & _). rewrite mean_average, LF. set (m := average (length sig) (fun t => nth t (f_fitted fit) 0)). set (X := map (fun v => v - m) (f_fitted fit)).
    assert (LX : length X = length sig) by (unfold X; rewrite map_length; exact LF). assert (XT : forall t, (t < length sig)%nat -> nth t X 0 = nth t (f_fitted fit) 0 - m) by (intros t T; unfold X; rewrite (nth_map_in _ _ _ 0) by lia; reflexivity).
    split.
    + intros (t & T & G). destruct (Rltb_spec (lmax1 (hd 0 (map Rabs X)) (map Rabs X)) (1 / 10 ^ 10)) as [Q |]; [| eexists; reflexivity]. exfalso. pose proof (xmax_ge X t ltac:(lia)) as P. rewrite XT in P by exact T. lra.
    + intros G. destruct (Rltb_spec (lmax1 (hd 0 (map Rabs X)) (map Rabs X)) (1 / 10 ^ 10)) as [| Q]; [reflexivity | exfalso].
      assert (IN : forall v, In v (map Rabs X) -> v < 1 / 10 ^ 10) by (intros v V; apply in_map_iff in V; destruct V as (u & <- & U); destruct (In_nth _ _ 0 U) as (t & T & <-); rewrite LX in T; rewrite XT by exact T; apply G; exact T).
      destruct (lmax1_in (hd 0 (map Rabs X)) (map Rabs X)) as [M | M]; [| specialize (IN _ M); lra]. rewrite <- M in Q. destruct (map Rabs X) as [| v l] eqn:EX; [apply (f_equal (@length R)) in EX; rewrite map_length in EX; cbn in EX; lia |]. cbn [hd] in Q. specialize (IN v (or_introl eq_refl)). lra.
Qed.
(** A record that is a polynomial of the zero-mean fitted sine is resolved exactly. *)
Lemma c98_exact lstsq sig order r a : least_squares lstsq -> fit_static_nonlin lstsq sig order = Ok r ->
  let n := length sig in let deg := Z.to_nat order in
  let F := fun t => nth t (nl_fitted r) 0 in let x := fun t => F t - average n F in
  distinct_values n x (S deg) -> (forall t, (t < n)%nat -> nth t sig 0 - average n (fun t => nth t sig 0) = poly deg a (x t)) ->
  quotient (a 2%nat) (a 1%nat) (nl_k2 r) /\ ((3 <= order)%Z -> quotient (a 3%nat) (a 1%nat) (nl_k3 r)) /\
  forall i, (i < 1000)%nat -> nth i (nl_y r) 0 = average n (fun t => nth t sig 0) + poly deg a (nth i (nl_x r) 0 - average n F).
Proof.
  intros L E n deg F x (l & LL & ND & LT) REC. destruct (c97_transfer lstsq sig order r L E) as (c & OPT & K2 & K3 & _ & _ & _ & NY & _).
  assert (OPT' : forall d, rsum n (fun t => (nth t sig 0 - average n (fun t => nth t sig 0) - poly deg c (x t)) ^ 2) <= rsum n (fun t => (nth t sig 0 - average n (fun t => nth t sig 0) - poly deg d (x t)) ^ 2)) by exact OPT.
  assert (O2 : (2 <= order)%Z) by (destruct (nonlin_inv _ _ _ _ E) as (fit & _ & O & _); exact O).
  assert (Z : forall t, (t < n)%nat -> poly deg c (x t) = poly deg a (x t)).
  { intros t T. pose proof (OPT' a) as Q. rewrite (rsum_zero n (fun t => (nth t sig 0 - average n (fun t => nth t sig 0) - poly deg a (x t)) ^ 2)) in Q by (intros u U; rewrite (REC u U); ring).
    assert (G : (nth t sig 0 - average n (fun t => nth t sig 0) - poly deg c (x t)) ^ 2 = 0) by (apply (rsum_nonneg_zero n (fun t => (nth t sig 0 - average n (fun t => nth t sig 0) - poly deg c (x t)) ^ 2)); [intros; apply pow2_ge_0 | exact Q | exact T]).
    apply sq_zero in G. rewrite (REC t T) in G. lra. }
  assert (EQ : forall i, (i <= deg)%nat -> c i = a i).
  { intros i I. cut (c i - a i = 0); [lra |]. apply (poly_zeros deg (fun i => c i - a i) (map x l)); [rewrite map_length; exact LL | exact ND | | exact I]. intros z Hz. apply in_map_iff in Hz. destruct Hz as (t & <- & T). rewrite poly_minus, (Z t (LT t T)). ring. }
  assert (DG : (2 <= deg)%nat) by (unfold deg; lia).
  rewrite <- (EQ 2%nat), <- (EQ 1%nat) by lia. split; [exact K2 |]. split; [intros O3; rewrite <- (EQ 3%nat) by (unfold deg; lia); apply K3; exact O3 |].
  intros i I. rewrite (NY i I). f_equal. apply poly_ext. exact EQ.
Qed.

(* ---------- C99: end to end on the documented transfer model ---------- *)
Lemma tone_orth n J k a ph c s : (2 * J < n)%nat -> (2 * k <= n)%nat -> J <> k -> (0 < n)%nat ->
  rsum n (fun t => a * cos (2 * PI * INR J * INR t / INR n + ph) * (c * cos (2 * PI * (INR k / INR n) * INR t) + s * sin (2 * PI * (INR k / INR n) * INR t))) = 0.
Proof.
  intros HJ HK NE NP. assert (P : 0 < INR n) by (apply lt_0_INR; exact NP).
  pose proof (tone_rdft n J a ph k HJ ltac:(apply Nat.div_le_lower_bound; lia)) as Q. destruct (Nat.eqb_spec k J); [congruence |].
  pose proof (f_equal Re Q) as Q1. pose proof (f_equal Im Q) as Q2. rewrite csum_RtoC_Re in Q1. rewrite csum_RtoC_Im in Q2. unfold C0, Re, Im in Q1, Q2. cbn [fst snd] in Q1, Q2.
  assert (Q3 : rsum n (fun t => a * cos (2 * PI * INR J * INR t / INR n + ph) * sin (2 * PI * INR k * INR t / INR n)) = 0) by lra.
  rewrite (rsum_ext n _ (fun t => c * (a * cos (2 * PI * INR J * INR t / INR n + ph) * cos (2 * PI * INR k * INR t / INR n)) + s * (a * cos (2 * PI * INR J * INR t / INR n + ph) * sin (2 * PI * INR k * INR t / INR n)))).
  - rewrite rsum_plus, !rsum_scale, Q1, Q3. ring.
  - intros t T. replace (2 * PI * (INR k / INR n) * INR t) with (2 * PI * INR k * INR t / INR n) by (field; lra). ring.
Qed.
Lemma unique4 n f a b y p q r d : 0 < f < 1 / 2 -> (5 <= n)%nat -> a <> 0 \/ b <> 0 ->
  (forall c s, rsum n (fun t => y t * (c * cos (2 * PI * f * INR t) + s * sin (2 * PI * f * INR t))) = 0) -> rsum n y = 0 ->
  rsum n (fun t => y t * (INR t * (- a * sin (2 * PI * f * INR t) + b * cos (2 * PI * f * INR t)))) = 0 ->
  let g := fun t => p * cos (2 * PI * f * INR t) + q * sin (2 * PI * f * INR t) + r + d * (INR t * (- a * sin (2 * PI * f * INR t) + b * cos (2 * PI * f * INR t))) in
  rsum n (fun t => (y t - g t) * cos (2 * PI * f * INR t)) = 0 -> rsum n (fun t => (y t - g t) * sin (2 * PI * f * INR t)) = 0 -> rsum n (fun t => (y t - g t) * 1) = 0 ->
  rsum n (fun t => (y t - g t) * (INR t * (- a * sin (2 * PI * f * INR t) + b * cos (2 * PI * f * INR t)))) = 0 -> p = 0 /\ q = 0 /\ r = 0 /\ d = 0.
Proof.
  intros F N AB CS D DD g X0 X1 X2 X3.
  assert (SQ : rsum n (fun t => g t * g t) = 0).
  { rewrite (rsum_ext _ _ (fun t => y t * (p * cos (2 * PI * f * INR t) + q * sin (2 * PI * f * INR t)) + (r * y t + (d * (y t * (INR t * (- a * sin (2 * PI * f * INR t) + b * cos (2 * PI * f * INR t)))) +
      (- p * ((y t - g t) * cos (2 * PI * f * INR t)) + (- q * ((y t - g t) * sin (2 * PI * f * INR t)) + (- r * ((y t - g t) * 1) + - d * ((y t - g t) * (INR t * (- a * sin (2 * PI * f * INR t) + b * cos (2 * PI * f * INR t))))))))))) by (intros t T; unfold g; ring).
    rewrite !rsum_plus, !rsum_scale, CS, D, DD, X0, X1, X2, X3. ring. }
  apply (independent4 n f a b p q r d F N AB). intros t T. change (g t = 0). assert (P : g t * g t = 0) by (apply (rsum_nonneg_zero n (fun t => g t * g t)); [intros; apply Rle_0_sqr | lra | exact T]). apply Rmult_integral in P. destruct P; assumption.
Qed.
Lemma cos_triple x : cos (3 * x) = 4 * cos x ^ 3 - 3 * cos x.
Proof. replace (3 * x) with (2 * x + x) by ring. rewrite cos_plus, cos_2a, sin_2a. pose proof (sin2_cos2 x) as P. unfold Rsqr in P. replace (sin x * sin x) with (1 - cos x * cos x) by lra. replace (2 * sin x * cos x * sin x) with (2 * cos x * (sin x * sin x)) by ring. replace (sin x * sin x) with (1 - cos x * cos x) by lra. ring. Qed.
Lemma cos_twice x : cos (2 * x) = 2 * cos x ^ 2 - 1.
Proof. rewrite cos_2a_cos. ring. Qed.
(** The fit of a sine plus its higher harmonics, frequency estimated and refined once: it is exact when
    the harmonics do not correlate with the derivative column. *)
Lemma fit_harmonic lstsq y k B ph dc A2 A3 : least_squares lstsq -> let n := length y in let f := INR k / INR n in
  (2 <= k)%nat -> (6 * k < n)%nat -> INR n <= 10 ^ 10 -> B <> 0 -> Rabs A2 <= Rabs B -> Rabs A3 <= Rabs B ->
  let e := fun t => A2 * cos (2 * (2 * PI * f * INR t + ph)) + A3 * cos (3 * (2 * PI * f * INR t + ph)) in
  rsum n (fun t => e t * (INR t * sin (2 * PI * f * INR t + ph))) = 0 ->
  is_record y (fun t => dc + B * cos (2 * PI * f * INR t + ph) + e t) ->
  exists fit, fit_core lstsq y None 1 (1 / 10 ^ 9) = Ok fit /\ f_frequency fit = f /\ forall t, (t < n)%nat -> nth t (f_fitted fit) 0 = dc + B * cos (2 * PI * f * INR t + ph).
Proof.
  intros L n f K N NB NZ D2 D3 e BIAS REC. assert (NP : 0 < INR n) by (apply lt_0_INR; lia).
  assert (KI : 2 <= INR k) by (replace 2 with (INR 2) by reflexivity; apply le_INR; lia). assert (KN : 6 * INR k + 1 <= INR n). { assert (X : (6 * k + 1 <= n)%nat) by lia. apply le_INR in X. rewrite plus_INR, mult_INR in X. cbn [INR] in X. lra. }
  assert (T10 : 0 < 10 ^ 10) by (apply pow_lt; lra).
  assert (IB : 1 / 10 ^ 10 <= 1 / INR n) by (unfold Rdiv; rewrite !Rmult_1_l; apply Rinv_le_contravar; assumption).
  assert (U : usable f).
  { unfold usable, f. split.
    - eapply Rle_trans; [exact IB |]. unfold Rdiv. apply Rmult_le_compat_r; [left; apply Rinv_0_lt_compat; exact NP | lra].
    - apply (Rle_trans _ (1 / 2 - 1 / INR n)); [| lra]. apply (Rmult_le_reg_r (INR n)); [exact NP |]. unfold Rdiv. rewrite Rmult_minus_distr_r, !Rmult_assoc, Rinv_l by lra. lra. }
  pose proof (usable_half f U) as F.
  assert (EST : estimate_frequency_fft y = Ok f).
  { apply (harm_estimate y 3 k dc (fun h => nth h [B; A2; A3] 0) (fun h => INR (S h) * ph)); fold n; [lia | apply Nat.div_le_lower_bound; lia | lia | lia | exact NZ | |].
    - intros h Hh. destruct h as [| [| [| h]]]; cbn [nth]; [lra | exact D2 | exact D3 | lia].
    - intros t T. rewrite (REC t T). unfold distorted, e. cbn [rsum nth]. fold f. cbn [INR]. replace (1 * (2 * PI * f * INR t) + 1 * ph) with (2 * PI * f * INR t + ph) by ring. replace ((1 + 1) * (2 * PI * f * INR t) + (1 + 1) * ph) with (2 * (2 * PI * f * INR t + ph)) by ring. replace ((1 + 1 + 1) * (2 * PI * f * INR t) + (1 + 1 + 1) * ph) with (3 * (2 * PI * f * INR t + ph)) by ring. ring. }
  assert (ET : forall t, e t = A2 * cos (2 * PI * INR (2 * k) * INR t / INR n + 2 * ph) + A3 * cos (2 * PI * INR (3 * k) * INR t / INR n + 3 * ph)).
  { intros t. unfold e, f. rewrite !mult_INR. change (INR 2) with 2. change (INR 3) with (1 + 1 + 1). f_equal; f_equal; f_equal; field; lra. }
  assert (ORT : forall c s, rsum n (fun t => e t * (c * cos (2 * PI * f * INR t) + s * sin (2 * PI * f * INR t))) = 0).
  { intros c s. rewrite (rsum_ext n _ (fun t => A2 * cos (2 * PI * INR (2 * k) * INR t / INR n + 2 * ph) * (c * cos (2 * PI * f * INR t) + s * sin (2 * PI * f * INR t)) + A3 * cos (2 * PI * INR (3 * k) * INR t / INR n + 3 * ph) * (c * cos (2 * PI * f * INR t) + s * sin (2 * PI * f * INR t)))) by (intros t T; rewrite ET; ring).
    rewrite rsum_plus. unfold f. rewrite !tone_orth by lia. ring. }
  assert (SUM : rsum n e = 0). { rewrite (rsum_ext n _ _ (fun t _ => ET t)). rewrite rsum_plus, !tone_sum by lia. ring. }
  destruct (c52_failure lstsq y None 1 (1 / 10 ^ 9)) as [(fit & E) | (_ & _ & S)]; [| fold n in S; lia]. exists fit. split; [exact E |].
  unfold fit_core in E. rewrite EST in E. cbn [bind] in E. change (1 <? 0)%Z with false in E. cbv iota zeta in E. change (Z.to_nat 1) with 1%nat in E. cbn [refine] in E. fold n in E.
  set (co := lstsq (design3 n f) (fun i => nth i y 0)) in E. set (s0 := mkFs f (co 0%nat) (co 1%nat) (co 2%nat) (1 =? 0)%Z 0 0) in E.
  assert (E2 : (if Rltb (Rabs (s_last (refine_once lstsq y (1 / 10 ^ 9) s0))) (1 / 10 ^ 9) then refine_once lstsq y (1 / 10 ^ 9) s0 else refine_once lstsq y (1 / 10 ^ 9) s0) = refine_once lstsq y (1 / 10 ^ 9) s0) by (destruct (Rltb _ _); reflexivity).
  rewrite E2 in E. clear E2.
  assert (RY : forall t, (t < n)%nat -> nth t y 0 = dc + B * cos ph * cos (2 * PI * f * INR t) - B * sin ph * sin (2 * PI * f * INR t) + e t) by (intros t T; rewrite (REC t T); rewrite (cos_plus (2 * PI * f * INR t) ph); ring).
  assert (M3 : minimises (design3 n f) (fun i => nth i y 0) co) by (intros z; apply L).
  assert (C3 : co 0%nat - B * cos ph = 0 /\ co 1%nat + B * sin ph = 0 /\ co 2%nat - dc = 0).
  { clearbody co. pose proof (normal_equations _ _ _ 0%nat M3 ltac:(cbn; lia)) as N0. pose proof (normal_equations _ _ _ 1%nat M3 ltac:(cbn; lia)) as N1. pose proof (normal_equations _ _ _ 2%nat M3 ltac:(cbn; lia)) as N2.
    unfold design3, of_cols in N0, N1, N2. cbn [m_n m_m m_at length nth] in N0, N1, N2.
    apply (unique3 n f e); [exact F | lia | exact ORT | exact SUM | | |].
    - etransitivity; [| exact N0]. apply rsum_ext. intros t T. rewrite rsum3. cbn [nth]. rewrite RY by exact T. ring.
    - etransitivity; [| exact N1]. apply rsum_ext. intros t T. rewrite rsum3. cbn [nth]. rewrite RY by exact T. ring.
    - etransitivity; [| exact N2]. apply rsum_ext. intros t T. rewrite rsum3. cbn [nth]. rewrite RY by exact T. ring. }
  destruct C3 as (A0 & A1 & A2z).
  assert (RO : refine_once lstsq y (1 / 10 ^ 9) s0 = mkFs f (B * cos ph) (- (B * sin ph)) dc true 1 0).
  { unfold refine_once, s0. cbn [s_freq s_a s_b s_conv s_iter]. replace (co 0%nat) with (B * cos ph) by lra. replace (co 1%nat) with (- (B * sin ph)) by lra. fold n.
    set (w := lstsq (design4 n f (B * cos ph) (- (B * sin ph))) (fun i => nth i y 0)). assert (M4 : minimises (design4 n f (B * cos ph) (- (B * sin ph))) (fun i => nth i y 0) w) by (intros z; apply L). clearbody w.
    pose proof (normal_equations _ _ _ 0%nat M4 ltac:(cbn; lia)) as N0. pose proof (normal_equations _ _ _ 1%nat M4 ltac:(cbn; lia)) as N1. pose proof (normal_equations _ _ _ 2%nat M4 ltac:(cbn; lia)) as N2. pose proof (normal_equations _ _ _ 3%nat M4 ltac:(cbn; lia)) as N3.
    unfold design4, of_cols in N0, N1, N2, N3. cbn [m_n m_m m_at length nth] in N0, N1, N2, N3.
    assert (C4 : w 0%nat - B * cos ph = 0 /\ w 1%nat + B * sin ph = 0 /\ w 2%nat - dc = 0 /\ w 3%nat = 0).
    { apply (unique4 n f (B * cos ph) (- (B * sin ph)) e); [exact F | lia | | exact ORT | exact SUM | | | | |].
      - destruct (Req_dec (cos ph) 0) as [C | C]; [right | left; apply Rmult_integral_contrapositive_currified; assumption].
        pose proof (sin2_cos2 ph) as X. unfold Rsqr in X. rewrite C in X. intros Z. assert (Z' : B * sin ph = 0) by lra. apply Rmult_integral in Z'. destruct Z' as [Z' | Z']; [contradiction | rewrite Z' in X; lra].
      - rewrite (rsum_ext n _ (fun t => - B * (e t * (INR t * sin (2 * PI * f * INR t + ph))))) by (intros t T; rewrite sin_plus; ring). rewrite rsum_scale, BIAS. ring.
      - etransitivity; [| exact N0]. apply rsum_ext. intros t T. rewrite rsum4. cbn [nth]. rewrite RY by exact T. ring.
      - etransitivity; [| exact N1]. apply rsum_ext. intros t T. rewrite rsum4. cbn [nth]. rewrite RY by exact T. ring.
      - etransitivity; [| exact N2]. apply rsum_ext. intros t T. rewrite rsum4. cbn [nth]. rewrite RY by exact T. ring.
      - etransitivity; [| exact N3]. apply rsum_ext. intros t T. rewrite rsum4. cbn [nth]. rewrite RY by exact T. ring. }
    destruct C4 as (W0 & W1 & W2 & W3). rewrite W3. replace (w 0%nat) with (B * cos ph) by lra. replace (w 1%nat) with (- (B * sin ph)) by lra. replace (w 2%nat) with dc by lra.
    replace (0 / (2 * PI)) with 0 by (unfold Rdiv; ring). rewrite Rabs_R0, Rplus_0_r. assert (0 < 1 / 10 ^ 9) by (apply Rdiv_lt_0_compat; [lra | apply pow_lt; lra]). destruct (Rltb_spec 0 (1 / 10 ^ 9)); [| lra].
    f_equal. unfold usable in U. unfold rclip. rewrite Rmax_left by lra. apply Rmin_left. lra. }
  rewrite RO in E. cbn [s_freq s_a s_b s_c s_conv s_iter s_last] in E. apply Ok_inj in E. subst fit. cbn [f_frequency f_fitted]. split; [reflexivity |].
  intros t T. rewrite (nth_map_in _ _ _ 0%nat) by (rewrite seq_length; exact T). rewrite seq_nth by exact T. cbn [Nat.add]. rewrite cos_plus. ring.
Qed.
(** The documented model y = x + k2 x^2 + k3 x^3 (plus an offset) with x = A cos(2 pi k t / n + ph): the
    cubic term enlarges the fitted sine by g = 1 + 3/4 k3 A^2 and the coefficients returned are k2 / g and
    k3 / g^2.  The harmonics are assumed not to disturb the refinement of the frequency. *)
Lemma c99_gain lstsq sig order k A ph off k2 k3 : least_squares lstsq -> let n := length sig in let deg := Z.to_nat order in
  let th := fun t => 2 * PI * (INR k / INR n) * INR t + ph in let g := 1 + 3 / 4 * k3 * A ^ 2 in
  (2 <= k)%nat -> (6 * k < n)%nat -> INR n <= 10 ^ 10 -> (3 <= order)%Z \/ (order = 2%Z /\ k3 = 0) -> (order + 2 <= Z.of_nat n)%Z ->
  g <> 0 -> A <> 0 -> Rabs (k2 * A ^ 2 / 2) <= Rabs (g * A) -> Rabs (k3 * A ^ 3 / 4) <= Rabs (g * A) ->
  rsum n (fun t => (k2 * A ^ 2 / 2 * cos (2 * th t) + k3 * A ^ 3 / 4 * cos (3 * th t)) * (INR t * sin (th t))) = 0 ->
  distinct_values n (fun t => cos (th t)) (S deg) -> (exists t, (t < n)%nat /\ 1 / 10 ^ 10 <= Rabs (g * A * cos (th t))) ->
  (forall t, (t < n)%nat -> nth t sig 0 = off + cubic k2 k3 (A * cos (th t))) ->
  exists r, fit_static_nonlin lstsq sig order = Ok r /\ nl_k2 r = Fin (k2 / g) /\ ((3 <= order)%Z -> nl_k3 r = Fin (k3 / g ^ 2)) /\
  forall t, (t < n)%nat -> nth t (nl_fitted r) 0 = off + k2 * A ^ 2 / 2 + g * (A * cos (th t)).
Proof.
  intros L n deg th g K N NB ORD ON G0 A0 D2 D3 BIAS DV BIG REC.
  assert (B0 : g * A <> 0) by (apply Rmult_integral_contrapositive_currified; assumption).
  destruct (fit_harmonic lstsq sig k (g * A) ph (off + k2 * A ^ 2 / 2) (k2 * A ^ 2 / 2) (k3 * A ^ 3 / 4) L K N NB B0 D2 D3 BIAS) as (fit & FC & FF & FT).
  { intros t T. rewrite (REC t T). fold n. fold (th t). rewrite cos_twice, cos_triple. unfold cubic, g. field. }
  fold n in FT. assert (FT' : forall t, (t < n)%nat -> nth t (f_fitted fit) 0 = off + k2 * A ^ 2 / 2 + g * A * cos (th t)) by (intros t T; rewrite (FT t T); reflexivity). clear FT.
  assert (NP : 0 < INR n) by (apply lt_0_INR; lia).
  assert (TS : forall J a q, (0 < J)%nat -> (2 * J < n)%nat -> rsum n (fun t => a * cos (2 * PI * INR J * INR t / INR n + q)) = 0) by (intros; apply tone_sum; assumption).
  assert (T1 : forall t, th t = 2 * PI * INR k * INR t / INR n + ph) by (intros t; unfold th; field; lra).
  assert (T2 : forall t, 2 * th t = 2 * PI * INR (2 * k) * INR t / INR n + 2 * ph) by (intros t; unfold th; rewrite mult_INR; change (INR 2) with 2; field; lra).
  assert (T3 : forall t, 3 * th t = 2 * PI * INR (3 * k) * INR t / INR n + 3 * ph) by (intros t; unfold th; rewrite mult_INR; change (INR 3) with (1 + 1 + 1); field; lra).
  assert (AF : average n (fun t => nth t (f_fitted fit) 0) = off + k2 * A ^ 2 / 2).
  { unfold average. rewrite (rsum_ext n _ (fun t => (off + k2 * A ^ 2 / 2) + g * A * cos (2 * PI * INR k * INR t / INR n + ph))) by (intros t T; rewrite (FT' t T), T1; ring). rewrite rsum_plus, rsum_const, TS by lia. field. lra. }
  assert (AS : average n (fun t => nth t sig 0) = off + k2 * A ^ 2 / 2).
  { unfold average. rewrite (rsum_ext n _ (fun t => (off + k2 * A ^ 2 / 2) + (g * A * cos (2 * PI * INR k * INR t / INR n + ph) + (k2 * A ^ 2 / 2 * cos (2 * PI * INR (2 * k) * INR t / INR n + 2 * ph) + k3 * A ^ 3 / 4 * cos (2 * PI * INR (3 * k) * INR t / INR n + 3 * ph))))).
    2:{ intros t T. rewrite (REC t T), <- T1, <- T2, <- T3, cos_twice, cos_triple. unfold cubic, g. field. }
    rewrite !rsum_plus, !rsum_const, (TS k), (TS (2 * k)%nat), (TS (3 * k)%nat) by lia. field. lra. }
  assert (O2 : (2 <= order)%Z) by lia. destruct (proj2 (c97_accepts lstsq sig order) O2 ON) as (fit' & FC' & OKr & _). rewrite FC in FC'. apply Ok_inj in FC'. subst fit'. fold n in OKr. cbv zeta in OKr.
  destruct OKr as (r & E). { destruct BIG as (t & T & Q). exists t. split; [exact T |]. rewrite AF, (FT' t T). replace (off + k2 * A ^ 2 / 2 + g * A * cos (th t) - (off + k2 * A ^ 2 / 2)) with (g * A * cos (th t)) by ring. exact Q. }
  exists r. split; [exact E |]. destruct (nonlin_inv _ _ _ _ E) as (fit' & FC' & _ & _ & _ & NF & _). rewrite FC in FC'. apply Ok_inj in FC'. subst fit'.
  set (a := fun i => match i with O => - (k2 * A ^ 2 / 2) | 1%nat => 1 / g | 2%nat => k2 / g ^ 2 | 3%nat => k3 / g ^ 3 | _ => 0 end).
  assert (XV : forall t, (t < n)%nat -> nth t (nl_fitted r) 0 - average n (fun t => nth t (nl_fitted r) 0) = g * A * cos (th t)) by (intros t T; rewrite NF, AF, (FT' t T); ring).
  assert (PA : forall v, poly deg a v = - (k2 * A ^ 2 / 2) + 1 / g * v + k2 / g ^ 2 * v ^ 2 + k3 / g ^ 3 * v ^ 3).
  { intros v. unfold poly. destruct ORD as [O3 | (O3 & Z)].
    - replace (S deg) with (4 + (deg - 3))%nat by (unfold deg; lia). rewrite rsum_app. rewrite (rsum_zero (deg - 3)) by (intros i I; cbn [Nat.add a]; ring). cbn [rsum a]. ring.
    - subst order. unfold deg. change (S (Z.to_nat 2)) with 3%nat. rewrite Z. cbn [rsum a]. unfold Rdiv. ring. }
  pose proof (c98_exact lstsq sig order r a L E) as Q. cbv zeta in Q. fold n deg in Q.
  destruct Q as (Q2 & Q3 & _).
  - destruct DV as (l & LL & ND & LT). exists l. split; [exact LL |]. split; [| exact LT].
    rewrite (map_ext_in _ (fun t => g * A * cos (th t))) by (intros t T; apply XV; apply LT; exact T). rewrite <- (map_map (fun t => cos (th t)) (fun v => g * A * v)). apply FinFun.Injective_map_NoDup; [| exact ND]. intros u v H. apply (Rmult_eq_reg_l (g * A)); assumption.
  - intros t T. rewrite AS, (REC t T), (XV t T), PA. unfold cubic. field. exact G0.
  - assert (I0 : 1 / g <> 0) by (unfold Rdiv; rewrite Rmult_1_l; apply Rinv_neq_0_compat; exact G0). cbn [a] in Q2, Q3. split; [| split].
    + rewrite (proj1 Q2 I0). f_equal. field. exact G0.
    + intros O3. rewrite (proj1 (Q3 O3) I0). f_equal. field. exact G0.
    + intros t T. rewrite NF, (FT' t T). ring.
Qed.

(* ---------- examples: the eight phases of a 16-sample record ---------- *)
Fixpoint e8 (h : R) (t : nat) : R * R := match t with
  | O => (1, 0) | 1%nat => (h, h) | 2%nat => (0, 1) | 3%nat => (- h, h) | 4%nat => (- 1, 0) | 5%nat => (- h, - h) | 6%nat => (0, - 1) | 7%nat => (h, - h)
  | S (S (S (S (S (S (S (S t))))))) => e8 h t end.
Lemma e8_pair h : h * h = 1 / 2 -> cos (PI / 4) = h -> sin (PI / 4) = h -> forall t, (cos (INR t * (PI / 4)), sin (INR t * (PI / 4))) = e8 h t.
Proof.
  intros HH C S.
  assert (ST : forall t, cos (INR (Datatypes.S t) * (PI / 4)) = (cos (INR t * (PI / 4)) - sin (INR t * (PI / 4))) * h /\ sin (INR (Datatypes.S t) * (PI / 4)) = (cos (INR t * (PI / 4)) + sin (INR t * (PI / 4))) * h).
  { intros t. rewrite S_INR. replace ((INR t + 1) * (PI / 4)) with (INR t * (PI / 4) + PI / 4) by ring. rewrite cos_plus, sin_plus, C, S. split; ring. }
  fix IH 1. intros t. destruct t as [| [| [| [| [| [| [| [| t]]]]]]]].
  1:{ change (INR 0) with 0. rewrite Rmult_0_l, cos_0, sin_0. reflexivity. }
  8:{ cbn [e8]. rewrite <- IH. change (Datatypes.S (Datatypes.S (Datatypes.S (Datatypes.S (Datatypes.S (Datatypes.S (Datatypes.S (Datatypes.S t)))))))) with (8 + t)%nat. replace (INR (8 + t) * (PI / 4)) with (INR t * (PI / 4) + 2 * PI) by (rewrite plus_INR; cbn [INR]; field). rewrite cos_plus, sin_plus, cos_2PI, sin_2PI. apply f_equal2; ring. }
  all: assert (V0 : cos (INR 0 * (PI / 4)) = 1 /\ sin (INR 0 * (PI / 4)) = 0) by (change (INR 0) with 0; rewrite Rmult_0_l, cos_0, sin_0; split; reflexivity);
    assert (V1 : cos (INR 1 * (PI / 4)) = h /\ sin (INR 1 * (PI / 4)) = h) by (destruct (ST 0%nat) as (-> & ->); destruct V0 as (-> & ->); split; ring);
    assert (V2 : cos (INR 2 * (PI / 4)) = 0 /\ sin (INR 2 * (PI / 4)) = 1) by (destruct (ST 1%nat) as (-> & ->); destruct V1 as (-> & ->); split; lra);
    assert (V3 : cos (INR 3 * (PI / 4)) = - h /\ sin (INR 3 * (PI / 4)) = h) by (destruct (ST 2%nat) as (-> & ->); destruct V2 as (-> & ->); split; lra);
    assert (V4 : cos (INR 4 * (PI / 4)) = - 1 /\ sin (INR 4 * (PI / 4)) = 0) by (destruct (ST 3%nat) as (-> & ->); destruct V3 as (-> & ->); split; lra);
    assert (V5 : cos (INR 5 * (PI / 4)) = - h /\ sin (INR 5 * (PI / 4)) = - h) by (destruct (ST 4%nat) as (-> & ->); destruct V4 as (-> & ->); split; lra);
    assert (V6 : cos (INR 6 * (PI / 4)) = 0 /\ sin (INR 6 * (PI / 4)) = - 1) by (destruct (ST 5%nat) as (-> & ->); destruct V5 as (-> & ->); split; lra);
    assert (V7 : cos (INR 7 * (PI / 4)) = h /\ sin (INR 7 * (PI / 4)) = - h) by (destruct (ST 6%nat) as (-> & ->); destruct V6 as (-> & ->); split; lra); cbn [e8].
  - destruct V1 as (-> & ->). reflexivity.
  - destruct V2 as (-> & ->). reflexivity.
  - destruct V3 as (-> & ->). reflexivity.
  - destruct V4 as (-> & ->). reflexivity.
  - destruct V5 as (-> & ->). reflexivity.
  - destruct V6 as (-> & ->). reflexivity.
  - destruct V7 as (-> & ->). reflexivity.
Qed.
Definition h2 : R := 1 / sqrt 2.
Lemma h2_sq : h2 * h2 = 1 / 2.
Proof. unfold h2. pose proof (sqrt_sqrt 2 ltac:(lra)) as Q. assert (sqrt 2 <> 0) by (intros E; rewrite E in Q; lra). transitivity (1 / (sqrt 2 * sqrt 2)); [field; assumption | rewrite Q; reflexivity]. Qed.
Lemma h2_pos : 0 < h2.
Proof. unfold h2. apply Rdiv_lt_0_compat; [lra | apply sqrt_lt_R0; lra]. Qed.
Lemma e8_cos t : cos (INR t * (PI / 4)) = fst (e8 h2 t).
Proof. rewrite <- (e8_pair h2 h2_sq cos_PI4 sin_PI4 t). reflexivity. Qed.
Lemma e8_sin t : sin (INR t * (PI / 4)) = snd (e8 h2 t).
Proof. rewrite <- (e8_pair h2 h2_sq cos_PI4 sin_PI4 t). reflexivity. Qed.
Definition rec16 (off k2 k3 : R) : list R := map (fun t => off + cubic k2 k3 (cos (INR t * (PI / 4)))) (seq 0 16).
Lemma rec16_runs lstsq off k2 k3 : least_squares lstsq -> let g := 1 + 3 / 4 * k3 in 4 * k2 + k3 = 0 -> 1 / 10 <= g -> Rabs (k2 / 2) <= g -> Rabs (k3 / 4) <= g ->
  exists r, fit_static_nonlin lstsq (rec16 off k2 k3) 3 = Ok r /\ nl_k2 r = Fin (k2 / g) /\ nl_k3 r = Fin (k3 / g ^ 2) /\
  forall t, (t < 16)%nat -> nth t (nl_fitted r) 0 = off + k2 / 2 + g * cos (INR t * (PI / 4)).
Proof.
  intros L g K GP D2 D3.
  assert (TH : forall t, 2 * PI * (INR 2 / INR 16) * INR t + 0 = INR t * (PI / 4)) by (intros t; cbn [INR]; field).
  assert (C : forall t, cos (2 * PI * (INR 2 / INR 16) * INR t + 0) = fst (e8 h2 t)) by (intros t; rewrite TH; apply e8_cos).
  assert (S : forall t, sin (2 * PI * (INR 2 / INR 16) * INR t + 0) = snd (e8 h2 t)) by (intros t; rewrite TH; apply e8_sin).
  pose proof h2_sq as H2. pose proof h2_pos as HP.
  assert (G1 : 1 + 3 / 4 * k3 * 1 ^ 2 = g) by (unfold g; ring).
  destruct (c99_gain lstsq (rec16 off k2 k3) 3 2 1 0 off k2 k3 L) as (r & E & R2 & R3 & R4); unfold rec16; rewrite ?map_length, ?seq_length; try rewrite G1.
  - lia.
  - lia.
  - apply Rle_trans with 16; [cbn [INR]; lra | rewrite <- (pow_1 16) at 1; cbn [pow]; lra].
  - left. lia.
  - lia.
  - lra.
  - lra.
  - replace (k2 * 1 ^ 2 / 2) with (k2 / 2) by field. rewrite Rmult_1_r, (Rabs_pos_eq g) by lra. exact D2.
  - replace (k3 * 1 ^ 3 / 4) with (k3 / 4) by field. rewrite Rmult_1_r, (Rabs_pos_eq g) by lra. exact D3.
  - rewrite (rsum_ext 16 _ (fun t => (k2 * 1 ^ 2 / 2 * (2 * fst (e8 h2 t) ^ 2 - 1) + k3 * 1 ^ 3 / 4 * (4 * fst (e8 h2 t) ^ 3 - 3 * fst (e8 h2 t))) * (INR t * snd (e8 h2 t)))) by (intros t T; rewrite cos_twice, cos_triple, C, S; reflexivity).
    cbn [rsum e8 fst snd INR]. replace k3 with (- 4 * k2) by lra.
    assert (H3 : h2 ^ 2 = 1 / 2) by (rewrite <- H2; ring). assert (H4 : h2 ^ 3 = h2 / 2) by (replace (h2 ^ 3) with (h2 ^ 2 * h2) by ring; rewrite H3; field).
    assert (H5 : (- h2) ^ 2 = 1 / 2) by (rewrite <- H2; ring). assert (H6 : (- h2) ^ 3 = - h2 / 2) by (replace ((- h2) ^ 3) with (- (h2 ^ 2 * h2)) by ring; rewrite H3; field).
    rewrite H3, H4, H5, H6. field_simplify. rewrite H3. field.
  - exists [0; 1; 2; 4]%nat. split; [reflexivity |]. split.
    + cbn [map]. rewrite !C. cbn [e8 fst]. assert (h2 <> 1) by (intros Z; rewrite Z in H2; lra). repeat constructor; cbn [In]; intuition lra.
    + intros t. cbn [In]. intuition lia.
  - exists 0%nat. split; [lia |]. rewrite C. cbn [e8 fst]. rewrite !Rmult_1_r, Rabs_pos_eq by lra. apply Rle_trans with (1 / 10); [| exact GP]. unfold Rdiv. rewrite !Rmult_1_l. apply Rinv_le_contravar; [lra |]. cbn [pow]. lra.
  - intros t T. rewrite (nth_map_in _ _ _ 0%nat) by (rewrite seq_length; exact T). rewrite seq_nth by exact T. cbn [Nat.add]. rewrite TH, Rmult_1_l. reflexivity.
  - exists r. unfold rec16 in E, R4. rewrite ?map_length, ?seq_length in R4. rewrite G1 in R2, R3. split; [exact E |]. split; [exact R2 |]. split; [apply R3; lia |].
    intros t T. rewrite (R4 t T), G1, TH. field.
Qed.
(** The extracted coefficients are not those of the documented model: a sine of amplitude 1 through
    x + 0.1 x^2 - 0.4 x^3, 16 samples over two periods, is reported with k2 = 1/7 and k3 = -40/49. *)
Lemma c99_refuted : exists lstsq sig r k2 k3, least_squares lstsq /\ fit_static_nonlin lstsq sig 3 = Ok r /\
  is_record sig (fun t => cubic k2 k3 (cos (2 * PI * (2 / 16) * INR t))) /\ k2 = 1 / 10 /\ k3 = - (4 / 10) /\ nl_k2 r = Fin (1 / 7) /\ nl_k3 r = Fin (- (40 / 49)).
Proof.
  destruct (rec16_runs gs_lstsq 0 (1 / 10) (- (4 / 10)) gs_least_squares) as (r & E & K2 & K3 & _); [lra | lra | | |].
  - rewrite Rabs_pos_eq; lra.
  - rewrite Rabs_left; lra.
  - exists gs_lstsq, (rec16 0 (1 / 10) (- (4 / 10))), r, (1 / 10), (- (4 / 10)). split; [exact gs_least_squares |]. split; [exact E |]. split; [| split; [reflexivity | split; [reflexivity |]]].
    + intros t T. unfold rec16 in *. rewrite map_length, seq_length in T. rewrite (nth_map_in _ _ _ 0%nat) by (rewrite seq_length; exact T). rewrite seq_nth by exact T. cbn [Nat.add]. rewrite Rplus_0_l. f_equal. f_equal. field.
    + rewrite K2, K3. split; f_equal; field.
Qed.
(** With no distortion the coefficients vanish. *)
Lemma c99_gain_ex : exists r, fit_static_nonlin gs_lstsq (rec16 3 0 0) 3 = Ok r /\ nl_k2 r = Fin 0 /\ nl_k3 r = Fin 0 /\ nth 4 (nl_fitted r) 0 = 2.
Proof.
  destruct (rec16_runs gs_lstsq 3 0 0 gs_least_squares) as (r & E & K2 & K3 & F); [lra | lra | | |].
  - rewrite Rabs_pos_eq; lra.
  - rewrite Rabs_pos_eq; lra.
  - exists r. split; [exact E |]. rewrite K2, K3, F, e8_cos by lia. cbn [e8 fst]. split; [f_equal; field |]. split; [f_equal; field; lra | lra].
Qed.
(** The transfer curve of the distorted record at its first point, x = -0.65 (the smallest fitted value):
    the curve passes through the sample itself, -1 + 0.1 + 0.4. *)
Lemma c98_exact_ex : exists r, fit_static_nonlin gs_lstsq (rec16 0 (1 / 10) (- (4 / 10))) 3 = Ok r /\ nth 0 (nl_x r) 0 = - (65 / 100) /\ nth 0 (nl_y r) 0 = - (5 / 10).
Proof.
  destruct (rec16_runs gs_lstsq 0 (1 / 10) (- (4 / 10)) gs_least_squares) as (r & E & _ & _ & F); [lra | lra | | |].
  { rewrite Rabs_pos_eq; lra. }
  { rewrite Rabs_left; lra. }
  exists r. split; [exact E |]. pose proof h2_sq as H2. pose proof h2_pos as HP. assert (H1 : h2 < 1) by nra.
  assert (F' : forall t, (t < 16)%nat -> nth t (nl_fitted r) 0 = 1 / 20 + 7 / 10 * fst (e8 h2 t)) by (intros t T; rewrite (F t T), e8_cos; field). clear F.
  assert (SV : forall t, (t < 16)%nat -> nth t (rec16 0 (1 / 10) (- (4 / 10))) 0 = cubic (1 / 10) (- (4 / 10)) (fst (e8 h2 t))) by (intros t T; unfold rec16; rewrite (nth_map_in _ _ _ 0%nat) by (rewrite seq_length; exact T); rewrite seq_nth by exact T; cbn [Nat.add]; rewrite e8_cos; ring).
  assert (H3 : h2 ^ 2 = 1 / 2) by (rewrite <- H2; ring). assert (H4 : h2 ^ 3 = h2 / 2) by (replace (h2 ^ 3) with (h2 ^ 2 * h2) by ring; rewrite H3; field).
  assert (AF : average 16 (fun t => nth t (nl_fitted r) 0) = 1 / 20) by (unfold average; rewrite (rsum_ext 16 _ _ F'); cbn [rsum e8 fst INR]; field).
  assert (AS : average 16 (fun t => nth t (rec16 0 (1 / 10) (- (4 / 10))) 0) = 1 / 20).
  { unfold average. rewrite (rsum_ext 16 _ _ SV). cbn [rsum e8 fst INR]. unfold cubic. field_simplify. rewrite H3. field. }
  destruct (c97_transfer gs_lstsq _ 3 r gs_least_squares E) as (_ & _ & _ & _ & _ & _ & _ & _ & X). change (length (rec16 0 (1 / 10) (- (4 / 10)))) with 16%nat in X.
  assert (X0 : nth 0 (nl_x r) 0 = - (65 / 100)).
  { rewrite (X (- (65 / 100)) (75 / 100)); [change (INR 0) with 0; ring | | lia]. split; [exists 4%nat; split; [lia |]; rewrite F' by lia; cbn [e8 fst]; lra |]. split; [exists 0%nat; split; [lia |]; rewrite F' by lia; cbn [e8 fst]; lra |].
    intros t T. rewrite (F' t T). do 16 (destruct t as [| t]; [cbn [e8 fst]; lra |]). lia. }
  split; [exact X0 |].
  destruct (c98_exact gs_lstsq _ 3 r (fun i => nth i [- (1 / 20); 10 / 7; 1 / 10 * (10 / 7) ^ 2; - (4 / 10) * (10 / 7) ^ 3] 0) gs_least_squares E) as (_ & _ & Y); change (length (rec16 0 (1 / 10) (- (4 / 10)))) with 16%nat in *.
  - exists [0; 1; 2; 4]%nat. split; [reflexivity |]. split; [| intros t; cbn [In]; intuition lia]. cbn [map]. rewrite AF, !F' by lia. cbn [e8 fst]. repeat constructor; cbn [In]; intuition lra.
  - intros t T. rewrite AS, AF, (SV t T), (F' t T). change (Z.to_nat 3) with 3%nat. unfold poly. cbn [rsum nth]. unfold cubic. field.
  - rewrite (Y 0%nat ltac:(lia)), X0, AS, AF. change (Z.to_nat 3) with 3%nat. unfold poly. cbn [rsum nth]. field.
Qed.
(** Orders below two and records shorter than order + 2 are refused; a record without signal is refused too. *)
Lemma c97_accepts_ex : fit_static_nonlin gs_lstsq [0; 1; 0; -1; 0] 1 = Err ValueError /\ fit_static_nonlin gs_lstsq [0; 1; 0; -1] 3 = Err ValueError.
Proof. split; apply c97_accepts; cbn [length]; lia. Qed.
