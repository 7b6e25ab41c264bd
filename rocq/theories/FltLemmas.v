(** * Facts about the double-precision operators *)
From Flocq Require Import Core.Core IEEE754.BinarySingleNaN Mult_error Plus_error.
From Coq Require Import Psatz Permutation SpecFloat.
From Verif Require Import Base BaseLemmas SarModel FltModel FltSpec.
Local Open Scope R_scope.

Notation big := (bpow radix2 1024).
Lemma big_pos : 0 < big.
Proof. apply bpow_gt_0. Qed.
(** Infinities as +-2^1024. *)
Definition ev (x : fl) : R := match x with B754_infinity s => if s then - big else big | _ => B2R x end.
Definition clampR (r : R) : R := Rmax (- big) (Rmin big r).
Lemma clampR_le a b : a <= b -> clampR a <= clampR b.
Proof. intros H. unfold clampR. apply Rle_max_compat_l. apply Rle_min_compat_l. exact H. Qed.
Lemma clampR_in r : Rabs r < big -> clampR r = r.
Proof. intros H. apply Rabs_def2 in H. unfold clampR. rewrite Rmin_right, Rmax_right; lra. Qed.
Lemma clampR_ge r t : Rabs t < big -> (t <= clampR r <-> t <= r).
Proof. intros H. apply Rabs_def2 in H. unfold clampR. unfold Rmin. destruct (Rle_dec big r); unfold Rmax; destruct (Rle_dec _ _); lra. Qed.
Lemma clampR_lt r t : Rabs t < big -> (clampR r < t <-> r < t).
Proof. intros H. apply Rabs_def2 in H. unfold clampR. unfold Rmin. destruct (Rle_dec big r); unfold Rmax; destruct (Rle_dec _ _); lra. Qed.

#[global] Instance valid_double : Valid_exp (FLT_exp (-1074) 53) := FLT_exp_valid (-1074) 53.
Lemma rnd_le a b : a <= b -> rnd a <= rnd b.
Proof. apply round_le; typeclasses eauto. Qed.
Lemma rnd_id r : double r -> rnd r = r.
Proof. intros H. apply round_generic; [typeclasses eauto|exact H]. Qed.
Lemma rnd_double r : double (rnd r).
Proof. apply generic_format_round; typeclasses eauto. Qed.
Lemma rnd_0 : rnd 0 = 0.
Proof. apply round_0. typeclasses eauto. Qed.
Lemma val_double x : double (val x).
Proof. apply (generic_format_B2R 53 1024 x). Qed.
Lemma val_range (x : fl) : is_finite x = true -> Rabs (val x) < big.
Proof. intros F. unfold val. apply (abs_B2R_lt_emax 53 1024 x). Qed.
Lemma fin_not_nan (x : fl) : is_finite x = true -> is_nan x = false.
Proof. destruct x; easy. Qed.
Lemma ev_fin (x : fl) : is_finite x = true -> ev x = val x.
Proof. destruct x; easy. Qed.
Lemma ev_range x : - big <= ev x <= big.
Proof.
  pose proof big_pos. destruct x as [s|s| |s m e H0]; unfold ev; try (cbn; lra); [destruct s; lra|].
  pose proof (abs_B2R_lt_emax 53 1024 (B754_finite s m e H0)) as L. apply Rabs_def2 in L. lra.
Qed.
Lemma ev_inf (x : fl) s : B2SF x = S754_infinity s -> x = B754_infinity s.
Proof. destruct x; cbn; intros H; try discriminate. injection H as ->. reflexivity. Qed.
Lemma fle_inf_l s (y : fl) : is_finite y = true -> fle (B754_infinity s) y = s.
Proof. destruct s, y as [[]|[]| |[]]; try discriminate; reflexivity. Qed.
Lemma fle_inf_r s (x : fl) : is_finite x = true -> fle x (B754_infinity s) = negb s.
Proof. destruct s, x as [[]|[]| |[]]; try discriminate; reflexivity. Qed.
Lemma fle_ev (x y : fl) : is_nan x = false -> is_nan y = false -> fle x y = Rleb (ev x) (ev y).
Proof.
  intros Nx Ny. pose proof big_pos as BP. destruct (is_finite x) eqn:Fx; destruct (is_finite y) eqn:Fy.
  - unfold fle. rewrite Bleb_correct by assumption. rewrite !ev_fin by assumption. unfold val. destruct (Rle_bool_spec (B2R x) (B2R y)); destruct (Rleb_spec (B2R x) (B2R y)); easy || lra.
  - pose proof (val_range x Fx) as V. apply Rabs_def2 in V. destruct y as [|s| |]; try discriminate. rewrite (ev_fin x Fx), (fle_inf_r s x Fx). cbn [ev]. destruct s; match goal with |- _ = Rleb ?a ?b => destruct (Rleb_spec a b) end; try reflexivity; lra.
  - pose proof (val_range y Fy) as V. apply Rabs_def2 in V. destruct x as [|s| |]; try discriminate. rewrite (ev_fin y Fy), (fle_inf_l s y Fy). cbn [ev]. destruct s; match goal with |- _ = Rleb ?a ?b => destruct (Rleb_spec a b) end; try reflexivity; lra.
  - destruct x as [|s| |]; try discriminate. destruct y as [|s'| |]; try discriminate. cbn [ev]. destruct s, s'; match goal with |- _ = Rleb ?a ?b => destruct (Rleb_spec a b) end; try reflexivity; lra.
Qed.
Lemma flt_fle (x y : fl) : is_nan x = false -> is_nan y = false -> flt x y = negb (fle y x).
Proof.
  intros Nx Ny. unfold flt, fle, Bltb, Bleb, SFltb, SFleb. fold (Bcompare x y) (Bcompare y x). rewrite (Bcompare_swap 53 1024 x y).
  destruct (Bcompare x y) as [[| |]|] eqn:E; try reflexivity.
  exfalso. destruct x as [sx|sx| |sx mx ex Hx], y as [sy|sy| |sy my ey Hy]; try discriminate; unfold Bcompare in E; cbn in E; try (destruct sx; discriminate); try (destruct sy; discriminate); try (destruct sx, sy; discriminate).
Qed.
Lemma flt_ev (x y : fl) : is_nan x = false -> is_nan y = false -> flt x y = Rltb (ev x) (ev y).
Proof. intros Nx Ny. rewrite flt_fle, fle_ev by assumption. destruct (Rleb_spec (ev y) (ev x)); destruct (Rltb_spec (ev x) (ev y)); easy || lra. Qed.
Lemma fle_nan_l x : fle B754_nan x = false.
Proof. reflexivity. Qed.
Lemma fle_nan_r x : fle x B754_nan = false.
Proof. destruct x as [[]|[]| |[]]; reflexivity. Qed.

(** ** The operators as rounded real operators, clamped on overflow *)
Lemma overflow_NE s : binary_overflow 53 1024 mode_NE s = S754_infinity s.
Proof. reflexivity. Qed.
Lemma clamp_big_pos r : big <= r -> clampR r = big.
Proof. intros H. pose proof big_pos. unfold clampR. rewrite Rmin_left, Rmax_right; lra. Qed.
Lemma clamp_big_neg r : r <= - big -> clampR r = - big.
Proof. intros H. pose proof big_pos. unfold clampR. rewrite Rmin_right, Rmax_left; lra. Qed.
Lemma sign_true_neg (x : fl) : Bsign x = true -> val x <= 0.
Proof. destruct x as [s|s| |s m e H]; cbn [Bsign]; intros E; unfold val; cbn [B2R]; try lra. subst s. apply F2R_le_0. cbn. lia. Qed.
Lemma sign_false_pos (x : fl) : Bsign x = false -> 0 <= val x.
Proof. destruct x as [s|s| |s m e H]; cbn [Bsign]; intros E; unfold val; cbn [B2R]; try lra. subst s. apply F2R_ge_0. cbn. lia. Qed.
Lemma overflow_clamp (z : fl) s r : B2SF z = S754_infinity s -> (s = true -> r <= 0) -> (s = false -> 0 <= r) -> big <= Rabs (rnd r) -> is_nan z = false /\ ev z = clampR (rnd r).
Proof.
  intros E N P L. rewrite (ev_inf z s E). split; [reflexivity|]. cbn [ev]. destruct s.
  - assert (rnd r <= 0) by (rewrite <- rnd_0; apply rnd_le; auto). rewrite Rabs_left1 in L by assumption. rewrite clamp_big_neg; lra.
  - assert (0 <= rnd r) by (rewrite <- rnd_0; apply rnd_le; auto). rewrite Rabs_pos_eq in L by assumption. rewrite clamp_big_pos; lra.
Qed.
Lemma fits_clamp (z : fl) r : is_finite z = true -> B2R z = rnd r -> Rabs (rnd r) < big -> is_nan z = false /\ ev z = clampR (rnd r).
Proof. intros F V L. split; [apply fin_not_nan, F|]. rewrite clampR_in by exact L. rewrite ev_fin by exact F. exact V. Qed.
Lemma fadd_ev (x y : fl) : is_finite x = true -> is_finite y = true -> is_nan (fadd x y) = false /\ ev (fadd x y) = clampR (rnd (val x + val y)).
Proof.
  intros Fx Fy. pose proof (Bplus_correct 53 1024 _ _ mode_NE x y Fx Fy) as H. change (round radix2 (fexp 53 1024) (round_mode mode_NE) (B2R x + B2R y)) with (rnd (val x + val y)) in H.
  destruct (Rlt_bool_spec (Rabs (rnd (val x + val y))) big) as [L|L].
  - destruct H as (V & F & _). apply fits_clamp; assumption.
  - destruct H as (E & Sg). rewrite overflow_NE in E. apply (overflow_clamp _ (Bsign x)); [exact E| | |exact L]; intros Hs.
    + pose proof (sign_true_neg x Hs). rewrite Sg in Hs. pose proof (sign_true_neg y Hs). lra.
    + pose proof (sign_false_pos x Hs). rewrite Sg in Hs. pose proof (sign_false_pos y Hs). lra.
Qed.
Lemma fsub_ev (x y : fl) : is_finite x = true -> is_finite y = true -> is_nan (fsub x y) = false /\ ev (fsub x y) = clampR (rnd (val x - val y)).
Proof.
  intros Fx Fy. pose proof (Bminus_correct 53 1024 _ _ mode_NE x y Fx Fy) as H. change (round radix2 (fexp 53 1024) (round_mode mode_NE) (B2R x - B2R y)) with (rnd (val x - val y)) in H.
  destruct (Rlt_bool_spec (Rabs (rnd (val x - val y))) big) as [L|L].
  - destruct H as (V & F & _). apply fits_clamp; assumption.
  - destruct H as (E & Sg). rewrite overflow_NE in E. apply (overflow_clamp _ (Bsign x)); [exact E| | |exact L]; intros Hs.
    + pose proof (sign_true_neg x Hs). rewrite Sg in Hs. apply negb_true_iff in Hs. pose proof (sign_false_pos y Hs). lra.
    + pose proof (sign_false_pos x Hs). rewrite Sg in Hs. apply negb_false_iff in Hs. pose proof (sign_true_neg y Hs). lra.
Qed.
Lemma fmul_ev (x y : fl) : is_finite x = true -> is_finite y = true -> is_nan (fmul x y) = false /\ ev (fmul x y) = clampR (rnd (val x * val y)).
Proof.
  intros Fx Fy. pose proof (Bmult_correct 53 1024 _ _ mode_NE x y) as H. change (round radix2 (fexp 53 1024) (round_mode mode_NE) (B2R x * B2R y)) with (rnd (val x * val y)) in H.
  destruct (Rlt_bool_spec (Rabs (rnd (val x * val y))) big) as [L|L].
  - destruct H as (V & F & _). apply fits_clamp; [unfold fmul; rewrite F, Fx, Fy; reflexivity|assumption|assumption].
  - rewrite overflow_NE in H. apply (overflow_clamp _ (xorb (Bsign x) (Bsign y))); [exact H| | |exact L]; intros Hs;
      destruct (Bsign x) eqn:Sx, (Bsign y) eqn:Sy; cbn in Hs; try discriminate;
      repeat match goal with H : Bsign _ = true |- _ => apply sign_true_neg in H | H : Bsign _ = false |- _ => apply sign_false_pos in H end; nra.
Qed.
Lemma fdiv_ev (x y : fl) : is_finite x = true -> is_finite y = true -> val y <> 0 -> is_nan (fdiv x y) = false /\ ev (fdiv x y) = clampR (rnd (val x / val y)).
Proof.
  intros Fx Fy Zy. pose proof (Bdiv_correct 53 1024 _ _ mode_NE x y Zy) as H. change (round radix2 (fexp 53 1024) (round_mode mode_NE) (B2R x / B2R y)) with (rnd (val x / val y)) in H.
  destruct (Rlt_bool_spec (Rabs (rnd (val x / val y))) big) as [L|L].
  - destruct H as (V & F & _). apply fits_clamp; [unfold fdiv; rewrite F; exact Fx|assumption|assumption].
  - rewrite overflow_NE in H. apply (overflow_clamp _ (xorb (Bsign x) (Bsign y))); [exact H| | |exact L]; intros Hs;
      destruct (Bsign x) eqn:Sx, (Bsign y) eqn:Sy; cbn in Hs; try discriminate;
      repeat match goal with H : Bsign _ = true |- _ => apply sign_true_neg in H | H : Bsign _ = false |- _ => apply sign_false_pos in H end;
      unfold Rdiv; [assert (0 < / val y) by (apply Rinv_0_lt_compat; lra)|assert (/ val y < 0) by (apply Rinv_lt_0_compat; lra)|assert (/ val y < 0) by (apply Rinv_lt_0_compat; lra)|assert (0 < / val y) by (apply Rinv_0_lt_compat; lra)]; nra.
Qed.
(** No overflow: a finite result. *)
Lemma ev_finite (z : fl) r : is_nan z = false -> ev z = clampR r -> Rabs r < big -> is_finite z = true /\ val z = r.
Proof.
  intros N E L. rewrite clampR_in in E by exact L. destruct z as [s|s| |s m e H]; try discriminate; try (split; [reflexivity|exact E]).
  exfalso. cbn [ev] in E. apply Rabs_def2 in L. destruct s; lra.
Qed.
Lemma fadd_fin (x y : fl) : is_finite x = true -> is_finite y = true -> Rabs (rnd (val x + val y)) < big -> is_finite (fadd x y) = true /\ val (fadd x y) = rnd (val x + val y).
Proof. intros Fx Fy L. destruct (fadd_ev x y Fx Fy) as (N & E). exact (ev_finite _ _ N E L). Qed.
Lemma fsub_fin (x y : fl) : is_finite x = true -> is_finite y = true -> Rabs (rnd (val x - val y)) < big -> is_finite (fsub x y) = true /\ val (fsub x y) = rnd (val x - val y).
Proof. intros Fx Fy L. destruct (fsub_ev x y Fx Fy) as (N & E). exact (ev_finite _ _ N E L). Qed.
Lemma fmul_fin (x y : fl) : is_finite x = true -> is_finite y = true -> Rabs (rnd (val x * val y)) < big -> is_finite (fmul x y) = true /\ val (fmul x y) = rnd (val x * val y).
Proof. intros Fx Fy L. destruct (fmul_ev x y Fx Fy) as (N & E). exact (ev_finite _ _ N E L). Qed.
Lemma fdiv_fin (x y : fl) : is_finite x = true -> is_finite y = true -> val y <> 0 -> Rabs (rnd (val x / val y)) < big -> is_finite (fdiv x y) = true /\ val (fdiv x y) = rnd (val x / val y).
Proof. intros Fx Fy Zy L. destruct (fdiv_ev x y Fx Fy Zy) as (N & E). exact (ev_finite _ _ N E L). Qed.

(** ** Integers and dyadic numbers *)
Lemma dyadic_double k e : (Z.abs k <= 2 ^ 53)%Z -> (-1074 <= e)%Z -> double (IZR k * bpow radix2 e).
Proof.
  intros K E. destruct (Z.eq_dec (Z.abs k) (2 ^ 53)) as [Q|Q].
  - assert (S : IZR k * bpow radix2 e = IZR (Z.sgn k) * bpow radix2 (e + 53)).
    { rewrite bpow_plus. replace k with (Z.sgn k * Z.abs k)%Z at 1 by (apply Z.sgn_abs || (destruct k; cbn; lia)). rewrite Q, mult_IZR. change (bpow radix2 53) with (IZR (2 ^ 53)). ring. }
    rewrite S. apply generic_format_FLT. exists (Float radix2 (Z.sgn k) (e + 53)); [reflexivity| |cbn [Fexp]; lia]. cbn [Fnum]. change (radix2 ^ 53)%Z with 9007199254740992%Z. destruct k; cbn; lia.
  - apply generic_format_FLT. exists (Float radix2 k e); [reflexivity| |exact E]. cbn [Fnum]. change (radix2 ^ 53)%Z with (2 ^ 53)%Z. lia.
Qed.
Lemma fnum_fin k e : (Z.abs k <= 2 ^ 53)%Z -> (-1074 <= e)%Z -> (e <= 970)%Z -> is_finite (fnum k e) = true /\ val (fnum k e) = IZR k * bpow radix2 e.
Proof.
  intros K E1 E2. pose proof (binary_normalize_correct 53 1024 _ _ mode_NE k e false) as H. cbv zeta in H. change (round radix2 (fexp 53 1024) (round_mode mode_NE) (F2R (Float radix2 k e))) with (rnd (IZR k * bpow radix2 e)) in H.
  rewrite (rnd_id _ (dyadic_double k e K E1)) in H. rewrite Rlt_bool_true in H; [destruct H as (V & F & _); split; [exact F|exact V]|].
  rewrite Rabs_mult, (Rabs_pos_eq (bpow radix2 e)) by apply bpow_ge_0. rewrite <- abs_IZR. apply IZR_le in K.
  apply Rle_lt_trans with (IZR (2 ^ 53) * bpow radix2 e); [apply Rmult_le_compat_r; [apply bpow_ge_0|exact K]|]. change (IZR (2 ^ 53)) with (bpow radix2 53). rewrite <- bpow_plus. apply bpow_lt. lia.
Qed.
Lemma fnum_pow_fin k : (0 <= k <= 1023)%Z -> is_finite (fnum (2 ^ k) 0) = true /\ val (fnum (2 ^ k) 0) = bpow radix2 k.
Proof.
  intros K. pose proof (binary_normalize_correct 53 1024 _ _ mode_NE (2 ^ k) 0 false) as H. cbv zeta in H. change (round radix2 (fexp 53 1024) (round_mode mode_NE) (F2R (Float radix2 (2 ^ k) 0))) with (rnd (IZR (2 ^ k) * 1)) in H.
  rewrite Rmult_1_r in H. assert (P : IZR (2 ^ k) = bpow radix2 k) by (change 2%Z with (radix_val radix2); apply IZR_Zpower; lia). rewrite P in H.
  rewrite rnd_id in H by (apply generic_format_FLT_bpow; [reflexivity|lia]). rewrite Rlt_bool_true in H; [destruct H as (V & F & _); split; [exact F|exact V]|]. rewrite Rabs_pos_eq by apply bpow_ge_0. apply bpow_lt. lia.
Qed.

(** ** Monotone operators *)
Definition monotone_op (f : fl -> fl) : Prop := forall a b, is_nan a = false -> is_nan b = false -> ev a <= ev b -> is_nan (f a) = false /\ is_nan (f b) = false /\ ev (f a) <= ev (f b).
Lemma ext_mono (f : fl -> fl) (g : R -> R) : (forall s, f (B754_infinity s) = B754_infinity s) -> (forall a, is_finite a = true -> is_nan (f a) = false /\ ev (f a) = clampR (g (val a))) -> (forall r t, r <= t -> g r <= g t) -> monotone_op f.
Proof.
  intros HI HF HG a b Na Nb L. pose proof big_pos as BP. destruct (is_finite a) eqn:Fa; destruct (is_finite b) eqn:Fb.
  - destruct (HF a Fa) as (N1 & E1). destruct (HF b Fb) as (N2 & E2). split; [exact N1|]. split; [exact N2|]. rewrite E1, E2. apply clampR_le, HG. rewrite !ev_fin in L by assumption. exact L.
  - destruct (HF a Fa) as (N1 & E1). destruct b as [|s| |]; try discriminate. rewrite HI. split; [exact N1|]. split; [reflexivity|]. pose proof (val_range a Fa) as V. apply Rabs_def2 in V. rewrite (ev_fin a Fa) in L. destruct s; cbn [ev] in *; [lra|]. apply ev_range.
  - destruct (HF b Fb) as (N1 & E1). destruct a as [|s| |]; try discriminate. rewrite HI. split; [reflexivity|]. split; [exact N1|]. pose proof (val_range b Fb) as V. apply Rabs_def2 in V. rewrite (ev_fin b Fb) in L. destruct s; cbn [ev] in *; [|lra]. apply ev_range.
  - destruct a as [|s| |]; try discriminate. destruct b as [|t| |]; try discriminate. rewrite !HI. split; [reflexivity|]. split; [reflexivity|]. exact L.
Qed.
Lemma fadd_mono v : is_finite v = true -> monotone_op (fun a => fadd a v).
Proof.
  intros F. apply (ext_mono _ (fun r => rnd (r + val v))).
  - intros s. destruct v as [[]|[]| |[]]; try discriminate; reflexivity.
  - intros a Fa. apply fadd_ev; assumption.
  - intros r t H. apply rnd_le. lra.
Qed.
Lemma fsub_mono v : is_finite v = true -> monotone_op (fun a => fsub a v).
Proof.
  intros F. apply (ext_mono _ (fun r => rnd (r - val v))).
  - intros s. destruct v as [[]|[]| |[]]; try discriminate; reflexivity.
  - intros a Fa. apply fsub_ev; assumption.
  - intros r t H. apply rnd_le. lra.
Qed.
Lemma pos_finite (d : fl) : is_finite d = true -> 0 < val d -> exists m e H, d = B754_finite false m e H.
Proof.
  intros F P. destruct d as [s|s| |s m e H]; try discriminate; [unfold val in P; cbn in P; lra|]. destruct s; [exfalso|exists m, e, H; reflexivity].
  unfold val in P. cbn [B2R] in P. assert (L : F2R (Float radix2 (cond_Zopp true (Zpos m)) e) <= 0) by (apply F2R_le_0; cbn; lia). lra.
Qed.
Lemma fdiv_mono d : is_finite d = true -> 0 < val d -> monotone_op (fun a => fdiv a d).
Proof.
  intros F P. apply (ext_mono _ (fun r => rnd (r / val d))).
  - intros s. destruct (pos_finite d F P) as (m & e & H & ->). destruct s; reflexivity.
  - intros a Fa. apply fdiv_ev; try assumption. lra.
  - intros r t H. apply rnd_le. apply Rmult_le_compat_r; [left; apply Rinv_0_lt_compat; exact P|exact H].
Qed.
Lemma fmul_mono d : is_finite d = true -> 0 < val d -> monotone_op (fun a => fmul a d).
Proof.
  intros F P. apply (ext_mono _ (fun r => rnd (r * val d))).
  - intros s. destruct (pos_finite d F P) as (m & e & H & ->). destruct s; reflexivity.
  - intros a Fa. apply fmul_ev; assumption.
  - intros r t H. apply rnd_le. apply Rmult_le_compat_r; [left; exact P|exact H].
Qed.
Lemma ffloor_fin (a : fl) : is_finite a = true -> is_finite (ffloor a) = true /\ val (ffloor a) = IZR (Zfloor (val a)).
Proof.
  intros F. destruct (Bnearbyint_correct 53 1024 _ mode_DN a) as (V & F' & _). split; [unfold ffloor; rewrite F'; exact F|]. unfold val, ffloor. rewrite V. cbn [round_mode].
  unfold round, scaled_mantissa, cexp, FIX_exp, F2R. cbn [Fnum Fexp bpow Z.opp]. rewrite !Rmult_1_r. reflexivity.
Qed.
Lemma ffloor_mono : monotone_op ffloor.
Proof.
  apply (ext_mono _ (fun r => IZR (Zfloor r))).
  - intros s. reflexivity.
  - intros a Fa. destruct (ffloor_fin a Fa) as (F & V). split; [apply fin_not_nan, F|]. rewrite ev_fin by exact F. pose proof (val_range _ F) as L. rewrite V in *. rewrite clampR_in; [reflexivity|exact L].
  - intros r t H. apply IZR_le, Zfloor_le, H.
Qed.
Lemma fclip_mono lo hi : is_nan lo = false -> is_nan hi = false -> monotone_op (fclip lo hi).
Proof.
  intros Nl Nh a b Na Nb L. assert (K : forall x, is_nan x = false -> is_nan (fclip lo hi x) = false /\ ev (fclip lo hi x) = Rmin (Rmax (ev x) (ev lo)) (ev hi)).
  { intros x Nx. unfold fclip. cbv zeta. rewrite Nx. cbn [orb]. rewrite (flt_ev lo x Nl Nx). destruct (Rltb_spec (ev lo) (ev x)) as [H1|H1].
    - rewrite Nx. cbn [orb]. rewrite (flt_ev x hi Nx Nh). rewrite Rmax_left by lra. destruct (Rltb_spec (ev x) (ev hi)); [rewrite Rmin_left by lra; split; [exact Nx|reflexivity]|rewrite Rmin_right by lra; split; [exact Nh|reflexivity]].
    - rewrite Nl. cbn [orb]. rewrite (flt_ev lo hi Nl Nh). rewrite Rmax_right by lra. destruct (Rltb_spec (ev lo) (ev hi)); [rewrite Rmin_left by lra; split; [exact Nl|reflexivity]|rewrite Rmin_right by lra; split; [exact Nh|reflexivity]]. }
  destruct (K a Na) as (N1 & E1). destruct (K b Nb) as (N2 & E2). split; [exact N1|]. split; [exact N2|]. rewrite E1, E2. apply Rle_min_compat_r, Rle_max_compat_r, L.
Qed.
Lemma fclip_ev lo hi x : is_nan lo = false -> is_nan hi = false -> is_nan x = false -> is_nan (fclip lo hi x) = false /\ ev (fclip lo hi x) = Rmin (Rmax (ev x) (ev lo)) (ev hi).
Proof.
  intros Nl Nh Nx. unfold fclip. cbv zeta. rewrite Nx. cbn [orb]. rewrite (flt_ev lo x Nl Nx). destruct (Rltb_spec (ev lo) (ev x)) as [H1|H1].
  - rewrite Nx. cbn [orb]. rewrite (flt_ev x hi Nx Nh). rewrite Rmax_left by lra. destruct (Rltb_spec (ev x) (ev hi)); [rewrite Rmin_left by lra; split; [exact Nx|reflexivity]|rewrite Rmin_right by lra; split; [exact Nh|reflexivity]].
  - rewrite Nl. cbn [orb]. rewrite (flt_ev lo hi Nl Nh). rewrite Rmax_right by lra. destruct (Rltb_spec (ev lo) (ev hi)); [rewrite Rmin_left by lra; split; [exact Nl|reflexivity]|rewrite Rmin_right by lra; split; [exact Nh|reflexivity]].
Qed.
(** The span of an increasing range is positive. *)
Lemma span_pos (a b : fl) : is_finite a = true -> is_finite b = true -> val a < val b -> 0 < rnd (val b - val a).
Proof.
  intros Fa Fb L. assert (N : rnd (val b - val a) <> 0).
  { unfold Rminus. apply round_plus_neq_0; try typeclasses eauto; [apply val_double| |lra]. apply generic_format_opp, val_double. }
  assert (0 <= rnd (val b - val a)) by (rewrite <- rnd_0; apply rnd_le; lra). lra.
Qed.
Lemma span_fin (a b : fl) : is_finite a = true -> is_finite b = true -> fle b a = false -> is_finite (fsub b a) = true -> val a < val b /\ 0 < val (fsub b a) /\ val (fsub b a) = rnd (val b - val a).
Proof.
  intros Fa Fb L Fs. rewrite fle_ev in L by (apply fin_not_nan; assumption). rewrite !ev_fin in L by assumption. destruct (Rleb_spec (val b) (val a)) as [|L']; [discriminate|].
  destruct (fsub_ev b a Fb Fa) as (_ & E). rewrite ev_fin in E by exact Fs. pose proof (val_range _ Fs) as V. assert (X : Rabs (rnd (val b - val a)) < big).
  { rewrite E in V. unfold clampR, Rmin, Rmax in V. pose proof big_pos. assert (0 < rnd (val b - val a)) by (apply span_pos; assumption). rewrite Rabs_pos_eq by lra.
    destruct (Rle_dec big (rnd (val b - val a))); [|lra]. destruct (Rle_dec (- big) big); [rewrite Rabs_pos_eq in V by lra; lra|lra]. }
  rewrite clampR_in in E by exact X. split; [exact L'|]. split; [rewrite E; apply span_pos; assumption|exact E].
Qed.
Lemma fnormalise_mono a b : is_finite a = true -> is_finite b = true -> fle b a = false -> is_finite (fsub b a) = true -> monotone_op (fnormalise a b).
Proof.
  intros Fa Fb L Fs x y Nx Ny H. destruct (span_fin a b Fa Fb L Fs) as (_ & P & _). destruct (fsub_mono a Fa x y Nx Ny H) as (N1 & N2 & H1). exact (fdiv_mono _ Fs P _ _ N1 N2 H1).
Qed.
