(** * Error bounds and exact cases of the double operators used by the frequency functions *)
From Flocq Require Import Core.Core IEEE754.BinarySingleNaN Relative Sterbenz Digits.
From Coq Require Import Psatz.
From Verif Require Import Base BaseLemmas FreqModel FreqSpec FreqProofs FltModel FltSpec FltLemmas FfreqModel.
Local Open Scope R_scope.

(** Half an ulp of 1: 2^-53. *)
Notation u := (/ 9007199254740992).
Lemma u_bpow : / 2 * bpow radix2 (- 53 + 1) = u.
Proof. change (- 53 + 1)%Z with (-52)%Z. cbn. lra. Qed.
Lemma rnd_normal x : bpow radix2 (-1022) <= Rabs x -> Rabs (rnd x - x) <= u * Rabs x.
Proof. intros H. rewrite <- u_bpow. apply (relative_error_N_FLT radix2 (-1074) 53 eq_refl (fun n => negb (Z.even n)) x). exact H. Qed.
Lemma rnd_multiple m : let x := IZR m * bpow radix2 (-1074) in Rabs (rnd x - x) <= u * Rabs x.
Proof. intros x. rewrite <- u_bpow. exact (relative_error_N_FLT_F2R_emin radix2 (-1074) 53 eq_refl (fun n => negb (Z.even n)) m). Qed.
(** Every double is an integer multiple of 2^(k-52) when it is at least 2^k in magnitude. *)
Lemma double_multiple x k : double x -> (-1022 <= k)%Z -> bpow radix2 k <= Rabs x -> exists m, x = IZR m * bpow radix2 (k - 52).
Proof.
  intros D K L. unfold double, generic_format in D. set (M := Ztrunc _) in D. assert (N0 : x <> 0). { intros ->. rewrite Rabs_R0 in L. pose proof (bpow_gt_0 radix2 k). lra. }
  set (c := cexp radix2 (FLT_exp (-1074) 53) x) in *. assert (C : (k - 52 <= c)%Z). { unfold c, cexp, FLT_exp. pose proof (mag_ge_bpow radix2 x (k + 1)) as G. replace (k + 1 - 1)%Z with k in G by lia. specialize (G L). lia. }
  exists (M * 2 ^ (c - (k - 52)))%Z. rewrite D at 1. unfold F2R. cbn [Fnum Fexp]. rewrite mult_IZR, Rmult_assoc. f_equal. change 2%Z with (radix_val radix2). rewrite IZR_Zpower by lia. rewrite <- bpow_plus. f_equal. lia.
Qed.
Lemma double_tiny_multiple x : double x -> exists m, x = IZR m * bpow radix2 (-1074).
Proof.
  intros D. unfold double, generic_format in D. set (M := Ztrunc _) in D. set (c := cexp radix2 (FLT_exp (-1074) 53) x) in *. assert (C : (-1074 <= c)%Z). { unfold c, cexp, FLT_exp. lia. }
  exists (M * 2 ^ (c + 1074))%Z. rewrite D at 1. unfold F2R. cbn [Fnum Fexp]. rewrite mult_IZR, Rmult_assoc. f_equal. change 2%Z with (radix_val radix2). rewrite IZR_Zpower by lia. rewrite <- bpow_plus. f_equal. lia.
Qed.
Lemma val_tiny (x : fl) : exists m, val x = IZR m * bpow radix2 (-1074).
Proof. apply double_tiny_multiple, val_double. Qed.
(** Sums and integer multiples of doubles have relative error at most u, underflow included. *)
Lemma rnd_sub_rel (x y : fl) : Rabs (rnd (val x - val y) - (val x - val y)) <= u * Rabs (val x - val y).
Proof. destruct (val_tiny x) as (m & Hm). destruct (val_tiny y) as (n & Hn). rewrite Hm, Hn. replace (IZR m * bpow radix2 (-1074) - IZR n * bpow radix2 (-1074)) with (IZR (m - n) * bpow radix2 (-1074)) by (rewrite minus_IZR; ring). apply rnd_multiple. Qed.
Lemma rnd_add_rel (x y : fl) : Rabs (rnd (val x + val y) - (val x + val y)) <= u * Rabs (val x + val y).
Proof. destruct (val_tiny x) as (m & Hm). destruct (val_tiny y) as (n & Hn). rewrite Hm, Hn. replace (IZR m * bpow radix2 (-1074) + IZR n * bpow radix2 (-1074)) with (IZR (m + n) * bpow radix2 (-1074)) by (rewrite plus_IZR; ring). apply rnd_multiple. Qed.
Lemma rnd_scale_rel (x : fl) k : Rabs (rnd (val x * IZR k) - val x * IZR k) <= u * Rabs (val x * IZR k).
Proof. destruct (val_tiny x) as (m & Hm). rewrite Hm. replace (IZR m * bpow radix2 (-1074) * IZR k) with (IZR (m * k) * bpow radix2 (-1074)) by (rewrite mult_IZR; ring). apply rnd_multiple. Qed.
(** Magnitudes survive rounding up to a power of two. *)
Lemma rnd_abs_le x k : (-1074 <= k)%Z -> Rabs x <= bpow radix2 k -> Rabs (rnd x) <= bpow radix2 k.
Proof.
  intros K H. assert (D : double (bpow radix2 k)). { rewrite <- (Rmult_1_l (bpow radix2 k)). apply (dyadic_double 1 k); lia. }
  assert (D' : double (- bpow radix2 k)). { replace (- bpow radix2 k) with (IZR (-1) * bpow radix2 k) by ring. apply (dyadic_double (-1) k); lia. }
  apply Rabs_le. split.
  - rewrite <- (rnd_id _ D'). apply rnd_le. unfold Rabs in H. destruct (Rcase_abs x); lra.
  - rewrite <- (rnd_id _ D). apply rnd_le. unfold Rabs in H. destruct (Rcase_abs x); lra.
Qed.
Lemma rnd_fits x k : (-1074 <= k < 1024)%Z -> Rabs x <= bpow radix2 k -> Rabs (rnd x) < big.
Proof. intros K H. apply Rle_lt_trans with (bpow radix2 k); [apply rnd_abs_le; [lia|exact H]|apply bpow_lt; lia]. Qed.
Lemma dyadic_id k e : (Z.abs k <= 2 ^ 53)%Z -> (-1074 <= e)%Z -> rnd (IZR k * bpow radix2 e) = IZR k * bpow radix2 e.
Proof. intros. apply rnd_id, dyadic_double; assumption. Qed.
Lemma dyadic_big k e : (Z.abs k <= 2 ^ 53)%Z -> (e <= 970)%Z -> Rabs (IZR k * bpow radix2 e) < big.
Proof.
  intros K E. rewrite Rabs_mult, <- abs_IZR. rewrite (Rabs_pos_eq (bpow radix2 e)) by apply bpow_ge_0. apply Rle_lt_trans with (bpow radix2 53 * bpow radix2 970).
  - apply Rmult_le_compat; [apply IZR_le; lia|apply bpow_ge_0| |apply bpow_le; exact E]. change (bpow radix2 53) with (IZR (2 ^ 53)). apply IZR_le. exact K.
  - rewrite <- bpow_plus. apply bpow_lt. lia.
Qed.
Lemma round_int md x : round radix2 (FIX_exp 0) md x = IZR (md x).
Proof. unfold round, scaled_mantissa, cexp, FIX_exp, F2R. cbn [Fnum Fexp bpow Z.opp]. rewrite !Rmult_1_r. reflexivity. Qed.
Lemma fround_fin (a : fl) : is_finite a = true -> is_finite (fround a) = true /\ val (fround a) = IZR (round_he (val a)).
Proof. intros F. destruct (Bnearbyint_correct 53 1024 _ mode_NE a) as (V & F' & _). split; [unfold fround; rewrite F'; exact F|]. unfold val, fround. rewrite V. apply round_int. Qed.
Lemma fabs_fin (a : fl) : is_finite (fabs a) = is_finite a /\ val (fabs a) = Rabs (val a).
Proof. split; [apply is_finite_Babs|apply B2R_Babs]. Qed.
Lemma fzero_val : val fzero = 0.
Proof. reflexivity. Qed.
Lemma feq0 (y : fl) : is_finite y = true -> Beqb y fzero = false <-> val y <> 0.
Proof.
  intros F. rewrite (Beqb_correct 53 1024 y fzero F eq_refl). change (B2R fzero) with 0. fold (val y).
  destruct (Req_bool_spec (val y) 0); split; intros; congruence || easy.
Qed.
(** ** Mantissas, remainders *)
Lemma bounded_range m e : SpecFloat.bounded 53 1024 m e = true -> (Z.pos m < 2 ^ 53)%Z /\ (-1074 <= e <= 971)%Z.
Proof.
  unfold SpecFloat.bounded, SpecFloat.canonical_mantissa, SpecFloat.fexp, SpecFloat.emin. intros H. apply andb_prop in H as [H1 H2]. apply Zeq_bool_eq in H1. apply Zle_bool_imp_le in H2.
  rewrite Zpos_digits2_pos in H1. split; [|lia].
  assert (D : (Zdigits radix2 (Z.pos m) <= 53)%Z) by lia. pose proof (Zdigits_correct radix2 (Z.pos m)) as C. cbn [Z.abs] in C. apply Z.lt_le_trans with (Zpower radix2 (Zdigits radix2 (Z.pos m))); [lia|]. change (2 ^ 53)%Z with (Zpower radix2 53). apply Zpower_le. exact D.
Qed.
Lemma pow2_bpow k : (0 <= k)%Z -> IZR (2 ^ k) = bpow radix2 k.
Proof. intros K. change 2%Z with (radix_val radix2). apply IZR_Zpower. exact K. Qed.
Lemma div_floor X Y e : (0 < Y)%Z -> Zfloor (IZR X * bpow radix2 e / (IZR Y * bpow radix2 e)) = (X / Y)%Z.
Proof.
  intros HY. assert (P := bpow_gt_0 radix2 e). assert (0 < IZR Y) by (apply (IZR_lt 0); exact HY). replace (IZR X * bpow radix2 e / (IZR Y * bpow radix2 e)) with (IZR X / IZR Y) by (field; lra). apply Zfloor_div. lia.
Qed.
(** fmod is exact. *)
Lemma ffmod_fin (x y : fl) : is_finite x = true -> is_finite y = true -> 0 < val y ->
  is_finite (ffmod x y) = true /\ let a := Rabs (val x) in
  val (ffmod x y) = (if Rltb (val x) 0 then -1 else 1) * (a - val y * IZR (Zfloor (a / val y))).
Proof.
  intros Fx Fy P. destruct (pos_finite y Fy P) as (my & ey & Hy & ->). destruct x as [sx|sx| |sx mx ex Hx]; try discriminate.
  { split; [reflexivity|]. cbn zeta. change (val (ffmod _ _)) with 0. change (val (B754_zero sx)) with 0. rewrite Rabs_R0. unfold Rdiv. rewrite Rmult_0_l, (Zfloor_IZR 0). destruct (Rltb 0 0); ring. }
  destruct (bounded_range _ _ Hx) as (Bx & Ex). destruct (bounded_range _ _ Hy) as (By & Ey).
  cbn [ffmod]. set (e := Z.min ex ey). set (X := (Z.pos mx * 2 ^ (ex - e))%Z). set (Y := (Z.pos my * 2 ^ (ey - e))%Z).
  assert (PX : (0 < X)%Z) by (unfold X; pose proof (Z.pow_pos_nonneg 2 (ex - e)); nia). assert (PY : (0 < Y)%Z) by (unfold Y; pose proof (Z.pow_pos_nonneg 2 (ey - e)); nia).
  assert (EX : forall m f, (e <= f)%Z -> IZR m * bpow radix2 f = IZR (m * 2 ^ (f - e)) * bpow radix2 e). { intros m f L. rewrite mult_IZR, pow2_bpow, Rmult_assoc, <- bpow_plus by lia. f_equal. f_equal. lia. }
  assert (Vx : val (B754_finite sx mx ex Hx) = IZR (cond_Zopp sx X) * bpow radix2 e). { unfold val, B2R, F2R. cbn [Fnum Fexp]. rewrite (EX _ ex) by lia. f_equal. f_equal. unfold X. destruct sx; cbn [cond_Zopp]; lia. }
  assert (Vy : val (B754_finite false my ey Hy) = IZR Y * bpow radix2 e). { unfold val, B2R, F2R. cbn [Fnum Fexp cond_Zopp]. apply EX. lia. }
  assert (Pe := bpow_gt_0 radix2 e). assert (PX' : 0 < IZR X) by (apply (IZR_lt 0); exact PX).
  assert (Ax : Rabs (val (B754_finite sx mx ex Hx)) = IZR X * bpow radix2 e). { rewrite Vx, Rabs_mult, (Rabs_pos_eq (bpow radix2 e)) by lra. f_equal. destruct sx; cbn [cond_Zopp]; [rewrite opp_IZR, Rabs_Ropp|]; apply Rabs_pos_eq; lra. }
  assert (M := Z.mod_pos_bound X Y PY). assert (MX : (X mod Y <= X)%Z) by (apply Z.mod_le; lia).
  assert (S53 : (X mod Y < 2 ^ 53)%Z). { destruct (Z.le_gt_cases ex ey) as [L|L]; [assert (e = ex) by (unfold e; lia)|assert (e = ey) by (unfold e; lia)].
    - assert (X = Z.pos mx) by (unfold X; rewrite H, Z.sub_diag; lia). lia.
    - assert (Y = Z.pos my) by (unfold Y; rewrite H, Z.sub_diag; lia). lia. }
  set (g := cond_Zopp sx (X mod Y)). assert (G : (Z.abs g <= 2 ^ 53)%Z) by (unfold g; destruct sx; cbn [cond_Zopp]; lia). pose proof (binary_normalize_correct 53 1024 _ _ mode_NE g e sx) as C. cbv zeta in C.
  assert (ID : round radix2 (SpecFloat.fexp 53 1024) (round_mode mode_NE) (F2R {| Fnum := g; Fexp := e |}) = IZR g * bpow radix2 e) by (apply (dyadic_id g e); lia). rewrite ID in C.
  assert (AG : Rabs (IZR g * bpow radix2 e) = IZR (X mod Y) * bpow radix2 e). { rewrite Rabs_mult, (Rabs_pos_eq (bpow radix2 e)), <- abs_IZR by lra. f_equal. f_equal. unfold g. destruct sx; cbn [cond_Zopp]; lia. }
  rewrite Rlt_bool_true in C.
  - destruct C as (V & F & _). split; [exact F|]. cbv zeta. rewrite Ax, Vy. rewrite div_floor by exact PY. unfold val at 1. rewrite V. assert (Em : IZR X * bpow radix2 e - IZR Y * bpow radix2 e * IZR (X / Y) = IZR (X mod Y) * bpow radix2 e). { rewrite Z.mod_eq by lia. rewrite minus_IZR, mult_IZR. ring. }
    rewrite Em. unfold g. rewrite Vx. destruct sx; cbn [cond_Zopp]; match goal with |- context [Rltb ?a ?b] => destruct (Rltb_spec a b) as [L|L] end; rewrite ?opp_IZR in *; nra.
  - rewrite AG. eapply Rle_lt_trans; [|apply (val_range (B754_finite sx mx ex Hx)); reflexivity]. rewrite Ax. apply Rmult_le_compat_r; [lra|]. apply IZR_le. exact MX.
Qed.
Lemma fZ_ok n : (Z.abs n <= 2 ^ 53)%Z -> fZ n = Ok (fnum n 0) /\ is_finite (fnum n 0) = true /\ val (fnum n 0) = IZR n.
Proof. intros H. destruct (fnum_fin n 0) as (F & V); [lia..|]. cbn [bpow] in V. rewrite Rmult_1_r in V. unfold fZ. rewrite F. auto. Qed.
(** Python's float % int: the rounded wrapped value, and no rounding at all for nonnegative bins. *)
Lemma fpymod_int (x : fl) n : is_finite x = true -> (0 < n <= 2 ^ 53)%Z -> let w := val x - IZR n * IZR (Zfloor (val x / IZR n)) in
  exists b, fpymod x (fnum n 0) = Ok b /\ is_finite b = true /\ val b = rnd w /\ (0 <= val x -> rnd w = w).
Proof.
  intros Fx N w. destruct (fZ_ok n ltac:(lia)) as (_ & Fn & Vn). assert (Pn : 0 < IZR n) by (apply (IZR_lt 0); lia). destruct (ffmod_fin x (fnum n 0) Fx Fn ltac:(lra)) as (Fm & Vm). cbv zeta in Vm. rewrite Vn in Vm.
  unfold fpymod. rewrite (proj2 (feq0 _ Fn)) by lra. rewrite (fin_not_nan _ Fm). set (m := ffmod x (fnum n 0)) in *. set (a := Rabs (val x)) in *. set (k := Zfloor (a / IZR n)) in *.
  pose proof (wrap_range a n ltac:(lia)) as Ra. cbv zeta in Ra. fold k in Ra.
  assert (Y0 : flt (fnum n 0) fzero = false). { rewrite flt_ev by (apply fin_not_nan; assumption || reflexivity). rewrite (ev_fin _ Fn), Vn. destruct (Rltb_spec (IZR n) (ev fzero)) as [L|L]; [cbn in L; lra|reflexivity]. }
  assert (M0 : flt m fzero = Rltb (val m) 0). { rewrite flt_ev by (apply fin_not_nan; assumption || reflexivity). rewrite (ev_fin _ Fm). reflexivity. }
  destruct (Rltb_spec (val x) 0) as [Lx|Lx].
  - (* negative *)
    assert (Ea : a = - val x) by (unfold a; apply Rabs_left; exact Lx).
    destruct (Beqb m fzero) eqn:E0.
    + assert (Z0 : val m = 0). { destruct (Req_dec (val m) 0) as [E|E]; [exact E|]. apply (feq0 m Fm) in E. congruence. }
      assert (W : w = 0). { unfold w. assert (Kf : Zfloor (val x / IZR n) = (- k)%Z). { assert (Ex : val x / IZR n = IZR (- k)). { rewrite opp_IZR. assert (val x = - (IZR n * IZR k)) by lra. rewrite H. field. lra. } rewrite Ex. apply Zfloor_IZR. } rewrite Kf, opp_IZR. lra. }
      eexists. split; [reflexivity|]. split; [reflexivity|]. rewrite W, rnd_0. split; [reflexivity|intros; reflexivity].
    + apply (feq0 m Fm) in E0. assert (W : w = IZR n + val m). { unfold w. assert (Kf : Zfloor (val x / IZR n) = (- k - 1)%Z). { apply Zfloor_imp. replace (- k - 1 + 1)%Z with (- k)%Z by lia. rewrite minus_IZR, opp_IZR. assert (Ex : val x = - (IZR n * IZR k) + val m) by lra. assert (Ex2 : val x / IZR n = - IZR k + val m / IZR n) by (rewrite Ex; field; lra). rewrite Ex2. assert (Mr : - IZR n < val m < 0) by lra. split; [|assert (val m / IZR n < 0); [|lra]].
          - assert (-1 <= val m / IZR n); [|lra]. apply Rmult_le_reg_r with (IZR n); [lra|]. unfold Rdiv. rewrite Rmult_assoc, Rinv_l by lra. lra.
          - unfold Rdiv. assert (0 < / IZR n) by (apply Rinv_0_lt_compat; lra). nra. } rewrite Kf, minus_IZR, opp_IZR. lra. }
      rewrite Y0, M0. destruct (Rltb_spec (val m) 0) as [L|L]; [|exfalso; lra]. cbn [Bool.eqb]. pose proof (wrap_range (val x) n ltac:(lia)) as Rw. cbv zeta in Rw. fold w in Rw.
      destruct (fadd_fin m (fnum n 0) Fm Fn) as (Fa & Va). { rewrite Vn. apply (rnd_fits _ 53); [lia|]. replace (val m + IZR n) with w by lra. rewrite Rabs_pos_eq by lra. apply Rle_trans with (IZR n); [lra|]. change (bpow radix2 53) with (IZR (2 ^ 53)). apply IZR_le. lia. }
      eexists. split; [reflexivity|]. split; [exact Fa|]. split; [|intros; lra]. rewrite Va, Vn. f_equal. lra.
  - (* nonnegative *)
    assert (Ea : a = val x) by (unfold a; apply Rabs_pos_eq; lra). assert (W : w = val m). { unfold w. rewrite Vm. unfold k. rewrite Ea. ring. }
    assert (Rw : rnd w = w) by (rewrite W; apply rnd_id, val_double). destruct (Beqb m fzero) eqn:E0.
    + assert (Z0 : val m = 0). { destruct (Req_dec (val m) 0) as [E|E]; [exact E|]. apply (feq0 m Fm) in E. congruence. }
      eexists. split; [reflexivity|]. split; [reflexivity|]. rewrite Rw, W, Z0. split; [reflexivity|intros; reflexivity].
    + rewrite Y0, M0. destruct (Rltb_spec (val m) 0) as [L|L]; [exfalso; lra|]. cbn [Bool.eqb]. eexists. split; [reflexivity|]. split; [exact Fm|]. rewrite Rw. split; [symmetry; exact W|intros; reflexivity].
Qed.
(** The mirrored bin is exact. *)
Lemma mirror_exact b n : double b -> (2 <= n <= 2 ^ 53)%Z -> IZR (n / 2) < b <= IZR n -> rnd (IZR n - b) = IZR n - b.
Proof.
  intros D N B. set (m := (n / 2)%Z) in *. assert (M : (1 <= m)%Z) by (unfold m; apply Z.div_le_lower_bound; lia). assert (M2 : (n - m <= m + 1)%Z). { unfold m. pose proof (Z.div_mod n 2 ltac:(lia)). pose proof (Z.mod_pos_bound n 2 ltac:(lia)). lia. }
  assert (ML : (m <= 2 ^ 52)%Z) by (unfold m; apply Z.div_le_upper_bound; lia).
  set (k := Z.log2 m). destruct (Z.log2_spec m ltac:(lia)) as (K1 & K2). fold k in K1, K2. assert (K0 : (0 <= k)%Z) by apply Z.log2_nonneg. assert (K52 : (k <= 52)%Z). { unfold k. change 52%Z with (Z.log2 (2 ^ 52)). apply Z.log2_le_mono. exact ML. }
  destruct (double_multiple b k D ltac:(lia)) as (j & Hj). { rewrite Rabs_pos_eq by (apply Rle_trans with (IZR m); [apply (IZR_le 0); lia|lra]). apply Rle_trans with (IZR m); [rewrite <- pow2_bpow by lia; apply IZR_le; exact K1|lra]. }
  assert (Hn : IZR n = IZR (n * 2 ^ (52 - k)) * bpow radix2 (k - 52)). { rewrite mult_IZR, pow2_bpow, Rmult_assoc, <- bpow_plus by lia. replace (52 - k + (k - 52))%Z with 0%Z by lia. cbn. ring. }
  set (g := (n * 2 ^ (52 - k) - j)%Z). assert (E : IZR n - b = IZR g * bpow radix2 (k - 52)). { rewrite Hj, Hn at 1. unfold g. rewrite minus_IZR. ring. }
  rewrite E. apply dyadic_id; [|lia]. assert (P := bpow_gt_0 radix2 (k - 52)). assert (G0 : 0 <= IZR g) by (apply Rmult_le_reg_r with (bpow radix2 (k - 52)); [exact P|]; lra). apply le_IZR in G0. rewrite Z.abs_eq by exact G0. apply le_IZR. apply Rmult_le_reg_r with (bpow radix2 (k - 52)); [exact P|]. rewrite <- E, pow2_bpow, <- bpow_plus by lia.
  replace (53 + (k - 52))%Z with (k + 1)%Z by lia. rewrite <- pow2_bpow by lia. replace (k + 1)%Z with (Z.succ k) by lia. apply Rle_trans with (IZR (m + 1)); [rewrite plus_IZR; apply IZR_le in M2; rewrite minus_IZR, plus_IZR in M2; lra|apply IZR_le; lia].
Qed.
