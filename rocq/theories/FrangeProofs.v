(** * The quantiser of apply_quantization_noise in double precision stays in its range: final lemmas c219_. *)
From Flocq Require Import Core.Core IEEE754.BinarySingleNaN Relative.
From Coq Require Import Psatz.
From Verif Require Import Base BaseLemmas FltModel FltSpec FltLemmas FltProofs FfreqModel FfreqLemmas FfreqProofs.
Local Open Scope R_scope.

Lemma tiny_diff (a b : fl) : Rabs (rnd (val b - val a) - (val b - val a)) <= u * Rabs (val b - val a).
Proof.
  destruct (double_tiny_multiple _ (val_double a)) as (m & A). destruct (double_tiny_multiple _ (val_double b)) as (k & B). replace (val b - val a) with (IZR (k - m) * bpow radix2 (-1074)) by (rewrite A, B, minus_IZR; ring). apply rnd_multiple.
Qed.
Lemma rnd_up x : bpow radix2 (-1022) <= x -> rnd x <= (1 + u) * x /\ (1 - u) * x <= rnd x.
Proof. intros H. pose proof (bpow_gt_0 radix2 (-1022)). pose proof (rnd_normal x ltac:(rewrite Rabs_pos_eq; lra)) as E. rewrite (Rabs_pos_eq x) in E by lra. apply Rabs_le_inv in E. lra. Qed.
Lemma levels n : (n <= 51)%nat -> (1 + u) * (1 + u) * (1 + u) * ((bpow radix2 (Z.of_nat n) - 1) / bpow radix2 (Z.of_nat n)) <= 1.
Proof.
  intros N. assert (P := bpow_gt_0 radix2 (Z.of_nat n)). assert (L : bpow radix2 (Z.of_nat n) <= bpow radix2 51) by (apply bpow_le; lia). replace (bpow radix2 51) with 2251799813685248 in L by (cbn; lra).
  set (p := bpow radix2 (Z.of_nat n)) in *. replace ((p - 1) / p) with (1 - / p) by (field; lra). assert (I : / 2251799813685248 <= / p) by (apply Rinv_le; lra). apply Rle_trans with ((1 + u) * (1 + u) * (1 + u) * (1 - / 2251799813685248)); [| lra]. apply Rmult_le_compat_l; lra.
Qed.
Lemma two_le n : n <> O -> 2 <= bpow radix2 (Z.of_nat n).
Proof. intros H. apply (bpow_le radix2 1). lia. Qed.
Lemma double_min : double (bpow radix2 (-1022)).
Proof. rewrite <- (Rmult_1_l (bpow radix2 (-1022))). apply (dyadic_double 1 (-1022)); lia. Qed.
Lemma top_code n : (n <= 51)%nat -> is_finite (fnum (2 ^ Z.of_nat n - 1) 0) = true /\ val (fnum (2 ^ Z.of_nat n - 1) 0) = bpow radix2 (Z.of_nat n) - 1.
Proof.
  intros N. destruct (fnum_fin (2 ^ Z.of_nat n - 1) 0) as (Fh & Vh); [assert ((0 < 2 ^ Z.of_nat n)%Z) by (apply Z.pow_pos_nonneg; lia); assert ((2 ^ Z.of_nat n <= 2 ^ 53)%Z) by (apply Z.pow_le_mono_r; lia); lia | lia | lia |].
  split; [exact Fh |]. rewrite Vh, minus_IZR. replace (IZR (2 ^ Z.of_nat n)) with (bpow radix2 (Z.of_nat n)) by (symmetry; change 2%Z with (radix_val radix2); apply IZR_Zpower; lia). change (bpow radix2 0) with 1. ring.
Qed.
Lemma pieces n (a b x : fl) : (n <= 51)%nat -> is_finite a = true -> is_finite b = true -> fle b a = false -> is_finite (fsub b a) = true -> bpow radix2 (Z.of_nat n - 1022) <= val (fsub b a) -> is_nan x = false ->
  exists k, is_finite (fquantise n a b x) = true /\ val (fquantise n a b x) = rnd (rnd (k * val (fdiv (fsub b a) (fnum (2 ^ Z.of_nat n) 0))) + val a) /\ (val a <= val (fquantise n a b x) <= val b) /\ k = Rmin (Rmax (ev (ffloor (fdiv (fsub x a) (fdiv (fsub b a) (fnum (2 ^ Z.of_nat n) 0))))) 0) (bpow radix2 (Z.of_nat n) - 1) /\
    0 <= k * val (fdiv (fsub b a) (fnum (2 ^ Z.of_nat n) 0)) /\ rnd (k * val (fdiv (fsub b a) (fnum (2 ^ Z.of_nat n) 0))) <= val b - val a /\ is_finite (fdiv (fsub b a) (fnum (2 ^ Z.of_nat n) 0)) = true /\ 0 < val (fdiv (fsub b a) (fnum (2 ^ Z.of_nat n) 0)) <= val (fsub b a) /\ (1 - u) * (val (fsub b a) / bpow radix2 (Z.of_nat n)) <= val (fdiv (fsub b a) (fnum (2 ^ Z.of_nat n) 0)) /\ Rabs (val (fsub b a) - (val b - val a)) <= u * (val b - val a) /\ val a < val b.
Proof.
  intros N Fa Fb L Fs Hs Nx. destruct (span_fin a b Fa Fb L Fs) as (AB & Ps & Vs). destruct (fnum_pow_fin (Z.of_nat n) ltac:(lia)) as (Fp & Vp). pose proof (tiny_diff a b) as T. rewrite <- Vs in T. rewrite (Rabs_pos_eq (val b - val a)) in T by lra. apply Rabs_le_inv in T. unfold fquantise. cbv zeta. set (sp := fsub b a) in *. set (p := fnum (2 ^ Z.of_nat n) 0) in *. assert (P0 := bpow_gt_0 radix2 (Z.of_nat n)). assert (P1 : 1 <= bpow radix2 (Z.of_nat n)) by (apply (bpow_le radix2 0); lia).
  assert (Q0 : bpow radix2 (-1022) <= val sp / bpow radix2 (Z.of_nat n)). { apply Rmult_le_reg_r with (bpow radix2 (Z.of_nat n)); [exact P0 |]. unfold Rdiv. rewrite Rmult_assoc, Rinv_l, Rmult_1_r by lra. rewrite <- bpow_plus. replace (-1022 + Z.of_nat n)%Z with (Z.of_nat n - 1022)%Z by lia. exact Hs. }
  assert (Q1 : val sp / bpow radix2 (Z.of_nat n) <= val sp). { apply Rmult_le_reg_r with (bpow radix2 (Z.of_nat n)); [exact P0 |]. unfold Rdiv. rewrite Rmult_assoc, Rinv_l by lra. nra. }
  destruct (rnd_up _ Q0) as (U1 & U2). pose proof (bpow_gt_0 radix2 (-1022)) as TP. assert (Rl : rnd (val sp / bpow radix2 (Z.of_nat n)) <= val sp) by (rewrite <- (rnd_id _ (val_double sp)) at 2; apply rnd_le, Q1). pose proof (val_range _ Fs) as VR. apply Rabs_def2 in VR.
  assert (R0 : 0 < rnd (val sp / bpow radix2 (Z.of_nat n))) by (eapply Rlt_le_trans; [| exact U2]; apply Rmult_lt_0_compat; lra).
  destruct (fdiv_fin sp p Fs Fp) as (Fl & Vl); [rewrite Vp; lra | rewrite Vp, Rabs_pos_eq; lra |]. rewrite Vp in Vl. set (lsb := fdiv sp p) in *.
  destruct (top_code n N) as (Fh & Vh).
  set (hi := fnum (2 ^ Z.of_nat n - 1) 0) in *. set (code := ffloor (fdiv (fsub x a) lsb)). assert (Nc : is_nan code = false).
  { destruct (fsub_mono a Fa x x Nx Nx (Rle_refl _)) as (N1 & _ & _). destruct (fdiv_mono lsb Fl ltac:(rewrite Vl; exact R0) _ _ N1 N1 (Rle_refl _)) as (N2 & _ & _). destruct (ffloor_mono _ _ N2 N2 (Rle_refl _)) as (N3 & _ & _). exact N3. }
  destruct (fclip_ev fzero hi code eq_refl (fin_not_nan _ Fh) Nc) as (Nk & Ek). rewrite (ev_fin fzero eq_refl), (ev_fin hi Fh) in Ek. change (val fzero) with 0 in Ek. set (k := fclip fzero hi code) in *.
  assert (K : 0 <= ev k <= val hi) by (rewrite Ek; unfold Rmin, Rmax; repeat destruct Rle_dec; lra). assert (Fk : is_finite k = true). { pose proof (val_range _ Fh) as W. apply Rabs_def2 in W. destruct k as [s|s| |s m e H]; try reflexivity; try discriminate. cbn [ev] in K. pose proof big_pos. destruct s; lra. } rewrite (ev_fin k Fk) in K. rewrite Vh in K.
  assert (Z : 0 <= val k * val lsb <= (bpow radix2 (Z.of_nat n) - 1) * val lsb) by (rewrite Vl in *; split; [apply Rmult_le_pos; lra | apply Rmult_le_compat_r; lra]).
  assert (B1 : rnd (val k * val lsb) <= val b - val a).
  { destruct (Nat.eq_dec n 0) as [-> | NZ]. { cbn [bpow Z.of_nat] in Z. replace (val k * val lsb) with 0 by lra. rewrite rnd_0. lra. }
    eapply Rle_trans; [apply rnd_le, Z |]. assert (P2 := two_le n NZ). assert (LB : bpow radix2 (-1022) <= val lsb). { rewrite Vl. rewrite <- (rnd_id _ double_min). apply rnd_le, Q0. }
    assert (B2 : bpow radix2 (-1022) <= (bpow radix2 (Z.of_nat n) - 1) * val lsb) by nra. destruct (rnd_up _ B2) as (U3 & _). eapply Rle_trans; [exact U3 |].
    assert (V1 : val lsb <= (1 + u) * ((1 + u) * (val b - val a) / bpow radix2 (Z.of_nat n))). { rewrite Vl. eapply Rle_trans; [exact U1 |]. apply Rmult_le_compat_l; [lra |]. apply Rmult_le_compat_r; [left; apply Rinv_0_lt_compat; lra | lra]. }
    pose proof (levels n N) as LV. apply Rle_trans with ((1 + u) * (1 + u) * (1 + u) * ((bpow radix2 (Z.of_nat n) - 1) / bpow radix2 (Z.of_nat n)) * (val b - val a)); [| rewrite <- (Rmult_1_l (val b - val a)) at 2; apply Rmult_le_compat_r; lra].
    apply Rle_trans with ((1 + u) * ((bpow radix2 (Z.of_nat n) - 1) * ((1 + u) * ((1 + u) * (val b - val a) / bpow radix2 (Z.of_nat n))))); [| right; field; lra]. apply Rmult_le_compat_l; [lra |]. apply Rmult_le_compat_l; [lra | exact V1]. }
  assert (B0 : 0 <= rnd (val k * val lsb)) by (rewrite <- rnd_0; apply rnd_le, Z). assert (X : Rabs (rnd (val k * val lsb)) < big). { rewrite Rabs_pos_eq by exact B0. apply Rle_lt_trans with (val sp); [| lra]. rewrite Vs, <- (rnd_id _ (rnd_double (val k * val lsb))). apply rnd_le, B1. }
  destruct (fmul_fin k lsb Fk Fl X) as (Fm & Vm). pose proof (val_range _ Fa) as RA. pose proof (val_range _ Fb) as RB. apply Rabs_def2 in RA, RB.
  assert (Y : val a <= rnd (val (fmul k lsb) + val a) <= val b). { rewrite Vm. split; [rewrite <- (rnd_id _ (val_double a)) at 1 | rewrite <- (rnd_id _ (val_double b)) at 1]; apply rnd_le; lra. }
  destruct (fadd_fin (fmul k lsb) a Fm Fa) as (Fy & Vy); [apply Rabs_def1; lra |]. exists (val k). assert (K' : val k = Rmin (Rmax (ev code) 0) (bpow radix2 (Z.of_nat n) - 1)) by (rewrite <- (ev_fin k Fk), Ek, Vh; reflexivity).
  split; [exact Fy |]. split; [rewrite Vy, Vm; reflexivity |]. split; [rewrite Vy; exact Y |]. split; [exact K' |]. split; [apply Z |]. split; [exact B1 |]. split; [exact Fl |]. split; [rewrite Vl; split; [exact R0 | exact Rl] |]. split; [rewrite Vl; exact U2 |]. split; [apply Rabs_le; exact T | exact AB].
Qed.
(** Up to 51 bits, for every range whose span is a finite double of at least 2^(n - 1022), powers of two or not: every input that is a
    number, infinities included, is quantised to a finite double between v_min and v_max. *)
Lemma c219_range n (a b x : fl) : (n <= 51)%nat -> is_finite a = true -> is_finite b = true -> fle b a = false -> is_finite (fsub b a) = true -> bpow radix2 (Z.of_nat n - 1022) <= val (fsub b a) -> is_nan x = false ->
  is_finite (fquantise n a b x) = true /\ val a <= val (fquantise n a b x) <= val b.
Proof. intros N Fa Fb L Fs Hs Nx. destruct (pieces n a b x N Fa Fb L Fs Hs Nx) as (k & F & _ & R & _). split; assumption. Qed.
Lemma err_any x : Rabs (rnd x - x) <= u * Rabs x + bpow radix2 (-1075).
Proof.
  destruct (error_N_FLT radix2 (-1074) 53 ltac:(lia) (fun z => negb (Z.even z)) x) as (eps & eta & A & B & _ & E). change (rnd x = x * (1 + eps) + eta) in E. assert (A0 : Rabs eps <= u) by (rewrite <- u_bpow; exact A).
  replace (rnd x - x) with (x * eps + eta) by (rewrite E; ring). eapply Rle_trans; [apply Rabs_triang |]. rewrite Rabs_mult. assert (C : bpow radix2 (-1075) = / 2 * bpow radix2 (-1074)) by (change (/ 2) with (bpow radix2 (-1)); rewrite <- bpow_plus; reflexivity). rewrite C.
  pose proof (Rmult_le_compat_l (Rabs x) _ _ (Rabs_pos x) A0). lra.
Qed.
(** For an input inside the range the output is at most one step below it, and not above it, up to 2^-50 (|v_min| + |v_max|); the step
    is the computed one. *)
Lemma c219_error n (a b x : fl) : (n <= 51)%nat -> is_finite a = true -> is_finite b = true -> fle b a = false -> is_finite (fsub b a) = true -> bpow radix2 (Z.of_nat n - 1022) <= val (fsub b a) -> is_finite x = true -> val a <= val x <= val b ->
  let step := val (fdiv (fsub b a) (fnum (2 ^ Z.of_nat n) 0)) in let slack := bpow radix2 (-50) * (Rabs (val a) + Rabs (val b)) in
  - slack <= val x - val (fquantise n a b x) <= step + slack.
Proof.
  intros N Fa Fb L Fs Hs Fx AX step slack. destruct (pieces n a b x N Fa Fb L Fs Hs (fin_not_nan _ Fx)) as (k & _ & Vy & _ & Kk & K0 & KB & Fl & (L0 & L1) & L2 & T & AB).
  fold step in Vy, K0, KB, L0, L1, L2. apply Rabs_le_inv in T. set (sp := val (fsub b a)) in *. set (p := bpow radix2 (Z.of_nat n)) in *. assert (P1 : 1 <= p) by (apply (bpow_le radix2 0); lia). assert (P2 : p <= 2251799813685248) by (replace 2251799813685248 with (bpow radix2 51) by (cbn; lra); apply bpow_le; lia).
  set (S := val b - val a) in *. set (D := val x - val a). assert (DD : 0 <= D <= S) by (unfold D, S; lra). pose proof (tiny_diff a x) as TD. fold D in TD. rewrite (Rabs_pos_eq D) in TD by lra. apply Rabs_le_inv in TD.
  assert (S1 : S <= Rabs (val a) + Rabs (val b)) by (unfold S; pose proof (Rle_abs (val b)); pose proof (Rle_abs (- val a)) as Q; rewrite Rabs_Ropp in Q; lra).
  assert (TI : bpow radix2 (-1075) <= u * (1.01 * S)). { replace (bpow radix2 (-1075)) with (u * bpow radix2 (-1022)) by (change u with (bpow radix2 (-53)); rewrite <- bpow_plus; reflexivity). apply Rmult_le_compat_l; [lra |]. apply Rle_trans with sp; [| lra]. eapply Rle_trans; [| exact Hs]. apply bpow_le. lia. }
  assert (TJ : bpow radix2 (-1075) <= u * (1 / 10)). { apply Rle_trans with (bpow radix2 (-100)); [apply bpow_le; lia | cbn; lra]. }
  set (d := fsub x a) in *. destruct (fsub_fin x a Fx Fa) as (Fd & Vd). { pose proof (val_range _ Fs) as VR. fold sp in VR. destruct (span_fin a b Fa Fb L Fs) as (_ & _ & VS). fold sp in VS. fold S in VS. apply Rabs_def2 in VR. fold D. assert (0 <= rnd D <= sp) by (split; [rewrite <- rnd_0; apply rnd_le; lra | rewrite VS; apply rnd_le; lra]). rewrite Rabs_pos_eq; lra. }
  fold D in Vd. fold d in Fd, Vd. rewrite <- Vd in TD. assert (DP : 0 <= val d) by lra.
  assert (IL : step * / step = 1) by (apply Rinv_r; lra). assert (QD : val d / step * step = val d) by (field; lra). assert (QP : 0 <= val d / step) by (apply Rmult_le_pos; [lra | left; apply Rinv_0_lt_compat; lra]).
  assert (PL : sp <= 1.01 * (p * step)). { assert (sp / p * p = sp) by (field; lra). nra. }
  assert (QB : val d / step <= bpow radix2 60). { replace (bpow radix2 60) with 1152921504606846976 by (cbn; lra). apply Rmult_le_reg_r with step; [exact L0 |]. rewrite QD. apply Rle_trans with (1.1 * sp); [lra |]. apply Rle_trans with (1.2 * (p * step)); [lra |]. nra. }
  destruct (fdiv_fin d (fdiv (fsub b a) (fnum (2 ^ Z.of_nat n) 0)) Fd Fl) as (Fq & Vq); [fold step; lra | apply (rnd_fits _ 60); [lia |]; fold step; rewrite Rabs_pos_eq; assumption |]. fold step in Vq. destruct (ffloor_fin _ Fq) as (Ff & Vf). rewrite Vq in Vf. rewrite (ev_fin _ Ff), Vf in Kk. set (q := rnd (val d / step)) in *.
  assert (Q0 : 0 <= q) by (unfold q; rewrite <- rnd_0; apply rnd_le; exact QP). pose proof (err_any (val d / step)) as EQ. fold q in EQ. rewrite (Rabs_pos_eq (val d / step)) in EQ by exact QP. apply Rabs_le_inv in EQ.
  assert (QL : - (u * (1.01 * S) + u * (1 / 10) * (1.01 * S)) <= q * step - val d <= u * (1.01 * S) + u * (1 / 10) * (1.01 * S)).
  { assert (X1 : Rabs ((q - val d / step) * step) <= (u * (val d / step) + u * (1 / 10)) * step). { rewrite Rabs_mult, (Rabs_pos_eq step) by lra. apply Rmult_le_compat_r; [lra |]. apply Rabs_le. lra. }
    replace ((q - val d / step) * step) with (q * step - val d) in X1 by (rewrite Rmult_minus_distr_r, QD; reflexivity). replace ((u * (val d / step) + u * (1 / 10)) * step) with (u * (val d / step * step) + u * (1 / 10) * step) in X1 by ring. rewrite QD in X1. apply Rabs_le_inv in X1. assert (u * (1 / 10) * step <= u * (1 / 10) * (1.01 * S)) by (apply Rmult_le_compat_l; lra). assert (u * val d <= u * (1.01 * S)) by (apply Rmult_le_compat_l; lra). lra. }
  assert (FL : IZR (Zfloor q) <= q < IZR (Zfloor q) + 1) by (split; [apply Zfloor_lb | apply Zfloor_ub]). assert (FN : 0 <= IZR (Zfloor q)) by (apply IZR_le; apply Zfloor_lub; exact Q0). rewrite Rmax_left in Kk by exact FN.
  assert (KU : k * step <= q * step) by (apply Rmult_le_compat_r; [lra |]; rewrite Kk; eapply Rle_trans; [apply Rmin_l | apply FL]).
  assert (KL : D - u * (4 * S) - step <= k * step).
  { rewrite Kk. unfold Rmin. destruct (Rle_dec (IZR (Zfloor q)) (p - 1)) as [H | H].
    - assert ((q - 1) * step <= IZR (Zfloor q) * step) by (apply Rmult_le_compat_r; lra). lra.
    - assert (sp / p * p = sp) by (field; lra). assert ((1 - u) * sp <= p * step) by nra. nra. }
  pose proof (err_any (k * step)) as EM. rewrite (Rabs_pos_eq (k * step)) in EM by exact K0. apply Rabs_le_inv in EM. set (m := rnd (k * step)) in *.
  assert (M0 : 0 <= m) by (unfold m; rewrite <- rnd_0; apply rnd_le; exact K0).
  assert (EY : Rabs (rnd (m + val a) - (m + val a)) <= u * Rabs (m + val a)).
  { destruct (double_tiny_multiple _ (rnd_double (k * step))) as (i & I). destruct (double_tiny_multiple _ (val_double a)) as (j & J). fold m in I. replace (m + val a) with (IZR (i + j) * bpow radix2 (-1074)) by (rewrite I, J, plus_IZR; ring). apply rnd_multiple. }
  assert (MB : Rabs (m + val a) <= Rabs (val a) + Rabs (val b)). { pose proof (Rle_abs (val b)). pose proof (Rle_abs (- val a)) as Q. rewrite Rabs_Ropp in Q. pose proof (Rabs_pos (val a)). pose proof (Rabs_pos (val b)). apply Rabs_le. unfold S in *. lra. }
  apply Rabs_le_inv in EY. unfold slack. replace (bpow radix2 (-50)) with (8 * u) by (replace (bpow radix2 (-50)) with (/ 1125899906842624) by reflexivity; lra). rewrite Vy. set (MM := Rabs (val a) + Rabs (val b)) in *. assert (u * Rabs (m + val a) <= u * MM) by (apply Rmult_le_compat_l; lra). assert (KS : k * step <= 1.01 * S) by lra. unfold D in *. lra.
Qed.
(** A nan stays a nan. *)
Lemma c219_nan n (a b : fl) : is_finite a = true -> is_nan (fquantise n a b B754_nan) = true.
Proof. intros F. unfold fquantise. cbv zeta. replace (fsub B754_nan a) with (@B754_nan 53 1024) by (destruct a; reflexivity). replace (fdiv B754_nan (fdiv (fsub b a) (fnum (2 ^ Z.of_nat n) 0))) with (@B754_nan 53 1024) by (destruct (fdiv (fsub b a) _); reflexivity). change (ffloor B754_nan) with (@B754_nan 53 1024). unfold fclip. cbv zeta. cbn [is_nan orb]. destruct (fdiv (fsub b a) _), a; reflexivity. Qed.
(** The number of bits matters: with 54 bits on the range (-2.9, 2.0) the top level is above v_max. *)
Lemma c219_limit : let a := fdiv (fnum (-29) 0) (fnum 10 0) in let b := fnum 2 0 in fle b a = false /\ is_finite (fsub b a) = true /\ flt b (fquantise 54 a b b) = true.
Proof. repeat split; vm_compute; reflexivity. Qed.
(** Range (-0.1, 0.7), 3 bits: an infinite input and one below the range give levels inside it. *)
Example c219_range_ex : let a := fdiv (fnum (-1) 0) (fnum 10 0) in map (fun x => let y := fquantise 3 a f0_7 x in (fle a y, fle y f0_7, flt a y)) [B754_infinity false; fnum (-5) 0; f3_3] = [(true, true, true); (true, true, false); (true, true, true)].
Proof. vm_compute. reflexivity. Qed.
