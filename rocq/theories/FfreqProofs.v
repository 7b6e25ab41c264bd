(** * The frequency functions in double precision: the final lemmas are named c147_ to c149_. *)
From Flocq Require Import Core.Core IEEE754.BinarySingleNaN Relative Sterbenz.
From Coq Require Import Psatz Sorted.
From Verif Require Import Base BaseLemmas FreqModel FreqSpec FreqProofs FltModel FltSpec FltLemmas FfreqModel FfreqLemmas.
Local Open Scope R_scope.

(** ** C147: folding a frequency *)
Lemma fold_steps (fin fs : fl) : is_finite fin = true -> is_finite fs = true -> val fs <> 0 -> Rabs (rnd (val fin / val fs)) < big ->
  let k := round_he (rnd (val fin / val fs)) in Rabs (rnd (val fs * IZR k)) < big -> Rabs (rnd (val fin - rnd (val fs * IZR k))) < big ->
  is_finite (ffold_frequency fin fs) = true /\ val (ffold_frequency fin fs) = Rabs (rnd (val fin - rnd (val fs * IZR k))).
Proof.
  intros Ff Fs N0 B1 k B2 B3. destruct (fdiv_fin fin fs Ff Fs N0 B1) as (Fq & Vq). destruct (fround_fin _ Fq) as (Fr & Vr). rewrite Vq in Vr. fold k in Vr.
  destruct (fmul_fin fs (fround (fdiv fin fs)) Fs Fr) as (Fp & Vp); [rewrite Vr; exact B2|]. rewrite Vr in Vp.
  destruct (fsub_fin fin _ Ff Fp) as (Fd & Vd); [rewrite Vp; exact B3|]. rewrite Vp in Vd.
  unfold ffold_frequency. destruct (fabs_fin (fsub fin (fmul fs (fround (fdiv fin fs))))) as (Fa & Va). rewrite Fa, Va, Vd. split; [exact Fd|reflexivity].
Qed.
Lemma near_half x m k : 0 < m -> Rabs (x - IZR k * m) <= m / 2 -> nearest_multiple_distance x m (Rabs (x - IZR k * m)).
Proof.
  intros M H. split; [exists k; reflexivity|]. intros j. destruct (Z.eq_dec j k) as [->|N]; [lra|]. assert (G : 1 <= Rabs (IZR (j - k))). { rewrite <- abs_IZR. apply (IZR_le 1). lia. }
  assert (T : Rabs (IZR (j - k) * m) <= Rabs (x - IZR k * m) + Rabs (x - IZR j * m)). { replace (IZR (j - k) * m) with ((x - IZR k * m) + - (x - IZR j * m)) by (rewrite minus_IZR; ring). eapply Rle_trans; [apply Rabs_triang|]. rewrite Rabs_Ropp. lra. }
  rewrite Rabs_mult, (Rabs_pos_eq m) in T by lra. nra.
Qed.
(** Frequencies on a common dyadic grid (both integers, for instance), the frequency below 2^52 steps and the
    sampling rate at most 2^53 steps: the result is exactly the distance to the nearest multiple of fs. *)
Lemma c147_exact (fin fs : fl) a b e : is_finite fin = true -> is_finite fs = true -> val fin = IZR a * bpow radix2 e -> val fs = IZR b * bpow radix2 e ->
  (Z.abs a < 2 ^ 52)%Z -> (0 < b <= 2 ^ 53)%Z -> (-1074 <= e <= 970)%Z ->
  is_finite (ffold_frequency fin fs) = true /\ nearest_multiple_distance (val fin) (val fs) (val (ffold_frequency fin fs)).
Proof.
  intros Ff Fs Va Vb A B E. assert (P := bpow_gt_0 radix2 e). assert (Bp : 0 < IZR b) by (apply (IZR_lt 0); lia). assert (N0 : val fs <> 0) by (rewrite Vb; nra).
  assert (X : val fin / val fs = IZR a / IZR b) by (rewrite Va, Vb; field; lra).
  assert (A' : Rabs (IZR a) <= 4503599627370495) by (rewrite <- abs_IZR; apply IZR_le; lia).
  assert (B' : 1 <= IZR b <= 9007199254740992) by (split; [apply (IZR_le 1)|apply (IZR_le _ 9007199254740992)]; lia).
  assert (Q : Rabs (rnd (IZR a / IZR b) - IZR a / IZR b) <= u * Rabs (IZR a / IZR b)).
  { destruct (Z.eq_dec a 0) as [->|NA]; [replace (0 / IZR b) with 0 by (field; lra); rewrite rnd_0, Rminus_0_r, Rabs_R0; lra|]. apply rnd_normal. unfold Rdiv. rewrite Rabs_mult, Rabs_inv, (Rabs_pos_eq (IZR b)) by lra.
    apply Rle_trans with (bpow radix2 (-53)); [apply bpow_le; lia|]. assert (1 <= Rabs (IZR a)) by (rewrite <- abs_IZR; apply (IZR_le 1); lia).
    apply Rle_trans with (1 * / IZR b); [|apply Rmult_le_compat_r; [left; apply Rinv_0_lt_compat; lra|lra]]. rewrite Rmult_1_l. change (bpow radix2 (-53)) with u. apply Rinv_le; lra. }
  assert (AB : Rabs (IZR a / IZR b) = Rabs (IZR a) / IZR b) by (unfold Rdiv; rewrite Rabs_mult, Rabs_inv, (Rabs_pos_eq (IZR b)) by lra; reflexivity).
  set (q := rnd (IZR a / IZR b)) in *. set (k := round_he q). pose proof (round_he_half q) as H. fold k in H. rewrite Rabs_minus_sym in H.
  assert (K : (Z.abs (2 * a - 2 * (k * b)) <= b)%Z).
  { assert (L : Rabs (IZR a / IZR b - IZR k) <= / 2 + u * (Rabs (IZR a) / IZR b)). { replace (IZR a / IZR b - IZR k) with (- (q - IZR a / IZR b) + (q - IZR k)) by ring. eapply Rle_trans; [apply Rabs_triang|]. rewrite Rabs_Ropp. rewrite AB in Q. lra. }
    assert (L2 : Rabs (2 * IZR a - 2 * (IZR k * IZR b)) < IZR b + 1).
    { replace (2 * IZR a - 2 * (IZR k * IZR b)) with ((2 * IZR b) * (IZR a / IZR b - IZR k)) by (field; lra). rewrite Rabs_mult, (Rabs_pos_eq (2 * IZR b)) by lra.
      apply Rle_lt_trans with (2 * IZR b * (/ 2 + u * (Rabs (IZR a) / IZR b))); [apply Rmult_le_compat_l; lra|]. replace (2 * IZR b * (/ 2 + u * (Rabs (IZR a) / IZR b))) with (IZR b + 2 * u * Rabs (IZR a)) by (field; lra). lra. }
    rewrite <- !mult_IZR, <- minus_IZR, <- abs_IZR in L2. change 1 with (IZR 1) in L2. rewrite <- plus_IZR in L2. apply lt_IZR in L2. lia. }
  assert (KB : (Z.abs (b * k) <= 2 ^ 53)%Z) by lia. assert (D : (Z.abs (a - b * k) <= 2 ^ 53)%Z) by lia.
  assert (P1 : val fs * IZR k = IZR (b * k) * bpow radix2 e) by (rewrite Vb, mult_IZR; ring).
  assert (P2 : val fin - IZR (b * k) * bpow radix2 e = IZR (a - b * k) * bpow radix2 e) by (rewrite Va, minus_IZR; ring).
  destruct (fold_steps fin fs Ff Fs N0) as (F & V).
  - rewrite X. apply (rnd_fits _ 52); [lia|]. rewrite AB. apply Rle_trans with (Rabs (IZR a)); [|eapply Rle_trans; [exact A'|change (bpow radix2 52) with (IZR (2 ^ 52)); apply IZR_le; lia]]. apply Rmult_le_reg_r with (IZR b); [lra|]. unfold Rdiv. rewrite Rmult_assoc, Rinv_l, Rmult_1_r by lra. pose proof (Rabs_pos (IZR a)). nra.
  - rewrite X. fold q k. rewrite P1, dyadic_id by lia. apply dyadic_big; lia.
  - rewrite X. fold q k. rewrite P1, dyadic_id by lia. rewrite P2, dyadic_id by lia. apply dyadic_big; lia.
  - split; [exact F|]. rewrite V, X. fold q k. rewrite P1, dyadic_id by lia. rewrite P2, dyadic_id by lia. rewrite <- P2, <- P1. replace (val fs * IZR k) with (IZR k * val fs) by ring.
    apply near_half; [rewrite Vb; nra|]. replace (val fin - IZR k * val fs) with (IZR (a - b * k) * bpow radix2 e) by (rewrite <- P2, Vb, mult_IZR; ring).
    rewrite Rabs_mult, (Rabs_pos_eq (bpow radix2 e)), Vb, <- abs_IZR by lra. assert (2 * IZR (Z.abs (a - b * k)) <= IZR b); [|nra]. rewrite <- mult_IZR. apply IZR_le. lia.
Qed.
(** In the first Nyquist zone nothing is lost for any doubles. *)
Lemma c147_first_zone (fin fs : fl) : is_finite fin = true -> is_finite fs = true -> 0 < val fs -> Rabs (val fin) <= val fs / 2 ->
  is_finite (ffold_frequency fin fs) = true /\ val (ffold_frequency fin fs) = Rabs (val fin).
Proof.
  intros Ff Fs P H. set (x := val fin / val fs). assert (X : Rabs x <= bpow radix2 (-1)).
  { unfold x, Rdiv. rewrite Rabs_mult, Rabs_inv, (Rabs_pos_eq (val fs)) by lra. cbn. apply Rmult_le_reg_r with (val fs); [lra|]. rewrite Rmult_assoc, Rinv_l by lra. lra. }
  assert (R0 : Rabs (rnd x) <= / 2). { pose proof (rnd_abs_le x (-1) ltac:(lia) X) as L. cbn in L. lra. }
  assert (K : round_he (rnd x) = 0%Z).
  { pose proof (round_he_half (rnd x)) as L. assert (G : (-1 <= round_he (rnd x) <= 1)%Z). { unfold Rabs in *. destruct (Rcase_abs (rnd x)); destruct (Rcase_abs (IZR (round_he (rnd x)) - rnd x)); split; apply le_IZR; lra. }
    destruct (Z.eq_dec (round_he (rnd x)) 0) as [E|N]; [exact E|exfalso]. destruct (Rlt_dec (Rabs (rnd x - 0)) (/ 2)) as [S|S]; [exact (N (Znearest_imp _ _ 0 S))|]. rewrite Rminus_0_r in S.
    assert (T : rnd x = / 2 \/ rnd x = - / 2) by (unfold Rabs in *; destruct (Rcase_abs (rnd x)); [right|left]; lra). unfold round_he, Znearest in N. destruct T as [T|T]; rewrite T in N.
    - assert (Z0 : Zfloor (/ 2) = 0%Z) by (apply Zfloor_imp; cbn; lra). rewrite Z0 in N. rewrite Rcompare_Eq in N by lra. apply N. reflexivity.
    - assert (Z0 : Zfloor (- / 2) = (-1)%Z) by (apply Zfloor_imp; cbn; lra). assert (Z1 : Zceil (- / 2) = 0%Z) by (apply Zceil_imp; cbn; lra). rewrite Z0, Z1 in N. rewrite Rcompare_Eq in N by lra. apply N. reflexivity. }
  pose proof (val_range fin Ff) as Vf.
  destruct (fold_steps fin fs Ff Fs ltac:(lra)) as (F & V); fold x.
  - apply (rnd_fits x (-1)); [lia|exact X].
  - rewrite K, Rmult_0_r, rnd_0, Rabs_R0. apply bpow_gt_0.
  - rewrite K, Rmult_0_r, rnd_0, Rminus_0_r, (rnd_id _ (val_double fin)). exact Vf.
  - split; [exact F|]. rewrite V. fold x. rewrite K, Rmult_0_r, rnd_0, Rminus_0_r, (rnd_id _ (val_double fin)). reflexivity.
Qed.
(** Any doubles: the result is within 2^-50 |fin| of the true folded frequency, provided the quotient does not overflow. *)
Lemma c147_bound (fin fs : fl) : is_finite fin = true -> is_finite fs = true -> 0 < val fs -> Rabs (val fin) <= bpow radix2 1020 -> Rabs (val fin) / val fs <= bpow radix2 1020 ->
  is_finite (ffold_frequency fin fs) = true /\
  exists d, nearest_multiple_distance (val fin) (val fs) d /\ Rabs (val (ffold_frequency fin fs) - d) <= bpow radix2 (-50) * Rabs (val fin).
Proof.
  intros Ff Fs P Bf Bq. change (bpow radix2 (-50)) with (/ 1125899906842624).
  destruct (Rle_dec (Rabs (val fin)) (val fs / 2)) as [Z1|Z1].
  { destruct (c147_first_zone fin fs Ff Fs P Z1) as (F & V). split; [exact F|]. exists (Rabs (val fin)). split.
    - pose proof (near_half (val fin) (val fs) 0 P) as N. rewrite Rmult_0_l, Rminus_0_r in N. exact (N Z1).
    - rewrite V. replace (Rabs (val fin) - Rabs (val fin)) with 0 by ring. rewrite Rabs_R0. pose proof (Rabs_pos (val fin)). lra. }
  assert (N0 : val fs <> 0) by lra. set (f := val fin) in *. set (s := val fs) in *. set (x := f / s). assert (AX : Rabs x = Rabs f / s) by (unfold x, Rdiv; rewrite Rabs_mult, Rabs_inv, (Rabs_pos_eq s) by lra; reflexivity).
  assert (XH : / 2 <= Rabs x). { rewrite AX. apply Rmult_le_reg_r with s; [exact P|]. unfold Rdiv. rewrite Rmult_assoc, Rinv_l by lra. lra. }
  assert (Q : Rabs (rnd x - x) <= u * Rabs x). { apply rnd_normal. eapply Rle_trans; [|exact XH]. change (/ 2) with (bpow radix2 (-1)). apply bpow_le. lia. }
  set (q := rnd x) in *. set (k := round_he q). pose proof (round_he_half q) as H. fold k in H.
  set (k0 := round_he x). set (d := Rabs (f - IZR k0 * s)).
  assert (ND : nearest_multiple_distance f s d). { pose proof (fold_nearest f s P) as N. unfold fold_frequency in N. fold x k0 in N. unfold d. rewrite Rmult_comm. exact N. }
  assert (XF : x * s = f) by (unfold x; field; lra).
  assert (DF : d <= Rabs f). { pose proof (proj2 ND 0%Z) as D0. rewrite Rmult_0_l, Rminus_0_r in D0. exact D0. }
  assert (FS : Rabs x * s = Rabs f) by (rewrite AX; field; lra).
  assert (E1 : Rabs (f - IZR k * s) <= d + 2 * u * Rabs f).
  { pose proof (round_he_dist q k0) as G. fold k in G. assert (L : Rabs (x - IZR k) <= 2 * Rabs (q - x) + Rabs (x - IZR k0)).
    { replace (x - IZR k) with (- (q - x) + (q - IZR k)) by ring. eapply Rle_trans; [apply Rabs_triang|]. rewrite Rabs_Ropp. assert (Rabs (q - IZR k0) <= Rabs (q - x) + Rabs (x - IZR k0)); [|lra]. replace (q - IZR k0) with ((q - x) + (x - IZR k0)) by ring. apply Rabs_triang. }
    replace (f - IZR k * s) with ((x - IZR k) * s) by (rewrite <- XF; ring). rewrite Rabs_mult, (Rabs_pos_eq s) by lra. unfold d. replace (f - IZR k0 * s) with ((x - IZR k0) * s) by (rewrite <- XF; ring). rewrite Rabs_mult, (Rabs_pos_eq s) by lra. nra. }
  assert (D1 : d <= Rabs (f - IZR k * s)) by apply (proj2 ND).
  pose proof (rnd_scale_rel fs k) as E2. fold s in E2.
  assert (S1 : Rabs (s * IZR k) <= Rabs f + Rabs (f - IZR k * s)). { replace (s * IZR k) with (f + - (f - IZR k * s)) by ring. eapply Rle_trans; [apply Rabs_triang|]. rewrite Rabs_Ropp. lra. }
  pose proof (Rabs_pos f) as F0. set (p := rnd (s * IZR k)) in *.
  assert (B10 : bpow radix2 1020 * 8 = bpow radix2 1023) by (change 8 with (bpow radix2 3); rewrite <- bpow_plus; reflexivity).
  assert (Sb : Rabs (s * IZR k) <= 3 * Rabs f) by lra.
  assert (FQ : Rabs q < big). { apply (rnd_fits x 1020); [lia|]. rewrite AX. exact Bq. }
  assert (FP : Rabs p < big). { apply (rnd_fits _ 1023); [lia|]. lra. }
  destruct (fdiv_fin fin fs Ff Fs N0) as (Fq & Vq); [exact FQ|]. destruct (fround_fin _ Fq) as (Fr & Vr). rewrite Vq in Vr.
  destruct (fmul_fin fs (fround (fdiv fin fs)) Fs Fr) as (Fp & Vp); [rewrite Vr; exact FP|]. rewrite Vr in Vp. change (val (fmul fs (fround (fdiv fin fs))) = p) in Vp.
  pose proof (rnd_sub_rel fin (fmul fs (fround (fdiv fin fs)))) as E3. rewrite Vp in E3. fold f in E3.
  assert (PB : Rabs (f - p) <= Rabs (f - IZR k * s) + u * (3 * Rabs f)). { replace (f - p) with ((f - IZR k * s) + - (p - s * IZR k)) by ring. eapply Rle_trans; [apply Rabs_triang|]. rewrite Rabs_Ropp. nra. }
  destruct (fold_steps fin fs Ff Fs N0) as (F & V); fold f s x q k p.
  - exact FQ.
  - exact FP.
  - apply (rnd_fits _ 1023); [lia|]. clear - PB E1 DF F0 Bf B10. lra.
  - split; [exact F|]. exists d. split; [exact ND|]. rewrite V. fold f s x q k p. set (r := rnd (f - p)) in *.
    assert (T : Rabs (Rabs r - Rabs (f - IZR k * s)) <= Rabs (r - (f - IZR k * s))) by apply Rabs_triang_inv2.
    assert (T2 : Rabs (r - (f - IZR k * s)) <= u * Rabs (f - p) + u * Rabs (s * IZR k)). { replace (r - (f - IZR k * s)) with ((r - (f - p)) + - (p - s * IZR k)) by ring. eapply Rle_trans; [apply Rabs_triang|]. rewrite Rabs_Ropp. lra. }
    assert (T3 : Rabs (Rabs r - d) <= Rabs (Rabs r - Rabs (f - IZR k * s)) + (Rabs (f - IZR k * s) - d)). { replace (Rabs r - d) with ((Rabs r - Rabs (f - IZR k * s)) + (Rabs (f - IZR k * s) - d)) by ring. eapply Rle_trans; [apply Rabs_triang|]. rewrite (Rabs_pos_eq (Rabs (f - IZR k * s) - d)) by lra. lra. }
    lra.
Qed.
(** Bits of a computed double. *)
Lemma val_SF (x : fl) s m e : B2SF x = SpecFloat.S754_finite s m e -> is_finite x = true /\ val x = IZR (cond_Zopp s (Z.pos m)) * bpow radix2 e.
Proof. destruct x as [| | |s' m' e' H]; cbn [B2SF]; intros E; try discriminate. injection E as -> -> ->. split; reflexivity. Qed.
Lemma val_SF0 (x : fl) s : B2SF x = SpecFloat.S754_zero s -> is_finite x = true /\ val x = 0.
Proof. destruct x; cbn [B2SF]; intros E; try discriminate. split; reflexivity. Qed.
(** The documented range [0, fs/2] is exceeded by a rounding error: 54.75 GHz at fs = 100/3 MHz. *)
Lemma c147_range_refuted : exists fin fs : fl, is_finite fin = true /\ is_finite fs = true /\ 0 < val fs /\ is_finite (ffold_frequency fin fs) = true /\ val fs / 2 < val (ffold_frequency fin fs).
Proof.
  exists (fnum 54750000000 0), (fdiv (fnum 100000000 0) (fnum 3 0)).
  destruct (val_SF (fdiv (fnum 100000000 0) (fnum 3 0)) false 8947848533333333 (-28) ltac:(vm_compute; reflexivity)) as (F1 & V1). destruct (val_SF (fnum 54750000000 0) false 7176192000000000 (-17) ltac:(vm_compute; reflexivity)) as (F2 & V2).
  destruct (val_SF (ffold_frequency (fnum 54750000000 0) (fdiv (fnum 100000000 0) (fnum 3 0))) false 8947848533336064 (-29) ltac:(vm_compute; reflexivity)) as (F3 & V3).
  rewrite V1, V3. split; [exact F2|]. split; [exact F1|]. split; [cbn; lra|]. split; [exact F3|]. cbn. lra.
Qed.
(** Beyond 2^53 steps the result is meaningless: 2^60 at fs = 3 folds to 0 instead of 1. *)
Lemma c147_large_refuted : exists fin fs : fl, is_finite fin = true /\ is_finite fs = true /\ val fin = bpow radix2 60 /\ val fs = 3 /\ nearest_multiple_distance (val fin) (val fs) 1 /\ val (ffold_frequency fin fs) = 0.
Proof.
  exists (fnum 1 60), (fnum 3 0). destruct (fnum_fin 1 60) as (F1 & V1); [lia..|]. destruct (fnum_fin 3 0) as (F2 & V2); [lia..|]. rewrite Rmult_1_l in V1. cbn [bpow] in V2. rewrite Rmult_1_r in V2.
  split; [exact F1|]. split; [exact F2|]. split; [exact V1|]. split; [exact V2|]. split; [|apply (val_SF0 _ false); vm_compute; reflexivity].
  rewrite V1, V2. change (bpow radix2 60) with 1152921504606846976. replace 1 with (Rabs (1152921504606846976 - IZR 384307168202282325 * 3)) by (rewrite Rabs_pos_eq; lra). apply near_half; [lra|]. rewrite Rabs_pos_eq; lra.
Qed.
(** A quotient that overflows makes the result infinite. *)
Lemma c147_overflow_refuted : exists fin fs : fl, is_finite fin = true /\ is_finite fs = true /\ 0 < val fs /\ ffold_frequency fin fs = B754_infinity false.
Proof.
  exists (fnum 1 600), (fnum 1 (-600)). destruct (fnum_fin 1 600) as (F1 & V1); [lia..|]. destruct (fnum_fin 1 (-600)) as (F2 & V2); [lia..|]. split; [exact F1|]. split; [exact F2|]. split; [rewrite V2; rewrite Rmult_1_l; apply bpow_gt_0|]. apply (ev_inf _ false). vm_compute. reflexivity.
Qed.
Lemma c147_exact_ex : val (ffold_frequency (fnum 900000001 0) (fnum 800000000 0)) = 100000001 /\ val (ffold_frequency (fnum (-1200000001) (-1)) (fnum 400000000 0)) = 199999999.5.
Proof.
  split.
  - destruct (val_SF (ffold_frequency (fnum 900000001 0) (fnum 800000000 0)) false 6710886467108864 (-26) ltac:(vm_compute; reflexivity)) as (_ & ->). cbn. lra.
  - destruct (val_SF (ffold_frequency (fnum (-1200000001) (-1)) (fnum 400000000 0)) false 6710886383222784 (-25) ltac:(vm_compute; reflexivity)) as (_ & ->). cbn. lra.
Qed.

(** ** C148: folding a bin *)
Lemma ffold_eval (x : fl) n : is_finite x = true -> (2 <= n <= 2 ^ 53)%Z -> let w := val x - IZR n * IZR (Zfloor (val x / IZR n)) in
  exists r, ffold_bin x n = Ok r /\ is_finite r = true /\ val r = (if Rltb (IZR (n / 2)) (rnd w) then IZR n - rnd w else rnd w) /\ 0 <= rnd w <= IZR n /\ (0 <= val x -> rnd w = w).
Proof.
  intros Fx N w. destruct (fZ_ok n ltac:(lia)) as (En & Fn & Vn). destruct (fpymod_int x n Fx ltac:(lia)) as (b & Eb & Fb & Vb & Ex). fold w in Vb, Ex. unfold ffold_bin. rewrite En. cbn [bind]. rewrite Eb. cbn [bind].
  assert (H2 : (0 <= n / 2 <= n)%Z) by (split; [apply Z.div_pos; lia|apply Z.div_le_upper_bound; lia]). destruct (fZ_ok (n / 2) ltac:(lia)) as (_ & Fh & Vh).
  rewrite flt_ev by (apply fin_not_nan; assumption). rewrite (ev_fin _ Fh), (ev_fin _ Fb), Vh, Vb.
  pose proof (wrap_range (val x) n ltac:(lia)) as Rw. cbv zeta in Rw. fold w in Rw.
  assert (D : forall z, (Z.abs z <= 2 ^ 53)%Z -> rnd (IZR z) = IZR z). { intros z Hz. pose proof (dyadic_id z 0 Hz ltac:(lia)) as I. cbn [bpow] in I. rewrite Rmult_1_r in I. exact I. }
  assert (Rr : 0 <= rnd w <= IZR n). { split; [rewrite <- rnd_0; apply rnd_le; lra|rewrite <- (D n) by lia; apply rnd_le; lra]. }
  destruct (Rltb_spec (IZR (n / 2)) (rnd w)) as [L|L].
  - pose proof (mirror_exact (rnd w) n (rnd_double w) N (conj L (proj2 Rr))) as M. destruct (fsub_fin (fnum n 0) b Fn Fb) as (F & V). { rewrite Vn, Vb, M. rewrite Rabs_pos_eq by lra. apply Rle_lt_trans with (IZR n); [lra|]. apply Rle_lt_trans with (bpow radix2 53); [change (bpow radix2 53) with (IZR (2 ^ 53)); apply IZR_le; lia|apply bpow_lt; lia]. }
    eexists. split; [reflexivity|]. split; [exact F|]. split; [rewrite V, Vn, Vb; exact M|]. split; assumption.
  - eexists. split; [reflexivity|]. split; [exact Fb|]. split; [exact Vb|]. split; assumption.
Qed.
(** A nonnegative bin is folded without any rounding error; for an even length (or an integer bin) the result is the
    distance to the nearest multiple of n, for an odd length it is some |bin - k n| below (n + 1) / 2. *)
Lemma c148_nonneg (x : fl) n : is_finite x = true -> 0 <= val x -> (2 <= n <= 2 ^ 53)%Z ->
  exists r, ffold_bin x n = Ok r /\ is_finite r = true /\ (exists k : Z, val r = Rabs (val x - IZR k * IZR n)) /\ 0 <= val r < (IZR n + 1) / 2 /\
    (Z.Even n \/ (exists b : Z, val x = IZR b) -> nearest_multiple_distance (val x) (IZR n) (val r) /\ val r <= IZR n / 2).
Proof.
  intros Fx X0 N. destruct (ffold_eval x n Fx N) as (r & Er & Fr & Vr & Rr & Ex). set (w := val x - _) in *. specialize (Ex X0). rewrite Ex in *. change (val r = fold_bin (val x) n) in Vr.
  exists r. split; [exact Er|]. split; [exact Fr|]. split; [|split].
  - rewrite Vr. unfold fold_bin. fold w. destruct (Rltb _ _).
    + exists (Zfloor (val x / IZR n) + 1)%Z. rewrite plus_IZR. replace (val x - (IZR (Zfloor (val x / IZR n)) + 1) * IZR n) with (- (IZR n - w)) by (unfold w; ring). rewrite Rabs_Ropp, Rabs_pos_eq; lra.
    + exists (Zfloor (val x / IZR n)). rewrite Rabs_pos_eq; [unfold w; ring|]. replace (val x - _) with w by (unfold w; ring). lra.
  - pose proof (c12_general_bound (val x) n ltac:(lia)). lra.
  - rewrite Vr. intros [E|(b & B)].
    + destruct (c12_even_length (val x) n ltac:(lia) E) as (Nd & _ & U). split; assumption.
    + rewrite B. destruct (c12_integer_bin b n ltac:(lia)) as (Nd & (_ & U) & _). split; assumption.
Qed.
(** An integer bin of either sign is folded exactly. *)
Lemma c148_integer (x : fl) b n : is_finite x = true -> val x = IZR b -> (2 <= n <= 2 ^ 53)%Z ->
  exists r, ffold_bin x n = Ok r /\ is_finite r = true /\ nearest_multiple_distance (IZR b) (IZR n) (val r) /\ 0 <= val r <= IZR n / 2.
Proof.
  intros Fx X N. destruct (ffold_eval x n Fx N) as (r & Er & Fr & Vr & Rr & _). pose proof (wrap_range (val x) n ltac:(lia)) as Rw. cbv zeta in Rw. set (w := val x - _) in *.
  assert (E : rnd w = w). { assert (W : w = IZR (b - n * Zfloor (val x / IZR n))) by (unfold w; rewrite X, minus_IZR, mult_IZR; reflexivity). rewrite W in *. set (z := (b - _)%Z) in *. destruct Rw as (R1 & R2). apply (le_IZR 0) in R1. apply lt_IZR in R2. pose proof (dyadic_id z 0 ltac:(lia) ltac:(lia)) as I. cbn [bpow] in I. rewrite Rmult_1_r in I. exact I. }
  rewrite E in Vr. change (val r = fold_bin (val x) n) in Vr. exists r. split; [exact Er|]. split; [exact Fr|]. rewrite Vr, X. destruct (c12_integer_bin b n ltac:(lia)) as (Nd & U & _). split; assumption.
Qed.
(** Any finite bin, even length: the result lies in [0, n/2] and is off by at most 2^-53 n. *)
Lemma c148_even (x : fl) n : is_finite x = true -> (2 <= n <= 2 ^ 53)%Z -> Z.Even n ->
  exists r d, ffold_bin x n = Ok r /\ is_finite r = true /\ 0 <= val r <= IZR n / 2 /\ nearest_multiple_distance (val x) (IZR n) d /\ Rabs (val r - d) <= bpow radix2 (-53) * IZR n.
Proof.
  intros Fx N En. destruct (ffold_eval x n Fx N) as (r & Er & Fr & Vr & Rr & _). pose proof (wrap_range (val x) n ltac:(lia)) as Rw. cbv zeta in Rw. change (bpow radix2 (-53)) with u.
  destruct (c12_even_length (val x) n ltac:(lia) En) as (Nd & _). exists r, (fold_bin (val x) n). unfold fold_bin in *. set (w := val x - _) in *.
  assert (H2 : IZR (n / 2) = IZR n / 2). { destruct En as (h & ->). rewrite Z.mul_comm, Z.div_mul by lia. rewrite mult_IZR. field. } rewrite H2 in *.
  assert (Ew : Rabs (rnd w - w) <= u * IZR n).
  { destruct (Rle_dec (bpow radix2 (-1022)) (Rabs w)) as [G|G]; [eapply Rle_trans; [apply rnd_normal; exact G|]; rewrite (Rabs_pos_eq w) by lra; lra|].
    assert (B : Rabs (rnd w) <= bpow radix2 (-1022)) by (apply rnd_abs_le; [lia|lra]). assert (T : bpow radix2 (-1022) <= u / 4) by (replace (u / 4) with (bpow radix2 (-55)) by (cbn; lra); apply bpow_le; lia). assert (2 <= IZR n) by (apply IZR_le; lia). unfold Rabs in *. repeat destruct (Rcase_abs _); lra. }
  assert (Hd : rnd (IZR n / 2) = IZR n / 2). { rewrite <- H2. assert (0 <= n / 2 <= 2 ^ 53)%Z by (split; [apply Z.div_pos; lia|apply Z.div_le_upper_bound; lia]). pose proof (dyadic_id (n / 2) 0 ltac:(lia) ltac:(lia)) as I. cbn [bpow] in I. rewrite Rmult_1_r in I. exact I. }
  split; [exact Er|]. split; [exact Fr|]. rewrite Vr. split; [destruct (Rltb_spec (IZR n / 2) (rnd w)); lra|]. split; [exact Nd|].
  destruct (Rltb_spec (IZR n / 2) (rnd w)) as [L|L]; destruct (Rltb_spec (IZR n / 2) w) as [M|M].
  - replace (IZR n - rnd w - (IZR n - w)) with (- (rnd w - w)) by ring. rewrite Rabs_Ropp. exact Ew.
  - exfalso. apply rnd_le in M. rewrite Hd in M. lra.
  - assert (rnd w = IZR n / 2). { apply Rlt_le, rnd_le in M. rewrite Hd in M. lra. } rewrite H in *. unfold Rabs in *. repeat destruct (Rcase_abs _); lra.
  - exact Ew.
Qed.
(** A negative bin can be lost: -2^-60 folds to 0 instead of 2^-60. *)
Lemma c148_negative_refuted : exists (x : fl) n r d, is_finite x = true /\ (2 <= n <= 2 ^ 53)%Z /\ Z.Even n /\ ffold_bin x n = Ok r /\ nearest_multiple_distance (val x) (IZR n) d /\ 0 < d /\ val r = 0.
Proof.
  exists (fnum (-1) (-60)), 8192%Z. destruct (fnum_fin (-1) (-60)) as (F & V); [lia..|]. destruct (c148_even (fnum (-1) (-60)) 8192 F ltac:(lia)) as (r & _ & Er & Fr & _); [exists 4096%Z; reflexivity|].
  exists r, (bpow radix2 (-60)). split; [exact F|]. split; [lia|]. split; [exists 4096%Z; reflexivity|]. split; [exact Er|]. split; [|split; [apply bpow_gt_0|]].
  - rewrite V. replace (bpow radix2 (-60)) with (Rabs (-1 * bpow radix2 (-60) - IZR 0 * 8192)) at 2 by (rewrite Rmult_0_l, Rminus_0_r, Rabs_left; [ring|cbn; lra]). apply near_half; [lra|]. rewrite Rmult_0_l, Rminus_0_r, Rabs_left by (cbn; lra). cbn. lra.
  - assert (E2 : match ffold_bin (fnum (-1) (-60)) 8192 with Ok y => B2SF y | _ => SpecFloat.S754_nan end = SpecFloat.S754_zero false) by (vm_compute; reflexivity). rewrite Er in E2. apply (val_SF0 r false E2).
Qed.
Lemma c148_nonneg_ex : exists r, ffold_bin (fnum 23001 (-1)) 8192 = Ok r /\ val r = 3308.5.
Proof.
  destruct (fnum_fin 23001 (-1)) as (F & V); [lia..|]. destruct (c148_nonneg (fnum 23001 (-1)) 8192 F ltac:(rewrite V; cbn; lra) ltac:(lia)) as (r & Er & _). exists r. split; [exact Er|].
  assert (E2 : match ffold_bin (fnum 23001 (-1)) 8192 with Ok y => B2SF y | _ => SpecFloat.S754_nan end = SpecFloat.S754_finite false 7275468440993792 (-41)) by (vm_compute; reflexivity). rewrite Er in E2. destruct (val_SF r _ _ _ E2) as (_ & ->). cbn. lra.
Qed.

(** ** C149: the coherent frequency *)
Lemma fround_int_fin (x : fl) : is_finite x = true -> fround_int x = Ok (round_he (val x)).
Proof.
  intros F. destruct (fround_fin x F) as (_ & V). assert (E : Btrunc (fround x) = round_he (val x)). { apply eq_IZR. rewrite (Btrunc_correct 53 1024 _ (fround x)). unfold val in V. rewrite V, round_int, Ztrunc_IZR. reflexivity. }
  unfold fround_int. destruct x; try discriminate; rewrite E; reflexivity.
Qed.
Lemma fround_int_ok (x : fl) c : fround_int x = Ok c -> is_finite x = true /\ c = round_he (val x).
Proof. intros H. assert (F : is_finite x = true) by (destruct x; cbn in H; discriminate || reflexivity). split; [exact F|]. rewrite (fround_int_fin x F) in H. injection H as <-. reflexivity. Qed.
Definition fcand (t : fl) (b : Z) : fl * Z := (fabs (fsub (fnum b 0) t), b).
Lemma fdists_map t l c : fdists t l = Ok c -> c = map (fcand t) l /\ Forall (fun b => is_finite (fnum b 0) = true) l.
Proof.
  revert c. induction l as [|b l IH]; intros c; cbn [fdists].
  - intros H. injection H as <-. split; [reflexivity|constructor].
  - unfold fZ. destruct (is_finite (fnum b 0)) eqn:F; cbn [bind]; [|discriminate]. destruct (fdists t l) as [c'|]; cbn [bind]; [|discriminate]. intros H. injection H as <-. destruct (IH c' eq_refl) as (-> & A). split; [reflexivity|constructor; assumption].
Qed.
Lemma fdists_ok t l : Forall (fun b => (Z.abs b <= 2 ^ 53)%Z) l -> fdists t l = Ok (map (fcand t) l).
Proof. induction 1 as [|b l B _ IH]; [reflexivity|]. cbn [fdists]. destruct (fZ_ok b B) as (-> & _). cbn [bind]. rewrite IH. reflexivity. Qed.
(** The head of the stable sort has a least key. *)
Lemma fins_in x l y : In y (fins_key x l) <-> y = x \/ In y l.
Proof. induction l as [|z l IH]; cbn [fins_key]; [cbn; intuition|]. destruct (flt (fst z) (fst x)); cbn [In]; [rewrite IH|]; intuition. Qed.
Lemma fsort_in l y : In y (fsort_key l) <-> In y l.
Proof. induction l as [|x l IH]; [reflexivity|]. cbn [fsort_key fold_right]. fold (fsort_key l). rewrite fins_in, IH. cbn [In]. intuition. Qed.
Lemma fsort_head l : Forall (fun p => is_nan (fst p) = false) l -> forall p t, fsort_key l = p :: t -> forall q, In q l -> ev (fst p) <= ev (fst q).
Proof.
  induction 1 as [|x l Nx A IH]; intros p t E; [discriminate|]. cbn [fsort_key fold_right] in E. fold (fsort_key l) in E. destruct (fsort_key l) as [|y s] eqn:S.
  - cbn in E. injection E as <- <-. intros q [<-|Q]; [lra|]. apply fsort_in in Q. rewrite S in Q. destruct Q.
  - assert (Iy : In y l) by (apply fsort_in; rewrite S; left; reflexivity). assert (Ny : is_nan (fst y) = false) by (rewrite Forall_forall in A; apply A, Iy). cbn [fins_key] in E. rewrite (flt_ev _ _ Ny Nx) in E. destruct (Rltb_spec (ev (fst y)) (ev (fst x))) as [L|L]; injection E as <- _; intros q [<-|Q]; try lra.
    + apply (IH y s eq_refl q Q).
    + pose proof (IH y s eq_refl q Q). lra.
Qed.
(** On candidates in increasing bin order, the head has the lowest bin among the least keys. *)
Lemma fsort_first l d b t : Forall (fun p => is_nan (fst p) = false) l -> StronglySorted (fun x y => (snd x < snd y)%Z) l ->
  fsort_key l = (d, b) :: t -> forall y, In y l -> ev (fst y) = ev d -> (b <= snd y)%Z.
Proof.
  intros A. revert d b t. induction A as [|x l Nx A IH]; intros d b t S E y Hy Ey; [easy|]. apply StronglySorted_inv in S as [S F]. cbn [fsort_key fold_right] in E. fold (fsort_key l) in E. destruct (fsort_key l) as [|[d' b'] t'] eqn:E'.
  - cbn in E. injection E as E _. assert (l = []). { destruct l as [|z l]; [reflexivity|]. exfalso. pose proof (proj2 (fsort_in (z :: l) z) (or_introl eq_refl)) as H. rewrite E' in H. easy. } subst l. destruct Hy as [<-|[]]. subst x. cbn. lia.
  - assert (Iy : In (d', b') l) by (apply fsort_in; rewrite E'; left; reflexivity). assert (Ny : is_nan d' = false) by (rewrite Forall_forall in A; apply (A _ Iy)). cbn [fins_key fst] in E. rewrite (flt_ev _ _ Ny Nx) in E. destruct (Rltb_spec (ev d') (ev (fst x))) as [L|L].
    + injection E as <- <- _. destruct Hy as [<-|Hy]; [lra|]. apply (IH d' b' t' S eq_refl y Hy Ey).
    + injection E as -> _. cbn [fst snd] in *. destruct Hy as [<-|Hy]; [cbn; lia|]. rewrite Forall_forall in F. specialize (F y Hy). cbn in F. lia.
Qed.
Lemma fcand_nan t b : is_finite t = true -> is_finite (fnum b 0) = true -> is_nan (fst (fcand t b)) = false.
Proof. intros Ft Fb. destruct (fsub_ev (fnum b 0) t Fb Ft) as (N & _). unfold fcand, fabs. cbn [fst]. destruct (fsub (fnum b 0) t); cbn in *; congruence. Qed.
(** Whatever the rounding, a returned bin is positive, odd when asked, coprime to the length, and within the search
    radius of the rounded double target. *)
Lemma c149_valid (fs fin : fl) n fo r f b : ffind_coherent fs fin n fo r = Ok (f, b) ->
  admissible fo n b /\ n <> 0%Z /\ exists c, fround_int (fmul (fdiv fin fs) (fnum n 0)) = Ok c /\ (Z.abs (b - c) <= r)%Z.
Proof.
  unfold ffind_coherent. destruct (Beqb fs fzero); [discriminate|]. unfold fZ at 1. destruct (is_finite (fnum n 0)) eqn:Fn; cbn [bind]; [|discriminate]. set (t := fmul _ _).
  destruct (fround_int t) as [c|] eqn:C; cbn [bind]; [|discriminate]. destruct (fdists t _) as [cs|] eqn:D; cbn [bind]; [|discriminate]. apply fdists_map in D as (-> & _).
  destruct (fsort_key _) as [|[d b0] tl] eqn:S; [discriminate|]. destruct (Z.eqb_spec n 0) as [|N0]; [discriminate|]. destruct (fZ b0) as [x|]; cbn [bind]; [|discriminate]. intros E. injection E as _ <-.
  assert (I : In (d, b0) (fsort_key (map (fcand t) (filter (bin_ok fo n) (map (fun i => (c + i)%Z) (radius_range r)))))) by (rewrite S; left; reflexivity). apply fsort_in, in_map_iff in I as (b1 & E1 & I). injection E1 as _ ->. apply filter_In in I as (I & B). apply bin_ok_spec in B. apply in_map_iff in I as (i & <- & I). apply radius_range_in in I.
  split; [exact B|]. split; [exact N0|]. exists c. split; [reflexivity|lia].
Qed.
(** The search, for a finite target of moderate size. *)
Lemma ffind_eval (fs fin : fl) n fo r : is_finite fs = true -> val fs <> 0 -> (1 <= n <= 2 ^ 53)%Z -> (r <= 2 ^ 50)%Z -> let t := fmul (fdiv fin fs) (fnum n 0) in is_finite t = true -> Rabs (val t) <= bpow radix2 52 ->
  match ffind_coherent fs fin n fo r with
  | Ok (f, b) => f = fdiv (fmul (fnum b 0) fs) (fnum n 0) /\ (Z.abs b <= 2 ^ 53)%Z /\ admissible fo n b /\ (Z.abs (b - round_he (val t)) <= r)%Z /\ forall b', admissible fo n b' -> (Z.abs (b' - round_he (val t)) <= r)%Z -> Rabs (rnd (IZR b - val t)) <= Rabs (rnd (IZR b' - val t)) /\ (Rabs (rnd (IZR b - val t)) = Rabs (rnd (IZR b' - val t)) -> (b <= b')%Z)
  | Err e => e = ValueError /\ forall b', admissible fo n b' -> ~ (Z.abs (b' - round_he (val t)) <= r)%Z
  end.
Proof.
  intros Fs N0 N Rr t Ft Bt. unfold ffind_coherent. rewrite (proj2 (feq0 fs Fs) N0). destruct (fZ_ok n ltac:(lia)) as (-> & Fn & Vn). cbn [bind]. fold t. rewrite (fround_int_fin t Ft). cbn [bind]. set (c := round_he (val t)).
  assert (C : (Z.abs c <= 2 ^ 52 + 1)%Z). { pose proof (round_he_half (val t)) as H. fold c in H. apply le_IZR. rewrite abs_IZR. assert (Rabs (IZR c) <= Rabs (val t) + / 2). { replace (IZR c) with (val t + (IZR c - val t)) by ring. eapply Rle_trans; [apply Rabs_triang|]. lra. } change (bpow radix2 52) with (IZR (2 ^ 52)) in Bt. rewrite plus_IZR. lra. }
  set (bins := filter _ _). assert (IB : forall b, In b bins <-> admissible fo n b /\ (Z.abs (b - c) <= r)%Z). { intros b. unfold bins. rewrite filter_In, bin_ok_spec, in_map_iff. split.
    - intros ((i & <- & I) & A). apply radius_range_in in I. split; [exact A|lia].
    - intros (A & I). split; [|exact A]. exists (b - c)%Z. split; [lia|]. apply radius_range_in. lia. }
  assert (B53 : forall b, In b bins -> (Z.abs b <= 2 ^ 53)%Z). { intros b I. apply IB in I as (_ & I). lia. }
  rewrite fdists_ok by (apply Forall_forall; exact B53). cbn [bind].
  assert (NN : Forall (fun p => is_nan (fst p) = false) (map (fcand t) bins)). { apply Forall_forall. intros p Ip. apply in_map_iff in Ip as (b & <- & I). apply fcand_nan; [exact Ft|]. apply fZ_ok, B53, I. }
  pose proof (fsort_head _ NN) as Hd. pose proof (fsort_in (map (fcand t) bins)) as Si. destruct (fsort_key (map (fcand t) bins)) as [|[d b] tl] eqn:S.
  - split; [reflexivity|]. intros b' A I. assert (X : In b' bins) by (apply IB; split; assumption). apply (in_map (fcand t)), Si in X. destruct X.
  - destruct (Z.eqb_spec n 0) as [|_]; [lia|]. assert (I : In (d, b) (map (fcand t) bins)) by (apply Si; left; reflexivity). apply in_map_iff in I as (b1 & E1 & I). unfold fcand in E1. injection E1 as <- ->.
    destruct (fZ_ok b (B53 _ I)) as (-> & Fb & Vb). cbn [bind]. split; [reflexivity|]. split; [apply B53, I|]. pose proof (proj1 (IB _) I) as (A & L). split; [exact A|]. split; [exact L|]. intros b' A' L'.
    assert (I' : In b' bins) by (apply IB; split; assumption). specialize (Hd _ _ eq_refl _ (in_map (fcand t) _ _ I')). cbn [fst fcand] in Hd.
    assert (V : forall z, In z bins -> ev (fabs (fsub (fnum z 0) t)) = Rabs (rnd (IZR z - val t))). { intros z Iz. destruct (fZ_ok z (B53 _ Iz)) as (_ & Fz & Vz). destruct (fsub_fin (fnum z 0) t Fz Ft) as (F & V').
      - rewrite Vz. apply (rnd_fits _ 54); [lia|]. pose proof (B53 _ Iz) as Bz. apply IZR_le in Bz. rewrite abs_IZR in Bz. unfold Rminus. eapply Rle_trans; [apply Rabs_triang|]. rewrite Rabs_Ropp. change (bpow radix2 52) with 4503599627370496 in Bt. change (bpow radix2 54) with 18014398509481984. change (IZR (2 ^ 53)) with 9007199254740992 in Bz. lra.
      - destruct (fabs_fin (fsub (fnum z 0) t)) as (Fa & Va). rewrite ev_fin by (rewrite Fa; exact F). rewrite Va, V', Vz. reflexivity. }
    rewrite !V in Hd by assumption. split; [exact Hd|]. intros Eq. rewrite <- !V in Eq by assumption.
    apply (fsort_first _ _ _ _ NN) with (y := fcand t b') in S; [exact S| |apply in_map; exact I'|symmetry; exact Eq].
    apply StronglySorted_map. unfold bins, fcand. cbn [snd]. apply StronglySorted_filter. unfold radius_range. rewrite map_map. apply StronglySorted_map_seq. intros i j Hij. lia.
Qed.
Lemma rnd_pos_rel x lo hi : (-1022 <= lo)%Z -> (-1022 <= hi)%Z -> bpow radix2 lo <= x <= bpow radix2 hi ->
  bpow radix2 lo <= rnd x <= bpow radix2 hi /\ exists d, Rabs d <= u /\ rnd x = x * (1 + d).
Proof.
  intros L H X. assert (P := bpow_gt_0 radix2 lo). assert (I : forall k, (-1022 <= k)%Z -> rnd (bpow radix2 k) = bpow radix2 k). { intros k K. pose proof (dyadic_id 1 k ltac:(lia) ltac:(lia)) as I. rewrite Rmult_1_l in I. exact I. }
  split; [split; [rewrite <- (I lo L)|rewrite <- (I hi H)]; apply rnd_le; lra|]. exists ((rnd x - x) / x). split; [|field; lra]. unfold Rdiv. rewrite Rabs_mult, Rabs_inv. pose proof (rnd_normal x) as E. rewrite (Rabs_pos_eq x) in * by lra. assert (bpow radix2 (-1022) <= x) by (eapply Rle_trans; [apply bpow_le, L|lra]). specialize (E H0). apply Rmult_le_reg_r with x; [lra|]. rewrite Rmult_assoc, Rinv_l by lra. lra.
Qed.
(** The returned frequency b * fs / n: two roundings. *)
Lemma coherent_value (fs : fl) n b : is_finite fs = true -> bpow radix2 (-900) <= val fs <= bpow radix2 900 -> (1 <= n <= 2 ^ 53)%Z -> (1 <= b <= 2 ^ 53)%Z ->
  let f := fdiv (fmul (fnum b 0) fs) (fnum n 0) in is_finite f = true /\ bpow radix2 (-953) <= val f <= bpow radix2 953 /\
  exists d1 d2, Rabs d1 <= u /\ Rabs d2 <= u /\ val f = IZR b * val fs / IZR n * (1 + d1) * (1 + d2).
Proof.
  intros Fs S N B f. destruct (fZ_ok b ltac:(lia)) as (_ & Fb & Vb). destruct (fZ_ok n ltac:(lia)) as (_ & Fn & Vn).
  assert (B' : 1 <= IZR b <= bpow radix2 53) by (split; [apply (IZR_le 1)|change (bpow radix2 53) with (IZR (2 ^ 53)); apply IZR_le]; lia). assert (N' : 1 <= IZR n <= bpow radix2 53) by (split; [apply (IZR_le 1)|change (bpow radix2 53) with (IZR (2 ^ 53)); apply IZR_le]; lia).
  assert (P0 := bpow_gt_0 radix2 (-900)). assert (P1 := bpow_gt_0 radix2 900). assert (P2 := bpow_gt_0 radix2 53).
  assert (X1 : bpow radix2 (-900) <= IZR b * val fs <= bpow radix2 953). { change 953%Z with (53 + 900)%Z. rewrite bpow_plus. split; [nra|]. apply Rmult_le_compat; lra. }
  destruct (rnd_pos_rel _ (-900) 953 ltac:(lia) ltac:(lia) X1) as (L1 & d1 & D1 & E1).
  assert (BG : forall x, bpow radix2 (-1022) <= x <= bpow radix2 1000 -> Rabs (rnd x) < big). { intros x Hx. apply (rnd_fits _ 1000); [lia|]. rewrite Rabs_pos_eq; [lra|]. pose proof (bpow_gt_0 radix2 (-1022)). lra. }
  assert (W : bpow radix2 (-1022) <= bpow radix2 (-953) /\ bpow radix2 (-953) <= bpow radix2 (-900) /\ bpow radix2 953 <= bpow radix2 1000) by (repeat split; apply bpow_le; lia).
  destruct (fmul_fin (fnum b 0) fs Fb Fs) as (Fm & Vm). { rewrite Vb. apply BG. clear - X1 W. lra. } rewrite Vb in Vm.
  assert (X2 : bpow radix2 (-953) <= val (fmul (fnum b 0) fs) / IZR n <= bpow radix2 953). { rewrite Vm. split.
    - change (-953)%Z with (-900 + - (53))%Z. rewrite bpow_plus, bpow_opp. unfold Rdiv. apply Rmult_le_compat; [lra|left; apply Rinv_0_lt_compat; lra|lra|apply Rinv_le; lra].
    - apply Rle_trans with (rnd (IZR b * val fs)); [|lra]. apply Rmult_le_reg_r with (IZR n); [lra|]. unfold Rdiv. rewrite Rmult_assoc, Rinv_l by lra. nra. }
  destruct (rnd_pos_rel _ (-953) 953 ltac:(lia) ltac:(lia) X2) as (L2 & d2 & D2 & E2).
  destruct (fdiv_fin (fmul (fnum b 0) fs) (fnum n 0) Fm Fn) as (F & V); [lra|rewrite Vn; apply BG; lra|]. rewrite Vn in V. fold f in F, V. split; [exact F|]. rewrite V. split; [exact L2|]. exists d1, d2. split; [exact D1|]. split; [exact D2|]. rewrite E2, Vm, E1. field. lra.
Qed.
(** The returned frequency is b * fs / n up to a relative error of 2^-51. *)
Lemma c149_frequency (fs fin : fl) n fo r f b : is_finite fs = true -> bpow radix2 (-900) <= val fs <= bpow radix2 900 -> (1 <= n <= 2 ^ 53)%Z -> ffind_coherent fs fin n fo r = Ok (f, b) -> (b <= 2 ^ 53)%Z ->
  is_finite f = true /\ Rabs (val f - IZR b * val fs / IZR n) <= bpow radix2 (-51) * (IZR b * val fs / IZR n).
Proof.
  intros Fs S N H B. destruct (c149_valid _ _ _ _ _ _ _ H) as ((B0 & _) & _). assert (E : f = fdiv (fmul (fnum b 0) fs) (fnum n 0)).
  { revert H. unfold ffind_coherent. destruct (Beqb fs fzero); [discriminate|]. destruct (fZ_ok n ltac:(lia)) as (-> & _). cbn [bind]. destruct (fround_int _); cbn [bind]; [|discriminate]. destruct (fdists _ _); cbn [bind]; [|discriminate]. destruct (fsort_key _) as [|[d b0] tl]; [discriminate|]. destruct (Z.eqb n 0); [discriminate|]. unfold fZ. destruct (is_finite (fnum b0 0)); cbn [bind]; [|discriminate]. intros E. injection E as <- <-. reflexivity. }
  destruct (coherent_value fs n b Fs S N ltac:(lia)) as (F & _ & d1 & d2 & D1 & D2 & V). rewrite <- E in *. split; [exact F|]. rewrite V. set (g := IZR b * val fs / IZR n).
  assert (G : 0 < g). { unfold g. assert (0 < IZR b) by (apply (IZR_lt 0); lia). assert (0 < IZR n) by (apply (IZR_lt 0); lia). pose proof (bpow_gt_0 radix2 (-900)). unfold Rdiv. apply Rmult_lt_0_compat; [nra|apply Rinv_0_lt_compat; lra]. }
  replace (g * (1 + d1) * (1 + d2) - g) with (g * (d1 + d2 + d1 * d2)) by ring. rewrite Rabs_mult, (Rabs_pos_eq g) by lra. rewrite Rmult_comm. apply Rmult_le_compat_r; [lra|]. change (bpow radix2 (-51)) with (4 * u * 1) || (replace (bpow radix2 (-51)) with (4 * u) by (cbn; lra)).
  apply Rabs_le_inv in D1. apply Rabs_le_inv in D2. apply Rabs_le. nra.
Qed.
(** Asking again for the returned frequency returns the same frequency and the same bin, for bins up to 2^49. *)
Lemma c149_idempotent (fs fin : fl) n fo r f b r' : is_finite fs = true -> bpow radix2 (-900) <= val fs <= bpow radix2 900 -> (1 <= n <= 2 ^ 53)%Z -> ffind_coherent fs fin n fo r = Ok (f, b) -> (b <= 2 ^ 49)%Z -> (0 <= r' <= 2 ^ 50)%Z ->
  ffind_coherent fs f n fo r' = Ok (f, b).
Proof.
  intros Fs S N H B R'. destruct (c149_valid _ _ _ _ _ _ _ H) as (A & _). assert (B0 := proj1 A). assert (E : f = fdiv (fmul (fnum b 0) fs) (fnum n 0)).
  { revert H. unfold ffind_coherent. destruct (Beqb fs fzero); [discriminate|]. destruct (fZ_ok n ltac:(lia)) as (-> & _). cbn [bind]. destruct (fround_int _); cbn [bind]; [|discriminate]. destruct (fdists _ _); cbn [bind]; [|discriminate]. destruct (fsort_key _) as [|[d b0] tl]; [discriminate|]. destruct (Z.eqb n 0); [discriminate|]. unfold fZ. destruct (is_finite (fnum b0 0)); cbn [bind]; [|discriminate]. intros E. injection E as <- <-. reflexivity. }
  destruct (coherent_value fs n b Fs S N ltac:(lia)) as (Ff & Lf & d1 & d2 & D1 & D2 & V). rewrite <- E in *.
  destruct (fZ_ok n ltac:(lia)) as (_ & Fn & Vn). assert (N' : 1 <= IZR n <= 9007199254740992) by (split; [apply (IZR_le 1)|apply (IZR_le _ (2 ^ 53))]; lia). assert (B' : 1 <= IZR b <= 562949953421312) by (split; [apply (IZR_le 1)|apply (IZR_le _ (2 ^ 49))]; lia).
  assert (P0 := bpow_gt_0 radix2 (-900)). apply Rabs_le_inv in D1. apply Rabs_le_inv in D2.
  assert (Q : val f / val fs = IZR b / IZR n * ((1 + d1) * (1 + d2))) by (rewrite V; field; lra).
  assert (G0 : bpow radix2 (-53) <= IZR b / IZR n <= bpow radix2 49). { split; [change (bpow radix2 (-53)) with u|change (bpow radix2 49) with 562949953421312]; (apply Rmult_le_reg_r with (IZR n); [lra|]; unfold Rdiv; rewrite Rmult_assoc, Rinv_l by lra; nra). }
  assert (D12 : / 2 <= (1 + d1) * (1 + d2) <= 2) by nra.
  assert (X3 : bpow radix2 (-54) <= val f / val fs <= bpow radix2 50). { rewrite Q. replace (bpow radix2 (-54)) with (bpow radix2 (-53) * / 2) by (cbn; lra). replace (bpow radix2 50) with (bpow radix2 49 * 2) by (cbn; lra). assert (0 < bpow radix2 (-53)) by apply bpow_gt_0. split; apply Rmult_le_compat; lra. }
  destruct (rnd_pos_rel _ (-54) 50 ltac:(lia) ltac:(lia) X3) as (L3 & d3 & D3 & E3). apply Rabs_le_inv in D3.
  assert (BG : forall x, bpow radix2 (-54) <= x <= bpow radix2 103 -> Rabs (rnd x) < big). { intros x Hx. apply (rnd_fits _ 103); [lia|]. rewrite Rabs_pos_eq; [lra|]. pose proof (bpow_gt_0 radix2 (-54)). lra. }
  assert (W : bpow radix2 50 <= bpow radix2 103) by (apply bpow_le; lia).
  destruct (fdiv_fin f fs Ff Fs ltac:(lra)) as (Fq & Vq); [apply BG; lra|].
  assert (X4 : bpow radix2 (-54) <= val (fdiv f fs) * IZR n <= bpow radix2 103). { rewrite Vq. assert (0 < bpow radix2 (-54)) by apply bpow_gt_0. split; [nra|]. change 103%Z with (50 + 53)%Z. rewrite bpow_plus. apply Rmult_le_compat; try lra. change (bpow radix2 53) with 9007199254740992. lra. }
  destruct (rnd_pos_rel _ (-54) 103 ltac:(lia) ltac:(lia) X4) as (L4 & d4 & D4 & E4). apply Rabs_le_inv in D4.
  destruct (fmul_fin (fdiv f fs) (fnum n 0) Fq Fn) as (Ft & Vt); [rewrite Vn; apply BG; lra|]. rewrite Vn in Vt.
  assert (T : val (fmul (fdiv f fs) (fnum n 0)) = IZR b * ((1 + d1) * (1 + d2) * ((1 + d3) * (1 + d4)))). { rewrite Vt, E4, Vq, E3, Q. field. lra. }
  set (t := fmul (fdiv f fs) (fnum n 0)) in *.
  assert (Z12 : - (3 * u) <= (1 + d1) * (1 + d2) - 1 <= 3 * u) by nra. assert (Z34 : - (3 * u) <= (1 + d3) * (1 + d4) - 1 <= 3 * u) by nra.
  set (g12 := (1 + d1) * (1 + d2)) in *. set (g34 := (1 + d3) * (1 + d4)) in *. assert (ZZ : - (5 / 9007199254740992 * 1.25) <= g12 * g34 - 1 <= 5 / 9007199254740992 * 1.25) by nra.
  assert (TB : Rabs (IZR b - val t) <= 0.4). { rewrite T. replace (IZR b - IZR b * (g12 * g34)) with (IZR b * (- (g12 * g34 - 1))) by ring. rewrite Rabs_mult, Rabs_Ropp, (Rabs_pos_eq (IZR b)) by lra. apply Rle_trans with (562949953421312 * (5 / 9007199254740992 * 1.25)); [|lra]. apply Rmult_le_compat; [lra|apply Rabs_pos|lra|apply Rabs_le; lra]. }
  assert (C : round_he (val t) = b). { apply Znearest_imp. rewrite Rabs_minus_sym. lra. }
  pose proof (ffind_eval fs f n fo r' Fs ltac:(lra) N ltac:(lia) Ft) as EV. fold t in EV. rewrite C in EV. assert (T52 : Rabs (val t) <= bpow radix2 52). { apply Rabs_le_inv in TB. change (bpow radix2 52) with 4503599627370496. apply Rabs_le. lra. } specialize (EV T52).
  destruct (ffind_coherent fs f n fo r') as [[f' b']|e].
  - destruct EV as (E' & _ & _ & _ & M). destruct (Z.eq_dec b' b) as [->|NE]; [rewrite E', <- E; reflexivity|exfalso]. destruct (M b A ltac:(lia)) as (M1 & _).
    assert (Lb : Rabs (rnd (IZR b - val t)) <= bpow radix2 (-1)) by (apply rnd_abs_le; [lia|cbn; lra]).
    assert (Sd : forall x, Rabs x <= 0.4 -> Rabs (rnd x) <= 7 / 16). { intros x Hx. apply Rabs_le_inv in Hx. assert (I : forall k, (Z.abs k <= 16)%Z -> rnd (IZR k * bpow radix2 (-4)) = IZR k * bpow radix2 (-4)) by (intros k K; apply dyadic_id; lia). apply Rabs_le. split; [replace (- (7 / 16)) with (IZR (-7) * bpow radix2 (-4)) by (cbn; lra)|replace (7 / 16) with (IZR 7 * bpow radix2 (-4)) by (cbn; lra)]; rewrite <- I by lia; apply rnd_le; cbn; lra. }
    specialize (Sd _ TB). assert (G : 0.6 <= Rabs (IZR b' - val t)). { assert (1 <= Rabs (IZR b' - IZR b)) by (rewrite <- minus_IZR, <- abs_IZR; apply (IZR_le 1); lia). assert (Rabs (IZR b' - IZR b) <= Rabs (IZR b' - val t) + Rabs (IZR b - val t)); [|lra]. replace (IZR b' - IZR b) with ((IZR b' - val t) + - (IZR b - val t)) by ring. eapply Rle_trans; [apply Rabs_triang|]. rewrite Rabs_Ropp. lra. }
    assert (Gb : / 2 <= Rabs (rnd (IZR b' - val t))). { assert (I1 : rnd (/ 2) = / 2) by (pose proof (dyadic_id 1 (-1) ltac:(lia) ltac:(lia)) as I; rewrite Rmult_1_l in I; exact I). assert (I2 : rnd (- / 2) = - / 2) by (pose proof (dyadic_id (-1) (-1) ltac:(lia) ltac:(lia)) as I; replace (-1 * bpow radix2 (-1)) with (- / 2) in I by (cbn; lra); exact I).
      set (y := IZR b' - val t) in *. destruct (Rle_dec 0 y) as [Y|Y].
      - rewrite Rabs_pos_eq in G by lra. assert (/ 2 <= rnd y) by (rewrite <- I1; apply rnd_le; lra). rewrite Rabs_pos_eq; lra.
      - rewrite Rabs_left in G by lra. assert (rnd y <= - / 2) by (rewrite <- I2; apply rnd_le; lra). rewrite Rabs_left; lra. }
    lra.
  - destruct EV as (_ & M). exfalso. apply (M b A). lia.
Qed.
(** Against the exact target fin / fs * n: some bin is returned when an admissible one lies within radius - 1, and no
    admissible bin there is closer by more than 2^-50 (target + radius). *)
Lemma c149_nearest (fs fin : fl) n fo r b' : is_finite fs = true -> is_finite fin = true -> 0 < val fs -> (1 <= n <= 2 ^ 53)%Z -> (r <= 2 ^ 50)%Z ->
  let T := val fin / val fs * IZR n in bpow radix2 (-900) <= val fin / val fs -> T <= bpow radix2 48 ->
  admissible fo n b' -> Rabs (IZR b' - T) <= IZR r - 1 ->
  exists f b, ffind_coherent fs fin n fo r = Ok (f, b) /\ Rabs (IZR b - T) <= Rabs (IZR b' - T) + bpow radix2 (-50) * (T + IZR r).
Proof.
  intros Fs Ff P N R0 T L U A' Bb. replace (bpow radix2 (-50)) with (8 * u) by (cbn; lra). destruct (fZ_ok n ltac:(lia)) as (_ & Fn & Vn). assert (N' : 1 <= IZR n <= 9007199254740992) by (split; [apply (IZR_le 1)|apply (IZR_le _ (2 ^ 53))]; lia).
  assert (P0 := bpow_gt_0 radix2 (-900)). set (x := val fin / val fs) in *. assert (X1 : bpow radix2 (-900) <= x <= bpow radix2 48). { split; [exact L|]. unfold T in U. nra. }
  destruct (rnd_pos_rel _ (-900) 48 ltac:(lia) ltac:(lia) X1) as (L1 & d1 & D1 & E1). apply Rabs_le_inv in D1.
  assert (BG : forall y, bpow radix2 (-900) <= y <= bpow radix2 101 -> Rabs (rnd y) < big). { intros y Hy. apply (rnd_fits _ 101); [lia|]. rewrite Rabs_pos_eq; lra. }
  assert (W : bpow radix2 48 <= bpow radix2 101) by (apply bpow_le; lia).
  destruct (fdiv_fin fin fs Ff Fs ltac:(lra)) as (Fq & Vq); [apply BG; fold x; lra|]. fold x in Vq.
  assert (X2 : bpow radix2 (-900) <= val (fdiv fin fs) * IZR n <= bpow radix2 101). { rewrite Vq. split; [nra|]. change 101%Z with (48 + 53)%Z. rewrite bpow_plus. apply Rmult_le_compat; try lra. change (bpow radix2 53) with 9007199254740992. lra. }
  destruct (rnd_pos_rel _ (-900) 101 ltac:(lia) ltac:(lia) X2) as (L2 & d2 & D2 & E2). apply Rabs_le_inv in D2.
  destruct (fmul_fin (fdiv fin fs) (fnum n 0) Fq Fn) as (Ft & Vt); [rewrite Vn; apply BG; lra|]. rewrite Vn, E2, Vq, E1 in Vt. set (t := fmul (fdiv fin fs) (fnum n 0)) in *.
  assert (Tp : 0 < T) by (unfold T; nra). change (bpow radix2 48) with 281474976710656 in U.
  assert (Z12 : - (3 * u) <= (1 + d1) * (1 + d2) - 1 <= 3 * u) by nra. assert (Et : val t = T * ((1 + d1) * (1 + d2))) by (rewrite Vt; unfold T; ring). set (g := (1 + d1) * (1 + d2)) in *.
  assert (ET : Rabs (val t - T) <= 3 * u * T). { rewrite Et. replace (T * g - T) with (T * (g - 1)) by ring. rewrite Rabs_mult, (Rabs_pos_eq T) by lra. rewrite Rmult_comm. apply Rmult_le_compat_r; [lra|]. apply Rabs_le. lra. }
  assert (ET2 : Rabs (val t - T) <= 0.1) by lra.
  pose proof (ffind_eval fs fin n fo r Fs ltac:(lra) N R0 Ft) as EV. fold t in EV. assert (T52 : Rabs (val t) <= bpow radix2 52). { apply Rabs_le_inv in ET2. change (bpow radix2 52) with 4503599627370496. apply Rabs_le. lra. } specialize (EV T52).
  pose proof (round_he_half (val t)) as Hc. set (c := round_he (val t)) in *.
  assert (I' : (Z.abs (b' - c) <= r)%Z). { apply le_IZR. rewrite abs_IZR, minus_IZR. replace (IZR b' - IZR c) with ((IZR b' - T) + (- (val t - T) + - (IZR c - val t))) by ring. eapply Rle_trans; [apply Rabs_triang|]. assert (Rabs (- (val t - T) + - (IZR c - val t)) <= 1); [|lra]. eapply Rle_trans; [apply Rabs_triang|]. rewrite !Rabs_Ropp. lra. }
  assert (R1 : 1 <= IZR r). { pose proof (Rabs_pos (IZR b' - T)). lra. }
  destruct (ffind_coherent fs fin n fo r) as [[f b]|e]; [|destruct EV as (_ & EV); exfalso; exact (EV b' A' I')].
  exists f, b. split; [reflexivity|]. destruct EV as (_ & B53 & A & I & M). destruct (M b' A' I') as (M1 & _).
  assert (B53' : (Z.abs b' <= 2 ^ 53)%Z). { assert (C : (Z.abs c <= 2 ^ 52 + 1)%Z). { apply le_IZR. rewrite abs_IZR. assert (Rabs (IZR c) <= Rabs (val t) + / 2). { replace (IZR c) with (val t + (IZR c - val t)) by ring. eapply Rle_trans; [apply Rabs_triang|]. lra. } change (bpow radix2 52) with (IZR (2 ^ 52)) in T52. rewrite plus_IZR. lra. } lia. }
  assert (RS : forall z, (Z.abs z <= 2 ^ 53)%Z -> Rabs (Rabs (rnd (IZR z - val t)) - Rabs (IZR z - val t)) <= u * Rabs (IZR z - val t)). { intros z Hz. destruct (fZ_ok z Hz) as (_ & _ & Vz). pose proof (rnd_sub_rel (fnum z 0) t) as Q. rewrite Vz in Q. eapply Rle_trans; [apply Rabs_triang_inv2|exact Q]. }
  pose proof (RS b B53) as Rb. pose proof (RS b' B53') as Rb'. apply Rabs_le_inv in Rb. apply Rabs_le_inv in Rb'.
  assert (Db : Rabs (IZR b - val t) <= IZR r + / 2). { apply IZR_le in I. rewrite abs_IZR, minus_IZR in I. replace (IZR b - val t) with ((IZR b - IZR c) + (IZR c - val t)) by ring. eapply Rle_trans; [apply Rabs_triang|]. lra. }
  assert (Db' : Rabs (IZR b' - val t) <= Rabs (IZR b' - T) + 3 * u * T). { replace (IZR b' - val t) with ((IZR b' - T) + - (val t - T)) by ring. eapply Rle_trans; [apply Rabs_triang|]. rewrite Rabs_Ropp. lra. }
  assert (DT : Rabs (IZR b - T) <= Rabs (IZR b - val t) + 3 * u * T). { replace (IZR b - T) with ((IZR b - val t) + (val t - T)) by ring. eapply Rle_trans; [apply Rabs_triang|]. lra. }
  lra.
Qed.
(** A power-of-two length and a sampling rate with few significant bits: the returned frequency is exactly coherent. *)
Lemma c149_power_of_two (fs fin : fl) m fo r f b a e : is_finite fs = true -> val fs = IZR a * bpow radix2 e -> (-1000 <= e <= 900)%Z -> (0 <= m <= 53)%Z -> ffind_coherent fs fin (2 ^ m) fo r = Ok (f, b) -> (b * Z.abs a <= 2 ^ 53)%Z -> (b <= 2 ^ 53)%Z ->
  is_finite f = true /\ val f * bpow radix2 m = IZR b * val fs.
Proof.
  intros Fs S E M H AB B. destruct (c149_valid _ _ _ _ _ _ _ H) as ((B0 & _) & _). assert (M53 : (1 <= 2 ^ m <= 2 ^ 53)%Z). { split; [pose proof (Z.pow_pos_nonneg 2 m); lia|apply Z.pow_le_mono_r; lia]. }
  destruct (fZ_ok (2 ^ m) ltac:(lia)) as (En & Fn & Vn). rewrite pow2_bpow in Vn by lia.
  assert (Ef : f = fdiv (fmul (fnum b 0) fs) (fnum (2 ^ m) 0)).
  { revert H. unfold ffind_coherent. destruct (Beqb fs fzero); [discriminate|]. rewrite En. cbn [bind]. destruct (fround_int _); cbn [bind]; [|discriminate]. destruct (fdists _ _); cbn [bind]; [|discriminate]. destruct (fsort_key _) as [|[d b0] tl]; [discriminate|]. destruct (Z.eqb _ 0); [discriminate|]. unfold fZ. destruct (is_finite (fnum b0 0)); cbn [bind]; [|discriminate]. intros E'. injection E' as <- <-. reflexivity. }
  destruct (fZ_ok b ltac:(lia)) as (_ & Fb & Vb). assert (K : (Z.abs (b * a) <= 2 ^ 53)%Z) by (rewrite Z.abs_mul; lia).
  assert (P1 : val (fnum b 0) * val fs = IZR (b * a) * bpow radix2 e) by (rewrite Vb, S, mult_IZR; ring).
  destruct (fmul_fin (fnum b 0) fs Fb Fs) as (Fm & Vm). { rewrite P1, dyadic_id by lia. apply dyadic_big; lia. } rewrite P1, dyadic_id in Vm by lia.
  assert (Pm := bpow_gt_0 radix2 m). assert (P2 : val (fmul (fnum b 0) fs) / val (fnum (2 ^ m) 0) = IZR (b * a) * bpow radix2 (e - m)). { rewrite Vm, Vn. unfold Z.sub. rewrite bpow_plus, bpow_opp. field. lra. }
  destruct (fdiv_fin (fmul (fnum b 0) fs) (fnum (2 ^ m) 0) Fm Fn) as (F & V); [lra|rewrite P2, dyadic_id by lia; apply dyadic_big; lia|]. rewrite P2, dyadic_id in V by lia. rewrite <- Ef in *. split; [exact F|].
  rewrite V, S, Rmult_assoc, <- bpow_plus. replace (e - m + m)%Z with e by lia. rewrite mult_IZR. ring.
Qed.
(** In general the returned frequency is not exactly coherent: fs = 1, n = 3. *)
Lemma c149_coherent_refuted : exists (fs fin : fl) n fo r f b, is_finite fs = true /\ val fs = 1 /\ ffind_coherent fs fin n fo r = Ok (f, b) /\ val f * IZR n <> IZR b * val fs.
Proof.
  exists (fnum 1 0), (fnum 1 (-2)), 3%Z, true, 10%Z. destruct (fnum_fin 1 0) as (F1 & V1); [lia..|]. cbn [bpow] in V1. rewrite Rmult_1_r in V1.
  assert (E : match ffind_coherent (fnum 1 0) (fnum 1 (-2)) 3 true 10 with Ok (y, b) => (B2SF y, b) | _ => (SpecFloat.S754_nan, 0%Z) end = (SpecFloat.S754_finite false 6004799503160661 (-54), 1%Z)) by (vm_compute; reflexivity).
  destruct (ffind_coherent (fnum 1 0) (fnum 1 (-2)) 3 true 10) as [[f b]|]; [|discriminate]. injection E as E ->. exists f, 1%Z. split; [exact F1|]. split; [exact V1|]. split; [reflexivity|]. destruct (val_SF f _ _ _ E) as (_ & ->). rewrite V1. cbn. lra.
Qed.
(** 100 MHz at 800 MHz, 8192 points: bin 1023 (doc string), and asking again returns it. *)
Lemma c149_valid_ex : exists f, ffind_coherent (fnum 800000000 0) (fnum 100000000 0) 8192 true 200 = Ok (f, 1023%Z) /\ val f = 99902343.75 /\ ffind_coherent (fnum 800000000 0) f 8192 true 0 = Ok (f, 1023%Z).
Proof.
  destruct (fnum_fin 800000000 0) as (F1 & V1); [lia..|]. cbn [bpow] in V1. rewrite Rmult_1_r in V1.
  assert (E : match ffind_coherent (fnum 800000000 0) (fnum 100000000 0) 8192 true 200 with Ok (y, b) => (B2SF y, b) | _ => (SpecFloat.S754_nan, 0%Z) end = (SpecFloat.S754_finite false 6704332800000000 (-26), 1023%Z)) by (vm_compute; reflexivity).
  destruct (ffind_coherent (fnum 800000000 0) (fnum 100000000 0) 8192 true 200) as [[f b]|] eqn:H; [|discriminate]. injection E as E ->. exists f. split; [reflexivity|]. destruct (val_SF f _ _ _ E) as (_ & V). split; [rewrite V; cbn; lra|].
  apply (c149_idempotent _ (fnum 100000000 0) 8192 true 200); try assumption; try lia. rewrite V1. split.
  - apply Rle_trans with (bpow radix2 0); [apply bpow_le; lia|cbn; lra].
  - apply Rle_trans with (bpow radix2 30); [cbn; lra|apply bpow_le; lia].
Qed.
Lemma c148_even_ex : exists r, ffold_bin (fnum (-201) (-1)) 8192 = Ok r /\ val r = 100.5.
Proof.
  destruct (fnum_fin (-201) (-1)) as (F & V); [lia..|]. destruct (c148_even (fnum (-201) (-1)) 8192 F ltac:(lia)) as (r & _ & Er & _); [exists 4096%Z; reflexivity|]. exists r. split; [exact Er|].
  assert (E2 : match ffold_bin (fnum (-201) (-1)) 8192 with Ok y => B2SF y | _ => SpecFloat.S754_nan end = SpecFloat.S754_finite false 7072058789855232 (-46)) by (vm_compute; reflexivity). rewrite Er in E2. destruct (val_SF r _ _ _ E2) as (_ & ->). cbn. lra.
Qed.
(** What is not a number: length 0 raises, an infinite or nan bin gives nan. *)
Lemma c148_errors (x : fl) n : ffold_bin x 0 = Err ZeroDivisionError /\ ((1 <= n <= 2 ^ 53)%Z -> is_finite x = false -> ffold_bin x n = Ok B754_nan).
Proof.
  split; [reflexivity|]. intros N F. destruct (fZ_ok n ltac:(lia)) as (E & Fn & Vn). assert (P : 0 < IZR n) by (apply (IZR_lt 0); lia). unfold ffold_bin. rewrite E. cbn [bind]. unfold fpymod. rewrite (proj2 (feq0 _ Fn)) by lra.
  assert (Em : ffmod x (fnum n 0) = B754_nan). { destruct (pos_finite (fnum n 0) Fn ltac:(lra)) as (my & ey & Hy & ->). destruct x; try discriminate; reflexivity. } rewrite Em. cbn [is_nan bind].
  unfold flt, Bltb, SpecFloat.SFltb. destruct (fnum (n / 2) 0) as [[]|[]| |[]]; reflexivity.
Qed.
(** What is not a number: a zero sampling rate, a nan and an infinite target raise. *)
Lemma c149_errors (fs fin : fl) n fo r : ffind_coherent (B754_zero false) fin n fo r = Err ZeroDivisionError /\
  (is_finite fs = true -> 0 < val fs -> (1 <= n <= 2 ^ 53)%Z -> ffind_coherent fs B754_nan n fo r = Err ValueError /\ forall s, ffind_coherent fs (B754_infinity s) n fo r = Err OverflowError).
Proof.
  split; [reflexivity|]. intros Fs P N. destruct (fZ_ok n ltac:(lia)) as (E & Fn & Vn). assert (Pn : 0 < IZR n) by (apply (IZR_lt 0); lia). unfold ffind_coherent. rewrite (proj2 (feq0 _ Fs)) by lra. rewrite E. cbn [bind].
  destruct (pos_finite fs Fs P) as (m1 & e1 & H1 & ->). destruct (pos_finite (fnum n 0) Fn ltac:(lra)) as (m2 & e2 & H2 & ->). split; [reflexivity|]. intros s. destruct s; reflexivity.
Qed.
