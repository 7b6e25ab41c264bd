(** * Effective bits in double precision: final lemmas c218_. *)
From Flocq Require Import Core.Core IEEE754.BinarySingleNaN Relative.
From Coq Require Import Psatz Floats.SpecFloat.
From Verif Require Import Base BaseLemmas UnitsModel FltModel FltSpec FltLemmas FltProofs FfreqModel FfreqLemmas FfreqProofs FenobModel.
Local Open Scope R_scope.

Lemma rnd_err x : Rabs (rnd x - x) <= u * (Rabs x + 1 / 1000).
Proof.
  destruct (error_N_FLT radix2 (-1074) 53 ltac:(lia) (fun z => negb (Z.even z)) x) as (eps & eta & A & B & _ & E). change (rnd x = x * (1 + eps) + eta) in E. assert (A0 : Rabs eps <= u) by (rewrite <- u_bpow; exact A). clear A. rename A0 into A.
  replace (rnd x - x) with (x * eps + eta) by (rewrite E; ring). eapply Rle_trans; [apply Rabs_triang |]. rewrite Rabs_mult. assert (C : Rabs eta <= u * (1 / 1000)).
  { eapply Rle_trans; [exact B |]. apply Rle_trans with (bpow radix2 (-100)). - pose proof (bpow_le radix2 (-1074) (-100) ltac:(lia)). pose proof (bpow_gt_0 radix2 (-1074)). lra. - cbn. lra. }
  pose proof (Rmult_le_compat_l (Rabs x) _ _ (Rabs_pos x) A). lra.
Qed.
Lemma abs_split a b : Rabs a <= b <-> - b <= a <= b.
Proof. split; [apply Rabs_le_inv | apply Rabs_le]. Qed.
Lemma literal n : (0 < n < 1000)%Z -> is_finite (fdiv (fnum n 0) (fnum 100 0)) = true /\ val (fdiv (fnum n 0) (fnum 100 0)) = rnd (IZR n / 100).
Proof.
  intros N. destruct (fnum_fin n 0) as (F & V); [lia.. |]. destruct (fnum_fin 100 0) as (G & W); [lia.. |]. cbn [bpow] in V, W. rewrite Rmult_1_r in V, W. destruct (fdiv_fin _ _ F G) as (H & X); [rewrite W; lra | | rewrite X, V, W in *; split; [exact H | reflexivity]].
  rewrite V, W. apply (rnd_fits _ 10); [lia |]. assert (0 < IZR n < 1000) by (split; apply IZR_lt; lia). cbn. rewrite Rabs_pos_eq; lra.
Qed.
Lemma c176_fin : is_finite f1_76 = true /\ Rabs (val f1_76 - 1.76) <= u * 1.77.
Proof. destruct (literal 176) as (F & V); [lia |]. split; [exact F |]. unfold f1_76. rewrite V. pose proof (rnd_err (176 / 100)) as E. rewrite (Rabs_pos_eq (176 / 100)) in E by lra. replace 1.76 with (176 / 100) by lra. lra. Qed.
Lemma c602_fin : is_finite f6_02 = true /\ Rabs (val f6_02 - 6.02) <= u * 6.03.
Proof. destruct (literal 602) as (F & V); [lia |]. split; [exact F |]. unfold f6_02. rewrite V. pose proof (rnd_err (602 / 100)) as E. rewrite (Rabs_pos_eq (602 / 100)) in E by lra. replace 6.02 with (602 / 100) by lra. lra. Qed.

Lemma mono_le (f : fl -> fl) x y : monotone_op f -> le_double x y -> le_double (f x) (f y).
Proof.
  intros M H. unfold le_double in *. change (fle x y = true) in H. change (fle (f x) (f y) = true). assert (Nx : is_nan x = false) by (destruct x; try reflexivity; rewrite fle_nan_l in H; discriminate). assert (Ny : is_nan y = false) by (destruct y; try reflexivity; rewrite fle_nan_r in H; discriminate).
  rewrite fle_ev in H by assumption. destruct (Rleb_spec (ev x) (ev y)) as [L |]; [| discriminate]. destruct (M x y Nx Ny L) as (A & B & C). rewrite fle_ev by assumption. destruct (Rleb_spec (ev (f x)) (ev (f y))); [reflexivity | lra].
Qed.
(** A larger ratio never gives fewer bits, and more bits never a smaller ratio: for all doubles, infinities included. *)
Lemma c218_monotone x y : le_double x y -> le_double (fsnr_to_enob x) (fsnr_to_enob y) /\ le_double (fenob_to_snr x) (fenob_to_snr y).
Proof.
  destruct c176_fin as (F1 & A1), c602_fin as (F2 & A2). apply abs_split in A2. assert (P : 0 < val f6_02) by lra. intros H. split; apply mono_le; try exact H.
  - intros a b Na Nb L. destruct (fsub_mono f1_76 F1 a b Na Nb L) as (N1 & N2 & L1). exact (fdiv_mono f6_02 F2 P _ _ N1 N2 L1).
  - intros a b Na Nb L. destruct (fmul_mono f6_02 F2 P a b Na Nb L) as (N1 & N2 & L1). exact (fadd_mono f1_76 F1 _ _ N1 N2 L1).
Qed.
Lemma big_1001 X : 0 <= X <= bpow radix2 1000 -> 8 * X + 8 <= bpow radix2 1010.
Proof. intros H. replace (bpow radix2 1010) with (1024 * bpow radix2 1000) by (change 1024 with (bpow radix2 10); rewrite <- bpow_plus; reflexivity). assert (1 <= bpow radix2 1000) by (change 1 with (bpow radix2 0); apply bpow_le; lia). lra. Qed.
(** The computed number of bits is within 2^-53 (|x| + 2) of (x - 1.76) / 6.02. *)
Lemma c218_enob x : is_finite x = true -> Rabs (val x) <= bpow radix2 1000 -> is_finite (fsnr_to_enob x) = true /\ Rabs (val (fsnr_to_enob x) - snr_to_enob (val x)) <= bpow radix2 (-53) * (Rabs (val x) + 2).
Proof.
  intros F X. destruct c176_fin as (F1 & A1), c602_fin as (F2 & A2). apply abs_split in A1, A2. replace (bpow radix2 (-53)) with u by reflexivity. pose proof (big_1001 (Rabs (val x)) (conj (Rabs_pos _) X)) as BG. set (r := val x) in *. assert (RX : - Rabs r <= r <= Rabs r) by (apply abs_split; lra). set (V := Rabs r) in *. assert (V0 : 0 <= V) by apply Rabs_pos. clearbody V.
  assert (X1 : Rabs (r - val f1_76) <= V + 1.77) by (apply abs_split; lra). pose proof (rnd_err (r - val f1_76)) as E1.
  destruct (fsub_fin x f1_76 F F1) as (Fd & Vd). { apply (rnd_fits _ 1010); [lia |]. fold r. lra. } fold r in Vd. rewrite <- Vd in E1. unfold fsnr_to_enob. set (d := fsub x f1_76) in *. assert (E2 : Rabs (val d - (r - val f1_76)) <= u * (V + 1.771)) by (eapply Rle_trans; [exact E1 |]; lra). apply abs_split in E2. clear E1.
  set (s := val f6_02) in *. assert (S : 6.01 < s < 6.03) by lra. assert (DB : Rabs (val d) <= 1.001 * V + 1.78) by (apply abs_split; lra). assert (IS : / s <= 0.1664) by (apply Rmult_le_reg_l with s; [lra |]; rewrite Rinv_r by lra; lra). assert (IP : 0 < / s) by (apply Rinv_0_lt_compat; lra).
  assert (QB : Rabs (val d / s) <= 0.1664 * (1.001 * V + 1.78)). { unfold Rdiv. rewrite Rabs_mult, (Rabs_pos_eq (/ s)) by lra. rewrite Rmult_comm. apply Rmult_le_compat; try lra. apply Rabs_pos. }
  destruct (fdiv_fin d f6_02 Fd F2) as (Fq & Vq); [fold s; lra | apply (rnd_fits _ 1010); [lia |]; fold s; lra |]. split; [exact Fq |]. rewrite Vq. fold s. pose proof (rnd_err (val d / s)) as E3.
  assert (E4 : Rabs (val d / s - val d / 6.02) <= u * (0.1670 * (1.001 * V + 1.78))).
  { replace (val d / s - val d / 6.02) with (val d * ((6.02 - s) * (/ s / 6.02))) by (field; lra). rewrite !Rabs_mult. rewrite (Rabs_pos_eq (/ s / 6.02)) by lra. assert (Rabs (6.02 - s) <= u * 6.03) by (apply abs_split; lra).
    assert (K : Rabs (6.02 - s) * (/ s / 6.02) <= u * 0.1670) by (apply Rle_trans with ((u * 6.03) * (0.1664 / 6.02)); [apply Rmult_le_compat; try lra; apply Rabs_pos | lra]).
    replace (u * (0.1670 * (1.001 * V + 1.78))) with ((1.001 * V + 1.78) * (u * 0.1670)) by ring. apply Rmult_le_compat; try lra; [apply Rabs_pos | apply Rmult_le_pos; [apply Rabs_pos | lra]]. }
  unfold snr_to_enob. assert (E5 : Rabs (val d - (r - 1.76)) <= u * (V + 3.541)) by (apply abs_split; lra). assert (E6 : Rabs (rnd (val d / s) - val d / s) <= u * (0.1664 * (1.001 * V + 1.78) + 1 / 1000)) by (eapply Rle_trans; [exact E3 | lra]). apply abs_split in E4, E5, E6. apply abs_split. lra.
Qed.
(** The computed ratio is within 2^-53 (19 |e| + 4) of 6.02 e + 1.76. *)
Lemma c218_snr e : is_finite e = true -> Rabs (val e) <= bpow radix2 1000 -> is_finite (fenob_to_snr e) = true /\ Rabs (val (fenob_to_snr e) - enob_to_snr (val e)) <= bpow radix2 (-53) * (19 * Rabs (val e) + 4).
Proof.
  intros F X. destruct c176_fin as (F1 & A1), c602_fin as (F2 & A2). apply abs_split in A1, A2. replace (bpow radix2 (-53)) with u by reflexivity. pose proof (big_1001 (Rabs (val e)) (conj (Rabs_pos _) X)) as BG. set (r := val e) in *. set (s := val f6_02) in *. set (V := Rabs r) in *. assert (V0 : 0 <= V) by apply Rabs_pos. assert (S : 6.01 < s < 6.03) by lra.
  assert (P : Rabs (r * s) <= 6.03 * V) by (rewrite Rabs_mult, (Rabs_pos_eq s) by lra; fold V; rewrite Rmult_comm; apply Rmult_le_compat_r; lra). assert (P2 : Rabs (r * s - r * 6.02) <= u * (6.03 * V)). { replace (r * s - r * 6.02) with (r * (s - 6.02)) by ring. rewrite Rabs_mult. fold V. replace (u * (6.03 * V)) with (V * (u * 6.03)) by ring. apply Rmult_le_compat_l; [exact V0 |]. apply abs_split. lra. }
  destruct (fmul_fin e f6_02 F F2) as (Fp & Vp). { apply (rnd_fits _ 1010); [lia |]. fold r s. lra. } fold r s in Vp. pose proof (rnd_err (r * s)) as E1. rewrite <- Vp in E1. unfold fenob_to_snr. set (p := fmul e f6_02) in *. assert (E2 : Rabs (val p - r * s) <= u * (6.03 * V + 1 / 1000)) by (eapply Rle_trans; [exact E1 | lra]). clear E1.
  apply abs_split in E2, P, P2. assert (PB : Rabs (val p + val f1_76) <= 6.04 * V + 1.78) by (apply abs_split; lra). destruct (fadd_fin p f1_76 Fp F1) as (Fy & Vy). { apply (rnd_fits _ 1010); [lia |]. lra. } split; [exact Fy |]. rewrite Vy. pose proof (rnd_err (val p + val f1_76)) as E3. assert (E4 : Rabs (rnd (val p + val f1_76) - (val p + val f1_76)) <= u * (6.04 * V + 1.781)) by (eapply Rle_trans; [exact E3 | lra]). apply abs_split in E4. unfold enob_to_snr. apply abs_split. lra.
Qed.
(** There and back: within 2^-49 (|x| + 2). *)
Lemma c218_roundtrip x : is_finite x = true -> Rabs (val x) <= bpow radix2 999 -> Rabs (val (fenob_to_snr (fsnr_to_enob x)) - val x) <= bpow radix2 (-49) * (Rabs (val x) + 2).
Proof.
  intros F X. assert (X' : Rabs (val x) <= bpow radix2 1000) by (eapply Rle_trans; [exact X | apply bpow_le; lia]). destruct (c218_enob x F X') as (Fe & E). replace (bpow radix2 (-53)) with u in E by reflexivity. set (r := val x) in *. set (V := Rabs r) in *. assert (V0 : 0 <= V) by apply Rabs_pos. assert (RX : - V <= r <= V) by (apply abs_split; unfold V; lra). unfold snr_to_enob in E. apply abs_split in E.
  assert (B : Rabs (val (fsnr_to_enob x)) <= 0.17 * V + 0.3) by (apply abs_split; lra). assert (B2 : 0.17 * V + 0.3 <= bpow radix2 1000). { replace (bpow radix2 1000) with (2 * bpow radix2 999) by (change 2 with (bpow radix2 1) at 1; rewrite <- bpow_plus; reflexivity). assert (1 <= bpow radix2 999) by (change 1 with (bpow radix2 0); apply bpow_le; lia). lra. }
  destruct (c218_snr _ Fe ltac:(lra)) as (_ & E2). replace (bpow radix2 (-53)) with u in E2 by reflexivity. replace (bpow radix2 (-49)) with (16 * u) by (replace (bpow radix2 (-49)) with (/ 562949953421312) by reflexivity; lra). assert (E3 : Rabs (val (fenob_to_snr (fsnr_to_enob x)) - enob_to_snr (val (fsnr_to_enob x))) <= u * (19 * (0.17 * V + 0.3) + 4)) by (eapply Rle_trans; [exact E2 | lra]). unfold enob_to_snr in E3. apply abs_split in E3. apply abs_split. lra.
Qed.
(** Not exact: 7 bits converted to decibels and back are more than 7, and 1 dB comes back as less than 1 dB. *)
Lemma c218_inexact : flt (fnum 7 0) (fsnr_to_enob (fenob_to_snr (fnum 7 0))) = true /\ flt (fenob_to_snr (fsnr_to_enob (fnum 1 0))) (fnum 1 0) = true.
Proof. split; vm_compute; reflexivity. Qed.
(** The literals are the nearest doubles: their bits; and ten bits survive the round trip. *)
Example c218_roundtrip_ex : B2SF f1_76 = S754_finite false 7926335344172073 (-52) /\ B2SF f6_02 = S754_finite false 6777917439192596 (-50) /\ B2SF (fsnr_to_enob (fenob_to_snr (fnum 10 0))) = S754_finite false 5629499534213120 (-49).
Proof. repeat split; vm_compute; reflexivity. Qed.
