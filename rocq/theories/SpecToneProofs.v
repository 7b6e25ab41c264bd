(** * Coherent tones through the spectrum analysis: the final lemmas are named c61_, c62_. *)
From Verif Require Import Base BaseLemmas Cplx FreqModel FreqSpec FreqProofs UnitsModel UnitsSpec UnitsProofs TiModel TiSpec TiProofs TiToneProofs SpecModel SpecSpec SpecLemmas SpecProofs SpecMetricProofs SpecPrepProofs SpecToneSpec.
From Coq Require Import Psatz.
Local Open Scope R_scope.

Lemma INR_pos N : (0 < N)%nat -> 0 < INR N. Proof. apply lt_0_INR. Qed.
Lemma rdft_ext N f g k : (forall n, (n < N)%nat -> f n = g n) -> rdft N f k = rdft N g k.
Proof. intros H. unfold rdft, dft. apply csum_ext. intros n Hn. rewrite H by exact Hn. reflexivity. Qed.
Lemma rdft_rsum N H (F : nat -> nat -> R) k : rdft N (fun n => rsum H (fun i => F i n)) k = csum H (fun i => rdft N (F i) k).
Proof.
  unfold rdft, dft. rewrite (csum_swap H). apply csum_ext. intros n Hn. rewrite csum_mult_r, csum_RtoC. reflexivity.
Qed.
Lemma rdft_plus N f g k : rdft N (fun n => f n + g n) k = Cplus (rdft N f k) (rdft N g k).
Proof.
  unfold rdft, dft. rewrite <- csum_plus. apply csum_ext. intros n Hn. unfold Cplus, Cmult, RtoC. cbn. f_equal; ring.
Qed.

Lemma rsum_opp n f : rsum n (fun i => - f i) = - rsum n f.
Proof. rewrite (rsum_ext n _ (fun i => -1 * f i)) by (intros; ring). rewrite rsum_scale. ring. Qed.

(** ** The cosine window *)
Definition cosw (a : list R) (N n : nat) : R :=
  rsum (length a) (fun k => nth k a 0 * cos (INR k * (2 * PI * INR n / INR N - PI))).
Lemma cos_window_nth a N n : (2 <= N)%nat -> (n < N)%nat -> nth n (cos_window a N) 0 = cosw a N n.
Proof.
  intros HN Hn. unfold cos_window. destruct (Nat.leb_spec N 1); [lia|]. rewrite map_seq_nth by exact Hn. reflexivity.
Qed.
Lemma cos_window_length a N : length (cos_window a N) = N.
Proof. unfold cos_window. destruct (N <=? 1)%nat; [apply repeat_length|]. rewrite map_length, seq_length. reflexivity. Qed.
Lemma cosw_rdft a N k : (2 * (length a - 1) < N)%nat -> (k <= N / 2)%nat ->
  rdft N (cosw a N) k = if (k =? 0)%nat then RtoC (INR N * nth 0 a 0) else Cscale (INR N * nth k a 0 / 2) (cis (- (INR k * PI))).
Proof.
  intros Ha Hk. assert (HN : (0 < N)%nat) by lia. pose proof (INR_pos N HN).
  rewrite (rdft_ext N _ (fun n => rsum (length a) (fun j => nth j a 0 * cos (2 * PI * INR j * INR n / INR N + - (INR j * PI))))).
  2:{ intros n Hn. apply rsum_ext. intros j Hj. f_equal. f_equal. field. lra. }
  rewrite (rdft_rsum N (length a) (fun j n => nth j a 0 * cos (2 * PI * INR j * INR n / INR N + - (INR j * PI)))).
  rewrite (csum_ext _ _ (fun j => if (k =? j)%nat then (if (j =? 0)%nat then RtoC (INR N * (nth j a 0 * cos (- (INR j * PI)))) else Cscale (INR N * nth j a 0 / 2) (cis (- (INR j * PI)))) else C0)).
  2:{ intros j Hj. apply tone_rdft; [lia|exact Hk]. }
  destruct (Nat.lt_ge_cases k (length a)) as [L|L].
  - rewrite (csum_single _ k) by (exact L || (intros j Hj Hne; destruct (Nat.eqb_spec k j); [congruence|reflexivity])).
    rewrite Nat.eqb_refl. destruct (Nat.eqb_spec k 0) as [->|]; [|reflexivity].
    f_equal. rewrite Rmult_0_l, Ropp_0, cos_0. ring.
  - rewrite csum_zero. 2:{ intros j Hj. destruct (Nat.eqb_spec k j); [lia|reflexivity]. }
    rewrite (nth_overflow a 0 L). destruct (Nat.eqb_spec k 0) as [->|].
    + rewrite nth_overflow by exact L. rewrite Rmult_0_r. reflexivity.
    + rewrite Rmult_0_r. unfold Rdiv. rewrite Rmult_0_l, Cscale_0. reflexivity.
Qed.
(** Relative amplitude of the window at distance d from the peak. *)
Definition lobe (a : list R) (d : nat) : R := if (d =? 0)%nat then nth 0 a 0 else nth d a 0 / 2.
(** Sum of the squared lobe amplitudes over both sides. *)
Definition lobe_power (a : list R) : R := lobe a 0 ^ 2 + rsum (length a - 1) (fun i => 2 * lobe a (S i) ^ 2).
Lemma csum_RtoC_Re N f k : Re (rdft N f k) = rsum N (fun n => f n * cos (2 * PI * INR k * INR n / INR N)).
Proof.
  unfold rdft, dft. rewrite csum_Re. apply rsum_ext. intros n Hn. unfold Cmult, RtoC, cis, Re. cbn [fst snd]. rewrite cos_neg. ring.
Qed.
Lemma csum_RtoC_Im N f k : Im (rdft N f k) = - rsum N (fun n => f n * sin (2 * PI * INR k * INR n / INR N)).
Proof.
  unfold rdft, dft. rewrite csum_Im. rewrite <- (Ropp_involutive (rsum N _)). f_equal. rewrite <- rsum_opp. apply rsum_ext. intros n Hn. unfold Cmult, RtoC, cis, Im. cbn [fst snd]. rewrite sin_neg. ring.
Qed.
Lemma cosw_square a N : a <> [] -> (2 * (length a - 1) < N)%nat ->
  rsum N (fun n => cosw a N n ^ 2) = INR N * lobe_power a.
Proof.
  intros Hne Ha. assert (HN : (0 < N)%nat) by lia. pose proof (INR_pos N HN).
  assert (E : rsum N (fun n => cosw a N n ^ 2) =
    rsum (length a) (fun k => nth k a 0 * (cos (INR k * PI) * Re (rdft N (cosw a N) k) - sin (INR k * PI) * Im (rdft N (cosw a N) k)))).
  { rewrite (rsum_ext N _ (fun n => rsum (length a) (fun k => nth k a 0 * (cosw a N n * cos (INR k * (2 * PI * INR n / INR N - PI)))))).
    2:{ intros n Hn. replace (cosw a N n ^ 2) with (cosw a N n * cosw a N n) by ring. unfold cosw at 2. rewrite <- rsum_scale. apply rsum_ext. intros k Hk. ring. }
    rewrite rsum_swap. apply rsum_ext. intros k Hk. rewrite (rsum_scale N (nth k a 0)). f_equal.
    rewrite csum_RtoC_Re, csum_RtoC_Im. rewrite <- rsum_scale, <- rsum_opp, <- rsum_scale, <- rsum_minus. apply rsum_ext. intros n Hn.
    replace (INR k * (2 * PI * INR n / INR N - PI)) with (2 * PI * INR k * INR n / INR N - INR k * PI) by (field; lra).
    rewrite cos_minus. ring. }
  rewrite E. clear E. destruct a as [|a0 t]; [contradiction|]. cbn [length] in *. rewrite Nat.sub_succ, Nat.sub_0_r in *.
  rewrite rsum_shift. unfold lobe_power. cbn [length]. rewrite Nat.sub_succ, Nat.sub_0_r, Rmult_plus_distr_l. f_equal.
  - rewrite cosw_rdft by (cbn [length]; lia). change (0 =? 0)%nat with true. cbv iota. unfold RtoC, Re, Im, lobe. cbn [fst snd nth Nat.eqb INR]. rewrite Rmult_0_l, cos_0, sin_0. ring.
  - rewrite <- rsum_scale. apply rsum_ext. intros i Hi. rewrite cosw_rdft by (cbn [length]; try lia; apply Nat.div_le_lower_bound; lia).
    change (S i =? 0)%nat with false. cbv iota. unfold Re, Im, Cscale, cis, lobe. cbn [fst snd Nat.eqb]. rewrite cos_neg, sin_neg.
    pose proof (sin2_cos2 (INR (S i) * PI)) as S2. unfold Rsqr in S2. set (x := nth (S i) (a0 :: t) 0). set (cs := cos _) in *. set (sn := sin _) in *.
    replace (x * (cs * (INR N * x / 2 * cs) - sn * (INR N * x / 2 * - sn))) with (x * (INR N * x / 2) * (sn * sn + cs * cs)) by ring. rewrite S2. field.
Qed.
Lemma cosw_sum a N : (2 * (length a - 1) < N)%nat -> rsum N (cosw a N) = INR N * nth 0 a 0.
Proof.
  intros Ha. pose proof (csum_RtoC_Re N (cosw a N) 0) as E. rewrite cosw_rdft in E by lia. change (0 =? 0)%nat with true in E. cbv iota in E.
  unfold RtoC, Re in E. cbn [fst] in E. rewrite E. apply rsum_ext. intros n Hn. replace (2 * PI * INR 0 * INR n / INR N) with 0 by (simpl; unfold Rdiv; ring).
  rewrite cos_0. ring.
Qed.

(** ** A windowed tone *)
Lemma wtone_rdft a N J A ph b : a <> [] -> (length a - 1 < J)%nat -> (2 * (J + (length a - 1)) < N)%nat -> (b <= N / 2)%nat ->
  exists th, rdft N (fun n => A * cos (2 * PI * INR J * INR n / INR N + ph) * cosw a N n) b =
             Cscale (INR N * A / 2 * lobe a (bin_dist b J)) (cis th).
Proof.
  intros Hne HK HJ Hb. assert (La : (0 < length a)%nat) by (destruct a; [contradiction|simpl; lia]).
  assert (HN : (0 < N)%nat) by lia. pose proof (INR_pos N HN) as PN.
  assert (E : rdft N (fun n => A * cos (2 * PI * INR J * INR n / INR N + ph) * cosw a N n) b =
    csum (length a) (fun k => Cplus
      (if (b =? J + k)%nat then Cscale (INR N * (A * nth k a 0 / 2) / 2) (cis (ph - INR k * PI)) else C0)
      (if (b =? J - k)%nat then Cscale (INR N * (A * nth k a 0 / 2) / 2) (cis (ph + INR k * PI)) else C0))).
  { rewrite (rdft_ext N _ (fun n => rsum (length a) (fun k =>
      (A * nth k a 0 / 2) * cos (2 * PI * INR (J + k) * INR n / INR N + (ph - INR k * PI)) +
      (A * nth k a 0 / 2) * cos (2 * PI * INR (J - k) * INR n / INR N + (ph + INR k * PI))))).
    2:{ intros n Hn. unfold cosw. rewrite <- rsum_scale. apply rsum_ext. intros k Hk. rewrite plus_INR, minus_INR by lia.
        set (x := 2 * PI * INR J * INR n / INR N + ph). set (y := INR k * (2 * PI * INR n / INR N - PI)).
        replace (2 * PI * (INR J + INR k) * INR n / INR N + (ph - INR k * PI)) with (x + y) by (unfold x, y; field; lra).
        replace (2 * PI * (INR J - INR k) * INR n / INR N + (ph + INR k * PI)) with (x - y) by (unfold x, y; field; lra).
        rewrite cos_plus, cos_minus. field. }
    rewrite (rdft_rsum N (length a) (fun k n =>
      (A * nth k a 0 / 2) * cos (2 * PI * INR (J + k) * INR n / INR N + (ph - INR k * PI)) +
      (A * nth k a 0 / 2) * cos (2 * PI * INR (J - k) * INR n / INR N + (ph + INR k * PI)))).
    apply csum_ext. intros k Hk. rewrite (rdft_plus N (fun n => A * nth k a 0 / 2 * cos (2 * PI * INR (J + k) * INR n / INR N + (ph - INR k * PI)))).
    rewrite !tone_rdft by (try exact Hb; lia).
    replace (J + k =? 0)%nat with false by (symmetry; apply Nat.eqb_neq; lia).
    replace (J - k =? 0)%nat with false by (symmetry; apply Nat.eqb_neq; lia). reflexivity. }
  rewrite E. clear E. set (d := bin_dist b J). destruct (Nat.lt_ge_cases d (length a)) as [L|L].
  - rewrite (csum_single _ d).
    2: exact L.
    2:{ intros k Hk Hkd. unfold d, bin_dist in *. destruct (Nat.eqb_spec b (J + k)); [lia|]. destruct (Nat.eqb_spec b (J - k)); [lia|]. ring. }
    unfold lobe. destruct (Nat.eqb_spec d 0) as [D0|D0].
    + rewrite D0. assert (b = J) by (unfold d, bin_dist in D0; lia). subst b. rewrite Nat.add_0_r, Nat.sub_0_r, Nat.eqb_refl.
      exists ph. replace (ph - INR 0 * PI) with ph by (simpl; ring). replace (ph + INR 0 * PI) with ph by (simpl; ring).
      unfold Cplus, Cscale. cbn [fst snd]. f_equal; field.
    + destruct (Nat.eqb_spec b (J + d)) as [B|B]; destruct (Nat.eqb_spec b (J - d)) as [B'|B']; try (unfold d, bin_dist in *; lia).
      * exists (ph - INR d * PI). unfold Cplus, Cscale, C0. cbn [fst snd]. f_equal; field.
      * exists (ph + INR d * PI). unfold Cplus, Cscale, C0. cbn [fst snd]. f_equal; field.
  - rewrite csum_zero.
    2:{ intros k Hk. unfold d, bin_dist in *. destruct (Nat.eqb_spec b (J + k)); [lia|]. destruct (Nat.eqb_spec b (J - k)); [lia|]. ring. }
    exists 0. unfold lobe. destruct (Nat.eqb_spec d 0); [lia|]. rewrite nth_overflow by exact L.
    replace (INR N * A / 2 * (0 / 2)) with 0 by field. rewrite Cscale_0. reflexivity.
Qed.
Lemma lobe_zero a d : (length a <= d)%nat -> (0 < length a)%nat -> lobe a d = 0.
Proof. intros H L. unfold lobe. destruct (Nat.eqb_spec d 0); [lia|]. rewrite nth_overflow by exact H. field. Qed.

(** Squared magnitude of a sum in which at most one term is non-zero. *)
Lemma Cmod2_csum_disjoint H z : (forall i j, (i < H)%nat -> (j < H)%nat -> i <> j -> z i = C0 \/ z j = C0) ->
  Cmod2 (csum H z) = rsum H (fun i => Cmod2 (z i)).
Proof.
  intros D. induction H as [|H IH]; [unfold C0, Cmod2; simpl; ring|]. cbn [csum rsum].
  destruct (Req_dec (Cmod (z H)) 0) as [Z|Z].
  - apply Cmod_eq_0 in Z. rewrite Z. replace (Cplus (csum H z) C0) with (csum H z) by ring. rewrite IH by (intros; apply D; lia). unfold C0, Cmod2. cbn. ring.
  - assert (A : forall i, (i < H)%nat -> z i = C0) by (intros i Hi; destruct (D i H) as [Q|Q]; try lia; [exact Q|exfalso; apply Z; rewrite Q; apply Cmod_0]).
    rewrite csum_zero by exact A. rewrite (rsum_zero H) by (intros i Hi; rewrite A by exact Hi; unfold C0, Cmod2; cbn; ring).
    replace (Cplus C0 (z H)) with (z H) by ring. ring.
Qed.

Lemma lobe_total a Jc n : a <> [] -> (length a - 1 <= Jc)%nat -> (Jc + (length a - 1) < n)%nat ->
  rsum n (fun b => lobe a (bin_dist b Jc) ^ 2) = lobe_power a.
Proof.
  intros Ha H1 H2. assert (La : (0 < length a)%nat) by (destruct a; [contradiction|simpl; lia]).
  unfold lobe_power. set (K := (length a - 1)%nat) in *.
  replace n with ((Jc - K) + (K + S (K + (n - (Jc + K + 1)))))%nat by lia.
  rewrite rsum_app, rsum_zero.
  2:{ intros i Hi. rewrite lobe_zero by (unfold bin_dist; lia). ring. }
  rewrite rsum_app, rsum_shift, rsum_app.
  rewrite (rsum_zero (n - (Jc + K + 1))).
  2:{ intros i Hi. rewrite lobe_zero by (unfold bin_dist; lia). ring. }
  rewrite (rsum_reverse K).
  rewrite (rsum_ext K (fun i => lobe a (bin_dist (Jc - K + (K - 1 - i)) Jc) ^ 2) (fun i => lobe a (S i) ^ 2)).
  2:{ intros i Hi. replace (bin_dist (Jc - K + (K - 1 - i)) Jc) with (S i) by (unfold bin_dist; lia). reflexivity. }
  rewrite (rsum_ext K (fun i => lobe a (bin_dist (Jc - K + (K + S i)) Jc) ^ 2) (fun i => lobe a (S i) ^ 2)).
  2:{ intros i Hi. replace (bin_dist (Jc - K + (K + S i)) Jc) with (S i) by (unfold bin_dist; lia). reflexivity. }
  replace (bin_dist (Jc - K + (K + 0)) Jc) with O by (unfold bin_dist; lia).
  rewrite (rsum_scale K 2). ring.
Qed.
Lemma lobe_power_pos a : nth 0 a 0 <> 0 -> 0 < lobe_power a.
Proof.
  intros H. unfold lobe_power. assert (0 <= rsum (length a - 1) (fun i => 2 * lobe a (S i) ^ 2)).
  { apply rsum_nonneg. intros i Hi. pose proof (pow2_ge_0 (lobe a (S i))). lra. }
  assert (0 < lobe a 0 ^ 2) by (unfold lobe; simpl Nat.eqb; cbv iota; assert (0 < nth 0 a 0 * nth 0 a 0) by (apply Rsqr_pos_lt, H); simpl; lra). lra.
Qed.
Lemma correction_cosine a N : nth 0 a 0 <> 0 -> (2 <= N)%nat -> (2 * (length a - 1) < N)%nat ->
  power_correction (cos_window a N) = 4 / lobe_power a.
Proof.
  intros H0 H2 HN. assert (Ha : a <> []) by (intros ->; apply H0; reflexivity). pose proof (INR_pos N ltac:(lia)) as PN.
  assert (S1 : lsum (cos_window a N) = INR N * nth 0 a 0).
  { rewrite lsum_rsum, cos_window_length, <- cosw_sum by exact HN. apply rsum_ext. intros n Hn. apply cos_window_nth; assumption. }
  assert (S2 : lsum (map (fun x => x ^ 2) (cos_window a N)) = INR N * lobe_power a).
  { rewrite lsum_rsum, map_length, cos_window_length, <- cosw_square by assumption. apply rsum_ext. intros n Hn.
    rewrite (nth_map_in _ _ _ 0) by (rewrite cos_window_length; exact Hn). rewrite cos_window_nth by assumption. reflexivity. }
  unfold power_correction, window_gain, enbw_factor. rewrite S1, S2, cos_window_length. pose proof (lobe_power_pos a H0). field. repeat split; lra.
Qed.

Lemma len_a (a : list R) : a <> [] -> length a = S (length a - 1).
Proof. intros H. destruct a; [contradiction|simpl; lia]. Qed.
Section Tones.
Context (a : list R) (N H : nat) (A ph : nat -> R) (J : nat -> nat) (sb : nat).
Let K := (length a - 1)%nat.
Context (Ha : a <> []) (HK : (K <= sb)%nat) (HR : resolvable N H K sb J).
Let x n := multitone N H 0 A ph J n.

Lemma tones_rdft b : (b <= N / 2)%nat ->
  Cmod2 (rdft N (fun n => x n * cosw a N n) b) = rsum H (fun i => (INR N * A i / 2 * lobe a (bin_dist b (J i))) ^ 2).
Proof.
  intros Hb. destruct HR as [R1 R2]. pose proof (len_a a Ha) as La. fold K in La.
  rewrite (rdft_ext N _ (fun n => rsum H (fun i => A i * cos (2 * PI * INR (J i) * INR n / INR N + ph i) * cosw a N n))).
  2:{ intros n Hn. unfold x, multitone. rewrite Rplus_0_l, Rmult_comm, <- rsum_scale. apply rsum_ext. intros i Hi. ring. }
  rewrite (rdft_rsum N H (fun i n => A i * cos (2 * PI * INR (J i) * INR n / INR N + ph i) * cosw a N n)).
  assert (T : forall i, (i < H)%nat -> exists th, rdft N (fun n => A i * cos (2 * PI * INR (J i) * INR n / INR N + ph i) * cosw a N n) b =
             Cscale (INR N * A i / 2 * lobe a (bin_dist b (J i))) (cis th)).
  { intros i Hi. destruct (R1 i Hi). apply wtone_rdft; try assumption; fold K; lia. }
  rewrite Cmod2_csum_disjoint.
  - apply rsum_ext. intros i Hi. destruct (T i Hi) as [th ->]. unfold Cmod2, Cscale, cis. cbn [fst snd].
    pose proof (sin2_cos2 th) as S2. unfold Rsqr in S2. set (v := INR N * A i / 2 * lobe a _).
    replace (v * cos th * (v * cos th) + v * sin th * (v * sin th)) with (v ^ 2 * (sin th * sin th + cos th * cos th)) by ring. rewrite S2. ring.
  - intros i j Hi Hj Hij. pose proof (R2 i j Hi Hj Hij) as D. destruct (T i Hi) as [ti ->]. destruct (T j Hj) as [tj ->].
    assert (Q : (length a <= bin_dist b (J i))%nat \/ (length a <= bin_dist b (J j))%nat) by (unfold bin_dist in *; lia).
    destruct Q as [Q|Q]; [left|right]; rewrite lobe_zero by (try exact Q; lia); rewrite Rmult_0_r, Cscale_0; reflexivity.
Qed.

Context (H0 : nth 0 a 0 <> 0).
Let P := corrected_power [map x (seq 0 N)] (cos_window a N) N.
Lemma tones_P b : (b <= N / 2)%nat -> (0 < H)%nat ->
  nth b P 0 = rsum H (fun i => A i ^ 2 * (lobe a (bin_dist b (J i)) ^ 2 / lobe_power a)).
Proof.
  intros Hb HH. destruct HR as [R1 R2]. pose proof (len_a a Ha) as La. fold K in La. destruct (R1 O HH) as [Q1 Q2].
  assert (HN2 : (2 <= N)%nat) by lia. pose proof (INR_pos N ltac:(lia)) as PN. pose proof (lobe_power_pos a H0) as LP.
  unfold P, corrected_power, power_average. rewrite map_map. rewrite map_seq_nth by lia.
  rewrite correction_cosine by (try assumption; fold K; lia).
  assert (X : Cmod (rfft (map2 Rmult (map x (seq 0 N)) (cos_window a N)) b) ^ 2 = rsum H (fun i => (INR N * A i / 2 * lobe a (bin_dist b (J i))) ^ 2)).
  { rewrite <- tones_rdft by exact Hb. replace (Cmod _ ^ 2) with (Cmod (rfft (map2 Rmult (map x (seq 0 N)) (cos_window a N)) b) * Cmod (rfft (map2 Rmult (map x (seq 0 N)) (cos_window a N)) b)) by ring.
    rewrite Cmod_sqr. f_equal. unfold rfft.
    assert (L : length (map2 Rmult (map x (seq 0 N)) (cos_window a N)) = N) by (rewrite map2_length; rewrite ?map_length, ?seq_length, ?cos_window_length; reflexivity).
    rewrite L. apply rdft_ext. intros n Hn. rewrite (map2_nth Rmult _ _ n 0 0 0) by (rewrite ?map_length, ?seq_length, ?cos_window_length; (reflexivity || exact Hn)).
    rewrite map_seq_nth by exact Hn. rewrite cos_window_nth by assumption. reflexivity. }
  unfold power_bin, windowed. cbn [map]. unfold lmean. cbn [lsum length]. rewrite X. change (INR 1) with 1.
  assert (E : rsum H (fun i => (INR N * A i / 2 * lobe a (bin_dist b (J i))) ^ 2) = INR N ^ 2 / 4 * lobe_power a * rsum H (fun i => A i ^ 2 * (lobe a (bin_dist b (J i)) ^ 2 / lobe_power a))).
  { rewrite <- rsum_scale. apply rsum_ext. intros i Hi. field. lra. }
  rewrite E. set (T := rsum H _).
  assert (Z : b = O \/ (Nat.even N = true /\ b = (N / 2)%nat) -> T = 0).
  { intros Hz. apply rsum_zero. intros i Hi. destruct (R1 i Hi). rewrite lobe_zero; [unfold Rdiv; ring| |lia].
    unfold bin_dist. destruct Hz as [->|[Ev ->]]; [lia|]. apply Nat.even_spec in Ev. destruct Ev as [h Eh].
    assert (N / 2 = h)%nat by (symmetry; apply Nat.div_unique with 0%nat; lia). lia. }
  destruct (Nat.eqb_spec b 0) as [B|B].
  - rewrite (Z (or_introl B)). destruct (_ && _)%bool; field; split; lra.
  - destruct (Nat.even N) eqn:Ev; cbn [andb].
    + destruct (Nat.eqb_spec b (N / 2)) as [B'|B'].
      * rewrite (Z (or_intror (conj eq_refl B'))). field; split; lra.
      * field; split; lra.
    + field; split; lra.
Qed.
(** The power a selection of bins collects: tone i counts fully if its lobe is selected, not at
    all if none of its lobe is. *)
Lemma lobes_power n sel (inc : nat -> bool) : (n <= N / 2 + 1)%nat -> (0 < H)%nat ->
  (forall i, (i < H)%nat -> inc i = true -> (J i + K < n)%nat /\ forall b, (bin_dist b (J i) <= K)%nat -> sel b = true) ->
  (forall i, (i < H)%nat -> inc i = false -> forall b, (b < n)%nat -> (bin_dist b (J i) <= K)%nat -> sel b = false) ->
  selected_power n sel P = rsum H (fun i => if inc i then A i ^ 2 else 0).
Proof.
  intros Hn HH I1 I0. destruct HR as [R1 R2]. pose proof (len_a a Ha) as La. fold K in La. pose proof (lobe_power_pos a H0) as LP. unfold selected_power.
  rewrite (rsum_ext n _ (fun b => rsum H (fun i => A i ^ 2 / lobe_power a * (if sel b then lobe a (bin_dist b (J i)) ^ 2 else 0)))).
  2:{ intros b Hb. rewrite tones_P by (try exact HH; lia). destruct (sel b).
      - apply rsum_ext. intros i Hi. unfold Rdiv. ring.
      - symmetry. apply rsum_zero. intros i Hi. ring. }
  rewrite rsum_swap. apply rsum_ext. intros i Hi. rewrite (rsum_scale n (A i ^ 2 / lobe_power a)). destruct (inc i) eqn:E.
  - destruct (I1 i Hi E) as [B S]. destruct (R1 i Hi).
    rewrite (rsum_ext n _ (fun b => lobe a (bin_dist b (J i)) ^ 2)).
    + rewrite lobe_total by (try exact Ha; fold K; lia). field. lra.
    + intros b Hb. destruct (Nat.le_gt_cases (bin_dist b (J i)) K) as [D|D]; [rewrite S by exact D; reflexivity|].
      rewrite lobe_zero by lia. destruct (sel b); ring.
  - rewrite rsum_zero; [ring|]. intros b Hb. destruct (Nat.le_gt_cases (bin_dist b (J i)) K) as [D|D].
    + rewrite (I0 i Hi E b Hb D). reflexivity.
    + rewrite lobe_zero by lia. destruct (sel b); ring.
Qed.
End Tones.

(** ** Single bins of a multi-tone spectrum *)
Definition tone_spectrum (a : list R) (N H : nat) (A ph : nat -> R) (J : nat -> nat) : list R :=
  corrected_power [map (fun n => multitone N H 0 A ph J n) (seq 0 N)] (cos_window a N) N.
Definition peaked (a : list R) : Prop := 0 < nth 0 a 0 /\ forall d, (1 <= d)%nat -> Rabs (lobe a d) < nth 0 a 0.
Lemma some_lobe H K (J : nat -> nat) b : {i | (i < H)%nat /\ (bin_dist b (J i) <= K)%nat} + {forall i, (i < H)%nat -> (K < bin_dist b (J i))%nat}.
Proof.
  induction H as [|H [[i [Hi D]]|IH]]; [right; lia|left; exists i; split; [lia|exact D]|].
  destruct (le_lt_dec (bin_dist b (J H)) K) as [D|D]; [left; exists H; split; [lia|exact D]|].
  right. intros i Hi. destruct (Nat.eq_dec i H) as [->|]; [exact D|apply IH; lia].
Qed.
Section Bins.
Context (a : list R) (N H : nat) (A ph : nat -> R) (J : nat -> nat) (sb : nat).
Let K := (length a - 1)%nat.
Context (HK : (K <= sb)%nat) (HR : resolvable N H K sb J) (HP : peaked a) (HH : (0 < H)%nat).
Let P := tone_spectrum a N H A ph J.
Lemma a_ne : a <> []. Proof. destruct HP as [H1 _]. intros E. rewrite E in H1. simpl in H1. lra. Qed.
Lemma a0_ne : nth 0 a 0 <> 0. Proof. destruct HP. lra. Qed.
Lemma P_in i b : (i < H)%nat -> (b <= N / 2)%nat -> (bin_dist b (J i) <= K)%nat ->
  nth b P 0 = A i ^ 2 * (lobe a (bin_dist b (J i)) ^ 2 / lobe_power a).
Proof.
  intros Hi Hb D. unfold P, tone_spectrum. rewrite (tones_P a N H A ph J sb a_ne HK HR a0_ne) by assumption.
  destruct HR as [R1 R2]. rewrite (rsum_single H i); [reflexivity|exact Hi|]. intros j Hj Hji. pose proof (R2 j i Hj Hi Hji).
  rewrite lobe_zero; [unfold Rdiv; ring| |pose proof (len_a a a_ne); lia]. rewrite (len_a a a_ne). fold K. unfold bin_dist in *. lia.
Qed.
Lemma P_off b : (b <= N / 2)%nat -> (forall i, (i < H)%nat -> (K < bin_dist b (J i))%nat) -> nth b P 0 = 0.
Proof.
  intros Hb D. unfold P, tone_spectrum. rewrite (tones_P a N H A ph J sb a_ne HK HR a0_ne) by assumption.
  apply rsum_zero. intros i Hi. rewrite lobe_zero; [unfold Rdiv; ring| |pose proof (len_a a a_ne); lia]. rewrite (len_a a a_ne). fold K. specialize (D i Hi). lia.
Qed.
Lemma lobe_sq d : (1 <= d)%nat -> lobe a d ^ 2 < lobe a 0 ^ 2.
Proof. intros Hd. destruct HP as [H1 H2]. specialize (H2 d Hd). unfold lobe at 2. simpl Nat.eqb. cbv iota. rewrite <- (pow2_abs (lobe a d)). pose proof (Rabs_pos (lobe a d)). nra. Qed.
Lemma lobe_sq_le d : lobe a d ^ 2 <= lobe a 0 ^ 2.
Proof. destruct d; [lra|]. apply Rlt_le, lobe_sq. lia. Qed.
Lemma P_peak i : (i < H)%nat -> nth (J i) P 0 = A i ^ 2 * (lobe a 0 ^ 2 / lobe_power a).
Proof.
  intros Hi. pose proof (proj1 HR i Hi) as [_ Q]. assert (D : bin_dist (J i) (J i) = O) by (unfold bin_dist; lia).
  rewrite (P_in i) by (try exact Hi; try (rewrite D; lia); apply Nat.div_le_lower_bound; lia). rewrite D. reflexivity.
Qed.
(** Every bin other than the strongest tone's own bin is weaker than it. *)
Lemma P_weaker b : (b <= N / 2)%nat -> b <> J 0 -> A 0 <> 0 ->
  (forall i, (0 < i < H)%nat -> (bin_dist b (J i) <= K)%nat -> Rabs (A i) < Rabs (A 0)) -> nth b P 0 < nth (J 0) P 0.
Proof.
  intros Hb Hne A0 HA. rewrite (P_peak 0 HH). pose proof (lobe_power_pos a a0_ne) as LP. pose proof (lobe_sq 1 ltac:(lia)) as L1.
  assert (G0 : 0 < lobe a 0 ^ 2) by (pose proof (pow2_ge_0 (lobe a 1)); lra). assert (A2 : 0 < A 0 ^ 2) by (rewrite <- Rsqr_pow2; apply Rsqr_pos_lt, A0).
  assert (PP : 0 < A 0 ^ 2 * (lobe a 0 ^ 2 / lobe_power a)) by (apply Rmult_lt_0_compat; [exact A2|apply Rdiv_lt_0_compat; assumption]).
  destruct (some_lobe H K J b) as [[i [Hi D]]|D].
  - rewrite (P_in i b Hi Hb D). unfold Rdiv. rewrite <- !Rmult_assoc. apply Rmult_lt_compat_r; [apply Rinv_0_lt_compat, LP|].
    destruct (Nat.eq_dec i 0) as [->|Hi0].
    + apply Rmult_lt_compat_l; [exact A2|]. apply lobe_sq. unfold bin_dist. lia.
    + specialize (HA i ltac:(lia) D). pose proof (lobe_sq_le (bin_dist b (J i))).
      assert (A i ^ 2 < A 0 ^ 2) by (rewrite <- (pow2_abs (A i)), <- (pow2_abs (A 0)); pose proof (Rabs_pos (A i)); nra).
      pose proof (pow2_ge_0 (A i)). pose proof (pow2_ge_0 (lobe a (bin_dist b (J i)))). nra.
  - rewrite (P_off b Hb D). exact PP.
Qed.
Lemma P_fund nb : (J 0 + K < nb <= N / 2 + 1)%nat -> A 0 <> 0 ->
  (forall i, (0 < i < H)%nat -> (J i < nb + K)%nat -> Rabs (A i) < Rabs (A 0)) ->
  fundamental_bin P nb = J 0 /\ fundamental_frac P nb = INR (J 0).
Proof.
  intros Hnb A0 HA. pose proof (proj1 HR 0%nat HH) as [Q1 Q2].
  assert (LP : length P = (N / 2 + 1)%nat) by apply corrected_length.
  destruct (c54_fundamental_is_peak P nb ltac:(lia)) as (F1 & F2 & F3). set (f := fundamental_bin P nb) in *.
  assert (Ef : f = J 0).
  { destruct (Nat.eq_dec f (J 0)) as [E|E]; [exact E|]. exfalso. specialize (F2 (J 0) ltac:(lia)).
    pose proof (P_weaker f ltac:(lia) E A0) as W. assert (nth f P 0 < nth (J 0) P 0); [|lra]. apply W.
    intros i Hi D. apply HA; [exact Hi|]. unfold bin_dist in D. lia. }
  split; [exact Ef|]. unfold fundamental_frac. fold f. rewrite Ef, firstn_length, LP.
  destruct (_ && _)%bool eqn:C; [|reflexivity]. apply andb_true_iff in C. destruct C as [C1 C2]. apply Nat.ltb_lt in C1, C2.
  assert (E : nth (J 0 - 1) P 0 = nth (J 0 + 1) P 0).
  { unfold P, tone_spectrum. rewrite !(tones_P a N H A ph J sb a_ne HK HR a0_ne) by (try exact HH; lia).
    apply rsum_ext. intros i Hi. destruct (Nat.eq_dec i 0) as [->|Hi0].
    - replace (bin_dist (J 0 - 1) (J 0)) with 1%nat by (unfold bin_dist; lia). replace (bin_dist (J 0 + 1) (J 0)) with 1%nat by (unfold bin_dist; lia). reflexivity.
    - pose proof (proj2 HR i 0%nat Hi HH Hi0) as D. pose proof (len_a a a_ne) as La. fold K in La.
      rewrite !lobe_zero by (unfold bin_dist in *; lia). reflexivity. }
  rewrite !nth_firstn_lt by lia. rewrite E. set (y := log_floor (nth (J 0 + 1) P 0)). destruct (Rleb _ _); [|reflexivity].
  destruct (Reqb_spec (2 * (2 * log_floor (nth (J 0) P 0) - y - y)) 0); [reflexivity|]. field. lra.
Qed.
End Bins.

(** ** The analysis of a multi-tone capture *)
Lemma cosine_window kz cz wt N : wt <> Kaiser -> wt <> Chebwin -> create_window kz cz wt N = cos_window (win_coefs wt) N.
Proof.
  intros H1 H2. destruct wt; try contradiction; try reflexivity. unfold create_window, cos_window, win_coefs.
  destruct (N <=? 1)%nat; [reflexivity|]. apply (nth_ext_eq 0); rewrite repeat_length; [rewrite map_length, seq_length; reflexivity|].
  intros i Hi. rewrite map_seq_nth by exact Hi. cbn [length rsum nth]. replace (INR 0 * (2 * PI * INR i / INR N - PI)) with 0 by (simpl; ring). rewrite cos_0.
  rewrite (nth_indep _ 0 1), nth_repeat by (rewrite repeat_length; exact Hi). ring.
Qed.
Lemma window_peaked wt : peaked (win_coefs wt).
Proof.
  split; [destruct wt; cbn [win_coefs nth]; lra|]. intros d Hd. unfold lobe. destruct (Nat.eqb_spec d 0); [lia|].
  destruct wt; do 6 (destruct d; [try lia; cbn [win_coefs nth]; apply Rabs_def1; lra|]); (rewrite nth_overflow by (simpl; lia); cbn [win_coefs nth]; apply Rabs_def1; lra).
Qed.
Lemma window_lobe wt : wt <> Kaiser -> wt <> Chebwin -> (length (win_coefs wt) - 1)%nat = default_side_bin wt.
Proof. intros H1 H2. destruct wt; try contradiction; reflexivity. Qed.
Lemma tone_sum N J A ph : (0 < J)%nat -> (2 * J < N)%nat -> rsum N (fun n => A * cos (2 * PI * INR J * INR n / INR N + ph)) = 0.
Proof.
  intros H1 H2. pose proof (csum_RtoC_Re N (fun n => A * cos (2 * PI * INR J * INR n / INR N + ph)) 0) as E.
  rewrite tone_rdft in E by lia. destruct (Nat.eqb_spec 0 J) as [Q|_]; [lia|]. unfold C0, Re in E. cbn [fst] in E. rewrite E. apply rsum_ext. intros n Hn.
  replace (2 * PI * INR 0 * INR n / INR N) with 0 by (simpl; unfold Rdiv; ring). rewrite cos_0. ring.
Qed.
Lemma prepare_tones N H c A ph J p : (0 < N)%nat -> (forall i, (i < H)%nat -> (0 < J i)%nat /\ (2 * J i < N)%nat) -> p <> 0 ->
  prepare_fft_input [map (multitone N H c A ph J) (seq 0 N)] (ScalePeak p) =
  Ok [map (multitone N H 0 (fun i => A i / p) ph J) (seq 0 N)].
Proof.
  intros HN HJ Hp. pose proof (INR_pos N HN) as PN. unfold prepare_fft_input.
  replace (orient [map (multitone N H c A ph J) (seq 0 N)]) with [map (multitone N H c A ph J) (seq 0 N)].
  2:{ unfold orient. cbn [length]. change (1 <? 1)%nat with false. rewrite andb_false_r. reflexivity. }
  cbn [peak_of bind map]. assert (M : lmean (map (multitone N H c A ph J) (seq 0 N)) = c).
  { unfold lmean. rewrite map_length, seq_length. rewrite lsum_rsum, map_length, seq_length.
    rewrite (rsum_ext N _ (fun n => c + rsum H (fun i => A i * cos (2 * PI * INR (J i) * INR n / INR N + ph i)))) by (intros n Hn; rewrite map_seq_nth by exact Hn; reflexivity).
    rewrite rsum_plus, rsum_const, rsum_swap, (rsum_zero H). { field. lra. } intros i Hi. apply tone_sum; apply HJ, Hi. }
  rewrite M. f_equal. f_equal. rewrite map_map. apply map_ext. intros n. destruct (Reqb_spec p 0); [contradiction|].
  unfold multitone. rewrite (rsum_ext H (fun i => A i / p * cos _) (fun i => / p * (A i * cos (2 * PI * INR (J i) * INR n / INR N + ph i)))) by (intros i Hi; unfold Rdiv; ring).
  rewrite rsum_scale. field. exact Hp.
Qed.
Lemma tones_inv kz cz N H c A ph J p fs wt sb osr mh nf r : wt <> Kaiser -> wt <> Chebwin -> p <> 0 -> (0 < H)%nat -> resolvable N H (default_side_bin wt) sb J ->
  compute_spectrum kz cz [map (multitone N H c A ph J) (seq 0 N)] fs (ScalePeak p) wt (Some sb) osr mh nf None 0 = Ok r ->
  exists w, analyse_power (tone_spectrum (win_coefs wt) N H (fun i => A i / p) ph J) 1 N (sp_inband r) fs osr wt w (Some sb) mh nf None = Ok r /\
    (1 <= sp_inband r <= N / 2 + 1)%nat.
Proof.
  intros W1 W2 Hp HH HR HC. pose proof (proj1 HR 0%nat HH) as [Q1 Q2]. apply compute_inv in HC. destruct HC as (rows & nb & P & EP & EI & EC & HA & Pn & LP & Hnb & HN).
  rewrite prepare_tones in EP; [|lia| |exact Hp].
  2:{ intros i Hi. destruct (proj1 HR i Hi). lia. }
  apply Ok_inj in EP. subst rows. unfold apply_cutoff in EC. destruct (Rltb_spec 0 0) as [L|L]; [lra|]. apply Ok_inj in EC.
  unfold ncols in *. cbn [hd length] in *. rewrite !map_length, !seq_length in *. rewrite (cosine_window kz cz wt N W1 W2) in EC. subst P.
  assert (E : sp_inband r = nb) by (apply analyse_fields in HA; tauto). rewrite E. eexists. split; [exact HA|exact Hnb].
Qed.

(** The analysis of a capture of coherent tones (any cosine-sum window, any offset, phases and
    scale, explicit side_bin at least the window's default): the fundamental is found exactly,
    its power is exactly its squared relative amplitude, and the noise-and-distortion power
    is exactly the sum of the squared relative amplitudes of the other in-band tones. *)
Lemma c61_tone_powers kz cz N H c A ph J p fs wt sb osr mh nf r :
  wt <> Kaiser -> wt <> Chebwin -> p <> 0 ->
  compute_spectrum kz cz [map (multitone N H c A ph J) (seq 0 N)] fs (ScalePeak p) wt (Some sb) osr mh nf None 0 = Ok r ->
  let K := default_side_bin wt in let nb := sp_inband r in
  one_dominant N H K sb nb A J ->
  sp_fund r = J O /\ sp_frac r = INR (J O) /\ sp_sig r = (A O / p) ^ 2 /\
  sp_noise_dist r = tone_power H (fun i => A i / p) (unwanted K nb J).
Proof.
  intros W1 W2 Hp HC K nb (HH & Hsb & HR & F0 & A0 & Hin & HA). destruct (tones_inv _ _ _ _ _ _ _ _ _ _ _ _ _ _ _ _ W1 W2 Hp HH HR HC) as (w & AN & Hnb). fold nb in AN, Hnb.
  set (B := fun i => A i / p) in *. assert (Ip : / p <> 0) by (apply Rinv_neq_0_compat, Hp).
  assert (B0 : B 0%nat <> 0) by (unfold B, Rdiv; apply Rmult_integral_contrapositive; split; assumption).
  pose proof (window_lobe wt W1 W2) as WL. set (a := win_coefs wt) in *. pose proof (window_peaked wt) as WP. fold a in WP. fold K in WL.
  rewrite <- WL in HR, Hsb, F0, Hin, HA. rewrite <- WL. clearbody K. clear WL.
  set (P := tone_spectrum a N H B ph J) in *.
  destruct (P_fund a N H B ph J sb Hsb HR WP HH nb ltac:(lia) B0) as [Ef Efr].
  { intros i Hi Hi2. unfold B, Rdiv. rewrite !Rabs_mult. apply Rmult_lt_compat_r; [apply Rabs_pos_lt, Ip|]. apply HA; [exact Hi|]. destruct (Hin i ltac:(lia)); lia. }
  apply analyse_fields in AN. destruct AN as (_ & _ & Kf & Kfr & Ks & _ & _ & Ksig & _ & _ & _ & _ & Knd & _).
  fold P in Ef, Efr. rewrite Ef in Kf. rewrite Efr in Kfr. rewrite Kf, Ks in *. split; [reflexivity|]. split; [exact Kfr|]. destruct HR as [R1 R2]. split.
  - rewrite Ksig. unfold P, tone_spectrum.
    rewrite (lobes_power a N H B ph J sb (a_ne a WP) Hsb (conj R1 R2) (a0_ne a WP) nb (near (J O) sb) (fun i => (i =? 0)%nat) ltac:(lia) HH).
    + rewrite (rsum_single H O); [reflexivity|exact HH|]. intros i Hi Hne. destruct (Nat.eqb_spec i O); [contradiction|reflexivity].
    + intros i Hi E. apply Nat.eqb_eq in E. subst i. split; [lia|]. intros b D. unfold near, bin_dist in *. apply andb_true_iff. split; apply Nat.leb_le; lia.
    + intros i Hi E b Hb D. apply Nat.eqb_neq in E. pose proof (R2 i 0%nat Hi HH E). unfold near, bin_dist in *. apply andb_false_iff.
      destruct (Nat.le_gt_cases (J O) (b + sb)); [right; apply Nat.leb_gt; lia|left; apply Nat.leb_gt; lia].
  - rewrite Knd. unfold P, tone_spectrum, tone_power.
    apply (lobes_power a N H B ph J sb (a_ne a WP) Hsb (conj R1 R2) (a0_ne a WP) nb (outside (J O) sb) (unwanted (length a - 1) nb J) ltac:(lia) HH).
    + intros i Hi E. apply andb_true_iff in E. destruct E as [E1 E2]. apply Nat.ltb_lt in E1, E2. split; [exact E2|]. intros b D.
      pose proof (R2 i 0%nat Hi HH ltac:(lia)). destruct (R1 i Hi). unfold outside, near, near_dc, bin_dist in *.
      rewrite andb_true_iff, !negb_true_iff, andb_false_iff, !Nat.leb_gt. lia.
    + intros i Hi E b Hb D. unfold outside. destruct (Nat.eq_dec i O) as [->|Hi0].
      * assert (Nr : near (J O) sb b = true) by (unfold near, bin_dist in *; rewrite andb_true_iff, !Nat.leb_le; lia). rewrite Nr, andb_false_r. reflexivity.
      * exfalso. apply andb_false_iff in E. rewrite !Nat.ltb_ge in E. destruct (Hin i Hi); unfold bin_dist in *; lia.
Qed.
Lemma db_pos x : 0 < x -> db x = Fin (10 * lg x).
Proof. intros H. unfold db. rewrite xlog10_pos by exact H. cbn [xaxpy]. f_equal. ring. Qed.
Lemma tone_power_nonneg H A sel : 0 <= tone_power H A sel.
Proof. apply rsum_nonneg. intros i Hi. pose proof (pow2_ge_0 (A i)). destruct (sel i); lra. Qed.
Lemma sq_pos x : x <> 0 -> 0 < x ^ 2.
Proof. intros H. rewrite <- Rsqr_pow2. apply Rsqr_pos_lt, H. Qed.
(** The SNDR is therefore 10 lg of the ratio of squared amplitudes (with the code's 1e-20 floor). *)
Lemma c61_sndr kz cz N H c A ph J p fs wt sb osr mh nf r :
  wt <> Kaiser -> wt <> Chebwin -> p <> 0 ->
  compute_spectrum kz cz [map (multitone N H c A ph J) (seq 0 N)] fs (ScalePeak p) wt (Some sb) osr mh nf None 0 = Ok r ->
  let K := default_side_bin wt in let nb := sp_inband r in
  one_dominant N H K sb nb A J ->
  sp_sndr r = Fin (10 * lg (A O ^ 2 / (tone_power H A (unwanted K nb J) + p ^ 2 * / 10 ^ 20))).
Proof.
  intros W1 W2 Hp HC K nb HD. destruct (c61_tone_powers _ _ _ _ _ _ _ _ _ _ _ _ _ _ _ _ W1 W2 Hp HC HD) as (_ & _ & Es & En).
  destruct (tones_inv _ _ _ _ _ _ _ _ _ _ _ _ _ _ _ _ W1 W2 Hp (proj1 HD) (proj1 (proj2 (proj2 HD))) HC) as (w & AN & Hnb).
  apply analyse_fields in AN. destruct AN as (_ & _ & _ & _ & _ & _ & _ & _ & _ & _ & _ & _ & _ & _ & Esn & _).
  rewrite Esn, Es, En. unfold sndr_of. assert (A0 : A O <> 0) by apply HD.
  pose proof (tone_power_nonneg H A (unwanted K nb J)). pose proof (eps_pos 20). pose proof (sq_pos (A O) A0). pose proof (sq_pos p Hp).
  assert (E : tone_power H (fun i => A i / p) (unwanted K nb J) = tone_power H A (unwanted K nb J) / p ^ 2).
  { unfold tone_power, Rdiv. rewrite Rmult_comm, <- rsum_scale. apply rsum_ext. intros i Hi. destruct (unwanted K nb J i); [field; exact Hp|ring]. }
  fold K nb. rewrite E. set (T := tone_power H A _) in *. set (e := / 10 ^ 20) in *.
  assert (0 < p ^ 2 * e) by (apply Rmult_lt_0_compat; assumption).
  replace ((A O / p) ^ 2) with (A O ^ 2 / p ^ 2) by (field; exact Hp). set (q := p ^ 2) in *.
  replace (A O ^ 2 / q / (T / q + e)) with (A O ^ 2 / (T + q * e)) by (field; lra).
  apply db_pos. apply Rdiv_lt_0_compat; lra.
Qed.
(** The spur is the strongest unwanted tone m, and the SFDR the ratio of its squared amplitude
    to the fundamental's. *)
Lemma c61_sfdr kz cz N H c A ph J p fs wt sb osr mh nf r m :
  wt <> Kaiser -> wt <> Chebwin -> p <> 0 ->
  compute_spectrum kz cz [map (multitone N H c A ph J) (seq 0 N)] fs (ScalePeak p) wt (Some sb) osr mh nf None 0 = Ok r ->
  let K := default_side_bin wt in let nb := sp_inband r in
  one_dominant N H K sb nb A J ->
  (m < H)%nat -> unwanted K nb J m = true -> A m <> 0 ->
  (forall i, (i < H)%nat -> unwanted K nb J i = true -> Rabs (A i) <= Rabs (A m)) ->
  sp_spur_power r = (A m / p) ^ 2 /\ sp_sfdr r = Fin (10 * lg (A O ^ 2 / A m ^ 2)) /\
  exists i, (i < H)%nat /\ sp_spur_bin r = J i /\ Rabs (A i) = Rabs (A m).
Proof.
  intros W1 W2 Hp HC K nb HD Hm Um Am Mx. destruct (c61_tone_powers _ _ _ _ _ _ _ _ _ _ _ _ _ _ _ _ W1 W2 Hp HC HD) as (Ef & _ & Es & _).
  pose proof (c26_spur_is_maximal _ _ _ _ _ _ _ _ _ _ _ _ _ HC) as (SB1 & SB2 & SB3 & _).
  destruct HD as (HH & Hsb & HR & F0 & A0 & Hin & HA).
  destruct (tones_inv _ _ _ _ _ _ _ _ _ _ _ _ _ _ _ _ W1 W2 Hp HH HR HC) as (w & AN & Hnb).
  apply analyse_fields in AN. destruct AN as (EP & _ & _ & _ & Esd & _ & _ & _ & _ & _ & _ & _ & _ & _ & _ & _ & Esf & _).
  rewrite Ef, Esd, EP in *. fold nb in SB1, SB2, SB3, Hnb.
  assert (Ip : 0 < Rabs (/ p)) by (apply Rabs_pos_lt, Rinv_neq_0_compat, Hp).
  set (B := fun i => A i / p) in *.
  assert (Bm : forall i, Rabs (B i) = Rabs (A i) * Rabs (/ p)) by (intros i; unfold B, Rdiv; apply Rabs_mult).
  pose proof (window_lobe wt W1 W2) as WL. set (a := win_coefs wt) in *. pose proof (window_peaked wt) as WP. fold a in WP. fold K in WL.
  rewrite <- WL in HR, Hsb, F0, Hin, HA, Um, Mx. clearbody K. clear WL. set (P := tone_spectrum a N H B ph J) in *.
  pose proof (lobe_power_pos a (a0_ne a WP)) as LP. pose proof (lobe_sq a WP 1 ltac:(lia)) as L1. pose proof (pow2_ge_0 (lobe a 1)) as L1n.
  assert (Bm2 : 0 < B m ^ 2) by (apply sq_pos; unfold B, Rdiv; apply Rmult_integral_contrapositive; split; [exact Am|apply Rinv_neq_0_compat, Hp]).
  assert (PPm : nth (J m) P 0 = B m ^ 2 * (lobe a 0 ^ 2 / lobe_power a)) by (apply (P_peak a N H B ph J sb Hsb HR WP HH m Hm)).
  assert (PP0 : 0 < nth (J m) P 0) by (rewrite PPm; apply Rmult_lt_0_compat; [exact Bm2|apply Rdiv_lt_0_compat; lra]).
  pose proof Um as Um'. unfold unwanted in Um'. apply andb_true_iff in Um'. destruct Um' as [Um1 Um2]. apply Nat.ltb_lt in Um1, Um2.
  assert (Om : outside (J O) sb (J m) = true).
  { pose proof (proj2 HR m 0%nat Hm HH ltac:(lia)). destruct (proj1 HR m Hm). unfold outside, near, near_dc, bin_dist in *.
    rewrite andb_true_iff, !negb_true_iff, andb_false_iff, !Nat.leb_gt. lia. }
  destruct (SB2 (J m) ltac:(lia) Om PP0) as [Os Ge]. set (s := sp_spur_bin r) in *.
  destruct (some_lobe H (length a - 1) J s) as [[i [Hi D]]|D].
  2:{ exfalso. unfold P in Ge. rewrite (P_off a N H B ph J sb Hsb HR WP HH s ltac:(lia) D) in Ge. fold P in Ge. lra. }
  assert (Hi0 : i <> O).
  { intros ->. unfold outside in Os. apply andb_true_iff in Os. destruct Os as [_ Os]. apply negb_true_iff in Os. unfold near in Os.
    apply andb_false_iff in Os. rewrite !Nat.leb_gt in Os. unfold bin_dist in D. lia. }
  assert (Ui : unwanted (length a - 1) nb J i = true).
  { unfold unwanted. apply andb_true_iff. split; apply Nat.ltb_lt; [lia|]. destruct (Hin i Hi); [assumption|]. unfold bin_dist in D. lia. }
  pose proof (Mx i Hi Ui) as Le.
  assert (LeB : Rabs (B i) <= Rabs (B m)) by (rewrite !Bm; apply Rmult_le_compat_r; [apply Rabs_pos|exact Le]).
  assert (LeB2 : B i ^ 2 <= B m ^ 2) by (rewrite <- (pow2_abs (B i)), <- (pow2_abs (B m)); pose proof (Rabs_pos (B i)); nra).
  rewrite PPm in Ge. unfold P in Ge. rewrite (P_in a N H B ph J sb Hsb HR WP HH i s Hi ltac:(lia) D) in Ge.
  assert (Ge2 : B m ^ 2 * lobe a 0 ^ 2 <= B i ^ 2 * lobe a (bin_dist s (J i)) ^ 2).
  { unfold Rdiv in Ge. rewrite <- !Rmult_assoc in Ge. apply Rmult_le_reg_r in Ge; [exact Ge|apply Rinv_0_lt_compat, LP]. }
  assert (D0 : bin_dist s (J i) = O).
  { destruct (Nat.eq_dec (bin_dist s (J i)) 0) as [|Dn]; [assumption|exfalso]. pose proof (lobe_sq a WP (bin_dist s (J i)) ltac:(lia)) as Lq.
    pose proof (pow2_ge_0 (B i)). pose proof (pow2_ge_0 (lobe a (bin_dist s (J i)))). nra. }
  rewrite D0 in Ge2. assert (Eq2 : B i ^ 2 = B m ^ 2) by (apply Rle_antisym; [exact LeB2|]; apply Rmult_le_reg_r in Ge2; lra).
  assert (Es' : s = J i) by (unfold bin_dist in D0; lia).
  assert (SP : sp_spur_power r = B m ^ 2).
  { rewrite SB3, Es', <- Eq2. unfold P, tone_spectrum.
    rewrite (lobes_power a N H B ph J sb (a_ne a WP) Hsb HR (a0_ne a WP) nb (fun b => near (J i) sb b && outside (J O) sb b) (fun j => (j =? i)%nat) ltac:(lia) HH).
    - rewrite (rsum_single H i); [rewrite Nat.eqb_refl; reflexivity|exact Hi|]. intros j Hj Hne. destruct (Nat.eqb_spec j i); [contradiction|reflexivity].
    - intros j Hj E. apply Nat.eqb_eq in E. subst j. unfold unwanted in Ui. apply andb_true_iff in Ui. destruct Ui as [U1 U2]. apply Nat.ltb_lt in U1, U2. split; [exact U2|].
      intros b Db. pose proof (proj2 HR i 0%nat Hi HH ltac:(lia)). destruct (proj1 HR i Hi). unfold outside, near, near_dc, bin_dist in *.
      rewrite !andb_true_iff, !negb_true_iff, andb_false_iff, !Nat.leb_gt, !Nat.leb_le. lia.
    - intros j Hj E b Hb Db. apply Nat.eqb_neq in E. pose proof (proj2 HR j i Hj Hi E). apply andb_false_iff. left.
      unfold near, bin_dist in *. rewrite andb_false_iff, !Nat.leb_gt. lia. }
  split; [exact SP|]. split.
  - rewrite Esf, SP, Es. fold (B O). assert (S0 : 0 < B O ^ 2) by (apply sq_pos; unfold B, Rdiv; apply Rmult_integral_contrapositive; split; [exact A0|apply Rinv_neq_0_compat, Hp]).
    destruct (Rltb_spec 0 (B O ^ 2)); [|lra]. destruct (Rleb_spec (B m ^ 2) 0); [lra|].
    pose proof (sq_pos (A m) Am). pose proof (sq_pos (A O) A0).
    replace (B O ^ 2 / B m ^ 2) with (A O ^ 2 / A m ^ 2) by (unfold B; field; split; assumption). apply db_pos, Rdiv_lt_0_compat; assumption.
  - exists i. split; [exact Hi|]. split; [exact Es'|]. assert (Q : Rabs (B i) = Rabs (B m)).
    { rewrite <- (pow2_abs (B i)), <- (pow2_abs (B m)) in Eq2. pose proof (Rabs_pos (B i)). pose proof (Rabs_pos (B m)). nra. }
    rewrite !Bm in Q. apply Rmult_eq_reg_r in Q; [exact Q|lra].
Qed.
(** Without unwanted in-band tones the SFDR is infinite. *)
Lemma c61_sfdr_clean kz cz N H c A ph J p fs wt sb osr mh nf r :
  wt <> Kaiser -> wt <> Chebwin -> p <> 0 ->
  compute_spectrum kz cz [map (multitone N H c A ph J) (seq 0 N)] fs (ScalePeak p) wt (Some sb) osr mh nf None 0 = Ok r ->
  let K := default_side_bin wt in let nb := sp_inband r in
  one_dominant N H K sb nb A J -> (forall i, (i < H)%nat -> unwanted K nb J i = false) ->
  sp_noise_dist r = 0 /\ sp_sfdr r = PInf.
Proof.
  intros W1 W2 Hp HC K nb HD HU. destruct (c61_tone_powers _ _ _ _ _ _ _ _ _ _ _ _ _ _ _ _ W1 W2 Hp HC HD) as (Ef & _ & Es & En).
  pose proof (c26_spur_is_maximal _ _ _ _ _ _ _ _ _ _ _ _ _ HC) as (_ & _ & _ & Le).
  destruct (tones_inv _ _ _ _ _ _ _ _ _ _ _ _ _ _ _ _ W1 W2 Hp (proj1 HD) (proj1 (proj2 (proj2 HD))) HC) as (w & AN & Hnb).
  apply analyse_fields in AN. destruct AN as (_ & _ & _ & _ & _ & _ & _ & _ & _ & _ & _ & _ & _ & _ & _ & _ & Esf & _).
  assert (Z : sp_noise_dist r = 0).
  { rewrite En. apply rsum_zero. intros i Hi. fold K nb. rewrite HU by exact Hi. reflexivity. }
  split; [exact Z|]. rewrite Esf, Es. assert (A0 : A O <> 0) by apply HD.
  assert (S0 : 0 < (A O / p) ^ 2) by (apply sq_pos; unfold Rdiv; apply Rmult_integral_contrapositive; split; [exact A0|apply Rinv_neq_0_compat, Hp]).
  destruct (Rltb_spec 0 ((A O / p) ^ 2)); [|lra]. destruct (Rleb_spec (sp_spur_power r) 0); [reflexivity|lra].
Qed.
(** The harmonic bins are computed from the exact fundamental, and the THD power is exactly the
    power of the tones sitting on counted harmonic bins (not below the code's 1e-15 floor). *)
Lemma c61_thd kz cz N H c A ph J p fs wt sb osr mh nf r :
  wt <> Kaiser -> wt <> Chebwin -> p <> 0 ->
  compute_spectrum kz cz [map (multitone N H c A ph J) (seq 0 N)] fs (ScalePeak p) wt (Some sb) osr mh nf None 0 = Ok r ->
  let K := default_side_bin wt in let nb := sp_inband r in
  one_dominant N H K sb nb A J ->
  let hs := harmonic_bins (INR (J O)) (Z.to_nat mh) N in
  (forall h i, In h hs -> (i < H)%nat -> clear_of (J O) sb h = true ->
     h = Z.of_nat (J i) \/ (Z.of_nat (sb + K) < Z.abs (h - Z.of_nat (J i)))%Z) ->
  sp_harm_bins r = hs /\
  sp_thd_power r = Rmax (tone_power H (fun i => A i / p)
     (fun i => existsb (fun h => clear_of (J O) sb h && (h =? Z.of_nat (J i))%Z) hs)) (/ 10 ^ 15).
Proof.
  intros W1 W2 Hp HC K nb HD hs Hh. destruct (c61_tone_powers _ _ _ _ _ _ _ _ _ _ _ _ _ _ _ _ W1 W2 Hp HC HD) as (Ef & Efr & _ & _).
  destruct HD as (HH & Hsb & HR & F0 & A0 & Hin & HA).
  destruct (tones_inv _ _ _ _ _ _ _ _ _ _ _ _ _ _ _ _ W1 W2 Hp HH HR HC) as (w & AN & Hnb).
  apply analyse_fields in AN. destruct AN as (EP & _ & _ & _ & Esd & _ & _ & _ & Eh & Et & _).
  rewrite Efr in Eh. fold hs in Eh. split; [exact Eh|]. rewrite Et, Eh, Ef, Esd, c25_thd_is_union_power. f_equal.
  pose proof (window_lobe wt W1 W2) as WL. set (a := win_coefs wt) in *. pose proof (window_peaked wt) as WP. fold a in WP. fold K in WL.
  rewrite <- WL in HR, Hsb, Hh. clearbody K. clear WL. destruct HR as [R1 R2].
  replace (length (tone_spectrum a N H (fun i => A i / p) ph J)) with (N / 2 + 1)%nat by (symmetry; apply corrected_length).
  unfold tone_spectrum, tone_power.
  apply (lobes_power a N H (fun i => A i / p) ph J sb (a_ne a WP) Hsb (conj R1 R2) (a0_ne a WP) (N / 2 + 1) _ (fun i => existsb (fun h => clear_of (J O) sb h && (h =? Z.of_nat (J i))%Z) hs) ltac:(lia) HH).
  - intros i Hi E. apply existsb_exists in E. destruct E as (h & Ih & E). apply andb_true_iff in E. destruct E as [C E]. apply Z.eqb_eq in E.
    destruct (R1 i Hi) as [Q1 Q2]. split.
    + assert (J i + (length a - 1) <= N / 2)%nat by (apply Nat.div_le_lower_bound; lia). lia.
    + intros b D. apply existsb_exists. exists h. split; [exact Ih|]. rewrite C. unfold nearZ, bin_dist in *. apply Z.leb_le. lia.
  - intros i Hi E b Hb D. apply Bool.not_true_iff_false. intros T. apply existsb_exists in T. destruct T as (h & Ih & T). apply andb_true_iff in T. destruct T as [C T].
    destruct (Hh h i Ih Hi C) as [Q|Q].
    + assert (X : existsb (fun h => clear_of (J O) sb h && (h =? Z.of_nat (J i))%Z) hs = true).
      { apply existsb_exists. exists h. split; [exact Ih|]. rewrite C. apply Z.eqb_eq. exact Q. }
      rewrite X in E. discriminate.
    + unfold nearZ, bin_dist in *. apply Z.leb_le in T. lia.
Qed.

(** ** C62 *)
Lemma onesided_sum N g : (0 < N)%nat -> (forall k, (0 < k < N)%nat -> g (N - k)%nat = g k) ->
  rsum (N / 2 + 1) (fun k => let p := if (k =? 0)%nat then g k / 2 else g k in
     if (Nat.even N && (k =? N / 2))%nat then p / 2 else p) = rsum N g / 2.
Proof.
  intros HN Hg. rewrite (rsum_symmetric N g HN Hg). destruct (Nat.Even_or_Odd N) as [[h Hh]|[h Hh]].
  - assert (D : (N / 2 = h)%nat) by (symmetry; apply Nat.div_unique with O; lia).
    assert (D1 : ((N - 1) / 2 = h - 1)%nat) by (symmetry; apply Nat.div_unique with 1%nat; lia).
    assert (Ev : Nat.even N = true) by (apply Nat.even_spec; exists h; exact Hh). rewrite D, D1, Ev. cbn [andb].
    replace (h + 1)%nat with (S (S (h - 1))) by lia. rewrite rsum_shift. cbn [rsum]. 
    change (0 =? 0)%nat with true. cbv iota zeta. replace (S (h - 1)) with h by lia. rewrite Nat.eqb_refl.
    replace (0 =? h)%nat with false by (symmetry; apply Nat.eqb_neq; lia). replace (h =? 0)%nat with false by (symmetry; apply Nat.eqb_neq; lia).
    rewrite (rsum_ext (h - 1) _ (fun i => / 2 * (2 * g (S i)))).
    + rewrite rsum_scale. lra.
    + intros i Hi. replace (S i =? 0)%nat with false by reflexivity. replace (S i =? h)%nat with false by (symmetry; apply Nat.eqb_neq; lia). lra.
  - assert (D : (N / 2 = h)%nat) by (symmetry; apply Nat.div_unique with 1%nat; lia).
    assert (D1 : ((N - 1) / 2 = h)%nat) by (symmetry; apply Nat.div_unique with 0%nat; lia).
    assert (Ev : Nat.even N = false) by (apply Bool.not_true_iff_false; intros E; apply Nat.even_spec in E; destruct E; lia). rewrite D, D1, Ev. cbn [andb].
    replace (h + 1)%nat with (S h) by lia. rewrite rsum_shift. change (0 =? 0)%nat with true. cbv iota zeta.
    rewrite (rsum_ext h _ (fun i => / 2 * (2 * g (S i)))).
    + rewrite rsum_scale. lra.
    + intros i Hi. replace (S i =? 0)%nat with false by reflexivity. lra.
Qed.
Lemma lmean_ext {A} (f g : A -> R) l : (forall x, In x l -> f x = g x) -> lmean (map f l) = lmean (map g l).
Proof. intros H. f_equal. apply map_ext_in, H. Qed.
Lemma rsum_lmean {A} n (f : nat -> A -> R) l : rsum n (fun k => lmean (map (f k) l)) = lmean (map (fun x => rsum n (fun k => f k x)) l).
Proof.
  unfold lmean. rewrite map_length. unfold Rdiv. rewrite (rsum_ext n _ (fun k => / INR (length l) * lsum (map (f k) l))) by (intros; rewrite map_length; ring).
  rewrite rsum_scale, Rmult_comm. f_equal. induction l as [|x t IH]; cbn [map lsum]; [apply rsum_zero; reflexivity|]. rewrite rsum_plus, IH. reflexivity.
Qed.
Lemma lmean_scale {A} c (f : A -> R) l : lmean (map (fun x => c * f x) l) = c * lmean (map f l).
Proof. unfold lmean. rewrite !map_length, <- (map_map f (fun x => c * x)), lsum_map_scale. unfold Rdiv. ring. Qed.
Lemma correction_general w : lsum w <> 0 -> power_correction w = 4 / lmean (map (fun x => x ^ 2) w).
Proof.
  intros H. assert (L : INR (length w) <> 0) by (apply not_0_INR; destruct w; [exfalso; apply H; reflexivity|discriminate]).
  assert (S2 : lsum (map (fun x => x ^ 2) w) <> 0).
  { intros E. apply H. assert (Z : forall x, In x w -> x = 0).
    { clear H L. induction w as [|y t IH]; [intros x []|]. cbn [map lsum] in E. assert (0 <= lsum (map (fun x => x ^ 2) t)).
      { apply lsum_nonneg, Forall_forall. intros z Hz. apply in_map_iff in Hz. destruct Hz as (u & <- & _). apply pow2_ge_0. }
      pose proof (pow2_ge_0 y). intros x [<-|Hx]; [nra|apply IH; [lra|exact Hx]]. }
    rewrite <- (map_id w), (lsum_map_ext (fun x => x) (fun _ => 0)) by exact Z. rewrite lsum_const. ring. }
  unfold power_correction, window_gain, enbw_factor, lmean. rewrite map_length. field. repeat split; assumption.
Qed.
(** The whole corrected spectrum sums to twice the mean square of the windowed data over the
    mean square of the window, for every window with non-zero sum and every record. *)
Lemma c62_total_power rows w N : (0 < N)%nat -> length w = N -> lsum w <> 0 -> rows <> [] -> (forall r, In r rows -> length r = N) ->
  lsum (corrected_power rows w N) =
  2 * lmean (map (fun r => lmean (map (fun v => v ^ 2) (map2 Rmult r w))) rows) / lmean (map (fun v => v ^ 2) w).
Proof.
  intros HN Lw Sw Hrows Hr. pose proof (INR_pos N HN) as PN. unfold corrected_power. rewrite correction_general by exact Sw.
  rewrite (map_ext _ (fun p => 4 / lmean (map (fun x => x ^ 2) w) * p)) by (intros; ring). rewrite lsum_map_scale.
  set (rw := windowed rows w).
  set (g := fun k => lmean (map (fun r => Cmod (rfft r k) ^ 2) rw) / INR N ^ 2).
  assert (Lr : forall r, In r rw -> length r = N).
  { intros r H. unfold rw, windowed in H. apply in_map_iff in H. destruct H as (r0 & <- & H). rewrite map2_length; [apply Hr, H|]. rewrite Lw. apply Hr, H. }
  assert (E : lsum (power_average N rw) = rsum N g / 2).
  { rewrite <- onesided_sum; [|exact HN|].
    - unfold power_average. rewrite lsum_rsum, map_length, seq_length. apply rsum_ext. intros k Hk. rewrite map_seq_nth by exact Hk. reflexivity.
    - intros k Hk. unfold g. f_equal. apply lmean_ext. intros r H. f_equal. unfold rfft. rewrite (Lr r H), rdft_hermitian by exact Hk. apply Cmod_conj. }
  rewrite E. unfold g. rewrite (rsum_ext N _ (fun k => / INR N ^ 2 * lmean (map (fun r => Cmod (rfft r k) ^ 2) rw))) by (intros; unfold Rdiv; ring).
  rewrite rsum_scale, (rsum_lmean N (fun k r => Cmod (rfft r k) ^ 2)).
  rewrite (lmean_ext (fun r => rsum N (fun k => Cmod (rfft r k) ^ 2)) (fun r => INR N ^ 2 * lmean (map (fun v => v ^ 2) r))).
  2:{ intros r H. rewrite (rsum_ext N _ (fun k => Cmod2 (rdft N (fun n => nth n r 0) k))).
      - unfold rdft. rewrite dft_parseval by exact HN. unfold lmean. rewrite map_length, (Lr r H), lsum_rsum, map_length, (Lr r H).
        rewrite (rsum_ext N (fun n => Cmod2 (RtoC (nth n r 0))) (fun i => nth i (map (fun v => v ^ 2) r) 0)).
        + field. lra.
        + intros i Hi. rewrite (nth_map_in _ _ _ 0) by (rewrite (Lr r H); exact Hi). unfold Cmod2, RtoC. cbn [fst snd]. ring.
      - intros k Hk. unfold rfft. rewrite (Lr r H). rewrite <- Cmod_sqr. ring. }
  rewrite (lmean_scale (INR N ^ 2)). unfold rw, windowed. rewrite map_map. unfold Rdiv.
  set (m := lmean (map (fun x => lmean _) rows)). set (i := / lmean (map _ w)). assert (Q : INR N ^ 2 <> 0) by (apply pow_nonzero; lra).
  set (q := INR N ^ 2) in *. field. exact Q.
Qed.
(** So with the rectangular window the spectrum of a capture sums to twice its mean square:
    a full-scale sine (mean square 1/2) is 0 dBFS. *)
Lemma c62_rectangular_total row : row <> [] ->
  lsum (corrected_power [row] (repeat 1 (length row)) (length row)) = 2 * lmean (map (fun v => v ^ 2) row).
Proof.
  intros H. set (N := length row). assert (HN : (0 < N)%nat) by (unfold N; destruct row; [contradiction|simpl; lia]).
  pose proof (INR_pos N HN). assert (S1 : forall n, lsum (repeat 1 n) = INR n) by (induction n; [reflexivity|cbn [repeat lsum]; rewrite IHn, S_INR; ring]).
  assert (M : map2 Rmult row (repeat 1 N) = row).
  { unfold N. clear. induction row as [|x t IH]; [reflexivity|]. cbn [length repeat map2]. rewrite IH. f_equal. ring. }
  assert (Q : map (fun v => v ^ 2) (repeat 1 N) = repeat 1 N) by (clear; induction N; [reflexivity|cbn [repeat map]; rewrite IHN; f_equal; ring]).
  rewrite c62_total_power; [|exact HN|apply repeat_length|rewrite S1; lra|discriminate|intros r [<-|[]]; reflexivity].
  cbn [map]. rewrite M, Q. unfold lmean at 1. cbn [lsum length]. replace (lmean (repeat 1 N)) with 1; [change (INR 1) with 1; lra|].
  unfold lmean. rewrite S1, repeat_length. field. lra.
Qed.
Lemma c62_total_ex : lsum (corrected_power [[1; 2; -3]] [1; 0; 1] 3) = 10.
Proof.
  rewrite c62_total_power; [|lia|reflexivity|simpl; lra|discriminate|intros r [<-|[]]; reflexivity].
  cbn [map map2]. unfold lmean. cbn [map lsum length]. change (INR 1) with 1. change (INR 3) with (1 + 1 + 1). field.
Qed.

(** The analysis answers for every such capture. *)
Lemma c61_defined kz cz l fs p wt sb osr mh nf : l <> [] -> 0 < osr -> (1 <= mh)%Z -> (0 <= nf <= 4)%Z ->
  exists r, compute_spectrum kz cz [l] fs (ScalePeak p) wt (Some sb) osr mh nf None 0 = Ok r /\
    (osr <= 1 -> sp_inband r = (length l / 2 + 1)%nat).
Proof.
  intros Hl Ho Hm Hnf. unfold compute_spectrum. set (pr := prepare_fft_input [l] (ScalePeak p)).
  assert (E : exists row, pr = Ok [row] /\ length row = length l).
  { unfold pr, prepare_fft_input. replace (orient [l]) with [l] by (unfold orient; cbn [length]; change (1 <? 1)%nat with false; rewrite andb_false_r; reflexivity).
    cbn [peak_of bind map]. eexists. split; [reflexivity|]. apply map_length. }
  destruct E as (row & -> & Lr). cbn [bind]. unfold ncols. cbn [hd length]. rewrite Lr.
  assert (Ll : (0 < length l)%nat) by (destruct l; [contradiction|simpl; lia]).
  destruct (inband_count (Z.of_nat (length l)) osr) as [nb|e] eqn:EI.
  2:{ exfalso. rewrite inband_eq in EI by (lia || lra). discriminate. }
  cbn [bind]. unfold apply_cutoff. destruct (Rltb_spec 0 0) as [L|L]; [lra|]. cbn [bind].
  set (w := create_window kz cz wt (length l)). set (P := corrected_power [row] w (length l)).
  assert (A : exists r, analyse_power P 1 (length l) (Z.to_nat nb) fs osr wt w (Some sb) mh nf None = Ok r).
  { unfold analyse_power, raise_if. cbv zeta. destruct (Z.ltb_spec mh 1); [lia|]. unfold estimate_noise. cbv zeta.
    destruct (Z.eqb_spec nf 4); [destruct (candidate_bins _ _ _ _); cbn [bind]; eexists; reflexivity|].
    destruct (Z.eqb_spec nf 0); [cbn [bind]; eexists; reflexivity|].
    destruct (Z.eqb_spec nf 1); [cbn [bind]; eexists; reflexivity|].
    destruct (Z.eqb_spec nf 2); [cbn [bind]; eexists; reflexivity|].
    destruct (Z.eqb_spec nf 3); [cbn [bind]; eexists; reflexivity|]. lia. }
  destruct A as [r A]. exists r. split; [exact A|]. intros Ho1. rewrite c23_full_band in EI by (lia || lra). apply Ok_inj in EI.
  apply analyse_fields in A. destruct A as (_ & -> & _). subst nb. rewrite Z2Nat.inj_add, Z2Nat.inj_div by (try lia; apply Z.div_pos; lia). rewrite Nat2Z.id. reflexivity.
Qed.
Lemma c61_three_tones_ex kz cz : exists r,
  compute_spectrum kz cz [map (multitone 64 3 7 (fun i => nth i [2; 0.02; 0.002] 0) (fun i => INR i) (fun i => nth i [5; 10; 15] 0)%nat) (seq 0 64)]
    1 (ScalePeak 2) Hann (Some 1%nat) 1 5 3 None 0 = Ok r /\
  sp_fund r = 5%nat /\ sp_sig r = 1 /\ sp_noise_dist r = 0.000101 /\ sp_sfdr r = Fin 40.
Proof.
  set (A := fun i => nth i [2; 0.02; 0.002] 0). set (ph := fun i => INR i). set (J := (fun i => nth i [5; 10; 15] 0)%nat).
  destruct (c61_defined kz cz (map (multitone 64 3 7 A ph J) (seq 0 64)) 1 2 Hann 1 1 5 3) as [r [E In]].
  { discriminate. } { lra. } { lia. } { lia. }
  exists r. split; [exact E|]. specialize (In ltac:(lra)). rewrite map_length, seq_length in In.
  assert (D : one_dominant 64 3 (default_side_bin Hann) 1 (sp_inband r) A J).
  { rewrite In. change (64 / 2 + 1)%nat with 33%nat. unfold one_dominant, default_side_bin. split; [lia|]. split; [lia|]. split.
    - split.
      + intros i Hi. cases_lt i; unfold J; cbn [nth]; lia.
      + intros i j Hi Hj Hne. cases_lt i; cases_lt j; unfold J, bin_dist; cbn [nth]; lia.
    - split; [unfold J; cbn [nth]; lia|]. split; [unfold A; cbn [nth]; lra|]. split.
      + intros i Hi. cases_lt i; unfold J; cbn [nth]; lia.
      + intros i [Hi1 Hi2] _. unfold A. cases_lt i; [lia| |]; cbn [nth]; rewrite !Rabs_pos_eq by lra; lra. }
  destruct (c61_tone_powers kz cz 64 3 7 A ph J 2 1 Hann 1 1 5 3 r ltac:(discriminate) ltac:(discriminate) ltac:(lra) E D) as (F1 & F2 & F3 & F4).
  split; [exact F1|]. split; [rewrite F3; unfold A; cbn [nth]; lra|]. split.
  - rewrite F4, In. unfold tone_power. cbn [rsum]. change (64 / 2 + 1)%nat with 33%nat.
    repeat match goal with |- context [unwanted ?a ?b ?c ?d] => let v := eval compute in (unwanted a b c d) in change (unwanted a b c d) with v end. unfold A. cbn [nth]. lra.
  - destruct (c61_sfdr kz cz 64 3 7 A ph J 2 1 Hann 1 1 5 3 r 1 ltac:(discriminate) ltac:(discriminate) ltac:(lra) E D) as (_ & S & _).
    + lia.
    + rewrite In. reflexivity.
    + unfold A; cbn [nth]; lra.
    + intros i Hi U. unfold A. cases_lt i; try discriminate U; cbn [nth]; rewrite !Rabs_pos_eq by lra; lra.
    + rewrite S. f_equal. unfold A. cbn [nth]. replace (2 ^ 2 / 0.02 ^ 2) with (10 * 10 * (10 * 10)) by lra. rewrite !lg_mult, lg_10 by lra. lra.
Qed.
(** quick_sndr on the same three tones. *)
Lemma c27_quick_ex kz cz : exists enob,
  quick_sndr kz cz [map (multitone 64 3 7 (fun i => nth i [2; 0.02; 0.002] 0) (fun i => INR i) (fun i => nth i [5; 10; 15] 0)%nat) (seq 0 64)]
    Hann (Some 1%Z) (ScalePeak 2) = Ok (Fin (10 * lg (1 / (0.000101 + / 10 ^ 20))), enob).
Proof.
  destruct (c61_three_tones_ex kz cz) as (r & E & _ & Es & En & _). exists (sp_enob r).
  pose proof (c27_same_sndr _ _ _ _ _ _ _ _ _ _ E) as Q. change (Z.of_nat 1) with 1%Z in Q. rewrite Q. f_equal. f_equal.
  apply compute_inv in E. destruct E as (rows & nb & P & _ & _ & _ & HA & _). apply analyse_fields in HA.
  destruct HA as (_ & _ & _ & _ & _ & _ & _ & _ & _ & _ & _ & _ & _ & _ & -> & _). rewrite Es, En. unfold sndr_of. apply db_pos.
  pose proof (eps_pos 20). apply Rdiv_lt_0_compat; lra.
Qed.
