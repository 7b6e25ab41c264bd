(** * Tones through the time-interleave functions; the final lemmas are named c57_ .. c60_. *)
From Verif Require Import Base BaseLemmas Cplx FreqModel FreqSpec FreqProofs TiModel TiSpec TiToneSpec TiProofs.
From Coq Require Import Psatz Permutation.
Local Open Scope R_scope.

(** ** Polar form *)
Lemma atan_cos_pos x y : 0 < x -> cos (atan (y / x)) = x / sqrt (x * x + y * y) /\ sin (atan (y / x)) = y / sqrt (x * x + y * y).
Proof.
  intros Hx. assert (Hs : 0 < sqrt (x * x + y * y)) by (apply sqrt_lt_R0; nra).
  assert (E : sqrt (1 + (y / x) * (y / x)) = sqrt (x * x + y * y) / x).
  { replace (1 + y / x * (y / x)) with ((x * x + y * y) / (x * x)) by (field; lra).
    rewrite sqrt_div_alt by nra. rewrite sqrt_square by lra. reflexivity. }
  rewrite cos_atan, sin_atan. unfold Rsqr. rewrite E. split; field; split; lra.
Qed.

Lemma polar z : z = Cscale (Cmod z) (cis (Carg z)).
Proof.
  destruct z as [x y]. unfold Carg, Cmod, Cmod2, cis, Cscale, Re, Im. cbn [fst snd].
  destruct (Rltb_spec 0 x) as [Hx|Hx]; [|destruct (Rltb_spec x 0) as [Hx'|Hx'];
    [destruct (Rleb_spec 0 y) as [Hy|Hy]|destruct (Rltb_spec 0 y) as [Hy|Hy]; [|destruct (Rltb_spec y 0) as [Hy'|Hy']]]].
  - assert (0 < sqrt (x * x + y * y)) by (apply sqrt_lt_R0; nra).
    destruct (atan_cos_pos x y Hx) as [-> ->]. f_equal; field; lra.
  - assert (0 < sqrt (x * x + y * y)) by (apply sqrt_lt_R0; nra).
    destruct (atan_cos_pos (- x) (- y) ltac:(lra)) as [C S].
    replace (- y / - x) with (y / x) in C, S by (field; lra).
    replace (- x * - x + - y * - y) with (x * x + y * y) in C, S by ring.
    rewrite neg_cos, neg_sin, C, S. f_equal; field; lra.
  - assert (0 < sqrt (x * x + y * y)) by (apply sqrt_lt_R0; nra).
    destruct (atan_cos_pos (- x) (- y) ltac:(lra)) as [C S].
    replace (- y / - x) with (y / x) in C, S by (field; lra).
    replace (- x * - x + - y * - y) with (x * x + y * y) in C, S by ring.
    rewrite cos_minus, sin_minus, cos_PI, sin_PI, C, S. f_equal; field; lra.
  - assert (x = 0) by lra. subst x. rewrite cos_PI2, sin_PI2. replace (0 * 0 + y * y) with (y * y) by ring.
    rewrite sqrt_square by lra. f_equal; ring.
  - assert (x = 0) by lra. subst x. rewrite cos_neg, sin_neg, cos_PI2, sin_PI2. replace (0 * 0 + y * y) with (- y * - y) by ring.
    rewrite sqrt_square by lra. f_equal; ring.
  - assert (x = 0) by lra. assert (y = 0) by lra. subst x y. rewrite cos_0, sin_0. replace (0 * 0 + 0 * 0) with 0 by ring.
    rewrite sqrt_0. f_equal; ring.
Qed.
Lemma Re_polar z t : Re (Cmult z (cis t)) = Cmod z * cos (t + Carg z).
Proof.
  rewrite (polar z) at 1. rewrite Cscale_mult, Re_scale, <- cis_plus. unfold cis, Re; cbn [fst]. rewrite Rplus_comm. reflexivity.
Qed.
Lemma Carg_cis t : exists k : Z, Carg (cis t) = t + 2 * PI * IZR k.
Proof.
  pose proof (polar (cis t)) as E. rewrite Cmod_cis, Cscale_1 in E.
  assert (Q : cis (Carg (cis t) + - t) = C1) by (rewrite cis_plus, <- E; apply cis_inv).
  apply cis_eq_1 in Q. destruct Q as [k Hk]. exists k. lra.
Qed.
Lemma Carg_scale k z : 0 < k -> Carg (Cscale k z) = Carg z.
Proof.
  intros Hk. destruct z as [x y]. unfold Carg, Cscale, Re, Im. cbn [fst snd].
  assert (E : forall v, Rltb 0 (k * v) = Rltb 0 v).
  { intros v. destruct (Rltb_spec 0 (k * v)), (Rltb_spec 0 v); try reflexivity; nra. }
  assert (E2 : forall v, Rltb (k * v) 0 = Rltb v 0).
  { intros v. destruct (Rltb_spec (k * v) 0), (Rltb_spec v 0); try reflexivity; nra. }
  assert (E3 : Rleb 0 (k * y) = Rleb 0 y).
  { destruct (Rleb_spec 0 (k * y)), (Rleb_spec 0 y); try reflexivity; nra. }
  rewrite !E, !E2, E3.
  destruct (Rltb_spec 0 x) as [H|H]; [f_equal; field; lra|].
  destruct (Rltb_spec x 0) as [H'|H']; [replace (k * y / (k * x)) with (y / x) by (field; lra); reflexivity|reflexivity].
Qed.

(** ** irfft of a Hermitian sequence *)
Lemma rsum_symmetric N g : (0 < N)%nat -> (forall k, (0 < k < N)%nat -> g (N - k)%nat = g k) ->
  rsum N g = g O + rsum ((N - 1) / 2) (fun i => 2 * g (S i)) + (if Nat.even N then g (N / 2)%nat else 0).
Proof.
  intros HN H. destruct (Nat.Even_or_Odd N) as [[h Hh]|[h Hh]].
  - replace (Nat.even N) with true by (symmetry; apply Nat.even_spec; exists h; exact Hh).
    replace (N / 2)%nat with h by (rewrite Hh, Nat.mul_comm, Nat.div_mul by lia; reflexivity).
    replace ((N - 1) / 2)%nat with (h - 1)%nat.
    2:{ replace (N - 1)%nat with (1 + (h - 1) * 2)%nat by lia. rewrite Nat.div_add by lia. reflexivity. }
    replace N with (S ((h - 1) + (1 + (h - 1))))%nat at 1 by lia. rewrite rsum_shift, rsum_app, rsum_app.
    cbn [rsum]. rewrite (rsum_reverse (h - 1) (fun i => g (S (h - 1 + (1 + i))))).
    rewrite rsum_scale. rewrite (rsum_ext (h - 1) (fun i => g (S (h - 1 + (1 + (h - 1 - 1 - i))))) (fun i => g (S i))).
    + replace (S (h - 1 + 0))%nat with h by lia. ring.
    + intros i Hi. rewrite <- (H (S i)) by lia. f_equal. lia.
  - replace (Nat.even N) with false.
    2:{ symmetry. rewrite <- Nat.negb_odd. replace (Nat.odd N) with true; [reflexivity|]. symmetry. apply Nat.odd_spec. exists h. exact Hh. }
    replace ((N - 1) / 2)%nat with h by (replace (N - 1)%nat with (h * 2)%nat by lia; symmetry; apply Nat.div_mul; lia).
    replace N with (S (h + h))%nat at 1 by lia. rewrite rsum_shift, rsum_app.
    rewrite (rsum_reverse h (fun i => g (S (h + i)))). rewrite rsum_scale.
    rewrite (rsum_ext h (fun i => g (S (h + (h - 1 - i)))) (fun i => g (S i))); [ring|].
    intros i Hi. rewrite <- (H (S i)) by lia. f_equal. lia.
Qed.

Lemma sin_nPI n : sin (PI * INR n) = 0.
Proof.
  pose proof (sin_eq_0_1 (PI * INR n)) as H. apply H. exists (Z.of_nat n). rewrite <- INR_IZR_INZ. ring.
Qed.

Lemma irfft_hermitian N G n : (0 < N)%nat ->
  (forall k, (0 < k < N)%nat -> G (N - k)%nat = Cconj (G k)) ->
  irfft N G n = Re (csum N (fun k => Cmult (G k) (cis (2 * PI * INR k * INR n / INR N)))) / INR N.
Proof.
  intros HN H. assert (HN' : INR N <> 0) by (apply not_0_INR; lia).
  rewrite csum_Re, rsum_symmetric by
    (try exact HN; (intros k Hk; rewrite H by exact Hk;
     replace (cis (2 * PI * INR (N - k) * INR n / INR N)) with (Cconj (cis (2 * PI * INR k * INR n / INR N)));
     [rewrite <- Cconj_mult; reflexivity|];
     rewrite <- cis_neg, minus_INR by lia; rewrite <- (cis_period (- (2 * PI * INR k * INR n / INR N)) (Z.of_nat n));
     f_equal; rewrite <- INR_IZR_INZ; field; exact HN')).
  unfold irfft. f_equal. f_equal; [f_equal|].
  - replace (2 * PI * INR 0 * INR n / INR N) with 0 by (simpl; field; exact HN'). rewrite cis_0. f_equal. ring.
  - destruct (Nat.even N) eqn:E; [|reflexivity]. apply Nat.even_spec in E. destruct E as [h Hh].
    replace (N / 2)%nat with h by (rewrite Hh, Nat.mul_comm, Nat.div_mul by lia; reflexivity).
    replace (2 * PI * INR h * INR n / INR N) with (PI * INR n).
    + unfold Re, Cmult, cis. cbn [fst snd]. rewrite sin_nPI. ring.
    + rewrite Hh, mult_INR. simpl (INR 2). field. intros Q. apply HN'. rewrite Hh, mult_INR, Q. ring.
Qed.

Lemma irfft_rfft x n : (n < length x)%nat -> irfft (length x) (rfft x) n = nth n x 0.
Proof.
  intros Hn. assert (HN' : INR (length x) <> 0) by (apply not_0_INR; lia).
  rewrite irfft_hermitian by (try lia; intros k Hk; apply rdft_hermitian, Hk).
  unfold rfft, rdft. rewrite dft_inverse by exact Hn. unfold Cscale, RtoC, Re. cbn [fst]. field. exact HN'.
Qed.

Lemma irfft_ext N X Y n : (forall k, (k <= N / 2)%nat -> X k = Y k) -> irfft N X n = irfft N Y n.
Proof.
  intros H. unfold irfft. f_equal. f_equal; [f_equal|].
  - rewrite H by lia. reflexivity.
  - apply rsum_ext. intros i Hi. rewrite H; [reflexivity|].
    assert ((N - 1) / 2 <= N / 2)%nat by (apply Nat.div_le_mono; lia).
    destruct (Nat.eq_dec ((N - 1) / 2) (N / 2)) as [E|E]; lia.
  - destruct (Nat.even N); [|reflexivity]. rewrite H by lia. reflexivity.
Qed.
Lemma irfft_rsum N H F n : irfft N (fun k => csum H (fun J => F J k)) n = rsum H (fun J => irfft N (F J) n).
Proof.
  induction H as [|H IH].
  - unfold irfft. cbn [csum rsum]. rewrite rsum_zero.
    + destruct (Nat.even N); unfold C0, Re; cbn [fst]; unfold Rdiv; ring.
    + intros i _. unfold C0, Re, Cmult; cbn [fst snd]; ring.
  - cbn [rsum]. rewrite <- IH. unfold irfft, Rdiv. cbn [csum]. rewrite <- Rmult_plus_distr_r. f_equal.
    rewrite (rsum_ext _ (fun i => 2 * Re (Cmult (Cplus (csum H (fun J => F J (S i))) (F H (S i))) (cis (2 * PI * INR (S i) * INR n * / INR N))))
      (fun i => 2 * Re (Cmult (csum H (fun J => F J (S i))) (cis (2 * PI * INR (S i) * INR n * / INR N)))
              + 2 * Re (Cmult (F H (S i)) (cis (2 * PI * INR (S i) * INR n * / INR N))))).
    + rewrite rsum_plus. rewrite !Re_plus. destruct (Nat.even N); ring.
    + intros i _. unfold Re, Cmult, Cplus; cbn [fst snd]. ring.
Qed.

(** ** Transform of a strictly band-limited tone record *)
Lemma tone_rdft N J a ph k : (2 * J < N)%nat -> (k <= N / 2)%nat ->
  rdft N (fun n => a * cos (2 * PI * INR J * INR n / INR N + ph)) k =
  if (k =? J)%nat then (if (J =? 0)%nat then RtoC (INR N * (a * cos ph)) else Cscale (INR N * a / 2) (cis ph)) else C0.
Proof.
  intros HJ Hk. assert (HN : (0 < N)%nat) by lia. assert (HN' : INR N <> 0) by (apply not_0_INR; lia).
  assert (Hk2 : (2 * k <= N)%nat) by (pose proof (Nat.mul_div_le N 2); lia).
  unfold rdft. rewrite (dft_ext N _ (fun n => Cplus (Cmult (Cscale (a / 2) (cis ph)) (cis (2 * PI * IZR (Z.of_nat J) * INR n / INR N)))
     (Cmult (Cscale (a / 2) (cis (- ph))) (cis (2 * PI * IZR (- Z.of_nat J) * INR n / INR N))))).
  2:{ intros n _. rewrite cos_exponentials. rewrite opp_IZR, <- !INR_IZR_INZ.
      replace (2 * PI * - INR J * INR n / INR N) with (- (2 * PI * INR J * INR n / INR N)) by (field; exact HN').
      rewrite Ropp_plus_distr, !cis_plus, !Cscale_mult. unfold Cplus, Cscale, Cmult; cbn [fst snd]; f_equal; ring. }
  rewrite dft_plus, !dft_cmult, !dft_tone by exact HN.
  destruct (Nat.eqb_spec k J) as [->|Hne].
  - rewrite Z.sub_diag, Z.mod_0_l by lia. cbn [Z.eqb].
    destruct (Nat.eqb_spec J 0) as [->|HJ0].
    + cbn [Z.of_nat Z.opp Z.sub]. rewrite Z.mod_0_l by lia. cbn [Z.eqb].
      unfold Cplus, Cmult, Cscale, RtoC, cis; cbn [fst snd]. rewrite cos_neg, sin_neg. f_equal; field.
    + replace ((- Z.of_nat J - Z.of_nat J) mod Z.of_nat N =? 0)%Z with false.
      * unfold Cplus, Cmult, Cscale, RtoC, C0, cis; cbn [fst snd]. f_equal; field.
      * symmetry. apply Z.eqb_neq. intros E. apply Z.mod_divide in E; [|lia]. destruct E as [q Hq].
        assert (q < 0)%Z by nia. assert (-1 < q)%Z by nia. lia.
  - replace ((Z.of_nat J - Z.of_nat k) mod Z.of_nat N =? 0)%Z with false.
    2:{ symmetry. rewrite diff_mod_zero by lia. apply Nat.eqb_neq. congruence. }
    replace ((- Z.of_nat J - Z.of_nat k) mod Z.of_nat N =? 0)%Z with false; [ring|].
    symmetry. apply Z.eqb_neq. intros E. apply Z.mod_divide in E; [|lia]. destruct E as [q Hq].
    assert (q < 0)%Z by nia. assert (-1 < q)%Z by nia. lia.
Qed.

(** irfft of a single-bin spectrum below Nyquist. *)
Lemma irfft_single N J z n : (0 < J)%nat -> (2 * J < N)%nat ->
  irfft N (fun k => if (k =? J)%nat then z else C0) n = 2 * Re (Cmult z (cis (2 * PI * INR J * INR n / INR N))) / INR N.
Proof.
  intros H0 HJ. unfold irfft. f_equal.
  replace (0 =? J)%nat with false by (symmetry; apply Nat.eqb_neq; lia).
  assert (E : (if Nat.even N then Re (if (N / 2 =? J)%nat then z else C0) * cos (PI * INR n) else 0) = 0).
  { destruct (Nat.even N) eqn:Ev; [|reflexivity]. apply Nat.even_spec in Ev. destruct Ev as [h Hh].
    replace (N / 2)%nat with h by (rewrite Hh, Nat.mul_comm, Nat.div_mul by lia; reflexivity).
    replace (h =? J)%nat with false by (symmetry; apply Nat.eqb_neq; lia). unfold C0, Re; cbn [fst]; ring. }
  rewrite E. clear E.
  assert (J - 1 < (N - 1) / 2)%nat. { assert (J <= (N - 1) / 2)%nat by (apply Nat.div_le_lower_bound; lia). lia. }
  rewrite (rsum_single _ (J - 1)) by (try assumption; (intros i Hi Hne;
    replace (S i =? J)%nat with false by (symmetry; apply Nat.eqb_neq; lia); unfold C0, Re, Cmult; cbn [fst snd]; ring)).
  replace (S (J - 1)) with J by lia. rewrite Nat.eqb_refl. unfold C0, Re at 1; cbn [fst]. ring.
Qed.

Lemma rfft_rsum x H (F : nat -> nat -> R) k : (forall n, (n < length x)%nat -> nth n x 0 = rsum H (fun J => F J n)) ->
  rfft x k = csum H (fun J => rdft (length x) (F J) k).
Proof.
  intros E. unfold rfft, rdft, dft. rewrite (csum_swap H). apply csum_ext. intros n Hn. rewrite E by exact Hn.
  rewrite csum_mult_r, csum_RtoC. reflexivity.
Qed.

(** A record holding any set of tones strictly below the Nyquist frequency is delayed exactly
    by fractional_delay_fft, for every real delay: the result holds the same tones evaluated
    at n - delay*fs. *)
Lemma c57_bandlimited_delay N H a ph delay fs :
  (0 < N)%nat -> (2 * H <= N + 1)%nat ->
  fractional_delay_fft (map (fun n => tones N H a ph (INR n)) (seq 0 N)) delay fs
  = Ok (map (fun n => tones N H a ph (INR n - delay * fs)) (seq 0 N)).
Proof.
  intros HN HH. assert (HN' : INR N <> 0) by (apply not_0_INR; lia). unfold fractional_delay_fft. set (x := map _ _).
  assert (Lx : length x = N) by (unfold x; rewrite map_length, seq_length; reflexivity). rewrite Lx.
  unfold raise_if. replace (N =? 0)%nat with false by (symmetry; apply Nat.eqb_neq; lia). f_equal.
  apply map_ext_in. intros n Hn. apply in_seq in Hn.
  set (X := fun k => Cmult (rfft x k) (cis (- (2 * PI * (INR k * fs / INR N) * delay)))).
  assert (RX : forall k, (k <= N / 2)%nat -> X k = csum H (fun J =>
     if (k =? J)%nat then Cmult (if (J =? 0)%nat then RtoC (INR N * (a J * cos (ph J))) else Cscale (INR N * a J / 2) (cis (ph J)))
                                (cis (- (2 * PI * (INR J * fs / INR N) * delay))) else C0)).
  { intros k Hk. unfold X. rewrite (rfft_rsum x H (fun J n => a J * cos (2 * PI * INR J * INR n / INR N + ph J))).
    - rewrite <- csum_mult_r. apply csum_ext. intros J HJ. rewrite Lx, tone_rdft by lia.
      destruct (Nat.eqb_spec k J) as [->|Hne]; [reflexivity|ring].
    - intros m Hm. unfold x. rewrite map_seq_nth by lia. reflexivity. }
  rewrite (irfft_ext N _ (fun k => csum H (fun J =>
     if (k =? J)%nat then Cmult (if (J =? 0)%nat then RtoC (INR N * (a J * cos (ph J))) else Cscale (INR N * a J / 2) (cis (ph J)))
                                (cis (- (2 * PI * (INR J * fs / INR N) * delay))) else C0))).
  2:{ intros k Hk. fold (X k). destruct (Nat.even N && (k =? N / 2)%nat) eqn:B; [|apply RX, Hk].
      apply andb_prop in B. destruct B as [B1 B2]. apply Nat.even_spec in B1. destruct B1 as [h Hh]. apply Nat.eqb_eq in B2.
      assert (k = h) by (rewrite B2, Hh, Nat.mul_comm, Nat.div_mul by lia; reflexivity).
      rewrite (csum_zero H) by (intros J HJ; replace (k =? J)%nat with false by (symmetry; apply Nat.eqb_neq; lia); reflexivity).
      rewrite RX by exact Hk.
      rewrite (csum_zero H) by (intros J HJ; replace (k =? J)%nat with false by (symmetry; apply Nat.eqb_neq; lia); reflexivity).
      reflexivity. }
  rewrite irfft_rsum. unfold tones. apply rsum_ext. intros J HJ.
  destruct (Nat.eq_dec J 0) as [->|HJ0].
  - unfold irfft. rewrite rsum_zero by (intros i Hi; cbn [Nat.eqb]; unfold C0, Re, Cmult; cbn [fst snd]; ring).
    cbn [Nat.eqb].
    replace (if Nat.even N then Re (if (N / 2 =? 0)%nat then _ else C0) * cos (PI * INR n) else 0) with 0.
    + cbn [INR]. replace (- (2 * PI * (0 * fs / INR N) * delay)) with 0 by (field; exact HN').
      rewrite cis_0. replace (2 * PI * 0 * (INR n - delay * fs) / INR N + ph O) with (ph O) by (field; exact HN').
      unfold Re, Cmult, RtoC, C1; cbn [fst snd]. field. exact HN'.
    + destruct (Nat.even N) eqn:Ev; [|reflexivity]. apply Nat.even_spec in Ev. destruct Ev as [h Hh].
      replace (N / 2)%nat with h by (rewrite Hh, Nat.mul_comm, Nat.div_mul by lia; reflexivity).
      replace (h =? 0)%nat with false by (symmetry; apply Nat.eqb_neq; lia). unfold C0, Re; cbn [fst]; ring.
  - replace (J =? 0)%nat with false by (symmetry; apply Nat.eqb_neq; exact HJ0).
    rewrite irfft_single by lia. rewrite !Cscale_mult, Re_scale, <- !cis_plus. unfold cis, Re; cbn [fst].
    replace (ph J + - (2 * PI * (INR J * fs / INR N) * delay) + 2 * PI * INR J * INR n / INR N)
      with (2 * PI * INR J * (INR n - delay * fs) / INR N + ph J) by (field; exact HN').
    field. exact HN'.
Qed.

Lemma cis_mod N (i : Z) k : (0 < N)%nat -> cis (2 * PI * INR k * INR (Z.to_nat (i mod Z.of_nat N)) / INR N) = cis (2 * PI * INR k * IZR i / INR N).
Proof.
  intros HN. assert (HN' : INR N <> 0) by (apply not_0_INR; lia).
  pose proof (Z_div_mod_eq_full i (Z.of_nat N)) as E.
  rewrite (INR_IZR_INZ (Z.to_nat _)), Z2Nat.id by (apply Z.mod_pos_bound; lia).
  rewrite E at 2. rewrite plus_IZR, mult_IZR, <- (INR_IZR_INZ N).
  rewrite <- (cis_period (2 * PI * INR k * IZR (i mod Z.of_nat N) / INR N) (Z.of_nat k * (i / Z.of_nat N))). f_equal.
  rewrite mult_IZR, <- INR_IZR_INZ. field. exact HN'.
Qed.

(** A whole-sample delay d is a circular shift of any record, whatever its content. *)
Lemma c57_integer_delay_circular x delay fs (d : Z) :
  x <> [] -> delay * fs = IZR d ->
  fractional_delay_fft x delay fs = Ok (map (fun n => cget x (Z.of_nat n - d)) (seq 0 (length x))).
Proof.
  intros Hx HD. set (N := length x). assert (HN : (0 < N)%nat) by (unfold N; destruct x; [contradiction|simpl; lia]).
  assert (HN' : INR N <> 0) by (apply not_0_INR; lia).
  unfold fractional_delay_fft, raise_if. fold N. replace (N =? 0)%nat with false by (symmetry; apply Nat.eqb_neq; lia). f_equal.
  apply map_ext_in. intros n Hn. apply in_seq in Hn.
  set (G := fun k => Cmult (rfft x k) (cis (- (2 * PI * INR k * IZR d / INR N)))).
  assert (GX : forall k, Cmult (rfft x k) (cis (- (2 * PI * (INR k * fs / INR N) * delay))) = G k).
  { intros k. unfold G. do 2 f_equal. rewrite <- HD. field. exact HN'. }
  assert (HG : forall k, (0 < k < N)%nat -> G (N - k)%nat = Cconj (G k)).
  { intros k Hk. unfold G. rewrite Cconj_mult. f_equal; [apply rdft_hermitian, Hk|].
    rewrite <- cis_neg, minus_INR by lia. rewrite <- (cis_period (- (2 * PI * (INR N - INR k) * IZR d / INR N)) d). f_equal.
    field. exact HN'. }
  rewrite (irfft_ext N _ G).
  - rewrite irfft_hermitian by assumption.
    assert (Q : (Z.to_nat ((Z.of_nat n - d) mod Z.of_nat N) < N)%nat).
    { pose proof (Z.mod_pos_bound (Z.of_nat n - d) (Z.of_nat N)). lia. }
    pose proof (dft_inverse N (fun i => RtoC (nth i x 0)) _ Q) as I.
    rewrite (csum_ext N _ (fun k => Cmult (G k) (cis (2 * PI * INR k * INR n / INR N)))) in I.
    + rewrite I. unfold cget. fold N. unfold Cscale, RtoC, Re; cbn [fst]. field. exact HN'.
    + intros k Hk. rewrite cis_mod by exact HN. unfold G, rfft, rdft. fold N.
      replace (2 * PI * INR k * IZR (Z.of_nat n - d) / INR N)
        with (- (2 * PI * INR k * IZR d / INR N) + 2 * PI * INR k * INR n / INR N)
        by (rewrite minus_IZR, <- INR_IZR_INZ; field; exact HN').
      rewrite cis_plus. ring.
  - intros k Hk. rewrite GX. destruct (Nat.even N && (k =? N / 2)%nat) eqn:B; [|reflexivity].
    apply andb_prop in B. destruct B as [B1 B2]. apply Nat.even_spec in B1. destruct B1 as [h Hh]. apply Nat.eqb_eq in B2.
    assert (E : k = h) by (rewrite B2, Hh, Nat.mul_comm, Nat.div_mul by lia; reflexivity).
    assert (S : G k = Cconj (G k)) by (rewrite <- HG by lia; f_equal; lia).
    apply C_ext; [reflexivity|]. apply (f_equal Im) in S. unfold Cconj, Im, RtoC in *. cbn [fst snd] in *. lra.
Qed.

(** Every odd-length record is a sum of tones strictly below Nyquist. *)
Lemma odd_record_tones x h : length x = (2 * h + 1)%nat ->
  exists a ph, x = map (fun n => tones (length x) (S h) a ph (INR n)) (seq 0 (length x)).
Proof.
  intros L. assert (HN : INR (length x) <> 0) by (apply not_0_INR; lia).
  exists (fun J => if (J =? 0)%nat then Re (rfft x 0) / INR (length x) else 2 * Cmod (rfft x J) / INR (length x)),
         (fun J => if (J =? 0)%nat then 0 else Carg (rfft x J)).
  apply (nth_ext_eq 0); [rewrite map_length, seq_length; reflexivity|]. intros n Hn.
  rewrite map_seq_nth by exact Hn. rewrite <- (irfft_rfft x n Hn) at 1. unfold irfft, tones.
  replace (Nat.even (length x)) with false.
  2:{ symmetry. rewrite <- Nat.negb_odd. replace (Nat.odd (length x)) with true; [reflexivity|]. symmetry. apply Nat.odd_spec. exists h. exact L. }
  replace ((length x - 1) / 2)%nat with h by (rewrite L; replace (2 * h + 1 - 1)%nat with (h * 2)%nat by lia; symmetry; apply Nat.div_mul; lia).
  rewrite rsum_shift. cbn [Nat.eqb]. change (INR 0) with 0.
  replace (2 * PI * 0 * INR n / INR (length x) + 0) with 0 by (field; exact HN). rewrite cos_0.
  rewrite (rsum_ext h _ (fun i => INR (length x) * (2 * Cmod (rfft x (S i)) / INR (length x) * cos (2 * PI * INR (S i) * INR n / INR (length x) + Carg (rfft x (S i)))))).
  - rewrite rsum_scale. field. exact HN.
  - intros i _. rewrite Re_polar. field. exact HN.
Qed.

(** On odd-length records delays compose additively: delay by d1 then by d2 is delay by
    d1 + d2; in particular delaying by d then by -d restores any odd-length record. *)
Lemma c57_delays_compose_odd x fs d1 d2 :
  Nat.Odd (length x) ->
  exists y, fractional_delay_fft x d1 fs = Ok y /\
    fractional_delay_fft y d2 fs = fractional_delay_fft x (d1 + d2) fs /\
    (d1 + d2 = 0 -> fractional_delay_fft y d2 fs = Ok x).
Proof.
  intros [h L]. destruct (odd_record_tones x h L) as [a [ph E]]. set (N := length x) in *.
  assert (HN' : INR N <> 0) by (apply not_0_INR; lia).
  assert (S : forall D, map (fun n => tones N (S h) a ph (INR n - D)) (seq 0 N)
     = map (fun n => tones N (S h) a (fun J => ph J - 2 * PI * INR J * D / INR N) (INR n)) (seq 0 N)).
  { intros D. apply map_ext. intros n. apply rsum_ext. intros J _. do 2 f_equal. field. exact HN'. }
  exists (map (fun n => tones N (Datatypes.S h) a ph (INR n - d1 * fs)) (seq 0 N)).
  assert (Q : fractional_delay_fft (map (fun n => tones N (Datatypes.S h) a ph (INR n - d1 * fs)) (seq 0 N)) d2 fs
     = Ok (map (fun n => tones N (Datatypes.S h) a ph (INR n - (d1 + d2) * fs)) (seq 0 N))).
  { rewrite S. rewrite c57_bandlimited_delay by lia. f_equal. apply map_ext. intros n. apply rsum_ext. intros J _. do 2 f_equal. field. exact HN'. }
  split; [rewrite E at 1; apply c57_bandlimited_delay; lia|]. split.
  - rewrite Q. symmetry. rewrite E at 1. apply c57_bandlimited_delay; lia.
  - intros Z. rewrite Q, Z. f_equal. rewrite E. apply map_ext. intros n. do 2 f_equal. ring.
Qed.

(** For even lengths composition fails: the Nyquist component is destroyed by a half-sample
    delay, so a delay and its opposite do not cancel. *)
Lemma c57_compose_even_refuted :
  exists x fs d y, fractional_delay_fft x d fs = Ok y /\ fractional_delay_fft y (- d) fs <> Ok x.
Proof.
  exists [1; -1], 1, (1/2), [0; 0]. split.
  - unfold fractional_delay_fft, raise_if, rfft, rdft, dft, irfft.
    cbn [length Nat.eqb seq map Nat.even andb Nat.div Nat.divmod fst snd Nat.sub INR rsum csum nth].
    replace (- (2 * PI * 1 * 0 / (1 + 1))) with 0 by field. replace (- (2 * PI * 1 * 1 / (1 + 1))) with (- PI) by field.
    replace (- (2 * PI * 0 * 0 / (1 + 1))) with 0 by field. replace (- (2 * PI * 0 * 1 / (1 + 1))) with 0 by field.
    replace (- (2 * PI * (1 * 1 / (1 + 1)) * (1 / 2))) with (- (PI / 2)) by field.
    replace (- (2 * PI * (0 * 1 / (1 + 1)) * (1 / 2))) with 0 by field.
    rewrite cis_0. unfold Re, RtoC, Cmult, Cplus, cis, C0, C1. cbn [fst snd].
    rewrite !cos_neg, !sin_neg, cos_PI, sin_PI, cos_PI2, sin_PI2.
    list_eq; field.
  - unfold fractional_delay_fft, raise_if, rfft, rdft, dft, irfft.
    cbn [length Nat.eqb seq map Nat.even andb Nat.div Nat.divmod fst snd Nat.sub INR rsum csum nth].
    intros E. injection E as E _.
    replace (2 * PI * 0 * 0 / (1 + 1)) with 0 in E by field. replace (2 * PI * 0 * 1 / (1 + 1)) with 0 in E by field.
    unfold Re, RtoC, Cmult, Cplus, C0 in E. cbn [fst snd] in E.
    match type of E with ?L = 1 => replace L with 0 in E end; [lra|]. unfold Rdiv. ring.
Qed.

Lemma c57_quarter_ex :
  fractional_delay_fft (map (fun n => tones 5 2 (fun _ => 1) (fun _ => 0) (INR n)) (seq 0 5)) (1/4) 1
  = Ok (map (fun n => 1 + cos (2 * PI * (INR n - 1/4) / 5)) (seq 0 5)) /\
  fractional_delay_fft [1; 2; 3; 4] 1 1 = Ok [4; 1; 2; 3].
Proof.
  split.
  - rewrite c57_bandlimited_delay by lia. f_equal. apply map_ext. intros n. unfold tones. cbn [rsum INR].
    replace (2 * PI * 0 * (INR n - 1 / 4 * 1) / (1 + 1 + 1 + 1 + 1) + 0) with 0 by field. rewrite cos_0.
    replace (2 * PI * 1 * (INR n - 1 / 4 * 1) / (1 + 1 + 1 + 1 + 1) + 0) with (2 * PI * (INR n - 1 / 4) / 5) by field. ring.
  - rewrite (c57_integer_delay_circular _ 1 1 1) by (try discriminate; ring). reflexivity.
Qed.

(** ** Exactness of the predicted spurs *)
Lemma periodic_decomposition M (f : nat -> C) n : (0 < M)%nat ->
  f (n mod M)%nat = Cplus (Cscale (/ INR M) (dft M f 0))
    (csum (M - 1) (fun i => Cmult (Cscale (/ INR M) (dft M f (S i))) (cis (2 * PI * INR (S i) * INR n / INR M)))).
Proof.
  intros HM. assert (HM' : INR M <> 0) by (apply not_0_INR; lia).
  pose proof (dft_inverse M f (n mod M) ltac:(apply Nat.mod_upper_bound; lia)) as I.
  assert (E : forall k, cis (2 * PI * INR k * INR (n mod M) / INR M) = cis (2 * PI * INR k * INR n / INR M)).
  { intros k. rewrite <- (cis_period (2 * PI * INR k * INR (n mod M) / INR M) (Z.of_nat k * Z.of_nat (n / M))). f_equal.
    rewrite mult_IZR, <- !INR_IZR_INZ. rewrite (Nat.div_mod n M) at 3 by lia. rewrite plus_INR, mult_INR. field. exact HM'. }
  rewrite (csum_ext M _ (fun k => Cmult (dft M f k) (cis (2 * PI * INR k * INR n / INR M)))) in I by (intros; rewrite E; reflexivity).
  replace M with (S (M - 1)) in I at 1 by lia. rewrite csum_shift in I.
  replace (2 * PI * INR 0 * INR n / INR M) with 0 in I by (simpl; field; exact HM'). rewrite cis_0 in I.
  apply (f_equal (Cscale (/ INR M))) in I. rewrite Cscale_scale, Rinv_l, Cscale_1 in I by exact HM'. rewrite <- I.
  rewrite (csum_ext (M - 1) (fun i => Cmult (Cscale (/ INR M) (dft M f (S i))) (cis (2 * PI * INR (S i) * INR n / INR M)))
     (fun i => Cscale (/ INR M) (Cmult (dft M f (S i)) (cis (2 * PI * INR (S i) * INR n / INR M))))).
  - rewrite csum_scale, !Cscale_RtoC. ring.
  - intros i _. rewrite Cscale_mult. reflexivity.
Qed.

(** The gain/skew entries are exact, not first-order: the interleaved capture of the tone
    A cos(2 pi fin t) by channels with gains g and skews s (offsets zero) is, sample for
    sample, a fundamental plus one sinusoid per k = 1..M-1 at frequency fin + k fs/M whose
    amplitude is the entry's amp. *)
Lemma c58_gain_skew_exact gain offset skew A fs fin l :
  0 < fs -> 0 <= A -> (0 < length gain)%nat -> predict_spurs gain offset skew A fs fin = Ok l ->
  let M := length gain in
  exists (a0 th0 : R) (amp th : nat -> R),
    (forall n, ti_sample M fs gain (repeat 0 M) skew (fun t => A * cos (2 * PI * fin * t)) n =
       a0 * cos (2 * PI * fin * (INR n / fs) + th0) +
       rsum (M - 1) (fun i => amp (S i) * cos (2 * PI * (fin + INR (S i) * fs / INR M) * (INR n / fs) + th (S i)))) /\
    (forall s, In s l -> sp_kind s = KGainSkew -> sp_amp s = amp (sp_k s)).
Proof.
  intros Hfs HA HM H M. assert (HM' : INR M <> 0) by (apply not_0_INR; unfold M; lia).
  set (al := fun m => Cscale (nth m gain 0) (cis (2 * PI * fin * nth m skew 0))).
  set (F := fun k => Cscale (/ INR M) (dft M al k)).
  exists (A * Cmod (F O)), (Carg (F O)), (fun k => A * Cmod (F k)), (fun k => Carg (F k)). split.
  - intros n. unfold ti_sample.
    replace (nth (n mod M) (repeat 0 M) 0) with 0 by (symmetry; apply nth_repeat).
    transitivity (A * Re (Cmult (al (n mod M)%nat) (cis (2 * PI * fin * (INR n / fs))))).
    { unfold al. rewrite Cscale_mult, Re_scale, <- cis_plus. unfold cis, Re; cbn [fst].
      replace (2 * PI * fin * (INR n / fs + nth (n mod M) skew 0)) with
        (2 * PI * fin * nth (n mod M) skew 0 + 2 * PI * fin * (INR n / fs)) by ring. ring. }
    rewrite (periodic_decomposition M al n) by exact HM. fold (F O).
    rewrite (csum_ext (M - 1) _ (fun i => Cmult (F (S i)) (cis (2 * PI * INR (S i) * INR n / INR M)))) by reflexivity.
    replace (Cmult (Cplus (F O) (csum (M - 1) (fun i => Cmult (F (S i)) (cis (2 * PI * INR (S i) * INR n / INR M))))) (cis (2 * PI * fin * (INR n / fs))))
      with (Cplus (Cmult (F O) (cis (2 * PI * fin * (INR n / fs))))
           (csum (M - 1) (fun i => Cmult (Cmult (F (S i)) (cis (2 * PI * INR (S i) * INR n / INR M))) (cis (2 * PI * fin * (INR n / fs)))))).
    2:{ rewrite csum_mult_r. ring. }
    rewrite Re_plus, Re_polar, csum_Re, Rmult_plus_distr_l, <- Rmult_assoc, <- rsum_scale. f_equal.
    apply rsum_ext. intros i _.
    replace (Cmult (Cmult (F (S i)) (cis (2 * PI * INR (S i) * INR n / INR M))) (cis (2 * PI * fin * (INR n / fs))))
      with (Cmult (F (S i)) (Cmult (cis (2 * PI * INR (S i) * INR n / INR M)) (cis (2 * PI * fin * (INR n / fs))))) by ring.
    rewrite <- cis_plus, Re_polar, <- Rmult_assoc. do 2 f_equal.
    f_equal. field. split; [lra|exact HM'].
  - intros s Is Ks. destruct (c22_spur_list _ _ _ _ _ _ _ Hfs H) as [_ [_ [_ S]]]. specialize (S s Is). rewrite Ks in S.
    destruct S as [_ [_ S]]. rewrite S. fold M. unfold F. rewrite Cmod_scale, Rabs_right.
    + unfold al. field. exact HM'.
    + apply Rle_ge, Rlt_le, Rinv_0_lt_compat, lt_0_INR, HM.
Qed.

(** The offset entries pair up: the capture's offset sequence is its mean plus, for every
    1 <= k < M/2, one sinusoid at k fs/M of amplitude twice the entry's amp, plus (M even) an
    alternating component of amplitude exactly the entry k = M/2. *)
Lemma c58_offset_decomposition gain offset skew A fs fin l :
  0 < fs -> (0 < length gain)%nat -> predict_spurs gain offset skew A fs fin = Ok l ->
  let M := length gain in
  exists (amp th : nat -> R),
    (forall n, nth (n mod M) offset 0 = lmean offset +
       rsum ((M - 1) / 2) (fun i => 2 * amp (S i) * cos (2 * PI * (INR (S i) * fs / INR M) * (INR n / fs) + th (S i))) +
       (if Nat.even M then amp (M / 2)%nat * cos (2 * PI * (fs / 2) * (INR n / fs) + th (M / 2)%nat) else 0)) /\
    (forall s, In s l -> sp_kind s = KOffset -> sp_amp s = amp (sp_k s)).
Proof.
  intros Hfs HM H M. assert (HM' : INR M <> 0) by (apply not_0_INR; unfold M; lia).
  destruct (c22_size_check gain offset skew A fs fin) as [[_ Q] _]. destruct Q as [Lo _]; [eauto|].
  set (F := fun k => rfft offset k).
  exists (fun k => Cmod (F k) / INR M), (fun k => Carg (F k)). split.
  - intros n. set (m := (n mod M)%nat). assert (Hm : (m < length offset)%nat) by (rewrite Lo; apply Nat.mod_upper_bound; unfold M in HM; lia).
    rewrite <- (irfft_rfft offset m Hm) at 1. unfold irfft. rewrite Lo. fold M.
    assert (E0 : Re (rfft offset 0) = INR M * lmean offset).
    { unfold rfft, rdft, dft. rewrite Lo. fold M. rewrite csum_Re. unfold lmean. rewrite lsum_rsum, Lo. fold M.
      replace (INR M * (rsum M (fun i => nth i offset 0) / INR M)) with (rsum M (fun i => nth i offset 0)) by (field; exact HM').
      apply rsum_ext. intros i _. change (INR 0) with 0. replace (- (2 * PI * 0 * INR i / INR M)) with 0 by (field; exact HM').
      rewrite cis_0. unfold Re, Cmult, RtoC, C1; cbn [fst snd]. ring. }
    assert (EC : forall k, cis (2 * PI * INR k * INR m / INR M) = cis (2 * PI * (INR k * fs / INR M) * (INR n / fs))).
    { intros k. rewrite <- (cis_period (2 * PI * INR k * INR m / INR M) (Z.of_nat k * Z.of_nat (n / M))). f_equal.
      rewrite mult_IZR, <- !INR_IZR_INZ. unfold m. rewrite (Nat.div_mod n M) at 3 by (unfold M; lia). rewrite plus_INR, mult_INR.
      field. split; [lra|exact HM']. }
    rewrite E0.
    rewrite (rsum_ext ((M - 1) / 2) _ (fun i => INR M * (2 * (Cmod (F (S i)) / INR M) * cos (2 * PI * (INR (S i) * fs / INR M) * (INR n / fs) + Carg (F (S i)))))).
    2:{ intros i _. rewrite EC, Re_polar. unfold F. field. exact HM'. }
    rewrite rsum_scale.
    assert (EN : Nat.even M = true -> Re (rfft offset (M / 2)) * cos (PI * INR m) =
       INR M * (Cmod (F (M / 2)%nat) / INR M * cos (2 * PI * (fs / 2) * (INR n / fs) + Carg (F (M / 2)%nat)))).
    { intros Ev. apply Nat.even_spec in Ev. destruct Ev as [h Hh].
      assert (Eh : (M / 2 = h)%nat) by (rewrite Hh, Nat.mul_comm, Nat.div_mul by lia; reflexivity). rewrite Eh.
      assert (Hh' : INR M = 2 * INR h) by (rewrite Hh, mult_INR; reflexivity).
      assert (INR h <> 0) by (intros Q; apply HM'; rewrite Hh', Q; ring).
      replace (2 * PI * (fs / 2) * (INR n / fs)) with (2 * PI * (INR h * fs / INR M) * (INR n / fs)) by (rewrite Hh'; field; split; [lra|assumption]).
      replace (INR M * (Cmod (F h) / INR M * cos (2 * PI * (INR h * fs / INR M) * (INR n / fs) + Carg (F h))))
        with (Cmod (F h) * cos (2 * PI * (INR h * fs / INR M) * (INR n / fs) + Carg (F h))) by (field; exact HM').
      rewrite <- Re_polar, <- EC. unfold F.
      replace (2 * PI * INR h * INR m / INR M) with (PI * INR m) by (rewrite Hh'; field; assumption).
      unfold Re, Cmult, cis; cbn [fst snd]. rewrite sin_nPI. ring. }
    destruct (Nat.even M); [rewrite EN by reflexivity|]; field; exact HM'.
  - intros s Is Ks. destruct (c22_spur_list _ _ _ _ _ _ _ Hfs H) as [_ [_ [_ S]]]. specialize (S s Is). rewrite Ks in S.
    destruct S as [_ [_ S]]. rewrite S. fold M. unfold F, rfft. rewrite Lo. reflexivity.
Qed.

Lemma cos_quarter n : cos (2 * PI * (1 / 4) * INR n) = nth (n mod 4) [1; 0; -1; 0] 0.
Proof.
  pose proof (Nat.div_mod n 4 ltac:(lia)) as E. pose proof (Nat.mod_upper_bound n 4 ltac:(lia)) as B.
  assert (P : cos (2 * PI * (1 / 4) * INR n) = cos (2 * PI * (1 / 4) * INR (n mod 4))).
  { pose proof (cis_period (2 * PI * (1 / 4) * INR (n mod 4)) (Z.of_nat (n / 4))) as Q. apply (f_equal Re) in Q. unfold cis, Re in Q. cbn [fst] in Q.
    rewrite <- Q. f_equal. rewrite E at 1. rewrite plus_INR, mult_INR, <- INR_IZR_INZ. simpl (INR 4). field. }
  rewrite P. destruct (n mod 4)%nat as [|[|[|[|?]]]]; [| | | |lia]; cbn [nth INR].
  - rewrite Rmult_0_r. apply cos_0.
  - replace (2 * PI * (1 / 4) * 1) with (PI / 2) by field. apply cos_PI2.
  - replace (2 * PI * (1 / 4) * (1 + 1)) with PI by field. apply cos_PI.
  - replace (2 * PI * (1 / 4) * (1 + 1 + 1)) with (PI / 2 + PI) by field. rewrite neg_cos, cos_PI2. ring.
Qed.

(** Consequence: the documented meaning of amp ("spur amplitude in the same units as x") is
    wrong for offset spurs below fs/2.  With four channels and offsets 1, 0, -1, 0 the capture
    of a zero input is exactly cos(2 pi (fs/4) t), amplitude 1, but every entry at fs/4 (kind
    offset) says 1/2. *)
Lemma c58_offset_amplitude_refuted :
  exists gain offset skew A fs fin l,
    predict_spurs gain offset skew A fs fin = Ok l /\
    (forall n, ti_sample 4 fs gain offset skew (fun _ => 0) n = cos (2 * PI * (fs / 4) * (INR n / fs))) /\
    (exists s, In s l /\ sp_kind s = KOffset /\ sp_freq s = fs / 4) /\
    (forall s, In s l -> sp_kind s = KOffset -> sp_freq s = fs / 4 -> sp_amp s = 1 / 2).
Proof.
  exists [1; 1; 1; 1], [1; 0; -1; 0], [0; 0; 0; 0], 1, 1, (1/8).
  destruct (c22_size_check [1; 1; 1; 1] [1; 0; -1; 0] [0; 0; 0; 0] 1 1 (1/8)) as [[Q _] _].
  destruct Q as [l E]; [split; reflexivity|]. exists l. split; [exact E|].
  destruct (c22_spur_list _ _ _ _ _ _ _ Rlt_0_1 E) as [_ [_ [P S]]]. cbn [length] in P, S.
  split; [|split].
  - intros n. unfold ti_sample. replace (2 * PI * (1 / 4) * (INR n / 1)) with (2 * PI * (1 / 4) * INR n) by field.
    rewrite cos_quarter. ring.
  - assert (I : In (KOffset, 1%nat) (map (fun s => (sp_kind s, sp_k s)) l)).
    { apply (Permutation_in _ (Permutation_sym P)). left. reflexivity. }
    apply in_map_iff in I. destruct I as [s [Es Is]]. injection Es as E1 E2. exists s. split; [exact Is|]. split; [exact E1|].
    specialize (S s Is). rewrite E1, E2 in S. destruct S as [_ [S1 _]]. cbn [INR] in S1.
    apply (nmd_unique _ _ _ _ S1). replace (1 * 1 / (1 + 1 + 1 + 1)) with (1/4) by field. apply nmd_fixed; lra.
  - intros s Is Ks Fs. specialize (S s Is) as Ss. rewrite Ks in Ss. destruct Ss as [_ [S1 S2]].
    assert (I : In (sp_kind s, sp_k s) (map (fun s => (sp_kind s, sp_k s)) l)) by (apply in_map_iff; eauto).
    apply (Permutation_in _ P) in I. rewrite Ks in I. cbn [seq map app Nat.sub In] in I.
    assert (C : sp_k s = 1%nat \/ sp_k s = 2%nat \/ sp_k s = 3%nat).
    { destruct I as [I|[I|[I|[I|[I|[I|[]]]]]]]; (try discriminate I); injection I as <-; auto. }
    clear I.
    assert (V : forall k, rdft 4 (fun m => nth m [1; 0; -1; 0] 0) k = Cminus C1 (cis (- (2 * PI * INR k * 2 / 4)))).
    { intros k. unfold rdft, dft. cbn [csum nth INR]. replace (- (2 * PI * INR k * 0 / (1 + 1 + 1 + 1))) with 0 by field.
      replace (- (2 * PI * INR k * (1 + 1) / (1 + 1 + 1 + 1))) with (- (2 * PI * INR k * 2 / 4)) by field.
      rewrite cis_0. unfold Cminus, Cplus, Copp, Cmult, RtoC, C1, C0; cbn [fst snd]. f_equal; ring. }
    rewrite S2, V. destruct C as [C|[C|C]]; rewrite C in *; cbn [INR].
    + replace (- (2 * PI * 1 * 2 / 4)) with (- PI) by field. unfold Cmod, Cmod2, Cminus, Cplus, Copp, cis, C1; cbn [fst snd].
      rewrite cos_neg, sin_neg, cos_PI, sin_PI.
      replace ((1 + - -1) * (1 + - -1) + (0 + - - 0) * (0 + - - 0)) with (2 * 2) by ring. rewrite sqrt_square by lra. field.
    + exfalso. cbn [INR] in S1. replace ((1 + 1) * 1 / (1 + 1 + 1 + 1)) with (1/2) in S1 by field.
      pose proof (nmd_unique _ _ _ _ S1 (nmd_fixed (1/2) 1 Rlt_0_1 ltac:(lra))). lra.
    + replace (- (2 * PI * (1 + 1 + 1) * 2 / 4)) with (- (PI + 2 * PI)) by field. unfold Cmod, Cmod2, Cminus, Cplus, Copp, cis, C1; cbn [fst snd].
      rewrite cos_neg, sin_neg. replace (PI + 2 * PI) with (PI + 2 * PI * IZR 1) by (simpl; ring).
      pose proof (cis_period PI 1) as Q. unfold cis in Q. injection Q as Q1 Q2. rewrite Q1, Q2, cos_PI, sin_PI.
      replace ((1 + - -1) * (1 + - -1) + (0 + - - 0) * (0 + - - 0)) with (2 * 2) by ring. rewrite sqrt_square by lra. field.
Qed.

(** ** Recovery of the mismatch from a coherent tone *)
Lemma coherent_mean K (J : Z) B th : (0 < K)%nat -> ~ (Z.of_nat K | J)%Z ->
  rsum K (fun k => B * cos (2 * PI * IZR J * INR k / INR K + th)) = 0.
Proof.
  intros HK HJ. transitivity (Re (Cmult (Cscale B (cis th)) (csum K (fun k => cis (2 * PI * IZR J * INR k / INR K))))).
  - rewrite <- csum_mult_l, csum_Re. apply rsum_ext. intros k _. rewrite Cscale_mult, Re_scale, <- cis_plus.
    unfold cis, Re; cbn [fst]. rewrite Rplus_comm. reflexivity.
  - rewrite roots_sum by exact HK. destruct (Z.eqb_spec (J mod Z.of_nat K) 0) as [E|E].
    + exfalso. apply HJ. apply Z.mod_divide; [lia|exact E].
    + unfold Cmult, C0, Re; cbn [fst snd]; ring.
Qed.

Lemma coherent_phasor K (J : Z) B th be : (0 < K)%nat -> ~ (Z.of_nat K | 2 * J)%Z ->
  csum K (fun k => Cmult (RtoC (B * cos (2 * PI * IZR J * INR k / INR K + be + th))) (cis (- (2 * PI * IZR J * INR k / INR K + be))))
  = Cscale (INR K * B / 2) (cis th).
Proof.
  intros HK HJ. assert (HK' : INR K <> 0) by (apply not_0_INR; lia).
  rewrite (csum_ext K _ (fun k => Cplus (Cscale (B / 2) (cis th))
     (Cmult (Cscale (B / 2) (cis (- th - 2 * be))) (cis (2 * PI * IZR (- (2 * J)) * INR k / INR K))))).
  - rewrite csum_plus, csum_const, csum_mult_l, roots_sum by exact HK.
    destruct (Z.eqb_spec (- (2 * J) mod Z.of_nat K) 0) as [E|E].
    + exfalso. apply HJ. apply Z.mod_divide in E; [|lia]. apply Z.divide_opp_r in E. rewrite Z.opp_involutive in E. exact E.
    + unfold Cplus, Cmult, Cscale, C0; cbn [fst snd]. f_equal; field.
  - intros k _. rewrite cos_exponentials.
    set (w := 2 * PI * IZR J * INR k / INR K).
    replace (2 * PI * IZR (- (2 * J)) * INR k / INR K) with (- w - w) by (unfold w; rewrite opp_IZR, mult_IZR; field; exact HK').
    replace (cis th) with (Cmult (cis (w + be + th)) (cis (- (w + be)))) by (rewrite <- cis_plus; f_equal; ring).
    replace (Cmult (Cscale (B / 2) (cis (- th - 2 * be))) (cis (- w - w)))
      with (Cmult (Cscale (B / 2) (cis (- (w + be + th)))) (cis (- (w + be)))).
    + rewrite !Cscale_RtoC. ring.
    + rewrite !Cscale_mult, <- !cis_plus. do 2 f_equal. ring.
Qed.

Lemma wrap_pi_shift d (z : Z) : - PI < d < PI -> wrap_pi (d + 2 * PI * IZR z) = d.
Proof.
  intros H. unfold wrap_pi. pose proof PI_RGT_0 as P.
  replace (Zfloor ((d + 2 * PI * IZR z + PI) / (2 * PI))) with z; [ring|].
  symmetry. apply Zfloor_imp. rewrite plus_IZR.
  replace ((d + 2 * PI * IZR z + PI) / (2 * PI)) with (IZR z + (d + PI) / (2 * PI)) by (field; lra).
  assert (0 <= (d + PI) / (2 * PI)) by (apply Rdiv_le_0_compat; lra).
  assert ((d + PI) / (2 * PI) < 1).
  { apply (Rmult_lt_reg_r (2 * PI)); [lra|]. unfold Rdiv. rewrite Rmult_assoc, Rinv_l by lra. lra. }
  lra.
Qed.
Lemma unwrap_correction_shift d (z : Z) : - PI < d < PI -> unwrap_correction (d + 2 * PI * IZR z) = - (2 * PI * IZR z).
Proof.
  intros H. unfold unwrap_correction. pose proof PI_RGT_0 as P.
  destruct (Rltb_spec (Rabs (d + 2 * PI * IZR z)) PI) as [L|L].
  - apply Rabs_def2 in L. assert (-1 < IZR z < 1) as [B1 B2] by nra.
    apply lt_IZR in B1, B2. assert (z = 0)%Z by lia. subst z. simpl. ring.
  - rewrite wrap_pi_shift by exact H. replace (Reqb d (- PI)) with false; [cbn [andb]; ring|].
    symmetry. apply Reqb_false. lra.
Qed.
Lemma unwrap_from_recover th zs : forall n t0 (z0 zb : Z),
  (forall i, (i < n)%nat -> - PI < th (S i) - th i < PI) -> t0 = th O ->
  unwrap_from (t0 + 2 * PI * IZR z0) (2 * PI * IZR (zb - z0)) (map (fun i => th (S i) + 2 * PI * IZR (zs (S i))) (seq 0 n))
  = map (fun i => th (S i) + 2 * PI * IZR zb) (seq 0 n).
Proof.
  intros n. revert th zs. induction n as [|n IH]; intros th zs t0 z0 zb H E; [reflexivity|].
  cbn [seq map unwrap_from]. subst t0.
  replace (th 1%nat + 2 * PI * IZR (zs 1%nat) - (th O + 2 * PI * IZR z0)) with (th 1%nat - th O + 2 * PI * IZR (zs 1%nat - z0)) by (rewrite minus_IZR; ring).
  rewrite unwrap_correction_shift by (apply H; lia).
  replace (2 * PI * IZR (zb - z0) + - (2 * PI * IZR (zs 1%nat - z0))) with (2 * PI * IZR (zb - zs 1%nat)) by (rewrite !minus_IZR; ring).
  f_equal; [rewrite minus_IZR; ring|].
  rewrite <- seq_shift, !map_map.
  apply (IH (fun i => th (S i)) (fun i => zs (S i))); [intros i Hi; apply H; lia|reflexivity].
Qed.
Lemma unwrap_recover th zs n : (forall i, (S i < n)%nat -> - PI < th (S i) - th i < PI) ->
  unwrap (map (fun i => th i + 2 * PI * IZR (zs i)) (seq 0 n)) = map (fun i => th i + 2 * PI * IZR (zs O)) (seq 0 n).
Proof.
  intros H. destruct n as [|n]; [reflexivity|]. cbn [seq map unwrap]. f_equal. rewrite <- !seq_shift, !map_map.
  replace 0 with (2 * PI * IZR (zs O - zs O)) at 1 by (rewrite Z.sub_diag; ring).
  apply unwrap_from_recover; [intros i Hi; apply H; lia|reflexivity].
Qed.

Lemma lmean_seq M (f : nat -> R) : lmean (map f (seq 0 M)) = rsum M f / INR M.
Proof.
  unfold lmean. rewrite map_length, seq_length, lsum_rsum, map_length, seq_length. f_equal.
  apply rsum_ext. intros i Hi. apply map_seq_nth, Hi.
Qed.
Lemma rsum_pos n f : (0 < n)%nat -> (forall i, (i < n)%nat -> 0 < f i) -> 0 < rsum n f.
Proof.
  intros Hn H. destruct n as [|n]; [lia|]. cbn [rsum].
  assert (0 <= rsum n f) by (apply rsum_nonneg; intros; apply Rlt_le, H; lia). specialize (H n ltac:(lia)). lra.
Qed.

(** A coherent tone A cos(2 pi fin t + phi) captured by M channels with positive gains,
    arbitrary offsets and skews: extract_mismatch_sine returns exactly the offsets, the gains
    divided by their mean, the amplitude times the mean gain, and (when neighbouring channels
    differ by less than half a period of phase) the skews minus their mean.  Coherent means
    fin = J fs/N with the per-channel record length K = N/M not dividing 2 J. *)
Lemma c59_recovers_mismatch M K (J : Z) gain offset skew A phi fs :
  (0 < M)%nat -> (0 < K)%nat -> 0 < fs -> 0 < A -> ~ (Z.of_nat K | 2 * J)%Z ->
  length gain = M -> length offset = M -> length skew = M ->
  (forall m, (m < M)%nat -> 0 < nth m gain 0) ->
  let fin := IZR J * fs / INR (K * M) in
  (forall m, (S m < M)%nat -> Rabs (2 * PI * fin * (nth (S m) skew 0 - nth m skew 0)) < PI) ->
  exists phases,
  extract_mismatch_sine
    (map (ti_sample M fs gain offset skew (fun t => A * cos (2 * PI * fin * t + phi))) (seq 0 (K * M)))
    (Z.of_nat M) fs fin
  = Ok (mkMismatch (A * lmean gain) (map (fun g => g / lmean gain) gain) offset
          (map (fun s => s - lmean skew) skew) phases).
Proof.
  intros HM HK Hfs HA HJ Lg Lo Ls Hg fin Hsk. set (x := map _ _).
  assert (HK' : INR K <> 0) by (apply not_0_INR; lia). assert (HM' : INR M <> 0) by (apply not_0_INR; lia).
  assert (HJ1 : ~ (Z.of_nat K | J)%Z) by (intros D; apply HJ, Z.divide_mul_r, D).
  assert (HJ0 : J <> 0%Z) by (intros ->; apply HJ1; exists 0%Z; reflexivity).
  assert (Hfin : fin <> 0).
  { unfold fin. rewrite mult_INR. unfold Rdiv. apply Rmult_integral_contrapositive. split.
    - apply Rmult_integral_contrapositive. split; [apply not_0_IZR, HJ0|lra].
    - apply Rinv_neq_0_compat, Rmult_integral_contrapositive. split; assumption. }
  assert (Lx : length x = (K * M)%nat) by (unfold x; rewrite map_length, seq_length; reflexivity).
  pose proof (deinterleave_eq x M K HM Lx) as D. set (ch := transpose M (reshape K M x)) in D.
  destruct (c17_channel_samples _ _ _ D) as [[R1 R2] N].
  replace (length x / M)%nat with K in * by (rewrite Lx; symmetry; apply Nat.div_mul; lia).
  (* samples of channel m *)
  set (th := fun m => 2 * PI * fin * nth m skew 0 + phi).
  assert (NS : forall m k, (m < M)%nat -> (k < K)%nat -> nth k (nth m ch []) 0 =
     nth m gain 0 * A * cos (2 * PI * IZR J * INR k / INR K + 2 * PI * fin * (INR m / fs) + th m) + nth m offset 0).
  { intros m k Hm Hk. rewrite N by assumption. unfold x. rewrite map_seq_nth by nia. unfold ti_sample.
    replace ((k * M + m) mod M)%nat with m by (rewrite Nat.add_comm, Nat.mod_add, Nat.mod_small by lia; reflexivity).
    replace (2 * PI * fin * (INR (k * M + m) / fs + nth m skew 0) + phi)
      with (2 * PI * IZR J * INR k / INR K + 2 * PI * fin * (INR m / fs) + th m); [ring|].
    unfold th, fin. rewrite plus_INR, !mult_INR. field. repeat split; try assumption; lra. }
  assert (MO : map lmean ch = offset).
  { apply (nth_ext_eq 0); [rewrite map_length; congruence|]. intros m Hm. rewrite map_length, R1 in Hm.
    rewrite (nth_map_in lmean _ _ []) by lia. unfold lmean. rewrite lsum_rsum, R2 by exact Hm.
    rewrite (rsum_ext K _ (fun k => nth m gain 0 * A * cos (2 * PI * IZR J * INR k / INR K + (2 * PI * fin * (INR m / fs) + th m)) + nth m offset 0)).
    - rewrite rsum_plus, rsum_const, coherent_mean by assumption. field. exact HK'.
    - intros k Hk. rewrite NS by assumption. do 3 f_equal. ring. }
  assert (PH : map (fun m => channel_phasor (nth m ch []) (nth m (map lmean ch) 0) fin fs M m) (seq 0 M)
             = map (fun m => Cscale (nth m gain 0 * A) (cis (th m))) (seq 0 M)).
  { apply map_ext_in. intros m Hm. apply in_seq in Hm. unfold channel_phasor. rewrite MO, R2 by lia.
    rewrite (csum_ext K _ (fun k => Cmult (RtoC ((nth m gain 0 * A) * cos (2 * PI * IZR J * INR k / INR K + 2 * PI * fin * (INR m / fs) + th m)))
       (cis (- (2 * PI * IZR J * INR k / INR K + 2 * PI * fin * (INR m / fs)))))).
    - rewrite coherent_phasor by assumption. rewrite Cscale_scale. f_equal. field. exact HK'.
    - intros k Hk. rewrite NS by lia. f_equal.
      + f_equal. ring.
      + f_equal. unfold fin. rewrite plus_INR, !mult_INR. field. repeat split; try assumption; lra. }
  unfold extract_mismatch_sine. rewrite D. cbn [bind]. rewrite Nat2Z.id, PH. clear PH.
  set (ph := map (fun m => Cscale (nth m gain 0 * A) (cis (th m))) (seq 0 M)).
  assert (Gp : forall m, (m < M)%nat -> 0 < nth m gain 0 * A) by (intros; apply Rmult_lt_0_compat; auto).
  assert (AM : map Cmod ph = map (fun g => g * A) gain).
  { unfold ph. rewrite map_map. apply (nth_ext_eq 0); [rewrite !map_length, seq_length; congruence|].
    intros m Hm. rewrite map_length, seq_length in Hm. rewrite map_seq_nth by exact Hm. rewrite (nth_map_in _ _ _ 0) by lia.
    rewrite Cmod_scale, Cmod_cis, Rabs_right by (apply Rle_ge, Rlt_le, Gp, Hm). ring. }
  rewrite AM.
  assert (LG : lmean (map (fun g => g * A) gain) = A * lmean gain).
  { unfold lmean. rewrite map_length, (lsum_map_ext (fun g => g * A) (fun g => A * g)) by (intros; ring).
    rewrite lsum_map_scale. unfold Rdiv. ring. }
  rewrite LG.
  assert (Lpos : 0 < lmean gain).
  { unfold lmean. rewrite lsum_rsum, Lg. apply Rdiv_lt_0_compat; [apply rsum_pos; [exact HM|exact Hg]|apply lt_0_INR, HM]. }
  destruct (Rltb_spec 0 (A * lmean gain)) as [L|L]; [|exfalso; nra].
  assert (ex_zs : exists zs : nat -> Z, forall m, Carg (cis (th m)) = th m + 2 * PI * IZR (zs m)).
  { exists (fun m => Zfloor ((Carg (cis (th m)) - th m) / (2 * PI))). intros m. destruct (Carg_cis (th m)) as [z Hz].
    rewrite Hz. replace ((th m + 2 * PI * IZR z - th m) / (2 * PI)) with (IZR z) by (field; apply PI_neq0). rewrite Zfloor_IZR. reflexivity. }
  destruct ex_zs as [zs Hzs].
  assert (PU : unwrap (map Carg ph) = map (fun m => th m + 2 * PI * IZR (zs O)) (seq 0 M)).
  { rewrite <- (unwrap_recover th zs).
    - f_equal. unfold ph. rewrite map_map. apply map_ext_in. intros m Hm. apply in_seq in Hm.
      rewrite Carg_scale by (apply Gp; lia). apply Hzs.
    - intros m Hm. specialize (Hsk m Hm). apply Rabs_def2 in Hsk. unfold th. lra. }
  rewrite PU. eexists. f_equal. f_equal.
  - rewrite map_map. apply map_ext_in. intros g Hin. field. split; lra.
  - exact MO.
  - rewrite map_map. apply (nth_ext_eq 0); [rewrite !map_length, seq_length; congruence|].
    intros m Hm. rewrite map_length, seq_length in Hm. rewrite map_seq_nth by exact Hm. rewrite (nth_map_in _ _ _ 0) by lia.
    rewrite lmean_seq. unfold lmean. rewrite lsum_rsum, Ls.
    assert (S : rsum M (fun m => th m + 2 * PI * IZR (zs O)) = 2 * PI * fin * rsum M (fun i => nth i skew 0) + INR M * (phi + 2 * PI * IZR (zs O))).
    { unfold th. rewrite (rsum_ext M _ (fun m => 2 * PI * fin * nth m skew 0 + (phi + 2 * PI * IZR (zs O)))) by (intros; ring).
      rewrite rsum_plus, rsum_scale, rsum_const. reflexivity. }
    rewrite S. unfold th. field. repeat split; try assumption. apply PI_neq0.
Qed.

(** ** End-to-end calibration *)
Lemma correct_all_map meth nt fs sk chs (f : nat -> list R) : length sk = length chs ->
  (forall m, (m < length sk)%nat -> correct_skew meth nt fs (nth m sk 0) (nth m chs []) = Ok (f m)) ->
  correct_all meth nt fs sk chs = Ok (map f (seq 0 (length sk))).
Proof.
  revert chs f. induction sk as [|s sk IH]; intros [|c chs] f L H; simpl in L; try discriminate; [reflexivity|].
  cbn [correct_all length seq map]. pose proof (H O ltac:(simpl; lia)) as H0. cbn [nth] in H0. rewrite H0. cbn [bind].
  rewrite (IH chs (fun m => f (S m))); [|lia|intros m Hm; apply (H (S m)); simpl; lia].
  cbn [bind]. rewrite <- seq_shift, map_map. reflexivity.
Qed.

(** The fft method undoes offset, gain and skew exactly: any input that is periodic over the
    record with all its tones strictly below the channel Nyquist frequency fs/(2M) is restored
    sample for sample.  (Skews smaller than 1e-18 s but not zero are skipped by the code.) *)
Lemma c60_fft_calibration_exact M K H a ph gain offset skew fs n_taps :
  (0 < M)%nat -> (0 < K)%nat -> 0 < fs -> (2 * H <= K + 1)%nat ->
  length gain = M -> length offset = M -> length skew = M ->
  (forall m, (m < M)%nat -> nth m gain 0 <> 0) ->
  (forall m, (m < M)%nat -> nth m skew 0 = 0 \/ / 10 ^ 18 <= Rabs (nth m skew 0)) ->
  let s := fun t => tones (K * M) H a ph (t * fs) in
  calibrate_foreground (map (ti_sample M fs gain offset skew s) (seq 0 (K * M))) (Z.of_nat M)
    offset gain skew fs SkewFft n_taps
  = Ok (map (fun n => s (INR n / fs)) (seq 0 (K * M))).
Proof.
  intros HM HK Hfs HH Lg Lo Ls Hg Hsk s. set (x := map _ _).
  assert (HK' : INR K <> 0) by (apply not_0_INR; lia). assert (HM' : INR M <> 0) by (apply not_0_INR; lia).
  assert (Lx : length x = (K * M)%nat) by (unfold x; rewrite map_length, seq_length; reflexivity).
  unfold calibrate_foreground. pose proof (deinterleave_eq x M K HM Lx) as D. rewrite D.
  destruct (c17_channel_samples _ _ _ D) as [R N].
  replace (length x / M)%nat with K in * by (rewrite Lx; symmetry; apply Nat.div_mul; lia).
  set (chs := transpose M (reshape K M x)) in *. cbn [bind]. unfold raise_if.
  rewrite Lo, Lg, Ls, Z.eqb_refl. cbn [andb negb].
  pose proof (ch1_rect M K offset gain chs R Lo Lg) as R1.
  pose proof (fun m k => ch1_nth M K offset gain chs m k R Lo Lg) as N1.
  set (c1 := map2 _ _ _) in *.
  assert (C1 : forall m, (m < M)%nat -> nth m c1 [] = map (fun k => tones K H a (fun J => ph J + 2 * PI * INR J * (INR m + nth m skew 0 * fs) / INR (K * M)) (INR k)) (seq 0 K)).
  { intros m Hm. destruct R1 as [R11 R12]. apply (nth_ext_eq 0); [rewrite R12, map_length, seq_length by exact Hm; reflexivity|].
    intros k Hk. rewrite R12 in Hk by exact Hm. rewrite map_seq_nth by exact Hk. rewrite N1, N by assumption.
    unfold x. rewrite map_seq_nth by nia. unfold ti_sample.
    replace ((k * M + m) mod M)%nat with m by (rewrite Nat.add_comm, Nat.mod_add, Nat.mod_small by lia; reflexivity).
    transitivity (s (INR (k * M + m) / fs + nth m skew 0)); [field; apply Hg, Hm|].
    unfold s, tones. apply rsum_ext. intros J _. do 2 f_equal. rewrite plus_INR, !mult_INR. field. repeat split; try assumption; lra. }
  rewrite (correct_all_map _ _ _ _ _ (fun m => map (fun k => tones K H a (fun J => ph J + 2 * PI * INR J * INR m / INR (K * M)) (INR k)) (seq 0 K))).
  - cbn [bind]. rewrite Ls. set (c2 := map _ (seq 0 M)).
    assert (R2 : rect M K c2).
    { unfold c2. split; [rewrite map_length, seq_length; reflexivity|]. intros m Hm.
      rewrite (nth_map_in _ _ _ O) by (rewrite seq_length; exact Hm). rewrite map_length, seq_length. reflexivity. }
    rewrite (interleave_ok M K) by assumption. f_equal.
    destruct (interleave_nth M K c2 _ HM R2 (interleave_ok M K c2 HM R2)) as [L N2].
    apply (nth_ext_eq 0); [rewrite L, map_length, seq_length; reflexivity|]. intros n Hn. rewrite L in Hn.
    destruct (divmod_split M K n HM Hn) as [A [B C]].
    rewrite map_seq_nth by exact Hn. rewrite C at 1. rewrite N2 by assumption. unfold c2.
    rewrite (nth_map_in _ _ _ O) by (rewrite seq_length; exact B). rewrite seq_nth by exact B. rewrite map_seq_nth by exact A.
    unfold s, tones. apply rsum_ext. intros J _. do 2 f_equal. rewrite C at 3. cbn [Nat.add]. rewrite plus_INR, !mult_INR. field.
    repeat split; try assumption; lra.
  - destruct R1; congruence.
  - intros m Hm. rewrite Ls in Hm. rewrite C1 by exact Hm. unfold correct_skew.
    destruct (Rltb_spec (Rabs (nth m skew 0)) (/ 10 ^ 18)) as [Q|Q].
    + destruct (Hsk m Hm) as [Z|Z]; [|lra]. rewrite Z. f_equal. apply map_ext. intros k. unfold tones. apply rsum_ext. intros J _.
      do 3 f_equal. field. apply not_0_INR. nia.
    + rewrite c57_bandlimited_delay by lia. cbn [bind]. rewrite !map_length, seq_length, Nat.eqb_refl. f_equal.
      apply map_ext. intros k. unfold tones. apply rsum_ext. intros J _. do 2 f_equal.
      rewrite <- INR_IZR_INZ, mult_INR. field. repeat split; assumption.
Qed.

Lemma tones_single N J A phi t : tones N (S J) (fun i => if (i =? J)%nat then A else 0) (fun _ => phi) t
  = A * cos (2 * PI * INR J * t / INR N + phi).
Proof.
  unfold tones. rewrite (rsum_single (S J) J).
  - rewrite Nat.eqb_refl. reflexivity.
  - lia.
  - intros i _ Hne. replace (i =? J)%nat with false by (symmetry; apply Nat.eqb_neq; exact Hne). ring.
Qed.

(** Extract then calibrate: measuring the mismatch on a coherent tone below fs/(2M) and feeding
    the result to calibrate_foreground returns that tone exactly, with the mean gain and the
    mean skew (which one capture cannot reveal) as the only remaining change. *)
Lemma c60_extract_then_calibrate M K J gain offset skew A phi fs n_taps :
  (0 < M)%nat -> 0 < fs -> 0 < A -> (0 < 2 * J < K)%nat ->
  length gain = M -> length offset = M -> length skew = M ->
  (forall m, (m < M)%nat -> 0 < nth m gain 0) ->
  let fin := INR J * fs / INR (K * M) in
  (forall m, (S m < M)%nat -> Rabs (2 * PI * fin * (nth (S m) skew 0 - nth m skew 0)) < PI) ->
  (forall m, (m < M)%nat -> nth m skew 0 = lmean skew \/ / 10 ^ 18 <= Rabs (nth m skew 0 - lmean skew)) ->
  let x := map (ti_sample M fs gain offset skew (fun t => A * cos (2 * PI * fin * t + phi))) (seq 0 (K * M)) in
  exists r, extract_mismatch_sine x (Z.of_nat M) fs fin = Ok r /\
    calibrate_foreground x (Z.of_nat M) (mm_offset r) (mm_gain r) (mm_skew r) fs SkewFft n_taps
    = Ok (map (fun n => A * lmean gain * cos (2 * PI * fin * (INR n / fs + lmean skew) + phi)) (seq 0 (K * M))).
Proof.
  intros HM Hfs HA HJ Lg Lo Ls Hg fin Hsk Hs1 x.
  assert (HK' : INR K <> 0) by (apply not_0_INR; lia). assert (HM' : INR M <> 0) by (apply not_0_INR; lia).
  assert (Efin : fin = IZR (Z.of_nat J) * fs / INR (K * M)) by (unfold fin; rewrite <- INR_IZR_INZ; reflexivity).
  assert (ND : ~ (Z.of_nat K | 2 * Z.of_nat J)%Z).
  { intros [q Hq]. assert (0 < q)%Z by nia. nia. }
  destruct (c59_recovers_mismatch M K (Z.of_nat J) gain offset skew A phi fs HM ltac:(lia) Hfs HA ND Lg Lo Ls Hg) as [phs E].
  { rewrite <- Efin. exact Hsk. }
  rewrite <- Efin in E. fold x in E. eexists. split; [exact E|]. cbn [mm_offset mm_gain mm_skew].
  assert (Lpos : 0 < lmean gain).
  { unfold lmean. rewrite lsum_rsum, Lg. apply Rdiv_lt_0_compat; [apply rsum_pos; [exact HM|exact Hg]|apply lt_0_INR, HM]. }
  set (a := fun i => if (i =? J)%nat then A * lmean gain else 0).
  set (ph := fun _ : nat => 2 * PI * fin * lmean skew + phi).
  set (gain' := map (fun g => g / lmean gain) gain). set (skew' := map (fun s => s - lmean skew) skew).
  assert (Lg' : length gain' = M) by (unfold gain'; rewrite map_length; exact Lg).
  assert (Ls' : length skew' = M) by (unfold skew'; rewrite map_length; exact Ls).
  assert (T : forall t, tones (K * M) (S J) a ph (t * fs) = A * lmean gain * cos (2 * PI * fin * (t + lmean skew) + phi)).
  { intros t. unfold a, ph. rewrite tones_single. do 2 f_equal. unfold fin. rewrite mult_INR. field. split; assumption. }
  assert (X : x = map (ti_sample M fs gain' offset skew' (fun t => tones (K * M) (S J) a ph (t * fs))) (seq 0 (K * M))).
  { unfold x. apply map_ext_in. intros n Hn. unfold ti_sample.
    assert (B : (n mod M < M)%nat) by (apply Nat.mod_upper_bound; lia).
    unfold gain', skew'. rewrite !(nth_map_in _ _ _ 0) by lia. rewrite T. set (m := (n mod M)%nat).
    replace (INR n / fs + (nth m skew 0 - lmean skew) + lmean skew) with (INR n / fs + nth m skew 0) by ring. field. lra. }
  rewrite X. rewrite c60_fft_calibration_exact; try assumption; try lia.
  - f_equal. apply map_ext. intros n. apply T.
  - intros m Hm. unfold gain'. rewrite (nth_map_in _ _ _ 0) by lia. specialize (Hg m Hm).
    apply Rgt_not_eq, Rdiv_lt_0_compat; assumption.
  - intros m Hm. unfold skew'. rewrite (nth_map_in _ _ _ 0) by lia. destruct (Hs1 m Hm) as [Q|Q]; [left; lra|right; exact Q].
Qed.

(** A two-channel capture with gains 1 and 3, offsets 5 and -1 and skews 0 and 1/10. *)
Lemma c59_two_channel_ex :
  let fin := 1 / 6 in
  exists phases, extract_mismatch_sine
    (map (ti_sample 2 1 [1; 3] [5; -1] [0; 1/10] (fun t => 7 * cos (2 * PI * fin * t + 1))) (seq 0 6)) 2 1 fin
  = Ok (mkMismatch 14 [1/2; 3/2] [5; -1] [-1/20; 1/20] phases).
Proof.
  assert (Q : IZR 1 * 1 / INR (3 * 2) = 1 / 6) by (simpl; field).
  destruct (c59_recovers_mismatch 2 3 1 [1; 3] [5; -1] [0; 1/10] 7 1 1) as [ph E]; try reflexivity; try lia; try lra.
  - intros [q Hq]. lia.
  - intros m Hm. cases_lt m.
  - intros m Hm. rewrite Q. destruct m as [|m]; [|simpl in Hm; lia]. cbn [nth]. pose proof PI_RGT_0. rewrite Rabs_right; lra.
  - exists ph. rewrite Q in E. change (3 * 2)%nat with 6%nat in E. change (Z.of_nat 2) with 2%Z in E. cbn zeta. rewrite E. f_equal.
    assert (L1 : lmean [1; 3] = 2) by (unfold lmean; cbn; field). assert (L2 : lmean [0; 1/10] = 1/20) by (unfold lmean; cbn; field).
    rewrite L1, L2. cbn [map]. f_equal; list_eq; lra.
Qed.

Lemma c60_pipeline_ex :
  exists r, let x := map (ti_sample 2 1 [1; 3] [5; -1] [0; 1/10] (fun t => 7 * cos (2 * PI * (1/6) * t + 1))) (seq 0 6) in
    extract_mismatch_sine x 2 1 (1/6) = Ok r /\
    calibrate_foreground x 2 (mm_offset r) (mm_gain r) (mm_skew r) 1 SkewFft 7
    = Ok (map (fun n => 14 * cos (2 * PI * (1/6) * (INR n / 1 + 1/20) + 1)) (seq 0 6)).
Proof.
  assert (Q : INR 1 * 1 / INR (3 * 2) = 1 / 6) by (simpl; field).
  assert (L1 : lmean [1; 3] = 2) by (unfold lmean; cbn; field). assert (L2 : lmean [0; 1/10] = 1/20) by (unfold lmean; cbn; field).
  destruct (c60_extract_then_calibrate 2 3 1 [1; 3] [5; -1] [0; 1/10] 7 1 1 7) as [r [E1 E2]]; try reflexivity; try lia; try lra.
  - intros m Hm. cases_lt m.
  - intros m Hm. rewrite Q. destruct m as [|m]; [|simpl in Hm; lia]. cbn [nth]. pose proof PI_RGT_0. rewrite Rabs_right; lra.
  - intros m Hm. right. rewrite L2.
    assert (B : / 10 ^ 18 <= 1 / 20) by (replace (1 / 20) with (/ 20) by field; apply Rinv_le_contravar; [lra|]; replace (10 ^ 18) with (10 * 10 ^ 17) by (simpl; ring);
      assert (1 <= 10 ^ 17) by (apply pow_R1_Rle; lra); lra).
    destruct m as [|[|m]]; [| |lia]; cbn [nth].
    + rewrite Rabs_left; lra.
    + rewrite Rabs_right; lra.
  - exists r. cbn zeta. rewrite Q in E1, E2. change (3 * 2)%nat with 6%nat in E1, E2. change (Z.of_nat 2) with 2%Z in E1, E2.
    split; [exact E1|]. rewrite E2. f_equal. apply map_ext. intros n. rewrite L1, L2. f_equal. ring.
Qed.

(** Two channels with gains 1 and 3: amplitude 2 fundamental and one spur of amplitude 1. *)
Lemma c58_gain_spur_ex :
  exists l s, predict_spurs [1; 3] [0; 0] [0; 0] 1 1 (1/8) = Ok l /\ In s l /\ sp_kind s = KGainSkew /\ sp_amp s = 1 /\ sp_freq s = 3/8 /\
  forall n, ti_sample 2 1 [1; 3] [0; 0] [0; 0] (fun t => cos (2 * PI * (1/8) * t)) n
    = 2 * cos (2 * PI * (1/8) * INR n) - cos (2 * PI * (1/8 + 1/2) * INR n).
Proof.
  destruct (c22_size_check [1; 3] [0; 0] [0; 0] 1 1 (1/8)) as [[Q _] _].
  destruct Q as [l E]; [split; reflexivity|]. exists l.
  destruct (c22_spur_list _ _ _ _ _ _ _ Rlt_0_1 E) as [_ [_ [P S]]].
  assert (I : In (KGainSkew, 1%nat) (map (fun s => (sp_kind s, sp_k s)) l)).
  { apply (Permutation_in _ (Permutation_sym P)). right. left. reflexivity. }
  apply in_map_iff in I. destruct I as [s [Es Is]]. injection Es as E1 E2. exists s. split; [exact E|]. split; [exact Is|]. split; [exact E1|].
  specialize (S s Is). rewrite E1, E2 in S. destruct S as [_ [S1 S2]]. split; [|split].
  - rewrite S2. unfold dft. cbn [length csum nth INR].
    replace (- (2 * PI * 1 * 0 / (1 + 1))) with 0 by field. replace (- (2 * PI * 1 * 1 / (1 + 1))) with (- PI) by field.
    rewrite Rmult_0_r, cis_0. unfold Cmod, Cmod2, Cmult, Cplus, Cscale, cis, C0, C1. cbn [fst snd]. rewrite cos_neg, sin_neg, cos_PI, sin_PI.
    match goal with |- 1 * sqrt ?q / _ = _ => replace q with (2 * 2) by ring end. rewrite sqrt_square by lra. field.
  - cbn [length INR] in S1. apply (nmd_unique _ _ _ _ S1).
    replace (1 / 8 + 1 * 1 / (1 + 1)) with (- (3/8) + IZR 1 * 1) by field. apply nmd_shift, nmd_neg, nmd_fixed; lra.
  - intros n. unfold ti_sample.
    replace (2 * PI * (1 / 8 + 1 / 2) * INR n) with (2 * PI * (1/8) * INR n + PI * INR n) by field.
    rewrite (cos_plus _ (PI * INR n)), sin_nPI.
    pose proof (Nat.div_mod n 2 ltac:(lia)) as Dn. pose proof (Nat.mod_upper_bound n 2 ltac:(lia)) as B.
    assert (C : cos (PI * INR n) = if (n mod 2 =? 0)%nat then 1 else -1).
    { rewrite Dn at 1. rewrite plus_INR, mult_INR. cbn [INR].
      pose proof (cis_period (PI * INR (n mod 2)) (Z.of_nat (n / 2))) as Q. apply (f_equal Re) in Q. unfold cis, Re in Q. cbn [fst] in Q.
      replace (PI * ((1 + 1) * INR (n / 2) + INR (n mod 2))) with (PI * INR (n mod 2) + 2 * PI * IZR (Z.of_nat (n / 2))) by (rewrite <- INR_IZR_INZ; ring).
      rewrite Q. destruct (n mod 2)%nat as [|[|?]]; [| |lia]; cbn [INR Nat.eqb]; rewrite ?Rmult_0_r, ?Rmult_1_r; [apply cos_0|apply cos_PI]. }
    rewrite C. destruct (n mod 2)%nat as [|[|?]]; [| |lia]; cbn [nth Nat.eqb];
    replace (2 * PI * (1 / 8) * (INR n / 1 + 0)) with (2 * PI * (1 / 8) * INR n) by field; ring.
Qed.
