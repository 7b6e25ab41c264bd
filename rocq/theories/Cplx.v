(** * Complex numbers as pairs of reals, finite sums, and the discrete Fourier transform.
    Definitions used by the models (numpy complex128 arithmetic taken as exact; np.fft.fft
    taken as the DFT sum) followed by their lemmas. *)
From Verif Require Import Base BaseLemmas.
From Coq Require Import Psatz Ring.
Local Open Scope R_scope.

Definition C : Type := (R * R)%type.
Definition Re (z : C) : R := fst z.
Definition Im (z : C) : R := snd z.
Definition C0 : C := (0, 0).
Definition C1 : C := (1, 0).
Definition RtoC (x : R) : C := (x, 0).
Definition Cplus (a b : C) : C := (fst a + fst b, snd a + snd b).
Definition Copp (a : C) : C := (- fst a, - snd a).
Definition Cminus (a b : C) : C := Cplus a (Copp b).
Definition Cmult (a b : C) : C := (fst a * fst b - snd a * snd b, fst a * snd b + snd a * fst b).
Definition Cscale (k : R) (a : C) : C := (k * fst a, k * snd a).
Definition Cconj (a : C) : C := (fst a, - snd a).
(** |z|^2 and np.abs(z) *)
Definition Cmod2 (a : C) : R := fst a * fst a + snd a * snd a.
Definition Cmod (a : C) : R := sqrt (Cmod2 a).
(** np.exp(1j * t) *)
Definition cis (t : R) : C := (cos t, sin t).

Declare Scope C_scope.
Delimit Scope C_scope with C.
Bind Scope C_scope with C.
Infix "+" := Cplus : C_scope.
Infix "-" := Cminus : C_scope.
Infix "*" := Cmult : C_scope.
Notation "- x" := (Copp x) : C_scope.

Fixpoint csum (n : nat) (f : nat -> C) : C :=
  match n with O => C0 | S k => Cplus (csum k f) (f k) end.

(** np.fft.fft(f)[k] for a length-N sequence. *)
Definition dft (N : nat) (f : nat -> C) (k : nat) : C :=
  csum N (fun n => Cmult (f n) (cis (- (2 * PI * INR k * INR n / INR N)))).
Definition rdft (N : nat) (f : nat -> R) (k : nat) : C := dft N (fun n => RtoC (f n)) k.

(** ** Ring structure *)
Lemma C_ring : ring_theory C0 C1 Cplus Cmult Cminus Copp (@eq C).
Proof.
  constructor; intros; repeat match goal with z : C |- _ => destruct z end;
    unfold Cminus, Cplus, Cmult, Copp, C0, C1; cbn; f_equal; ring.
Qed.
Add Ring Cring : C_ring.

Lemma C_ext (a b : C) : Re a = Re b -> Im a = Im b -> a = b.
Proof. destruct a, b; simpl; intros -> ->; reflexivity. Qed.
Lemma Re_plus a b : Re (Cplus a b) = Re a + Re b. Proof. reflexivity. Qed.
Lemma Im_plus a b : Im (Cplus a b) = Im a + Im b. Proof. reflexivity. Qed.
Lemma Re_scale k a : Re (Cscale k a) = k * Re a. Proof. reflexivity. Qed.
Lemma Im_scale k a : Im (Cscale k a) = k * Im a. Proof. reflexivity. Qed.
Lemma Cscale_mult k a b : Cmult (Cscale k a) b = Cscale k (Cmult a b).
Proof. unfold Cscale, Cmult; cbn; f_equal; ring. Qed.
Lemma Cscale_RtoC k a : Cscale k a = Cmult (RtoC k) a.
Proof. unfold Cscale, Cmult, RtoC; cbn; f_equal; ring. Qed.
Lemma Cscale_scale k l a : Cscale k (Cscale l a) = Cscale (k * l) a.
Proof. unfold Cscale; cbn; f_equal; ring. Qed.
Lemma Cscale_1 a : Cscale 1 a = a.
Proof. destruct a; unfold Cscale; cbn; f_equal; ring. Qed.
Lemma Cscale_0 a : Cscale 0 a = C0.
Proof. unfold Cscale, C0; cbn; f_equal; ring. Qed.

Lemma Cmod2_nonneg a : 0 <= Cmod2 a.
Proof. unfold Cmod2. nra. Qed.
Lemma Cmod_nonneg a : 0 <= Cmod a.
Proof. apply sqrt_pos. Qed.
Lemma Cmod2_mult a b : Cmod2 (Cmult a b) = Cmod2 a * Cmod2 b.
Proof. unfold Cmod2, Cmult; cbn; ring. Qed.
Lemma Cmod_mult a b : Cmod (Cmult a b) = Cmod a * Cmod b.
Proof. unfold Cmod. rewrite Cmod2_mult. apply sqrt_mult; apply Cmod2_nonneg. Qed.
Lemma Cmod_0 : Cmod C0 = 0.
Proof. unfold Cmod, Cmod2, C0; cbn. replace (0 * 0 + 0 * 0) with 0 by ring. apply sqrt_0. Qed.
Lemma Cmod2_cis t : Cmod2 (cis t) = 1.
Proof. unfold Cmod2, cis; cbn. pose proof (sin2_cos2 t) as H. unfold Rsqr in H. lra. Qed.
Lemma Cmod_cis t : Cmod (cis t) = 1.
Proof. unfold Cmod. rewrite Cmod2_cis. apply sqrt_1. Qed.
Lemma Cmod_scale k a : Cmod (Cscale k a) = Rabs k * Cmod a.
Proof.
  unfold Cmod. replace (Cmod2 (Cscale k a)) with (Rsqr k * Cmod2 a) by (unfold Cmod2, Cscale, Rsqr; cbn; ring).
  rewrite sqrt_mult by (try apply Rle_0_sqr; apply Cmod2_nonneg). rewrite sqrt_Rsqr_abs. reflexivity.
Qed.
Lemma Cmod_RtoC x : Cmod (RtoC x) = Rabs x.
Proof. unfold Cmod, Cmod2, RtoC; cbn. replace (x * x + 0 * 0) with (Rsqr x) by (unfold Rsqr; ring). apply sqrt_Rsqr_abs. Qed.
Lemma Cmod_sqr a : Cmod a * Cmod a = Cmod2 a.
Proof. apply sqrt_sqrt, Cmod2_nonneg. Qed.
Lemma Cmod_eq_0 a : Cmod a = 0 -> a = C0.
Proof.
  intros H. assert (E : Cmod2 a = 0) by (rewrite <- Cmod_sqr, H; ring). unfold Cmod2 in E.
  apply C_ext; unfold Re, Im; simpl; nra.
Qed.
Lemma Cmod_opp a : Cmod (Copp a) = Cmod a.
Proof. unfold Cmod, Cmod2, Copp; cbn. f_equal. ring. Qed.
Lemma Cconj_mult a b : Cconj (Cmult a b) = Cmult (Cconj a) (Cconj b).
Proof. unfold Cconj, Cmult; cbn; f_equal; ring. Qed.
Lemma Cconj_plus a b : Cconj (Cplus a b) = Cplus (Cconj a) (Cconj b).
Proof. unfold Cconj, Cplus; cbn; f_equal; ring. Qed.
Lemma Cmod_conj a : Cmod (Cconj a) = Cmod a.
Proof. unfold Cmod, Cmod2, Cconj; cbn. f_equal. ring. Qed.
Lemma Cmod2_conj a : Cmult a (Cconj a) = RtoC (Cmod2 a).
Proof. unfold Cmult, Cconj, RtoC, Cmod2; cbn; f_equal; ring. Qed.

Lemma cis_plus a b : cis (a + b) = Cmult (cis a) (cis b).
Proof. unfold cis, Cmult; cbn. rewrite cos_plus, sin_plus. f_equal; ring. Qed.
Lemma cis_0 : cis 0 = C1.
Proof. unfold cis, C1. rewrite cos_0, sin_0. reflexivity. Qed.
Lemma cis_neg a : cis (- a) = Cconj (cis a).
Proof. unfold cis, Cconj; cbn. rewrite cos_neg, sin_neg. reflexivity. Qed.
Lemma cis_inv a : Cmult (cis a) (cis (- a)) = C1.
Proof. rewrite <- cis_plus. replace (a + - a) with 0 by ring. apply cis_0. Qed.
Lemma cis_2kPI (k : Z) : cis (2 * PI * IZR k) = C1.
Proof.
  unfold cis, C1. replace (2 * PI * IZR k) with (0 + 2 * IZR k * PI) by ring.
  destruct (Z_le_gt_dec 0 k) as [H|H].
  - assert (E : IZR k = INR (Z.to_nat k)) by (rewrite INR_IZR_INZ, Z2Nat.id by lia; reflexivity).
    rewrite E, cos_period, sin_period, cos_0, sin_0. reflexivity.
  - assert (E : IZR k = - INR (Z.to_nat (- k))) by (rewrite INR_IZR_INZ, Z2Nat.id by lia; rewrite opp_IZR; ring).
    rewrite E. set (m := Z.to_nat (- k)).
    rewrite <- (cos_period (0 + 2 * - INR m * PI) m), <- (sin_period (0 + 2 * - INR m * PI) m).
    replace (0 + 2 * - INR m * PI + 2 * INR m * PI) with 0 by ring. rewrite cos_0, sin_0. reflexivity.
Qed.
Lemma cis_period a (k : Z) : cis (a + 2 * PI * IZR k) = cis a.
Proof. rewrite cis_plus, cis_2kPI. ring. Qed.
Lemma cis_eq_1 t : cis t = C1 -> exists k : Z, t = 2 * PI * IZR k.
Proof.
  unfold cis, C1. intros H. injection H as Hc Hs. apply sin_eq_0_0 in Hs. destruct Hs as [k Hk].
  destruct (Z.Even_or_Odd k) as [[j Hj]|[j Hj]].
  - exists j. rewrite Hk, Hj, mult_IZR. ring.
  - exfalso. rewrite Hk, Hj, plus_IZR, mult_IZR in Hc.
    replace ((2 * IZR j + 1) * PI) with (PI + 2 * PI * IZR j) in Hc by ring.
    assert (E := cis_period PI j). unfold cis in E. injection E as E _. rewrite E, cos_PI in Hc. lra.
Qed.

(** ** Sums *)
Lemma csum_ext n f g : (forall i, (i < n)%nat -> f i = g i) -> csum n f = csum n g.
Proof. induction n as [|n IH]; intros H; simpl; [reflexivity|]. rewrite IH by (intros; apply H; lia). rewrite H by lia. reflexivity. Qed.
Lemma csum_plus n f g : csum n (fun i => Cplus (f i) (g i)) = Cplus (csum n f) (csum n g).
Proof. induction n as [|n IH]; simpl; [ring|]. rewrite IH. ring. Qed.
Lemma csum_mult_l n c f : csum n (fun i => Cmult c (f i)) = Cmult c (csum n f).
Proof. induction n as [|n IH]; simpl; [ring|]. rewrite IH. ring. Qed.
Lemma csum_mult_r n c f : csum n (fun i => Cmult (f i) c) = Cmult (csum n f) c.
Proof. induction n as [|n IH]; simpl; [ring|]. rewrite IH. ring. Qed.
Lemma csum_scale n k f : csum n (fun i => Cscale k (f i)) = Cscale k (csum n f).
Proof. rewrite Cscale_RtoC, <- csum_mult_l. apply csum_ext. intros. apply Cscale_RtoC. Qed.
Lemma csum_zero n f : (forall i, (i < n)%nat -> f i = C0) -> csum n f = C0.
Proof. intros H. induction n as [|n IH]; simpl; [reflexivity|]. rewrite IH by (intros; apply H; lia). rewrite H by lia. ring. Qed.
Lemma csum_const n c : csum n (fun _ => c) = Cscale (INR n) c.
Proof.
  induction n as [|n IH]; [simpl; rewrite Cscale_0; reflexivity|]. cbn [csum]. rewrite IH, S_INR.
  unfold Cscale, Cplus; cbn; f_equal; ring.
Qed.
Lemma csum_swap n m (f : nat -> nat -> C) :
  csum n (fun i => csum m (fun j => f i j)) = csum m (fun j => csum n (fun i => f i j)).
Proof.
  induction n as [|n IH]; simpl; [symmetry; apply csum_zero; reflexivity|]. rewrite IH, <- csum_plus. reflexivity.
Qed.
Lemma csum_single n j f : (j < n)%nat -> (forall i, (i < n)%nat -> i <> j -> f i = C0) -> csum n f = f j.
Proof.
  intros Hj H. induction n as [|n IH]; [lia|]. simpl. destruct (Nat.eq_dec j n) as [->|Hn].
  - rewrite csum_zero by (intros; apply H; lia). ring.
  - rewrite IH by (try lia; intros; apply H; lia). rewrite (H n) by lia. ring.
Qed.
Lemma csum_conj n f : Cconj (csum n f) = csum n (fun i => Cconj (f i)).
Proof. induction n as [|n IH]; simpl; [unfold Cconj, C0; cbn; f_equal; ring|]. rewrite Cconj_plus, IH. reflexivity. Qed.
Lemma csum_Re n f : Re (csum n f) = rsum n (fun i => Re (f i)).
Proof. induction n as [|n IH]; cbn [csum rsum]; [reflexivity|]. rewrite Re_plus, IH. reflexivity. Qed.
Lemma csum_Im n f : Im (csum n f) = rsum n (fun i => Im (f i)).
Proof. induction n as [|n IH]; cbn [csum rsum]; [reflexivity|]. rewrite Im_plus, IH. reflexivity. Qed.
Lemma csum_RtoC n f : csum n (fun i => RtoC (f i)) = RtoC (rsum n f).
Proof. induction n as [|n IH]; simpl; [reflexivity|]. rewrite IH. unfold Cplus, RtoC; cbn; f_equal; ring. Qed.
Lemma csum_shift n f : csum (S n) f = Cplus (f O) (csum n (fun i => f (S i))).
Proof. induction n as [|n IH]; [simpl; ring|]. cbn [csum] in *. rewrite IH. ring. Qed.

(** ** Geometric sums of roots of unity *)
Lemma cis_geometric n t : Cmult (Cminus C1 (cis t)) (csum n (fun i => cis (INR i * t))) = Cminus C1 (cis (INR n * t)).
Proof.
  induction n as [|n IH]; [cbn [csum]; rewrite Rmult_0_l, cis_0; ring|].
  cbn [csum]. replace (Cmult (Cminus C1 (cis t)) (Cplus (csum n (fun i => cis (INR i * t))) (cis (INR n * t))))
    with (Cplus (Cmult (Cminus C1 (cis t)) (csum n (fun i => cis (INR i * t)))) (Cmult (Cminus C1 (cis t)) (cis (INR n * t)))) by ring.
  rewrite IH, S_INR. replace ((INR n + 1) * t) with (t + INR n * t) by ring. rewrite cis_plus. ring.
Qed.

Lemma Cmult_integral a b : Cmult a b = C0 -> a = C0 \/ b = C0.
Proof.
  intros H. assert (E : Cmod a * Cmod b = 0) by (rewrite <- Cmod_mult, H; apply Cmod_0).
  apply Rmult_integral in E. destruct E as [E|E]; [left|right]; apply Cmod_eq_0, E.
Qed.

Lemma roots_sum (N : nat) (m : Z) : (0 < N)%nat ->
  csum N (fun n => cis (2 * PI * IZR m * INR n / INR N)) =
  if (m mod Z.of_nat N =? 0)%Z then RtoC (INR N) else C0.
Proof.
  intros HN. assert (HN' : INR N <> 0) by (apply not_0_INR; lia).
  destruct (Z.eqb_spec (m mod Z.of_nat N) 0) as [E|E].
  - apply Z.mod_divide in E; [|lia]. destruct E as [q Hq].
    rewrite (csum_ext N _ (fun _ => C1)).
    + rewrite csum_const. unfold Cscale, C1, RtoC; cbn; f_equal; ring.
    + intros i _. rewrite <- (cis_2kPI (q * Z.of_nat i)). f_equal.
      rewrite Hq, !mult_IZR, <- !INR_IZR_INZ. field. exact HN'.
  - set (t := 2 * PI * IZR m / INR N).
    rewrite (csum_ext N _ (fun i => cis (INR i * t))).
    2:{ intros i _. f_equal. unfold t. field. exact HN'. }
    pose proof (cis_geometric N t) as G.
    replace (INR N * t) with (2 * PI * IZR m) in G by (unfold t; field; exact HN').
    rewrite cis_2kPI in G. replace (Cminus C1 C1) with C0 in G by ring.
    apply Cmult_integral in G. destruct G as [G|G]; [|exact G]. exfalso.
    assert (G' : cis t = C1).
    { replace (cis t) with (Cminus C1 (Cminus C1 (cis t))) by ring. rewrite G. ring. }
    apply cis_eq_1 in G'. destruct G' as [k Hk]. apply E. apply Z.mod_divide; [lia|]. exists k.
    apply eq_IZR. rewrite mult_IZR, <- INR_IZR_INZ.
    assert (P : PI <> 0) by apply PI_neq0.
    apply (Rmult_eq_reg_l (2 * PI / INR N)).
    + transitivity t; [unfold t; field; exact HN'|]. rewrite Hk. field. exact HN'.
    + apply Rmult_integral_contrapositive. split; [lra|apply Rinv_neq_0_compat, HN'].
Qed.

Lemma Cconj_RtoC x : Cconj (RtoC x) = RtoC x.
Proof. unfold Cconj, RtoC; cbn; f_equal; ring. Qed.

(** ** Inverse transform and Parseval *)
Lemma diff_mod_zero (N i j : nat) : (i < N)%nat -> (j < N)%nat ->
  ((Z.of_nat i - Z.of_nat j) mod Z.of_nat N =? 0)%Z = (i =? j)%nat.
Proof.
  intros Hi Hj. destruct (Nat.eqb_spec i j) as [->|H].
  - rewrite Z.sub_diag, Z.mod_0_l by lia. reflexivity.
  - apply Z.eqb_neq. intros E. apply Z.mod_divide in E; [|lia]. destruct E as [q Hq].
    assert (q = 0)%Z by nia. nia.
Qed.

Lemma dft_inverse N f n : (n < N)%nat ->
  csum N (fun k => Cmult (dft N f k) (cis (2 * PI * INR k * INR n / INR N))) = Cscale (INR N) (f n).
Proof.
  intros Hn. assert (HN : (0 < N)%nat) by lia. assert (HN' : INR N <> 0) by (apply not_0_INR; lia).
  unfold dft.
  rewrite (csum_ext N _ (fun k => csum N (fun i => Cmult (f i) (cis (2 * PI * IZR (Z.of_nat n - Z.of_nat i) * INR k / INR N))))).
  2:{ intros k _. rewrite <- csum_mult_r. apply csum_ext. intros i _.
      rewrite <- (cis_neg _) || idtac.
      replace (Cmult (Cmult (f i) (cis (- (2 * PI * INR k * INR i / INR N)))) (cis (2 * PI * INR k * INR n / INR N)))
        with (Cmult (f i) (Cmult (cis (- (2 * PI * INR k * INR i / INR N))) (cis (2 * PI * INR k * INR n / INR N)))) by ring.
      rewrite <- cis_plus. do 2 f_equal. rewrite minus_IZR, <- !INR_IZR_INZ. field. exact HN'. }
  rewrite csum_swap.
  rewrite (csum_single N n).
  - rewrite csum_mult_l, roots_sum by exact HN. rewrite diff_mod_zero, Nat.eqb_refl by assumption.
    rewrite Cscale_RtoC. ring.
  - exact Hn.
  - intros i Hi Hne. rewrite csum_mult_l, roots_sum by exact HN. rewrite diff_mod_zero by assumption.
    destruct (Nat.eqb_spec n i); [congruence|]. ring.
Qed.

Lemma dft_parseval N f : (0 < N)%nat ->
  rsum N (fun k => Cmod2 (dft N f k)) = INR N * rsum N (fun n => Cmod2 (f n)).
Proof.
  intros HN. assert (HN' : INR N <> 0) by (apply not_0_INR; lia).
  assert (E : RtoC (rsum N (fun k => Cmod2 (dft N f k))) = RtoC (INR N * rsum N (fun n => Cmod2 (f n)))).
  2:{ apply (f_equal Re) in E. exact E. }
  rewrite <- csum_RtoC.
  rewrite (csum_ext N _ (fun k => csum N (fun n => Cmult (Cmult (dft N f k) (cis (2 * PI * INR k * INR n / INR N))) (Cconj (f n))))).
  2:{ intros k _. rewrite <- Cmod2_conj. unfold dft at 2. rewrite csum_conj, <- csum_mult_l. apply csum_ext. intros n _.
      rewrite Cconj_mult, cis_neg. replace (Cconj (Cconj (cis (2 * PI * INR k * INR n / INR N)))) with (cis (2 * PI * INR k * INR n / INR N)).
      - ring.
      - unfold Cconj, cis; cbn; f_equal; ring. }
  rewrite csum_swap.
  rewrite (csum_ext N _ (fun n => Cscale (INR N) (RtoC (Cmod2 (f n))))).
  2:{ intros n Hn. rewrite csum_mult_r, dft_inverse by exact Hn. rewrite Cscale_mult, Cmod2_conj. reflexivity. }
  rewrite csum_scale, csum_RtoC. unfold Cscale, RtoC; cbn; f_equal; ring.
Qed.

(** Hermitian symmetry for real input. *)
Lemma rdft_hermitian N f k : (0 < k < N)%nat -> rdft N f (N - k) = Cconj (rdft N f k).
Proof.
  intros Hk. assert (HN' : INR N <> 0) by (apply not_0_INR; lia). unfold rdft, dft. rewrite csum_conj. apply csum_ext. intros n _.
  rewrite Cconj_mult, Cconj_RtoC. f_equal. rewrite <- cis_neg.
  rewrite minus_INR by lia. rewrite <- (cis_period (- (2 * PI * (INR N - INR k) * INR n / INR N)) (Z.of_nat n)). f_equal.
  rewrite <- INR_IZR_INZ. field. exact HN'.
Qed.

Lemma dft_plus N f g k : dft N (fun n => Cplus (f n) (g n)) k = Cplus (dft N f k) (dft N g k).
Proof. unfold dft. rewrite <- csum_plus. apply csum_ext. intros. ring. Qed.
Lemma dft_cmult N c f k : dft N (fun n => Cmult c (f n)) k = Cmult c (dft N f k).
Proof. unfold dft. rewrite <- csum_mult_l. apply csum_ext. intros. ring. Qed.
Lemma dft_ext N f g k : (forall i, (i < N)%nat -> f i = g i) -> dft N f k = dft N g k.
Proof. intros H. apply csum_ext. intros i Hi. rewrite H by exact Hi. reflexivity. Qed.

(** Transform of a complex exponential at integer frequency m. *)
Lemma dft_tone N (m : Z) k : (0 < N)%nat ->
  dft N (fun n => cis (2 * PI * IZR m * INR n / INR N)) k =
  if ((m - Z.of_nat k) mod Z.of_nat N =? 0)%Z then RtoC (INR N) else C0.
Proof.
  intros HN. rewrite <- roots_sum by exact HN. apply csum_ext. intros i _. rewrite <- cis_plus. f_equal.
  rewrite minus_IZR, <- INR_IZR_INZ. field. apply not_0_INR. lia.
Qed.

(** A real cosine is the sum of two conjugate exponentials. *)
Lemma cos_exponentials a t :
  RtoC (a * cos t) = Cplus (Cscale (a / 2) (cis t)) (Cscale (a / 2) (cis (- t))).
Proof. unfold RtoC, Cscale, Cplus, cis; cbn. rewrite cos_neg, sin_neg. f_equal; field. Qed.
