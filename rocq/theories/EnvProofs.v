(** * Proofs about the Hilbert envelope and the error spectra (C118, C119, C120). *)
From Verif Require Import Base BaseLemmas Cplx SpecModel TiModel CalModel CalSpec CalProofs FitModel FitSpec FitProofs EnvModel EnvSpec SpecToneSpec CohLemmas TiProofs CohProofs RearProofs EplaneProofs SpecToneProofs SpecLemmas TiSpec SpecPrepProofs SpecMetricProofs SpecProofs.
Local Open Scope R_scope.

(** ** Sums over mirrored bins *)
Definition mirror (N k : nat) : nat := if (k =? 0)%nat then 0%nat else (N - k)%nat.
Lemma rsum_mirror N g : rsum N (fun k => g (mirror N k)) = rsum N g.
Proof.
  destruct N as [|N]; [reflexivity|]. rewrite !rsum_shift. f_equal. rewrite (rsum_reverse N (fun i => g (S i))).
  apply rsum_ext. intros i Hi. unfold mirror. cbn [Nat.eqb]. f_equal. lia.
Qed.
Lemma weighted_symmetric N h g : (forall k, (0 < k < N)%nat -> g (N - k)%nat = g k) ->
  rsum N (fun k => h k * g k) = rsum N (fun k => (h k + h (mirror N k)) / 2 * g k).
Proof.
  intros S. assert (E : rsum N (fun k => h k * g k) = rsum N (fun k => h (mirror N k) * g k)).
  { rewrite <- (rsum_mirror N (fun k => h k * g k)). apply rsum_ext. intros k Hk. f_equal. unfold mirror. destruct (Nat.eqb_spec k 0); [subst; reflexivity | apply S; lia]. }
  rewrite (rsum_ext N (fun k => (h k + h (mirror N k)) / 2 * g k) (fun k => / 2 * (h k * g k) + / 2 * (h (mirror N k) * g k))) by (intros; field).
  rewrite rsum_plus, !rsum_scale, <- E. field.
Qed.
Lemma gain_pair N k : (k < N)%nat -> (hilbert_gain N k + hilbert_gain N (mirror N k)) / 2 = 1.
Proof.
  intros Hk. unfold hilbert_gain, mirror. pose proof (Nat.div_mod N 2 ltac:(lia)) as D. pose proof (Nat.mod_upper_bound N 2 ltac:(lia)).
  destruct (Nat.even N) eqn:E.
  - apply Nat.even_spec in E. destruct E as [h Hh]. assert (Q : (N / 2 = h)%nat) by (subst N; rewrite Nat.mul_comm; apply Nat.div_mul; lia). rewrite Q in *.
    destruct (Nat.eqb_spec k 0) as [->|K0]; cbn [orb Nat.eqb]; [lra|].
    destruct (Nat.eqb_spec k h) as [->|Kh]; cbn [orb].
    + replace (N - h)%nat with h by lia. rewrite Nat.eqb_refl, orb_true_r. lra.
    + replace (N - k =? 0)%nat with false by (symmetry; apply Nat.eqb_neq; lia). replace (N - k =? h)%nat with false by (symmetry; apply Nat.eqb_neq; lia). cbn [orb].
      destruct (Nat.ltb_spec k h), (Nat.ltb_spec (N - k) h); try lia; lra.
  - assert (O : Nat.odd N = true) by (rewrite <- Nat.negb_even, E; reflexivity). apply Nat.odd_spec in O. destruct O as [h Hh].
    assert (Q : ((N + 1) / 2 = h + 1)%nat) by (replace (N + 1)%nat with ((h + 1) * 2)%nat by lia; apply Nat.div_mul; lia). rewrite Q.
    destruct (Nat.eqb_spec k 0) as [->|K0]; cbn [Nat.eqb]; [lra|]. replace (N - k =? 0)%nat with false by (symmetry; apply Nat.eqb_neq; lia).
    destruct (Nat.ltb_spec k (h + 1)), (Nat.ltb_spec (N - k) (h + 1)); try lia; lra.
Qed.

(** ** The analytic signal *)
Definition term (x : list R) (n k : nat) : C := Cmult (rfft x k) (cis (2 * PI * INR k * INR n / INR (length x))).
Lemma term_mirror x n k : (0 < k < length x)%nat -> term x n (length x - k) = Cconj (term x n k).
Proof.
  intros Hk. unfold term, rfft. rewrite rdft_hermitian by exact Hk. rewrite Cconj_mult. f_equal.
  rewrite <- cis_neg. rewrite <- (cis_period (- (2 * PI * INR k * INR n / INR (length x))) (Z.of_nat n)). f_equal.
  rewrite minus_INR by lia. rewrite <- INR_IZR_INZ. field. apply not_0_INR. lia.
Qed.
Lemma analytic_term x n : analytic x n = Cscale (/ INR (length x)) (csum (length x) (fun k => Cscale (hilbert_gain (length x) k) (term x n k))).
Proof. unfold analytic. cbv zeta. f_equal. apply csum_ext. intros k _. unfold term. apply Cscale_mult. Qed.
(** The real part of the analytic signal is the record itself, for every real record. *)
Lemma c118_real_part x n : (n < length x)%nat -> Re (analytic x n) = nth n x 0.
Proof.
  intros Hn. assert (HN : INR (length x) <> 0) by (apply not_0_INR; lia). rewrite analytic_term, Re_scale, csum_Re.
  rewrite (rsum_ext _ _ (fun k => hilbert_gain (length x) k * Re (term x n k))) by (intros; apply Re_scale).
  rewrite weighted_symmetric.
  2:{ intros k Hk. rewrite term_mirror by exact Hk. reflexivity. }
  rewrite (rsum_ext _ _ (fun k => Re (term x n k))) by (intros k Hk; rewrite gain_pair by exact Hk; ring).
  rewrite <- csum_Re. unfold term, rfft, rdft. rewrite dft_inverse by exact Hn. rewrite Re_scale. cbn. field. exact HN.
Qed.
Lemma envelope_ok x e : envelope x = Ok e -> (0 < length x)%nat /\ length e = length x /\ forall n, (n < length x)%nat -> nth n e 0 = Cmod (analytic x n).
Proof.
  unfold envelope, raise_if. destruct (Nat.eqb_spec (length x) 0) as [|N]; [discriminate|]. intros E. apply Ok_inj in E. subst e. rewrite map_length, seq_length.
  repeat split; [lia|]. intros n Hn. apply (nth_map_seq (fun n => Cmod (analytic x n))). exact Hn.
Qed.
Lemma Re_le_Cmod z : Rabs (Re z) <= Cmod z.
Proof. unfold Cmod, Cmod2, Re. rewrite <- sqrt_Rsqr_abs. apply sqrt_le_1_alt. unfold Rsqr. nra. Qed.
(** So the envelope is never below the magnitude of the record; it fails only for an empty record. *)
Lemma c118_dominates x : (x = [] /\ envelope x = Err ValueError) \/
  exists e, envelope x = Ok e /\ length e = length x /\ forall n, (n < length x)%nat -> Rabs (nth n x 0) <= nth n e 0.
Proof.
  destruct (envelope x) as [e|] eqn:E.
  - right. exists e. destruct (envelope_ok x e E) as (_ & L & V). repeat split; [exact L|]. intros n Hn. rewrite V by exact Hn. rewrite <- (c118_real_part x n Hn). apply Re_le_Cmod.
  - left. unfold envelope, raise_if in E. destruct (Nat.eqb_spec (length x) 0) as [Z|]; [|discriminate]. apply Ok_inj in E || inversion E. split; [apply length_zero_iff_nil; exact Z | congruence].
Qed.

(** ** Linearity *)
Lemma rfft_record N g k : rfft (record N g) k = rdft N g k.
Proof. unfold rfft, record. rewrite map_length, seq_length. apply dft_ext. intros i Hi. f_equal. apply nth_map_seq. exact Hi. Qed.
Lemma record_length N g : length (record N g) = N. Proof. unfold record. rewrite map_length, seq_length. reflexivity. Qed.
Lemma record_nth N g n : (n < N)%nat -> nth n (record N g) 0 = g n. Proof. intros. unfold record. apply nth_map_seq. assumption. Qed.
Lemma record_self x : record (length x) (fun n => nth n x 0) = x.
Proof. apply nth_ext with 0 0; [apply record_length|]. intros n Hn. rewrite record_length in Hn. apply record_nth. exact Hn. Qed.
Lemma record_ext N f g : (forall n, (n < N)%nat -> f n = g n) -> record N f = record N g.
Proof. intros H. apply map_ext_in. intros n Hn. apply in_seq in Hn. apply H. lia. Qed.
Definition ana (N : nat) (g : nat -> R) (n : nat) : C := Cscale (/ INR N) (csum N (fun k => Cmult (Cscale (hilbert_gain N k) (rdft N g k)) (cis (2 * PI * INR k * INR n / INR N)))).
Lemma analytic_record N g n : analytic (record N g) n = ana N g n.
Proof. unfold analytic, ana. rewrite record_length. f_equal. apply csum_ext. intros k Hk. rewrite rfft_record. reflexivity. Qed.
Lemma ana_plus N f g n : ana N (fun i => f i + g i) n = Cplus (ana N f n) (ana N g n).
Proof.
  unfold ana. rewrite !Cscale_RtoC. transitivity (Cmult (RtoC (/ INR N)) (Cplus (csum N (fun k => Cmult (Cscale (hilbert_gain N k) (rdft N f k)) (cis (2 * PI * INR k * INR n / INR N)))) (csum N (fun k => Cmult (Cscale (hilbert_gain N k) (rdft N g k)) (cis (2 * PI * INR k * INR n / INR N)))))); [|ring].
  f_equal. rewrite <- csum_plus. apply csum_ext. intros k Hk. rewrite rdft_plus, !Cscale_RtoC. ring.
Qed.
Lemma ana_zero N n : ana N (fun _ => 0) n = C0.
Proof.
  unfold ana. rewrite csum_zero; [unfold Cscale, C0; cbn; f_equal; ring|]. intros k _. replace (rdft N (fun _ => 0) k) with C0; [rewrite Cscale_RtoC; ring|].
  symmetry. unfold rdft, dft. apply csum_zero. intros i _. unfold RtoC, Cmult, C0; cbn. f_equal; ring.
Qed.
Lemma ana_rsum N H (f : nat -> nat -> R) n : ana N (fun i => rsum H (fun j => f j i)) n = csum H (fun j => ana N (f j) n).
Proof. induction H as [|H IH]; cbn [rsum csum]; [apply ana_zero|]. rewrite ana_plus, IH. reflexivity. Qed.
Lemma ana_scale N c g n : ana N (fun i => c * g i) n = Cscale c (ana N g n).
Proof.
  unfold ana. rewrite Cscale_scale, (Rmult_comm c), <- Cscale_scale. f_equal. rewrite <- csum_scale. apply csum_ext. intros k Hk.
  replace (rdft N (fun i => c * g i) k) with (Cscale c (rdft N g k)); [rewrite !Cscale_RtoC; ring|].
  unfold rdft, dft. rewrite <- csum_scale. apply csum_ext. intros i Hi. unfold Cscale, Cmult, RtoC; cbn. f_equal; ring.
Qed.
(** A gain multiplies the envelope by its magnitude (and a sign change leaves it alone). *)
Lemma c118_gain x c e : envelope x = Ok e -> envelope (map (fun v => c * v) x) = Ok (map (fun v => Rabs c * v) e).
Proof.
  intros E. destruct (envelope_ok x e E) as (L0 & Le & V). unfold envelope, raise_if. rewrite map_length. destruct (Nat.eqb_spec (length x) 0) as [|_]; [lia|]. f_equal.
  apply nth_ext with 0 0; [rewrite !map_length, seq_length; lia|]. intros n Hn. rewrite map_length, seq_length in Hn. rewrite nth_map_seq by exact Hn.
  rewrite (nth_map_in _ _ _ 0) by lia. rewrite V by exact Hn. rewrite <- Cmod_scale. f_equal.
  replace (map (fun v => c * v) x) with (record (length x) (fun i => c * nth i x 0)).
  - rewrite analytic_record, ana_scale, <- analytic_record, record_self. reflexivity.
  - transitivity (map (fun v => c * v) (record (length x) (fun n => nth n x 0))); [unfold record; rewrite map_map; reflexivity | rewrite record_self; reflexivity].
Qed.
(** ** Tones *)
Lemma gain_below N k : (0 < k)%nat -> (2 * k < N)%nat -> hilbert_gain N k = 2.
Proof.
  intros K0 K1. unfold hilbert_gain. pose proof (Nat.div_mod N 2 ltac:(lia)) as D. pose proof (Nat.mod_upper_bound N 2 ltac:(lia)).
  destruct (Nat.even N) eqn:E.
  - apply Nat.even_spec in E. destruct E as [h Hh]. assert (Q : (N / 2 = h)%nat) by (subst N; rewrite Nat.mul_comm; apply Nat.div_mul; lia). rewrite Q.
    destruct (Nat.eqb_spec k 0); [lia|]. destruct (Nat.eqb_spec k h); [lia|]. cbn [orb]. destruct (Nat.ltb_spec k h); [reflexivity|lia].
  - destruct (Nat.eqb_spec k 0); [lia|]. destruct (Nat.ltb_spec k ((N + 1) / 2)) as [|G]; [reflexivity|]. pose proof (Nat.div_mod (N + 1) 2 ltac:(lia)). pose proof (Nat.mod_upper_bound (N + 1) 2 ltac:(lia)). lia.
Qed.
Lemma gain_above N k : (k < N)%nat -> (N < 2 * k)%nat -> hilbert_gain N k = 0.
Proof.
  intros K0 K1. pose proof (gain_pair N k K0) as P. replace (mirror N k) with (N - k)%nat in P by (unfold mirror; destruct (Nat.eqb_spec k 0); lia).
  rewrite (gain_below N (N - k)) in P by lia. lra.
Qed.
Lemma gain_0 N : hilbert_gain N 0 = 1. Proof. unfold hilbert_gain. cbn. destruct (Nat.even N); reflexivity. Qed.
Lemma ana_tone N J A ph n : (0 < J)%nat -> (2 * J < N)%nat ->
  ana N (fun i => A * cos (2 * PI * INR J * INR i / INR N + ph)) n = Cscale A (cis (2 * PI * INR J * INR n / INR N + ph)).
Proof.
  intros J0 J1. assert (HN : INR N <> 0) by (apply not_0_INR; lia). unfold ana. rewrite (csum_single N J); [| lia | intros k Hk Kne].
  - rewrite gain_below by assumption. rewrite cosine_dft by lia.
    replace ((Z.of_nat J - Z.of_nat J) mod Z.of_nat N =? 0)%Z with true by (rewrite Z.sub_diag, Z.mod_0_l by lia; reflexivity).
    replace ((- Z.of_nat J - Z.of_nat J) mod Z.of_nat N =? 0)%Z with false.
    2:{ symmetry. apply Z.eqb_neq. rewrite Zmod_mirror by lia. intros [q Hq]. destruct q; nia. }
    rewrite (Rplus_comm _ ph), cis_plus. unfold Cscale, Cmult, Cplus, C0, cis; cbn. f_equal; field; exact HN.
  - destruct (Nat.eq_dec k (N - J)) as [->|Kn].
    + rewrite gain_above by lia. rewrite Cscale_0. ring.
    + rewrite cosine_dft by lia. replace ((Z.of_nat J - Z.of_nat k) mod Z.of_nat N =? 0)%Z with false.
      2:{ symmetry. apply Z.eqb_neq. rewrite Zmod_direct by lia. intros [q Hq]. destruct q; nia. }
      replace ((- Z.of_nat J - Z.of_nat k) mod Z.of_nat N =? 0)%Z with false.
      2:{ symmetry. apply Z.eqb_neq. rewrite Zmod_mirror by lia. intros [q Hq]. destruct q as [|[|q]]; nia. }
      unfold Cplus, Cscale, Cmult, C0, cis; cbn. f_equal; ring.
Qed.
Lemma ana_const N c n : (0 < N)%nat -> ana N (fun _ => c) n = RtoC c.
Proof.
  intros N0. assert (HN : INR N <> 0) by (apply not_0_INR; lia). unfold ana. rewrite (csum_single N 0); [| lia | intros k Hk Kne].
  - rewrite gain_0. replace (rdft N (fun _ => c) 0) with (RtoC (INR N * c)).
    + replace (2 * PI * INR 0 * INR n / INR N) with 0 by (cbn [INR]; field; exact HN). rewrite cis_0. unfold Cscale, Cmult, RtoC, C1; cbn. f_equal; field; exact HN.
    + unfold rdft, dft. rewrite <- (rsum_const N c), <- csum_RtoC. apply csum_ext. intros i Hi. replace (- (2 * PI * INR 0 * INR i / INR N)) with 0 by (cbn [INR]; field; exact HN). rewrite cis_0. unfold Cmult, RtoC, C1; cbn. f_equal; ring.
  - rewrite rdft_const by lia. unfold Cscale, Cmult, C0; cbn. f_equal; ring.
Qed.
(** For a constant plus any number of coherent tones strictly between DC and half the sampling rate the envelope is
    the magnitude of the sum of the corresponding phasors. *)
Lemma c118_tones N H c A ph J e : (0 < N)%nat -> (forall i, (i < H)%nat -> (0 < J i)%nat /\ (2 * J i < N)%nat) ->
  envelope (record N (multitone N H c A ph J)) = Ok e -> forall n, (n < N)%nat -> nth n e 0 = Cmod (phasors N H c A ph J n).
Proof.
  intros N0 HJ E n Hn. destruct (envelope_ok _ _ E) as (_ & _ & V). rewrite record_length in V. rewrite V by exact Hn. f_equal.
  rewrite analytic_record. unfold multitone, phasors. rewrite ana_plus, ana_const, ana_rsum by exact N0. f_equal. apply csum_ext. intros i Hi. apply ana_tone; apply HJ; exact Hi.
Qed.
Lemma csum_1 f : csum 1 f = f 0%nat. Proof. unfold csum. unfold Cplus, C0. destruct (f 0%nat) as [a b]. cbn. f_equal; ring. Qed.
(** A pure tone has the constant envelope |A|. *)
Lemma c118_pure_tone N k A ph e : (0 < k)%nat -> (2 * k < N)%nat -> envelope (record N (carrier N A k ph)) = Ok e -> e = repeat (Rabs A) N.
Proof.
  intros K0 K1 E. destruct (envelope_ok _ _ E) as (_ & L & V). rewrite record_length in V, L. apply nth_ext with 0 0; [rewrite repeat_length; exact L|].
  intros n Hn. rewrite L in Hn. rewrite V, analytic_record by exact Hn. unfold carrier. rewrite ana_tone, Cmod_scale, Cmod_cis by assumption.
  rewrite nth_repeat_lt || (rewrite (nth_indep _ 0 (Rabs A)) by (rewrite repeat_length; exact Hn); rewrite nth_repeat); ring.
Qed.
(** An amplitude-modulated tone (no side band reaches DC or half the sampling rate) has the magnitude of its
    modulation as envelope, whatever the carrier and the phases. *)
Lemma modulated_tones N A m k q ph th n : (q < k)%nat -> modulated N A m k q ph th n =
  A * cos (2 * PI * INR k * INR n / INR N + ph) + A * m / 2 * cos (2 * PI * INR (k + q) * INR n / INR N + (ph + th)) + A * m / 2 * cos (2 * PI * INR (k - q) * INR n / INR N + (ph - th)).
Proof.
  intros Q. unfold modulated, modulation, carrier. rewrite plus_INR, minus_INR by lia.
  replace (2 * PI * (INR k + INR q) * INR n / INR N + (ph + th)) with ((2 * PI * INR k * INR n / INR N + ph) + (2 * PI * INR q * INR n / INR N + th)) by (unfold Rdiv; ring).
  replace (2 * PI * (INR k - INR q) * INR n / INR N + (ph - th)) with ((2 * PI * INR k * INR n / INR N + ph) - (2 * PI * INR q * INR n / INR N + th)) by (unfold Rdiv; ring).
  rewrite (cos_plus (2 * PI * INR k * INR n / INR N + ph)), (cos_minus (2 * PI * INR k * INR n / INR N + ph)). field.
Qed.
Lemma c118_modulation N A m k q ph th e : (q < k)%nat -> (2 * (k + q) < N)%nat -> envelope (record N (modulated N A m k q ph th)) = Ok e ->
  forall n, (n < N)%nat -> nth n e 0 = Rabs A * Rabs (modulation N m q th n).
Proof.
  intros Q K E n Hn. destruct (envelope_ok _ _ E) as (_ & _ & V). rewrite record_length in V. rewrite V, analytic_record by exact Hn.
  replace (ana N (modulated N A m k q ph th) n) with (Cscale (A * modulation N m q th n) (cis (2 * PI * INR k * INR n / INR N + ph))).
  - rewrite Cmod_scale, Cmod_cis, Rabs_mult. ring.
  - symmetry. transitivity (ana N (fun n => A * cos (2 * PI * INR k * INR n / INR N + ph) + A * m / 2 * cos (2 * PI * INR (k + q) * INR n / INR N + (ph + th)) + A * m / 2 * cos (2 * PI * INR (k - q) * INR n / INR N + (ph - th))) n).
    { rewrite <- !analytic_record. f_equal. apply record_ext. intros i _. apply modulated_tones. exact Q. }
    rewrite !ana_plus, !ana_tone by lia. unfold modulation.
    rewrite plus_INR, minus_INR by lia.
    replace (2 * PI * (INR k + INR q) * INR n / INR N + (ph + th)) with ((2 * PI * INR k * INR n / INR N + ph) + (2 * PI * INR q * INR n / INR N + th)) by (unfold Rdiv; ring).
    replace (2 * PI * (INR k - INR q) * INR n / INR N + (ph - th)) with ((2 * PI * INR k * INR n / INR N + ph) + - (2 * PI * INR q * INR n / INR N + th)) by (unfold Rdiv; ring).
    set (al := 2 * PI * INR k * INR n / INR N + ph). set (w := 2 * PI * INR q * INR n / INR N + th). clearbody al w.
    rewrite !cis_plus, cis_neg. unfold Cscale, Cmult, Cplus, Cconj, cis. cbn. f_equal; field.
Qed.
(** Energy: the squares of the envelope sum to twice the squares of the record, less the share of DC and, for an
    even length, of half the sampling rate (which are counted once). *)
Lemma rdft_0 N g : (0 < N)%nat -> rdft N g 0 = RtoC (rsum N g).
Proof.
  intros N0. assert (HN : INR N <> 0) by (apply not_0_INR; lia). unfold rdft, dft. rewrite <- csum_RtoC. apply csum_ext. intros i Hi.
  replace (- (2 * PI * INR 0 * INR i / INR N)) with 0 by (cbn [INR]; field; exact HN). rewrite cis_0. unfold Cmult, RtoC, C1; cbn. f_equal; ring.
Qed.
Lemma cis_PI_nat n : cis (- (PI * INR n)) = RtoC ((-1) ^ n).
Proof.
  induction n as [|n IH]; [replace (- (PI * INR 0)) with 0 by (cbn [INR]; ring); apply cis_0|].
  replace (- (PI * INR (S n))) with (- (PI * INR n) + - PI) by (rewrite S_INR; ring). rewrite cis_plus, IH. unfold cis. rewrite cos_neg, sin_neg, cos_PI, sin_PI.
  unfold Cmult, RtoC; cbn. f_equal; ring.
Qed.
Lemma rdft_half h g : (0 < h)%nat -> rdft (2 * h) g h = RtoC (rsum (2 * h) (fun n => (-1) ^ n * g n)).
Proof.
  intros H0. assert (HN : INR h <> 0) by (apply not_0_INR; lia). unfold rdft, dft. rewrite <- csum_RtoC. apply csum_ext. intros i Hi.
  replace (- (2 * PI * INR h * INR i / INR (2 * h))) with (- (PI * INR i)); [rewrite cis_PI_nat; unfold Cmult, RtoC; cbn; f_equal; ring|].
  rewrite mult_INR. change (INR 2) with 2. field. exact HN.
Qed.
Lemma Cmod2_scale k z : Cmod2 (Cscale k z) = k ^ 2 * Cmod2 z. Proof. unfold Cmod2, Cscale; cbn. ring. Qed.
Lemma inverse_parseval N (Y : nat -> C) : (0 < N)%nat ->
  rsum N (fun n => Cmod2 (csum N (fun k => Cmult (Y k) (cis (2 * PI * INR k * INR n / INR N))))) = INR N * rsum N (fun k => Cmod2 (Y k)).
Proof.
  intros N0. pose proof (dft_parseval N (fun k => Cconj (Y k)) N0) as P. cbv beta in P.
  rewrite (rsum_ext N (fun n => Cmod2 (Cconj (Y n))) (fun n => Cmod2 (Y n))) in P by (intros; unfold Cmod2, Cconj; cbn; ring). rewrite <- P.
  apply rsum_ext. intros n Hn. replace (csum N (fun k => Cmult (Y k) (cis (2 * PI * INR k * INR n / INR N)))) with (Cconj (dft N (fun k => Cconj (Y k)) n)).
  - unfold Cmod2, Cconj; cbn. ring.
  - unfold dft. rewrite csum_conj. apply csum_ext. intros k Hk. rewrite Cconj_mult, cis_neg. replace (2 * PI * INR n * INR k / INR N) with (2 * PI * INR k * INR n / INR N) by (unfold Rdiv; ring).
    unfold Cconj, Cmult, cis; cbn. f_equal; ring.
Qed.
Lemma gain_squares N k : (k < N)%nat -> (hilbert_gain N k ^ 2 + hilbert_gain N (mirror N k) ^ 2) / 2 = if (k =? 0)%nat || (Nat.even N && (k =? N / 2)%nat) then 1 else 2.
Proof.
  intros Hk. pose proof (gain_pair N k Hk) as P. destruct (Nat.eqb_spec k 0) as [->|K0].
  { cbn [orb]. unfold mirror. cbn [Nat.eqb]. rewrite gain_0. lra. }
  cbn [orb]. destruct (Nat.eq_dec (2 * k) N) as [E|E].
  - assert (EV : Nat.even N = true) by (apply Nat.even_spec; exists k; lia). assert (Q : (N / 2 = k)%nat) by (rewrite <- E, Nat.mul_comm; apply Nat.div_mul; lia).
    rewrite EV, Q, Nat.eqb_refl. cbn [andb]. assert (M : mirror N k = k) by (unfold mirror; destruct (Nat.eqb_spec k 0); lia). rewrite M in *. assert (G : hilbert_gain N k = 1) by lra. rewrite G. lra.
  - replace (Nat.even N && (k =? N / 2)%nat) with false.
    + assert (G : hilbert_gain N k = 2 \/ hilbert_gain N k = 0) by (destruct (Nat.lt_ge_cases (2 * k) N); [left; apply gain_below; lia | right; apply gain_above; lia]).
      destruct G as [G|G]; rewrite G in *; [replace (hilbert_gain N (mirror N k)) with 0 by lra | replace (hilbert_gain N (mirror N k)) with 2 by lra]; lra.
    + symmetry. destruct (Nat.even N) eqn:EV; [|reflexivity]. apply Nat.eqb_neq. intros ->. apply Nat.even_spec in EV. destruct EV as [h Hh]. apply E. subst N. rewrite (Nat.mul_comm 2 h), Nat.div_mul by lia. lia.
Qed.
Lemma c118_energy x e : envelope x = Ok e -> let N := length x in
  rsum N (fun n => nth n e 0 ^ 2) = 2 * rsum N (fun n => nth n x 0 ^ 2) - rsum N (fun n => nth n x 0) ^ 2 / INR N
    - (if Nat.even N then rsum N (fun n => (-1) ^ n * nth n x 0) ^ 2 / INR N else 0).
Proof.
  intros E N. destruct (envelope_ok x e E) as (N0 & _ & V). fold N in N0, V. assert (HN : INR N <> 0) by (apply not_0_INR; lia).
  set (g := fun n => nth n x 0). set (P := fun k => Cmod2 (rdft N g k)).
  assert (E1 : rsum N (fun n => nth n e 0 ^ 2) = / INR N * rsum N (fun k => hilbert_gain N k ^ 2 * P k)).
  { rewrite (rsum_ext N _ (fun n => (/ INR N) ^ 2 * Cmod2 (csum N (fun k => Cmult (Cscale (hilbert_gain N k) (rdft N g k)) (cis (2 * PI * INR k * INR n / INR N)))))).
    - rewrite rsum_scale, inverse_parseval by exact N0. rewrite (rsum_ext N (fun k => Cmod2 (Cscale (hilbert_gain N k) (rdft N g k))) (fun k => hilbert_gain N k ^ 2 * P k)) by (intros; apply Cmod2_scale). field. exact HN.
    - intros n Hn. rewrite V by exact Hn. unfold analytic. fold N. rewrite <- Cmod2_scale. unfold rfft. fold N g. rewrite <- Cmod_sqr. cbv zeta. fold N g. ring. }
  assert (E2 : rsum N (fun k => hilbert_gain N k ^ 2 * P k) = rsum N (fun k => (if (k =? 0)%nat || (Nat.even N && (k =? N / 2)%nat) then 1 else 2) * P k)).
  { rewrite weighted_symmetric.
    - apply rsum_ext. intros k Hk. rewrite gain_squares by exact Hk. reflexivity.
    - intros k Hk. unfold P. rewrite rdft_hermitian by exact Hk. unfold Cmod2, Cconj; cbn. ring. }
  assert (E3 : rsum N P = INR N * rsum N (fun n => g n ^ 2)).
  { unfold P, rdft. rewrite dft_parseval by exact N0. f_equal. apply rsum_ext. intros; unfold Cmod2, RtoC; cbn. ring. }
  assert (E4 : rsum N (fun k => (if (k =? 0)%nat || (Nat.even N && (k =? N / 2)%nat) then 1 else 2) * P k) = 2 * rsum N P - P 0%nat - (if Nat.even N then P (N / 2)%nat else 0)).
  { rewrite (rsum_ext N _ (fun k => 2 * P k - ((if (k =? 0)%nat then P 0%nat else 0) + (if (Nat.even N && (k =? N / 2)%nat)%bool then P (N / 2)%nat else 0)))).
    - rewrite rsum_minus, rsum_plus, rsum_scale. rewrite (rsum_single N 0 (fun k => if (k =? 0)%nat then P 0%nat else 0)) by (lia || (intros i _ Hi; destruct (Nat.eqb_spec i 0); [contradiction|reflexivity])). cbn [Nat.eqb].
      destruct (Nat.even N); cbn [andb].
      + rewrite (rsum_single N (N / 2) (fun k => if (k =? N / 2)%nat then P (N / 2)%nat else 0)); [rewrite Nat.eqb_refl; lra | apply Nat.div_lt; lia | intros i _ Hi; destruct (Nat.eqb_spec i (N / 2)); [contradiction|reflexivity]].
      + rewrite (rsum_zero N (fun _ => 0)) by reflexivity. lra.
    - intros k Hk. destruct (Nat.eqb_spec k 0) as [->|K0]; cbn [orb].
      + destruct (Nat.even N) eqn:EV; cbn [andb]; [|lra]. destruct (Nat.eqb_spec 0 (N / 2)) as [Z|]; [|lra]. exfalso. apply Nat.even_spec in EV. destruct EV as [h Hh]. rewrite Hh, Nat.mul_comm, Nat.div_mul in Z by lia. lia.
      + destruct (Nat.even N) eqn:EV; cbn [andb]; [|lra]. destruct (Nat.eqb_spec k (N / 2)) as [->|]; lra. }
  assert (P0 : P 0%nat = rsum N g ^ 2) by (unfold P; rewrite rdft_0 by exact N0; unfold Cmod2, RtoC; cbn; ring).
  rewrite E1, E2, E4, E3, P0. change (fun n : nat => nth n x 0 ^ 2) with (fun n : nat => g n ^ 2). change (fun n : nat => nth n x 0) with g. destruct (Nat.even N) eqn:EV; [|field; exact HN].
  assert (PH : P (N / 2)%nat = rsum N (fun n => (-1) ^ n * g n) ^ 2).
  { apply Nat.even_spec in EV. destruct EV as [h Hh]. assert (Q : (N / 2 = h)%nat) by (rewrite Hh, Nat.mul_comm; apply Nat.div_mul; lia). unfold P. rewrite Q, Hh. rewrite rdft_half by lia. unfold Cmod2, RtoC; cbn [fst snd]. ring. }
  rewrite PH. change (fun n : nat => (-1) ^ n * nth n x 0) with (fun n : nat => (-1) ^ n * g n). field. exact HN.
Qed.

(** ** What the sine fit takes away *)
Section FixedFrequency.
Context (lstsq : lstsq_fun) (LS : least_squares lstsq).

Definition in_span (n : nat) (f : R) (g : nat -> R) : Prop := exists a b c, forall t, (t < n)%nat -> g t = a * cos (2 * PI * f * INR t) + b * sin (2 * PI * f * INR t) + c.
Definition orth (n : nat) (f : R) (u : nat -> R) : Prop := rsum n u = 0 /\ forall ph, rsum n (fun t => u t * cos (2 * PI * f * INR t + ph)) = 0.
Lemma orth_span n f u g : orth n f u -> in_span n f g -> rsum n (fun t => u t * g t) = 0.
Proof.
  intros (O0 & O1) (a & b & c & G). rewrite (rsum_ext n _ (fun t => a * (u t * cos (2 * PI * f * INR t + 0)) + b * (u t * cos (2 * PI * f * INR t + - (PI / 2))) + c * u t)).
  - rewrite !rsum_plus, !rsum_scale, !O1, O0. ring.
  - intros t T. rewrite (G t T), Rplus_0_r. replace (2 * PI * f * INR t + - (PI / 2)) with (- (PI / 2 - 2 * PI * f * INR t)) by ring. rewrite cos_neg, cos_shift. ring.
Qed.
Lemma span_minus n f g h : in_span n f g -> in_span n f h -> in_span n f (fun t => g t - h t).
Proof. intros (a & b & c & G) (a' & b' & c' & H). exists (a - a'), (b - b'), (c - c'). intros t T. rewrite (G t T), (H t T). ring. Qed.
Lemma fit0 y f tol : exists r, fit_core lstsq y (Some f) 0 tol = Ok r /\ length (f_fitted r) = length y /\ in_span (length y) f (fun t => nth t (f_fitted r) 0) /\
  orth (length y) f (fun t => nth t y 0 - nth t (f_fitted r) 0).
Proof.
  destruct (c82_three_parameter_optimal lstsq y f tol LS) as (r & E & _ & O0 & O1). exists r. split; [exact E|].
  pose proof (c52_parameters _ _ _ _ _ _ E) as (L & _ & P & _). split; [exact L|]. split.
  - clear - E. unfold fit_core in E. cbn [bind] in E. cbv zeta in E. change (0 <? 0)%Z with false in E. cbv iota in E. change (Z.to_nat 0) with 0%nat in E. cbn [refine s_freq s_a s_b s_c] in E.
    apply Ok_inj in E. subst r. cbn [f_fitted]. do 3 eexists. intros t T. rewrite (nth_map_in _ _ _ 0%nat) by (rewrite seq_length; exact T). rewrite seq_nth by exact T. reflexivity.
  - split; [etransitivity; [|exact O0] | intros ph; etransitivity; [|exact (O1 ph)]]; apply rsum_ext; intros t T; rewrite (proj2 (P t T)); reflexivity.
Qed.
(** The fit of (something orthogonal) + (a sine of that frequency plus a constant) is the sine plus the constant. *)
Lemma fit0_unique y f tol u s : (forall t, (t < length y)%nat -> nth t y 0 = u t + s t) -> orth (length y) f u -> in_span (length y) f s ->
  exists r, fit_core lstsq y (Some f) 0 tol = Ok r /\ length (f_fitted r) = length y /\ (forall t, (t < length y)%nat -> nth t (f_fitted r) 0 = s t).
Proof.
  intros Y Ou Ss. destruct (fit0 y f tol) as (r & E & L & Sf & Of). exists r. split; [exact E|]. split; [exact L|]. set (n := length y) in *.
  set (d := fun t => nth t (f_fitted r) 0 - s t). assert (Sd : in_span n f d) by (apply span_minus; assumption).
  assert (Z : rsum n (fun t => d t * d t) = 0).
  { pose proof (orth_span _ _ _ _ Ou Sd) as A. pose proof (orth_span _ _ _ _ Of Sd) as B.
    rewrite (rsum_ext n (fun t => d t * d t) (fun t => u t * d t - (nth t y 0 - nth t (f_fitted r) 0) * d t)) by (intros t T; rewrite (Y t T); unfold d; ring).
    rewrite rsum_minus, A, B. ring. }
  intros t T. assert (D : d t * d t = 0) by (apply (DoutProofs.rsum_nonneg_zero n (fun t => d t * d t)); [intros; nra | lra | exact T]).
  assert (d t = 0) by nra. unfold d in H. lra.
Qed.
Lemma fit0_error y f tol u s : (forall t, (t < length y)%nat -> nth t y 0 = u t + s t) -> orth (length y) f u -> in_span (length y) f s ->
  exists r, fit_core lstsq y (Some f) 0 tol = Ok r /\ map2 Rminus y (f_fitted r) = record (length y) u.
Proof.
  intros Y Ou Ss. destruct (fit0_unique y f tol u s Y Ou Ss) as (r & E & L & V). exists r. split; [exact E|].
  apply nth_ext with 0 0; [rewrite map2_length by lia; rewrite record_length; reflexivity|]. intros t T. rewrite map2_length in T by lia.
  rewrite (map2_nth Rminus y (f_fitted r) t 0 0) by lia. rewrite record_nth, V, Y by exact T. ring.
Qed.
Lemma sine_span n A f ph off : in_span n f (sine A f ph off).
Proof. exists (A * cos ph), (- A * sin ph), off. intros t _. unfold sine. rewrite cos_plus. ring. Qed.
Lemma span_plus n f g h : in_span n f g -> in_span n f h -> in_span n f (fun t => g t + h t).
Proof. intros (a & b & c & G) (a' & b' & c' & H). exists (a + a'), (b + b'), (c + c'). intros t T. rewrite (G t T), (H t T). ring. Qed.
Lemma span_scale n f k g : in_span n f g -> in_span n f (fun t => k * g t).
Proof. intros (a & b & c & G). exists (k * a), (k * b), (k * c). intros t T. rewrite (G t T). ring. Qed.
Lemma orth_scale n f k u : orth n f u -> orth n f (fun t => k * u t).
Proof. intros (A & B). split; [rewrite rsum_scale, A; ring|]. intros ph. rewrite (rsum_ext n _ (fun t => k * (u t * cos (2 * PI * f * INR t + ph)))) by (intros; ring). rewrite rsum_scale, B. ring. Qed.
(** Adding a sine of the given frequency and a constant to the record changes nothing in the error. *)
Lemma error_shift y f tol A ph off : exists r r', fit_core lstsq y (Some f) 0 tol = Ok r /\
  fit_core lstsq (record (length y) (fun t => nth t y 0 + sine A f ph off t)) (Some f) 0 tol = Ok r' /\
  map2 Rminus (record (length y) (fun t => nth t y 0 + sine A f ph off t)) (f_fitted r') = map2 Rminus y (f_fitted r).
Proof.
  destruct (fit0 y f tol) as (r & E & L & Sf & Of). exists r.
  set (y' := record _ _). assert (L' : length y' = length y) by apply record_length.
  destruct (fit0_error y' f tol (fun t => nth t y 0 - nth t (f_fitted r) 0) (fun t => nth t (f_fitted r) 0 + sine A f ph off t)) as (r' & E' & Er).
  - intros t T. rewrite L' in T. unfold y'. rewrite record_nth by exact T. ring.
  - rewrite L'. exact Of.
  - rewrite L'. apply span_plus; [exact Sf | apply sine_span].
  - exists r'. split; [exact E|]. split; [exact E'|]. rewrite Er, L'. symmetry. apply nth_ext with 0 0; [rewrite map2_length by lia; rewrite record_length; reflexivity|].
    intros t T. rewrite map2_length in T by lia. rewrite (map2_nth Rminus y (f_fitted r) t 0 0) by lia. rewrite record_nth by exact T. reflexivity.
Qed.
End FixedFrequency.

(** Without refinement (max_iterations = 0) the error spectrum does not see a sine of the given frequency or a
    constant added to the record, whatever their size. *)
Lemma c119_invariant kz cz lstsq y fs f tol A ph off : least_squares lstsq ->
  error_spectrum kz cz lstsq (record (length y) (fun t => nth t y 0 + sine A f ph off t)) fs (Some f) 0 tol = error_spectrum kz cz lstsq y fs (Some f) 0 tol /\
  error_envelope_spectrum kz cz lstsq (record (length y) (fun t => nth t y 0 + sine A f ph off t)) fs (Some f) 0 tol = error_envelope_spectrum kz cz lstsq y fs (Some f) 0 tol.
Proof.
  intros LS. destruct (error_shift lstsq LS y f tol A ph off) as (r & r' & E & E' & D). unfold error_spectrum, error_envelope_spectrum.
  set (y' := record _ _) in *. rewrite E, E'. cbn [bind]. cbv zeta. rewrite D. split; reflexivity.
Qed.

(** ** The analysis with default arguments *)
Lemma analyse_defined P M N nb fs osr wt w side mh nf : (1 <= mh)%Z -> (0 <= nf <= 4)%Z -> exists r, analyse_power P M N nb fs osr wt w side mh nf None = Ok r.
Proof.
  intros Hm Hnf. unfold analyse_power, raise_if. cbv zeta. destruct (Z.ltb_spec mh 1); [lia|]. unfold estimate_noise. cbv zeta.
  destruct (Z.eqb_spec nf 4); [destruct (candidate_bins _ _ _ _); cbn [bind]; eexists; reflexivity|].
  destruct (Z.eqb_spec nf 0); [cbn [bind]; eexists; reflexivity|].
  destruct (Z.eqb_spec nf 1); [cbn [bind]; eexists; reflexivity|].
  destruct (Z.eqb_spec nf 2); [cbn [bind]; eexists; reflexivity|].
  destruct (Z.eqb_spec nf 3); [cbn [bind]; eexists; reflexivity|]. lia.
Qed.
Lemma orient_one (l : list R) : orient [l] = [l].
Proof. unfold orient; cbn [length]; change (1 <? 1)%nat with false; rewrite andb_false_r; reflexivity. Qed.
Lemma peak_one x : x <> [] -> exists p, peak_of [x] ScaleAuto = Ok p.
Proof. intros H. unfold peak_of. cbn [concat]. rewrite app_nil_r. destruct x; [contradiction|]. eexists; reflexivity. Qed.
Lemma default_spectrum kz cz x fs p : x <> [] -> peak_of [x] ScaleAuto = Ok p ->
  exists sp, analyze_default kz cz x fs = Ok sp /\ sp_inband sp = (length x / 2 + 1)%nat /\
  forall sb, exists r, compute_spectrum kz cz [x] fs (ScalePeak p) Hann (Some sb) 1 5 0 None 0 = Ok r /\ sp_inband r = (length x / 2 + 1)%nat /\ sp_power r = sp_power sp /\ sp_fund r = sp_fund sp /\ sp_frac r = sp_frac sp.
Proof.
  intros Hx Hp. assert (E : prepare_fft_input [x] ScaleAuto = prepare_fft_input [x] (ScalePeak p)).
  { unfold prepare_fft_input. rewrite orient_one, Hp. reflexivity. }
  unfold analyze_default. assert (Lx : (0 < length x)%nat) by (destruct x; [contradiction|simpl; lia]).
  assert (D : forall side, exists row nb w r, compute_spectrum kz cz [x] fs (ScalePeak p) Hann side 1 5 0 None 0 = Ok r /\ prepare_fft_input [x] (ScalePeak p) = Ok [row] /\
     length row = length x /\ inband_count (Z.of_nat (length x)) 1 = Ok nb /\ w = create_window kz cz Hann (length x) /\
     analyse_power (corrected_power [row] w (length x)) 1 (length x) (Z.to_nat nb) fs 1 Hann w side 5 0 None = Ok r).
  { intros side. unfold compute_spectrum. set (pr := prepare_fft_input [x] (ScalePeak p)).
    assert (Er : exists row, pr = Ok [row] /\ length row = length x).
    { unfold pr, prepare_fft_input. rewrite orient_one. cbn [peak_of bind map]. eexists. split; [reflexivity|]. apply map_length. }
    destruct Er as (row & -> & Lr). cbn [bind]. unfold ncols. cbn [hd length]. rewrite Lr.
    destruct (inband_count (Z.of_nat (length x)) 1) as [nb|e] eqn:EI; [|exfalso; rewrite inband_eq in EI by (lia || lra); discriminate].
    cbn [bind]. unfold apply_cutoff. destruct (Rltb_spec 0 0) as [L|L]; [lra|]. cbn [bind].
    destruct (analyse_defined (corrected_power [row] (create_window kz cz Hann (length x)) (length x)) 1 (length x) (Z.to_nat nb) fs 1 Hann (create_window kz cz Hann (length x)) side 5 0 ltac:(lia) ltac:(lia)) as [r A].
    exists row, nb, (create_window kz cz Hann (length x)), r. repeat split; try assumption. }
  assert (I : forall nb, inband_count (Z.of_nat (length x)) 1 = Ok nb -> Z.to_nat nb = (length x / 2 + 1)%nat).
  { intros nb EI. rewrite c23_full_band in EI by (lia || lra). apply Ok_inj in EI. subst nb. rewrite Z2Nat.inj_add, Z2Nat.inj_div by (try lia; apply Z.div_pos; lia). rewrite Nat2Z.id. reflexivity. }
  destruct (D None) as (row & nb & w & sp & E0 & P0 & _ & I0 & W0 & A0). exists sp.
  replace (compute_spectrum kz cz [x] fs ScaleAuto Hann None 1 5 0 None 0) with (compute_spectrum kz cz [x] fs (ScalePeak p) Hann None 1 5 0 None 0) by (unfold compute_spectrum; rewrite E; reflexivity).
  split; [exact E0|]. apply analyse_fields in A0. destruct A0 as (F1 & F2 & F3 & F4 & _). split; [rewrite F2; apply I, I0|].
  intros sb. destruct (D (Some sb)) as (row' & nb' & w' & r & E1 & P1 & _ & I1 & W1 & A1). exists r. split; [exact E1|].
  rewrite P0 in P1. apply Ok_inj in P1. injection P1 as <-. rewrite I0 in I1. apply Ok_inj in I1. subst nb' w w'.
  apply analyse_fields in A1. destruct A1 as (G1 & G2 & G3 & G4 & _). rewrite F1, F3, F4, G1, G2, G3, G4. rewrite (I _ I0). auto.
Qed.
Lemma default_affine kz cz x fs a b : 0 < a -> analyze_default kz cz (map (fun v => a * v + b) x) fs = analyze_default kz cz x fs.
Proof.
  intros Ha. unfold analyze_default, compute_spectrum. change [map (fun v => a * v + b) x] with (affine a b [x]).
  rewrite (c51_gain_offset_invariant a b 1 (length x) [x] Ha); [reflexivity| |lia]. split; [reflexivity|]. intros m Hm. destruct m; [reflexivity|lia].
Qed.

(** Scaling the record and adding a sine of the given frequency to it scales the error and leaves every reported
    figure unchanged: the figures are relative to the error's own peak, so they are blind to the size of the error. *)
Lemma c119_level kz cz lstsq y fs f tol a A ph off : least_squares lstsq -> 0 < a ->
  error_spectrum kz cz lstsq (record (length y) (fun t => a * nth t y 0 + sine A f ph off t)) fs (Some f) 0 tol =
    bind (error_spectrum kz cz lstsq y fs (Some f) 0 tol) (fun '(sp, e) => Ok (sp, map (fun v => a * v) e)) /\
  error_envelope_spectrum kz cz lstsq (record (length y) (fun t => a * nth t y 0 + sine A f ph off t)) fs (Some f) 0 tol =
    bind (error_envelope_spectrum kz cz lstsq y fs (Some f) 0 tol) (fun '(sp, e, v) => Ok (sp, map (fun v => a * v) e, map (fun v => a * v) v)).
Proof.
  intros LS Ha. destruct (fit0 lstsq LS y f tol) as (r & E & L & Sf & Of). set (y' := record _ _). assert (L' : length y' = length y) by apply record_length.
  destruct (fit0_error lstsq LS y' f tol (fun t => a * (nth t y 0 - nth t (f_fitted r) 0)) (fun t => a * nth t (f_fitted r) 0 + sine A f ph off t)) as (r' & E' & Er).
  - intros t T. rewrite L' in T. unfold y'. rewrite record_nth by exact T. ring.
  - rewrite L'. apply orth_scale, Of.
  - rewrite L'. apply span_plus; [apply span_scale, Sf | apply sine_span].
  - unfold error_spectrum, error_envelope_spectrum. rewrite E, E'. cbn [bind]. cbv zeta. set (e := map2 Rminus y (f_fitted r)).
    assert (Ee : map2 Rminus y' (f_fitted r') = map (fun v => a * v) e).
    { rewrite Er, L'. apply nth_ext with 0 0; [rewrite record_length, map_length; unfold e; rewrite map2_length; lia|].
      intros t T. rewrite record_length in T. rewrite record_nth by exact T. rewrite (nth_map_in _ _ _ 0) by (unfold e; rewrite map2_length; lia).
      unfold e. rewrite (map2_nth Rminus y (f_fitted r) t 0 0) by lia. reflexivity. }
    rewrite Ee. assert (SC : forall x, analyze_default kz cz (map (fun v => a * v) x) fs = analyze_default kz cz x fs).
    { intros x. rewrite <- (default_affine kz cz x fs a 0 Ha). f_equal. apply map_ext. intros v. ring. }
    split.
    + rewrite SC. destruct (analyze_default kz cz e fs); reflexivity.
    + destruct (envelope e) as [v|x] eqn:Ev; cbn [bind].
      * rewrite (c118_gain e a v Ev). cbn [bind]. rewrite (map_ext (fun v => Rabs a * v) (fun v => a * v)) by (intros; rewrite Rabs_pos_eq by lra; reflexivity).
        rewrite SC. destruct (analyze_default kz cz v fs); reflexivity.
      * destruct (c118_dominates e) as [(-> & _)|(v & V & _)]; [|congruence]. cbn [map]. rewrite Ev. reflexivity.
Qed.
(** The two analyses answer for every nonempty record, except that a record of one sample needs the frequency given. *)
Lemma c119_errors kz cz lstsq y fs f mi tol :
  if (length y =? 0)%nat || (match f with None => (length y <? 2)%nat | Some _ => false end)
  then error_spectrum kz cz lstsq y fs f mi tol = Err ValueError /\ error_envelope_spectrum kz cz lstsq y fs f mi tol = Err ValueError
  else exists fit sp spv env, fit_core lstsq y f mi tol = Ok fit /\
    error_spectrum kz cz lstsq y fs f mi tol = Ok (sp, map2 Rminus y (f_fitted fit)) /\
    error_envelope_spectrum kz cz lstsq y fs f mi tol = Ok (spv, map2 Rminus y (f_fitted fit), env).
Proof.
  unfold error_spectrum, error_envelope_spectrum. destruct (c52_failure lstsq y f mi tol) as [(r & E) | (E & -> & S1)].
  - assert (NS : f = None -> (2 <= length y)%nat).
    { intros ->. destruct (Nat.le_gt_cases 2 (length y)) as [|G]; [assumption|]. rewrite fit_short in E by lia. discriminate. }
    pose proof (c52_parameters _ _ _ _ _ _ E) as (Lf & _). rewrite E. cbn [bind]. cbv zeta. set (e := map2 Rminus y (f_fitted r)).
    assert (Le : length e = length y) by (unfold e; rewrite map2_length; lia).
    destruct (Nat.eqb_spec (length y) 0) as [Z|Z].
    + cbn [orb]. destruct e; [|simpl in Le; lia]. split; reflexivity.
    + cbn [orb]. replace (match f with Some _ => false | None => (length y <? 2)%nat end) with false by (destruct f; [reflexivity|]; symmetry; apply Nat.ltb_ge, NS; reflexivity).
      assert (Ne : e <> []) by (intros Q; rewrite Q in Le; simpl in Le; lia). destruct (peak_one e Ne) as [p P]. destruct (default_spectrum kz cz e fs p Ne P) as (sp & S & _).
      destruct (c118_dominates e) as [(Q & _)|(v & V & Lv & _)]; [contradiction|]. assert (Nv : v <> []) by (intros Q; rewrite Q in Lv; simpl in Lv; lia).
      destruct (peak_one v Nv) as [pv Pv]. destruct (default_spectrum kz cz v fs pv Nv Pv) as (spv & Sv & _).
      exists r, sp, spv, v. rewrite S, V. cbn [bind]. rewrite Sv. auto.
  - replace (length y <? 2)%nat with true by (symmetry; apply Nat.ltb_lt; exact S1). rewrite orb_true_r, E. split; reflexivity.
Qed.

(** ** Coherent frequencies *)
Lemma coefficient_rfft x b : coefficient x b = rfft x b.
Proof. unfold coefficient, rfft, rdft, dft. apply csum_ext. intros n _. rewrite Cscale_RtoC. reflexivity. Qed.
Lemma rdft_parts N g b : rdft N g b = (rsum N (fun t => g t * cos (2 * PI * INR b * INR t / INR N)), rsum N (fun t => g t * cos (2 * PI * INR b * INR t / INR N + PI / 2))).
Proof.
  apply injective_projections.
  - change (fst (rdft N g b)) with (Re (rdft N g b)). unfold rdft, dft. rewrite csum_Re. apply rsum_ext. intros t _. unfold Re, Cmult, RtoC, cis; cbn. rewrite cos_neg. ring.
  - change (snd (rdft N g b)) with (Im (rdft N g b)). unfold rdft, dft. rewrite csum_Im. apply rsum_ext. intros t _. unfold Im, Cmult, RtoC, cis; cbn. rewrite sin_neg.
    rewrite cos_plus, cos_PI2, sin_PI2. ring.
Qed.
Lemma orth_rdft N k u : (0 < N)%nat -> orth N (INR k / INR N) u <-> rdft N u 0 = C0 /\ rdft N u k = C0.
Proof.
  intros N0. assert (HN : INR N <> 0) by (apply not_0_INR; lia). rewrite rdft_0 by exact N0. rewrite rdft_parts.
  assert (AG : forall t ph, 2 * PI * (INR k / INR N) * INR t + ph = 2 * PI * INR k * INR t / INR N + ph) by (intros; field; exact HN).
  split.
  - intros (O0 & O1). split; [rewrite O0; reflexivity|]. unfold C0. f_equal; [rewrite <- (O1 0)|rewrite <- (O1 (PI / 2))]; apply rsum_ext; intros t _; rewrite AG; [rewrite Rplus_0_r|]; reflexivity.
  - intros (O0 & O1). unfold C0 in O1. injection O1 as Oc Os. split; [injection O0; auto|]. intros ph.
    rewrite (rsum_ext N _ (fun t => cos ph * (u t * cos (2 * PI * INR k * INR t / INR N)) + sin ph * (u t * cos (2 * PI * INR k * INR t / INR N + PI / 2)))).
    + rewrite rsum_plus, !rsum_scale, Oc, Os. ring.
    + intros t _. rewrite AG, !cos_plus, cos_PI2, sin_PI2. ring.
Qed.
Lemma tone_off N J a ph b : (0 < J)%nat -> (2 * J < N)%nat -> (b < N)%nat -> b <> J -> b <> (N - J)%nat -> rdft N (fun i => a * cos (2 * PI * INR J * INR i / INR N + ph)) b = C0.
Proof.
  intros J0 J1 Hb B1 B2. rewrite cosine_dft by lia.
  replace ((Z.of_nat J - Z.of_nat b) mod Z.of_nat N =? 0)%Z with false.
  - replace ((- Z.of_nat J - Z.of_nat b) mod Z.of_nat N =? 0)%Z with false; [unfold Cplus, C0; cbn; f_equal; ring|].
    symmetry. apply Z.eqb_neq. intros Q. apply Zmod_mirror in Q; [|lia]. destruct Q as [q Hq]. destruct q as [|[|q]]; nia.
  - symmetry. apply Z.eqb_neq. intros Q. apply Zmod_direct in Q; [|lia|lia]. destruct Q as [q Hq]. destruct q as [|q]; nia.
Qed.
Lemma span_off N k g b : (0 < k)%nat -> (2 * k < N)%nat -> (0 < b < N)%nat -> b <> k -> b <> (N - k)%nat -> in_span N (INR k / INR N) g -> rdft N g b = C0.
Proof.
  intros K0 K1 Hb B1 B2 (p & q & c & G). assert (HN : INR N <> 0) by (apply not_0_INR; lia).
  replace (rdft N g b) with (rdft N (fun t => (p * cos (2 * PI * INR k * INR t / INR N + 0) + q * cos (2 * PI * INR k * INR t / INR N + - (PI / 2))) + c) b).
  - rewrite (CohProofs.rdft_plus N (fun t => p * cos (2 * PI * INR k * INR t / INR N + 0) + q * cos (2 * PI * INR k * INR t / INR N + - (PI / 2))) (fun _ => c)).
    rewrite CohProofs.rdft_plus, !tone_off, rdft_const by lia. unfold Cplus, C0; cbn. f_equal; ring.
  - apply dft_ext. intros t T. f_equal. rewrite (G t T). replace (2 * PI * (INR k / INR N) * INR t) with (2 * PI * INR k * INR t / INR N) by (field; exact HN).
    set (z := 2 * PI * INR k * INR t / INR N). rewrite Rplus_0_r. replace (z + - (PI / 2)) with (- (PI / 2 - z)) by ring. rewrite cos_neg, cos_shift. reflexivity.
Qed.
(** For a coherent frequency (k whole periods) the error is the record with exactly the bins of the constant and of
    the tone emptied: every other DFT coefficient is kept. *)
Lemma c119_bins kz cz lstsq y fs k tol sp e : least_squares lstsq -> (0 < k)%nat -> (2 * k < length y)%nat ->
  error_spectrum kz cz lstsq y fs (Some (INR k / INR (length y))) 0 tol = Ok (sp, e) -> length e = length y /\
  forall b, (b < length y)%nat -> coefficient e b = if (b =? 0)%nat || (b =? k)%nat || (b =? length y - k)%nat then C0 else coefficient y b.
Proof.
  intros LS K0 K1 E. destruct (fit0 lstsq LS y (INR k / INR (length y)) tol) as (r & Er & L & Sf & Of). unfold error_spectrum in E. rewrite Er in E. cbn [bind] in E. cbv zeta in E.
  set (x := map2 Rminus y (f_fitted r)) in E. destruct (analyze_default kz cz x fs); [|discriminate]. cbn [bind] in E. apply Ok_inj in E. injection E as _ <-.
  assert (Lx : length x = length y) by (unfold x; rewrite map2_length; lia). split; [exact Lx|]. intros b Hb. rewrite !coefficient_rfft. unfold rfft. rewrite Lx.
  set (N := length y) in *.
  assert (Ex : rdft N (fun n => nth n x 0) b = rdft N (fun t => nth t y 0 - nth t (f_fitted r) 0) b).
  { apply dft_ext. intros t T. f_equal. unfold x. rewrite (map2_nth Rminus y (f_fitted r) t 0 0) by lia. reflexivity. }
  rewrite Ex. apply orth_rdft in Of; [|lia]. destruct Of as (O0 & Ok0).
  destruct (Nat.eqb_spec b 0) as [->|B0]; [exact O0|]. destruct (Nat.eqb_spec b k) as [->|Bk]; [exact Ok0|]. destruct (Nat.eqb_spec b (N - k)) as [->|Bm].
  { cbn [orb]. rewrite rdft_hermitian by lia. rewrite Ok0. unfold Cconj, C0; cbn. f_equal; ring. }
  cbn [orb]. replace (rdft N (fun n => nth n y 0) b) with (rdft N (fun n => (nth n y 0 - nth n (f_fitted r) 0) + nth n (f_fitted r) 0) b) by (apply dft_ext; intros; f_equal; ring).
  rewrite (CohProofs.rdft_plus N (fun n => nth n y 0 - nth n (f_fitted r) 0)). rewrite (span_off N k (fun n => nth n (f_fitted r) 0) b) by (try assumption; lia). ring.
Qed.
Lemma multitone_orth N H B th J k : (0 < k)%nat -> (2 * k < N)%nat -> (forall i, (i < H)%nat -> (0 < J i)%nat /\ (2 * J i < N)%nat /\ J i <> k) ->
  orth N (INR k / INR N) (multitone N H 0 B th J).
Proof.
  intros K0 K1 HJ. apply orth_rdft; [lia|].
  assert (Z : forall b, (b = 0 \/ b = k)%nat -> rdft N (multitone N H 0 B th J) b = C0).
  { intros b Hb. replace (rdft N (multitone N H 0 B th J) b) with (rdft N (fun n => rsum H (fun i => B i * cos (2 * PI * INR (J i) * INR n / INR N + th i))) b).
    - rewrite (CohProofs.rdft_rsum N H (fun i n => B i * cos (2 * PI * INR (J i) * INR n / INR N + th i))). apply csum_zero. intros i Hi. destruct (HJ i Hi) as (A1 & A2 & A3). apply tone_off; lia.
    - apply dft_ext. intros n _. f_equal. unfold multitone. ring. }
  split; apply Z; auto.
Qed.
(** A record made of the tone and the constant plus other coherent tones: the error is exactly the other tones. *)
Lemma tones_error lstsq N H B th J k A ph off tol : least_squares lstsq -> (0 < k)%nat -> (2 * k < N)%nat -> (forall i, (i < H)%nat -> (0 < J i)%nat /\ (2 * J i < N)%nat /\ J i <> k) ->
  exists r, fit_core lstsq (record N (fun t => sine A (INR k / INR N) ph off t + multitone N H 0 B th J t)) (Some (INR k / INR N)) 0 tol = Ok r /\
  map2 Rminus (record N (fun t => sine A (INR k / INR N) ph off t + multitone N H 0 B th J t)) (f_fitted r) = record N (multitone N H 0 B th J).
Proof.
  intros LS K0 K1 HJ. set (y := record N _). assert (L : length y = N) by apply record_length.
  destruct (fit0_error lstsq LS y (INR k / INR N) tol (multitone N H 0 B th J) (sine A (INR k / INR N) ph off)) as (r & E & D).
  - intros t T. rewrite L in T. unfold y. rewrite record_nth by exact T. ring.
  - rewrite L. apply multitone_orth; assumption.
  - apply sine_span.
  - rewrite L in D. exists r. split; assumption.
Qed.
Lemma c119_tones kz cz lstsq N H B th J k A ph off fs tol : least_squares lstsq -> (0 < k)%nat -> (2 * k < N)%nat ->
  (forall i, (i < H)%nat -> (0 < J i)%nat /\ (2 * J i < N)%nat /\ J i <> k) ->
  exists sp, error_spectrum kz cz lstsq (record N (fun t => sine A (INR k / INR N) ph off t + multitone N H 0 B th J t)) fs (Some (INR k / INR N)) 0 tol
    = Ok (sp, record N (multitone N H 0 B th J)).
Proof.
  intros LS K0 K1 HJ. destruct (tones_error lstsq N H B th J k A ph off tol LS K0 K1 HJ) as (r & E & D). unfold error_spectrum. rewrite E. cbn [bind]. cbv zeta. rewrite D.
  set (e := record N _). assert (Ne : e <> []) by (unfold e, record; destruct N; [lia|discriminate]). destruct (peak_one e Ne) as [p P]. destruct (default_spectrum kz cz e fs p Ne P) as (sp & S & _).
  exists sp. rewrite S. reflexivity.
Qed.

Lemma default_tones kz cz N H c A ph J fs : one_dominant N H 1 1 (N / 2 + 1) A J ->
  exists sp, analyze_default kz cz (record N (multitone N H c A ph J)) fs = Ok sp /\ sp_inband sp = (N / 2 + 1)%nat /\ sp_fund sp = J 0%nat /\ sp_frac sp = INR (J 0%nat).
Proof.
  intros D. pose proof D as (HH & _ & (R1 & R2) & _ & A0 & _). destruct (R1 0%nat HH) as (J0 & J1). set (x := record N (multitone N H c A ph J)).
  assert (Lx : length x = N) by apply record_length. assert (Nx : x <> []) by (intros Q; rewrite Q in Lx; cbn [length] in Lx; lia).
  destruct (peak_one x Nx) as [p P]. assert (Hp : p <> 0).
  { intros ->. pose proof (peak_zero_const [x] P x) as K. assert (HN : INR N <> 0) by (apply not_0_INR; lia).
    assert (Z : rdft N (multitone N H c A ph J) (J 0%nat) = C0).
    { rewrite <- (rdft_const N (nth 0 x 0) (J 0%nat)) by lia. apply dft_ext. intros n Hn. f_equal. rewrite <- (record_nth N (multitone N H c A ph J) n Hn). fold x.
      apply K; [left; reflexivity| |]; apply nth_In; lia. }
    assert (Q : rdft N (multitone N H c A ph J) (J 0%nat) = Cscale (A 0%nat * INR N / 2) (cis (ph 0%nat))).
    { unfold multitone. rewrite (CohProofs.rdft_plus N (fun _ => c)), rdft_const by lia.
      rewrite (CohProofs.rdft_rsum N H (fun i n => A i * cos (2 * PI * INR (J i) * INR n / INR N + ph i))). rewrite (csum_single H 0); [|exact HH|].
      - rewrite cosine_dft by lia. rewrite Z.sub_diag, Z.mod_0_l by lia. cbn [Z.eqb]. replace ((- Z.of_nat (J 0%nat) - Z.of_nat (J 0%nat)) mod Z.of_nat N =? 0)%Z with false; [ring|].
        symmetry. apply Z.eqb_neq. intros Q. apply Zmod_mirror in Q; [|lia]. destruct Q as [q Hq]. destruct q as [|[|q]]; nia.
      - intros i Hi Ne. destruct (R1 i Hi) as (I0 & I1). pose proof (R2 i 0%nat Hi HH Ne) as S. unfold bin_dist in S. apply tone_off; lia. }
    rewrite Z in Q. assert (M : Cmod2 (Cscale (A 0%nat * INR N / 2) (cis (ph 0%nat))) = 0) by (rewrite <- Q; unfold Cmod2, C0; cbn; ring).
    rewrite Cmod2_scale in M. assert (M1 : Cmod2 (cis (ph 0%nat)) = 1) by (unfold Cmod2, cis; cbn; pose proof (sin2_cos2 (ph 0%nat)) as S2; unfold Rsqr in S2; lra).
    rewrite M1 in M. assert (A 0%nat * INR N / 2 <> 0) by (unfold Rdiv; apply Rmult_integral_contrapositive; split; [apply Rmult_integral_contrapositive; tauto|lra]). nra. }
  destruct (default_spectrum kz cz x fs p Nx P) as (sp & S & I & F). exists sp. split; [exact S|]. rewrite Lx in I. split; [exact I|].
  destruct (F 1%nat) as (r & E & Ir & _ & F1 & F2). rewrite Lx in Ir. unfold x, record in E.
  assert (W1 : Hann <> Kaiser) by discriminate. assert (W2 : Hann <> Chebwin) by discriminate.
  pose proof (c61_tone_powers _ _ _ _ _ _ _ _ _ _ _ _ _ _ _ _ W1 W2 Hp E) as T. cbv zeta in T. rewrite Ir in T. change (default_side_bin Hann) with 1%nat in T.
  destruct (T D) as (T1 & T2 & _). rewrite <- F1, <- F2. split; assumption.
Qed.

(** If one of the other tones is the strongest, resolvable one, the analysis reports exactly its bin. *)
Lemma c119_strongest kz cz lstsq N H B th J k A ph off fs tol sp e : least_squares lstsq -> (0 < k)%nat -> (2 * k < N)%nat ->
  (forall i, (i < H)%nat -> J i <> k) -> one_dominant N H 1 1 (N / 2 + 1) B J ->
  error_spectrum kz cz lstsq (record N (fun t => sine A (INR k / INR N) ph off t + multitone N H 0 B th J t)) fs (Some (INR k / INR N)) 0 tol = Ok (sp, e) ->
  e = record N (multitone N H 0 B th J) /\ sp_fund sp = J 0%nat /\ sp_frac sp = INR (J 0%nat).
Proof.
  intros LS K0 K1 HJ D E. assert (HJ' : forall i, (i < H)%nat -> (0 < J i)%nat /\ (2 * J i < N)%nat /\ J i <> k).
  { intros i Hi. destruct D as (_ & _ & (R1 & _) & _). destruct (R1 i Hi). specialize (HJ i Hi). lia. }
  destruct (tones_error lstsq N H B th J k A ph off tol LS K0 K1 HJ') as (r & Er & Dr). unfold error_spectrum in E. rewrite Er in E. cbn [bind] in E. cbv zeta in E. rewrite Dr in E.
  destruct (default_tones kz cz N H 0 B th J fs D) as (sp' & S & _ & F1 & F2). rewrite S in E. cbn [bind] in E. apply Ok_inj in E. injection E as <- <-. auto.
Qed.

(** ** The envelope spectrum of an amplitude-modulated error *)
(** For a record made of the fitted tone (k0 periods, any constant) and an amplitude-modulated error carrier, the
    error is the modulated carrier, its envelope is |A| times the modulating function, and with a resolvable
    modulation the analysis of the envelope reports exactly the modulation bin q -- not the carrier. *)
Lemma c120_modulation kz cz lstsq N A m k q ph th k0 A0 ph0 off fs tol : least_squares lstsq -> (0 < k0)%nat -> (2 * k0 < N)%nat ->
  (q < k)%nat -> (2 * (k + q) < N)%nat -> k0 <> k -> k0 <> (k + q)%nat -> k0 <> (k - q)%nat -> Rabs m <= 1 ->
  exists sp env, error_envelope_spectrum kz cz lstsq (record N (fun t => sine A0 (INR k0 / INR N) ph0 off t + modulated N A m k q ph th t)) fs (Some (INR k0 / INR N)) 0 tol
    = Ok (sp, record N (modulated N A m k q ph th), env) /\
  (forall n, (n < N)%nat -> nth n env 0 = Rabs A * modulation N m q th n) /\
  ((3 <= q)%nat -> A <> 0 -> m <> 0 -> sp_fund sp = q /\ sp_frac sp = INR q).
Proof.
  intros LS K0 K1 Q KQ N1 N2 N3 Hm. set (J := (fun i => nth i [k; k + q; k - q] 0)%nat). set (B := fun i => nth i [A; A * m / 2; A * m / 2] 0). set (T := fun i => nth i [ph; ph + th; ph - th] 0).
  assert (MT : forall n, multitone N 3 0 B T J n = modulated N A m k q ph th n).
  { intros n. rewrite modulated_tones by exact Q. unfold multitone, B, T, J. cbn [rsum nth]. ring. }
  assert (HJ : forall i, (i < 3)%nat -> (0 < J i)%nat /\ (2 * J i < N)%nat /\ J i <> k0).
  { intros i Hi. destruct i as [|[|[|]]]; unfold J; cbn [nth]; lia. }
  destruct (tones_error lstsq N 3 B T J k0 A0 ph0 off tol LS K0 K1 HJ) as (r & Er & Dr).
  rewrite (record_ext N (multitone N 3 0 B T J) (modulated N A m k q ph th)) in Dr by (intros; apply MT).
  rewrite (record_ext N (fun t => sine A0 (INR k0 / INR N) ph0 off t + multitone N 3 0 B T J t) (fun t => sine A0 (INR k0 / INR N) ph0 off t + modulated N A m k q ph th t)) in Er, Dr by (intros; rewrite MT; reflexivity).
  unfold error_envelope_spectrum. rewrite Er. cbn [bind]. cbv zeta. rewrite Dr. set (e := record N (modulated N A m k q ph th)) in *.
  destruct (c118_dominates e) as [(Z & _)|(v & V & Lv & _)]; [exfalso; assert (length e = N) by apply record_length; rewrite Z in H; cbn [length] in H; lia|].
  pose proof (c118_modulation N A m k q ph th v Q KQ V) as M. unfold e in Lv. rewrite record_length in Lv.
  assert (M' : forall n, (n < N)%nat -> nth n v 0 = Rabs A * modulation N m q th n).
  { intros n Hn. rewrite M by exact Hn. f_equal. apply Rabs_pos_eq. unfold modulation. pose proof (COS_bound (2 * PI * INR q * INR n / INR N + th)) as [C1 C2].
    set (z := cos _) in *. destruct (Rcase_abs m) as [Lt|Ge]; [rewrite Rabs_left in Hm by lra|rewrite Rabs_right in Hm by lra]; nra. }
  assert (Nv : v <> []) by (intros W; rewrite W in Lv; cbn [length] in Lv; lia). rewrite V. cbn [bind].
  destruct (peak_one v Nv) as [p P]. destruct (default_spectrum kz cz v fs p Nv P) as (sp & S & _). rewrite S. cbn [bind]. exists sp, v. split; [reflexivity|]. split; [exact M'|].
  intros Q3 HA Hm0. assert (D : one_dominant N 1 1 1 (N / 2 + 1) (fun _ => Rabs A * m) (fun _ => q)).
  { assert (q + 1 < N / 2 + 1)%nat by (assert (q + 1 <= N / 2)%nat by (apply Nat.div_le_lower_bound; lia); lia).
    split; [lia|]. split; [lia|]. split; [split; [intros i _; lia|intros i j Hi Hj; lia]|]. split; [exact H|].
    split; [apply Rmult_integral_contrapositive; split; [apply Rabs_no_R0, HA|exact Hm0]|]. split; [intros i _; left; exact H|intros i Hi; lia]. }
  destruct (default_tones kz cz N 1 (Rabs A) (fun _ => Rabs A * m) (fun _ => th) (fun _ => q) fs D) as (sp' & S' & _ & F1 & F2).
  replace (record N (multitone N 1 (Rabs A) (fun _ => Rabs A * m) (fun _ => th) (fun _ => q))) with v in S'; [rewrite S in S'; apply Ok_inj in S'; subst sp'; split; assumption|].
  apply nth_ext with 0 0; [rewrite record_length; exact Lv|]. intros n Hn. rewrite Lv in Hn. rewrite record_nth, M' by exact Hn. unfold multitone, modulation. cbn [rsum]. ring.
Qed.

(** ** Examples *)
Lemma nonempty_envelope x : x <> [] -> exists e, envelope x = Ok e.
Proof. intros H. destruct (c118_dominates x) as [(Z & _)|(e & E & _)]; [contradiction|]. exists e. exact E. Qed.
Lemma c118_real_part_ex : Re (analytic [1; -2; 4] 2) = 4.
Proof. rewrite c118_real_part by (cbn; lia). reflexivity. Qed.
Lemma c118_dominates_ex : exists e, envelope [1; -2; 4] = Ok e /\ 2 <= nth 1 e 0.
Proof.
  destruct (c118_dominates [1; -2; 4]) as [(Z & _)|(e & E & _ & D)]; [discriminate|]. exists e. split; [exact E|]. specialize (D 1%nat ltac:(cbn; lia)). cbn [nth] in D. rewrite Rabs_left in D by lra. lra.
Qed.
Lemma c118_pure_tone_ex : envelope [2; 0; -2; 0] = Ok [2; 2; 2; 2].
Proof.
  assert (E : [2; 0; -2; 0] = record 4 (carrier 4 2 1 0)).
  { unfold record, carrier. cbn [map seq]. change (INR 1) with 1. change (INR 0) with 0. replace (INR 2) with 2 by (simpl; ring). replace (INR 3) with 3 by (simpl; ring). replace (INR 4) with 4 by (simpl; ring).
    replace (2 * PI * 1 * 0 / 4 + 0) with 0 by field. replace (2 * PI * 1 * 1 / 4 + 0) with (PI / 2) by field. replace (2 * PI * 1 * 2 / 4 + 0) with PI by field. replace (2 * PI * 1 * 3 / 4 + 0) with (3 * (PI / 2)) by field.
    rewrite cos_0, cos_PI2, cos_PI, cos_3PI2. repeat f_equal; ring. }
  destruct (nonempty_envelope [2; 0; -2; 0] ltac:(discriminate)) as [e Ee]. rewrite Ee. rewrite E in Ee. apply c118_pure_tone in Ee; [|lia|lia]. subst e. cbn [repeat]. rewrite Rabs_pos_eq by lra. reflexivity.
Qed.
Lemma c118_gain_ex : envelope (map (fun v => -3 * v) [2; 0; -2; 0]) = Ok [6; 6; 6; 6].
Proof. rewrite (c118_gain _ (-3) _ c118_pure_tone_ex). cbn [map]. rewrite Rabs_left by lra. repeat f_equal; ring. Qed.
Lemma c118_energy_ex : exists e, envelope [1; 3; 2] = Ok e /\ rsum 3 (fun n => nth n e 0 ^ 2) = 16.
Proof.
  destruct (nonempty_envelope [1; 3; 2] ltac:(discriminate)) as [e E]. exists e. split; [exact E|]. pose proof (c118_energy _ _ E) as Q. cbv zeta in Q. cbn [length] in Q. rewrite Q. cbn [rsum nth Nat.even]. change (INR 3) with (1 + 1 + 1). field.
Qed.
(** Two tones of equal amplitude beat: the envelope runs from twice the amplitude to nothing. *)
Lemma c118_tones_ex : exists e, envelope (record 8 (multitone 8 2 0 (fun _ => 1) (fun _ => 0) (fun i => S i))) = Ok e /\ nth 0 e 0 = 2 /\ nth 4 e 0 = 0.
Proof.
  destruct (nonempty_envelope (record 8 (multitone 8 2 0 (fun _ => 1) (fun _ => 0) (fun i => S i))) ltac:(discriminate)) as [e E]. exists e. split; [exact E|].
  assert (HJ : forall i, (i < 2)%nat -> (0 < S i)%nat /\ (2 * S i < 8)%nat) by (intros; lia).
  pose proof (c118_tones 8 2 0 (fun _ => 1) (fun _ => 0) (fun i => S i) e ltac:(lia) HJ E) as T. split; rewrite T by lia; unfold phasors, csum.
  - replace (2 * PI * INR 1 * INR 0 / INR 8 + 0) with 0 by (simpl; field). replace (2 * PI * INR 2 * INR 0 / INR 8 + 0) with 0 by (simpl; field). rewrite cis_0.
    unfold Cmod, Cmod2, Cplus, Cscale, RtoC, C0, C1. cbn. replace (_ + _) with (2 * 2) by ring. apply sqrt_square. lra.
  - replace (2 * PI * INR 1 * INR 4 / INR 8 + 0) with PI by (simpl; field). replace (2 * PI * INR 2 * INR 4 / INR 8 + 0) with (2 * PI) by (simpl; field).
    unfold cis. rewrite cos_PI, sin_PI, cos_2PI, sin_2PI. unfold Cmod, Cmod2, Cplus, Cscale, RtoC, C0, C1. cbn. replace (_ + _) with 0 by ring. apply sqrt_0.
Qed.
Lemma c118_modulation_ex : exists e, envelope (record 16 (modulated 16 (-2) (1 / 2) 3 1 0.7 0)) = Ok e /\ nth 0 e 0 = 3 /\ nth 8 e 0 = 1.
Proof.
  destruct (nonempty_envelope (record 16 (modulated 16 (-2) (1 / 2) 3 1 0.7 0)) ltac:(discriminate)) as [e E]. exists e. split; [exact E|].
  pose proof (c118_modulation 16 (-2) (1 / 2) 3 1 0.7 0 e ltac:(lia) ltac:(lia) E) as T. split; rewrite T by lia; unfold modulation.
  - replace (2 * PI * INR 1 * INR 0 / INR 16 + 0) with 0 by (simpl; field). rewrite cos_0, Rabs_left, Rabs_pos_eq by lra. lra.
  - replace (2 * PI * INR 1 * INR 8 / INR 16 + 0) with PI by (simpl; field). rewrite cos_PI, Rabs_left, Rabs_pos_eq by lra. lra.
Qed.

Lemma quarter_samples (A off : R) : map (sine A (1 / 4) 0 off) (seq 0 4) = [A + off; off; - A + off; off].
Proof.
  unfold sine. cbn [map seq]. change (INR 1) with 1. change (INR 0) with 0. replace (INR 2) with 2 by (simpl; ring). replace (INR 3) with 3 by (simpl; ring).
  replace (2 * PI * (1 / 4) * 0 + 0) with 0 by field. replace (2 * PI * (1 / 4) * 1 + 0) with (PI / 2) by field. replace (2 * PI * (1 / 4) * 2 + 0) with PI by field. replace (2 * PI * (1 / 4) * 3 + 0) with (3 * (PI / 2)) by field.
  rewrite cos_0, cos_PI2, cos_PI, cos_3PI2. repeat (apply (f_equal2 cons); [ring|]); reflexivity.
Qed.
(** Adding 3 cos(2 pi t / 4) + 1 to four samples changes nothing; the error is the alternating part of the record. *)
Lemma c119_invariant_ex kz cz lstsq : least_squares lstsq ->
  error_spectrum kz cz lstsq [5; 2; -1; 1] 1 (Some (1 / 4)) 0 0 = error_spectrum kz cz lstsq [1; 1; 1; 0] 1 (Some (1 / 4)) 0 0.
Proof.
  intros LS. rewrite <- (proj1 (c119_invariant kz cz lstsq [1; 1; 1; 0] 1 (1 / 4) 0 3 0 1 LS)). f_equal.
  pose proof (quarter_samples 3 1) as Q. cbn [map seq] in Q. injection Q as Q0 Q1 Q2 Q3. unfold record. cbn [map seq length nth]. rewrite Q0, Q1, Q2, Q3. repeat (apply (f_equal2 cons); [ring|]); reflexivity.
Qed.
Lemma c119_level_ex kz cz lstsq sp e : least_squares lstsq -> error_spectrum kz cz lstsq [1; 1; 1; 0] 1 (Some (1 / 4)) 0 0 = Ok (sp, e) ->
  error_spectrum kz cz lstsq [1000; 1000; 1000; 0] 1 (Some (1 / 4)) 0 0 = Ok (sp, map (fun v => 1000 * v) e).
Proof.
  intros LS E. pose proof (proj1 (c119_level kz cz lstsq [1; 1; 1; 0] 1 (1 / 4) 0 1000 0 0 0 LS ltac:(lra))) as Q. rewrite E in Q. cbn [bind] in Q. rewrite <- Q. f_equal.
  pose proof (quarter_samples 0 0) as Z. cbn [map seq] in Z. injection Z as Q0 Q1 Q2 Q3. unfold record. cbn [map seq length nth]. rewrite Q0, Q1, Q2, Q3. repeat (apply (f_equal2 cons); [ring|]); reflexivity.
Qed.
(** The three empty bins (0, 1 and 3) leave only bin 2. *)
Lemma c119_bins_ex kz cz lstsq : least_squares lstsq -> exists sp e, error_spectrum kz cz lstsq [1; 1; 1; 0] 1 (Some (1 / 4)) 0 0 = Ok (sp, e) /\ length e = 4%nat /\
  coefficient e 0 = C0 /\ coefficient e 1 = C0 /\ coefficient e 2 = RtoC 1 /\ coefficient e 3 = C0.
Proof.
  intros LS. pose proof (c119_errors kz cz lstsq [1; 1; 1; 0] 1 (Some (1 / 4)) 0 0) as D. cbn [length Nat.eqb orb] in D. destruct D as (fit & sp & spv & env & _ & E & _). exists sp. eexists. split; [exact E|].
  assert (E' : error_spectrum kz cz lstsq [1; 1; 1; 0] 1 (Some (INR 1 / INR (length [1; 1; 1; 0]))) 0 0 = Ok (sp, map2 Rminus [1; 1; 1; 0] (f_fitted fit))).
  { rewrite <- E. do 2 f_equal. cbn [length]. change (INR 1) with 1. replace (INR 4) with 4 by (simpl; ring). reflexivity. }
  destruct (c119_bins kz cz lstsq [1; 1; 1; 0] 1 1 0 sp _ LS ltac:(lia) ltac:(cbn; lia) E') as (L & B). split; [exact L|].
  cbn [length] in B. rewrite !B by lia. cbn [Nat.eqb Nat.sub orb]. repeat split. rewrite coefficient_rfft. unfold rfft. cbn [length].
  change (rdft 4 (fun n => nth n [1; 1; 1; 0] 0) 2) with (rdft (2 * 2) (fun n => nth n [1; 1; 1; 0] 0) 2). rewrite rdft_half by lia. f_equal. cbn [rsum nth Nat.mul Nat.add]. ring.
Qed.
(** A 2 V tone at bin 5 with spurs at bins 9 and 20 of a 64-point record: the error is the two spurs, and the
    reported fundamental of the error is bin 20, the stronger one. *)
Lemma c119_strongest_ex kz cz lstsq : least_squares lstsq -> let B := fun i => nth i [0.03; 0.01] 0 in let J := (fun i => nth i [20; 9] 0)%nat in
  exists sp, error_spectrum kz cz lstsq (record 64 (fun t => sine 2 (INR 5 / INR 64) 0.3 0.5 t + multitone 64 2 0 B (fun _ => 1) J t)) 1 (Some (INR 5 / INR 64)) 0 0
    = Ok (sp, record 64 (multitone 64 2 0 B (fun _ => 1) J)) /\ sp_fund sp = 20%nat.
Proof.
  intros LS B J. assert (HJ : forall i, (i < 2)%nat -> (0 < J i)%nat /\ (2 * J i < 64)%nat /\ J i <> 5%nat) by (intros i Hi; destruct i as [|[|]]; unfold J; cbn [nth]; lia).
  destruct (c119_tones kz cz lstsq 64 2 B (fun _ => 1) J 5 2 0.3 0.5 1 0 LS ltac:(lia) ltac:(lia) HJ) as (sp & E). exists sp. split; [exact E|].
  refine (proj1 (proj2 (c119_strongest kz cz lstsq 64 2 B (fun _ => 1) J 5 2 0.3 0.5 1 0 sp _ LS ltac:(lia) ltac:(lia) (fun i Hi => proj2 (proj2 (HJ i Hi))) _ E))).
  change (64 / 2 + 1)%nat with 33%nat. split; [lia|]. split; [lia|]. split; [split|].
  - intros i Hi; destruct i as [|[|]]; unfold J; cbn [nth]; lia.
  - intros i j Hi Hj Ne. unfold bin_dist. destruct i as [|[|]], j as [|[|]]; unfold J; cbn [nth]; lia.
  - split; [unfold J; cbn; lia|]. split; [unfold B; cbn [nth]; lra|]. split; [intros i Hi; left; destruct i as [|[|]]; unfold J; cbn [nth]; lia|].
    intros i Hi _. destruct i as [|[|]]; try lia. unfold B. cbn [nth]. rewrite !Rabs_pos_eq by lra. lra.
Qed.
Lemma c119_errors_ex kz cz lstsq : error_spectrum kz cz lstsq [7] 1 None 0 0 = Err ValueError /\ exists sp e, error_spectrum kz cz lstsq [7] 1 (Some 0.1) 0 0 = Ok (sp, e).
Proof.
  split; [exact (proj1 (c119_errors kz cz lstsq [7] 1 None 0 0))|]. pose proof (c119_errors kz cz lstsq [7] 1 (Some 0.1) 0 0) as D. cbn [length Nat.eqb orb] in D. destruct D as (fit & sp & spv & env & _ & E & _). eauto.
Qed.
(** A tone at bin 5 with an error carrier at bin 20 modulated 50 % by 4 periods: the envelope runs from 0.015 down to 0.005 and the
    envelope spectrum reports bin 4. *)
Lemma c120_modulation_ex kz cz lstsq : least_squares lstsq -> exists sp env,
  error_envelope_spectrum kz cz lstsq (record 64 (fun t => sine 2 (INR 5 / INR 64) 0.3 0.5 t + modulated 64 (1 / 100) (1 / 2) 20 4 1 0 t)) 1 (Some (INR 5 / INR 64)) 0 0
    = Ok (sp, record 64 (modulated 64 (1 / 100) (1 / 2) 20 4 1 0), env) /\ nth 0 env 0 = 3 / 200 /\ nth 8 env 0 = 1 / 200 /\ sp_fund sp = 4%nat.
Proof.
  intros LS. destruct (c120_modulation kz cz lstsq 64 (1 / 100) (1 / 2) 20 4 1 0 5 2 0.3 0.5 1 0 LS) as (sp & env & E & V & F); try lia; [rewrite Rabs_pos_eq; lra|].
  exists sp, env. split; [exact E|]. rewrite !V by lia. unfold modulation. split; [|split; [|apply F; [lia|lra|lra]]].
  - replace (2 * PI * INR 4 * INR 0 / INR 64 + 0) with 0 by (simpl; field). rewrite cos_0, Rabs_pos_eq by lra. lra.
  - replace (2 * PI * INR 4 * INR 8 / INR 64 + 0) with PI by (simpl; field). rewrite cos_PI, Rabs_pos_eq by lra. lra.
Qed.
