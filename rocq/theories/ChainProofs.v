(** * The scipy-based appliers of the signal generator and the level control: final lemmas c197_ - c199_. *)
From Coq Require Import Psatz.
From Verif Require Import Base BaseLemmas UnitsModel UnitsSpec UnitsProofs CalModel CalSpec CalProofs CalExLemmas FitSpec FitProofs MsinProofs SiggenModel ChainModel ChainSpec.
Local Open Scope R_scope.

(** ** The tridiagonal system *)
Lemma rsum_window n a k f : (a + k <= n)%nat -> (forall j, (j < n)%nat -> (j < a)%nat \/ (a + k <= j)%nat -> f j = 0) -> rsum n f = rsum k (fun j => f (a + j)%nat).
Proof.
  intros L Z. replace n with (a + (k + (n - a - k)))%nat by lia. rewrite rsum_app, rsum_app. rewrite (rsum_zero a) by (intros i I; apply Z; lia). rewrite (rsum_zero (n - a - k)) by (intros i I; apply Z; lia). ring.
Qed.
(** The interior values of a solution of the homogeneous system. *)
Lemma inner_zero (m : nat) (z : nat -> R) : (2 <= m)%nat -> 2 * z 1%nat + z 2%nat = 0 -> (forall i, (2 <= i < m)%nat -> z (i - 1)%nat + 4 * z i + z (S i) = 0) -> z (m - 1)%nat + 2 * z m = 0 -> forall i, (1 <= i <= m)%nat -> z i = 0.
Proof.
  intros M Z1 Z Zm. assert (G : forall i, (1 <= i < m)%nat -> 2 * Rabs (z i) <= Rabs (z (S i))).
  { induction i as [| i IH]; intros I; [lia |]. destruct (Nat.eq_dec i 0) as [-> | N].
    - replace (z 2%nat) with (- (2 * z 1%nat)) by lra. rewrite Rabs_Ropp, Rabs_mult, (Rabs_right 2) by lra. lra.
    - specialize (IH ltac:(lia)). specialize (Z (S i) ltac:(lia)). cbn [Nat.sub] in Z. rewrite Nat.sub_0_r in Z. replace (z (S (S i))) with (- (4 * z (S i) + z i)) by lra. rewrite Rabs_Ropp. pose proof (Rabs_triang_inv (4 * z (S i)) (- z i)) as T. rewrite Rabs_Ropp, Rabs_mult, (Rabs_right 4) in T by lra. replace (4 * z (S i) - - z i) with (4 * z (S i) + z i) in T by ring. pose proof (Rabs_pos (z i)). lra. }
  assert (E : Rabs (z m) = 0). { pose proof (G (m - 1)%nat ltac:(lia)) as Q. replace (S (m - 1)) with m in Q by lia. replace (z (m - 1)%nat) with (- (2 * z m)) in Q by lra. rewrite Rabs_Ropp, Rabs_mult, (Rabs_right 2) in Q by lra. pose proof (Rabs_pos (z m)). lra. }
  assert (D : forall k, (k < m)%nat -> Rabs (z (m - k)%nat) = 0).
  { induction k as [| k IH]; intros K; [rewrite Nat.sub_0_r; exact E |]. specialize (IH ltac:(lia)). pose proof (G (m - S k)%nat ltac:(lia)) as Q. replace (S (m - S k)) with (m - k)%nat in Q by lia. pose proof (Rabs_pos (z (m - S k)%nat)). lra. }
  intros i I. specialize (D (m - i)%nat ltac:(lia)). replace (m - (m - i))%nat with i in D by lia. destruct (Req_dec (z i) 0) as [Q | Q]; [exact Q | apply Rabs_no_R0 in Q; contradiction].
Qed.
(** The rows and the columns of the matrix. *)
Lemma sp_rows n h (x : vec) : (4 <= n)%nat ->
  mv (sp_matrix n h) x 0%nat = h * x 0%nat + 2 * h * x 1%nat /\ mv (sp_matrix n h) x (n - 1)%nat = 2 * h * x (n - 2)%nat + h * x (n - 1)%nat /\
  forall i, (1 <= i < n - 1)%nat -> mv (sp_matrix n h) x i = h * x (i - 1)%nat + 4 * h * x i + h * x (S i).
Proof.
  intros N. unfold mv, sp_matrix. cbn [m_m m_at]. destruct (Nat.eqb_spec n 3); [lia |]. split; [| split].
  - cbn [Nat.eqb]. rewrite (rsum_window n 0 2); [cbn; ring | lia |]. intros j J [Q | Q]; [lia |]. destruct j as [| [| j]]; try lia. cbn. ring.
  - destruct (Nat.eqb_spec (n - 1) 0); [lia |]. rewrite Nat.eqb_refl. rewrite (rsum_window n (n - 2) 2); [| lia |].
    + cbn [rsum]. rewrite Nat.add_0_r. replace (n - 2 + 1)%nat with (n - 1)%nat by lia. rewrite !Nat.eqb_refl. destruct (Nat.eqb_spec (n - 2) (n - 1)); [lia |]. ring.
    + intros j J Q. destruct (Nat.eqb_spec j (n - 1)); [lia |]. destruct (Nat.eqb_spec j (n - 2)); [lia |]. ring.
  - intros i I. destruct (Nat.eqb_spec i 0); [lia |]. destruct (Nat.eqb_spec i (n - 1)); [lia |]. rewrite (rsum_window n (i - 1) 3); [| lia |].
    + cbn [rsum]. rewrite Nat.add_0_r. replace (i - 1 + 1)%nat with i by lia. replace (i - 1 + 2)%nat with (S i) by lia. rewrite Nat.eqb_refl. destruct (Nat.eqb_spec (i - 1) i); [lia |]. destruct (Nat.eqb_spec (S (i - 1)) i); [| lia]. destruct (Nat.eqb_spec (S i) i); [lia |]. destruct (Nat.eqb_spec (S (S i)) i); [lia |]. rewrite Nat.eqb_refl. ring.
    + intros j J Q. destruct (Nat.eqb_spec j i); [lia |]. destruct (Nat.eqb_spec (S j) i); [lia |]. destruct (Nat.eqb_spec j (S i)); [lia |]. ring.
Qed.
Lemma sp_columns n h (r : vec) : (4 <= n)%nat -> let col := fun j => rsum n (fun i => r i * m_at (sp_matrix n h) i j) in
  col 0%nat = h * (r 0%nat + r 1%nat) /\ col (n - 1)%nat = h * (r (n - 2)%nat + r (n - 1)%nat) /\
  col 1%nat = h * (2 * r 0%nat + 4 * r 1%nat + r 2%nat) /\ col (n - 2)%nat = h * (r (n - 3)%nat + 4 * r (n - 2)%nat + 2 * r (n - 1)%nat) /\
  forall j, (2 <= j < n - 2)%nat -> col j = h * (r (j - 1)%nat + 4 * r j + r (S j)).
Proof.
  intros N. unfold sp_matrix. cbn [m_at]. destruct (Nat.eqb_spec n 3); [lia |]. cbv zeta.
  repeat split.
  - rewrite (rsum_window n 0 2); [| lia |].
    + cbn [rsum Nat.add]. destruct (Nat.eqb_spec 1 (n - 1)); [lia |]. cbn [Nat.eqb]. ring.
    + intros i I Q. destruct (Nat.eqb_spec i 0); [lia |]. destruct (Nat.eqb_spec i (n - 1)); [destruct (Nat.eqb_spec 0 (n - 1)); [lia |]; destruct (Nat.eqb_spec 0 (n - 2)); [lia | ring] |]. destruct (Nat.eqb_spec 0 i); [lia |]. destruct (Nat.eqb_spec 1 i); [lia |]. cbn [Nat.eqb]. ring.
  - rewrite (rsum_window n (n - 2) 2); [| lia |].
    + cbn [rsum]. rewrite Nat.add_0_r. replace (n - 2 + 1)%nat with (n - 1)%nat by lia. destruct (Nat.eqb_spec (n - 2) 0); [lia |]. destruct (Nat.eqb_spec (n - 2) (n - 1)); [lia |]. destruct (Nat.eqb_spec (n - 1) (n - 2)); [lia |]. destruct (Nat.eqb_spec (S (n - 1)) (n - 2)); [lia |]. destruct (Nat.eqb_spec (n - 1) (S (n - 2))); [| lia]. destruct (Nat.eqb_spec (n - 1) 0); [lia |]. rewrite !Nat.eqb_refl. ring.
    + intros i I Q. destruct (Nat.eqb_spec i 0); [destruct (Nat.eqb_spec (n - 1) 0); [lia |]; destruct (Nat.eqb_spec (n - 1) 1); [lia | ring] |]. destruct (Nat.eqb_spec i (n - 1)); [lia |]. destruct (Nat.eqb_spec (n - 1) i); [lia |]. destruct (Nat.eqb_spec (S (n - 1)) i); [lia |]. destruct (Nat.eqb_spec (n - 1) (S i)); [lia |]. ring.
  - rewrite (rsum_window n 0 3); [| lia |].
    + cbn [rsum Nat.add]. destruct (Nat.eqb_spec 0 0); [| lia]. destruct (Nat.eqb_spec 1 (n - 1)); [lia |]. destruct (Nat.eqb_spec 2 (n - 1)); [lia |]. cbn [Nat.eqb]. ring.
    + intros i I Q. destruct (Nat.eqb_spec i 0); [lia |]. destruct (Nat.eqb_spec i (n - 1)); [destruct (Nat.eqb_spec 1 (n - 1)); [lia |]; destruct (Nat.eqb_spec 1 (n - 2)); [lia | ring] |]. destruct (Nat.eqb_spec 1 i); [lia |]. destruct (Nat.eqb_spec 2 i); [lia |]. destruct (Nat.eqb_spec 1 (S i)); [lia |]. ring.
  - rewrite (rsum_window n (n - 3) 3); [| lia |].
    + cbn [rsum]. rewrite Nat.add_0_r. replace (n - 3 + 1)%nat with (n - 2)%nat by lia. replace (n - 3 + 2)%nat with (n - 1)%nat by lia. destruct (Nat.eqb_spec (n - 3) 0); [lia |]. destruct (Nat.eqb_spec (n - 3) (n - 1)); [lia |]. destruct (Nat.eqb_spec (n - 2) (n - 3)); [lia |]. destruct (Nat.eqb_spec (S (n - 2)) (n - 3)); [lia |]. destruct (Nat.eqb_spec (n - 2) (S (n - 3))); [| lia]. destruct (Nat.eqb_spec (n - 2) 0); [lia |]. destruct (Nat.eqb_spec (n - 2) (n - 1)); [lia |]. destruct (Nat.eqb_spec (n - 1) 0); [lia |]. rewrite !Nat.eqb_refl. ring.
    + intros i I Q. destruct (Nat.eqb_spec i 0); [destruct (Nat.eqb_spec (n - 2) 0); [lia |]; destruct (Nat.eqb_spec (n - 2) 1); [lia | ring] |]. destruct (Nat.eqb_spec i (n - 1)); [lia |]. destruct (Nat.eqb_spec (n - 2) i); [lia |]. destruct (Nat.eqb_spec (S (n - 2)) i); [lia |]. destruct (Nat.eqb_spec (n - 2) (S i)); [lia |]. ring.
  - intros j J. rewrite (rsum_window n (j - 1) 3); [| lia |].
    + cbn [rsum]. rewrite Nat.add_0_r. replace (j - 1 + 1)%nat with j by lia. replace (j - 1 + 2)%nat with (S j) by lia. destruct (Nat.eqb_spec (j - 1) 0); [lia |]. destruct (Nat.eqb_spec (j - 1) (n - 1)); [lia |]. destruct (Nat.eqb_spec j (j - 1)); [lia |]. destruct (Nat.eqb_spec (S j) (j - 1)); [lia |]. destruct (Nat.eqb_spec j (S (j - 1))); [| lia]. destruct (Nat.eqb_spec j 0); [lia |]. destruct (Nat.eqb_spec j (n - 1)); [lia |]. destruct (Nat.eqb_spec (S j) 0); [lia |]. destruct (Nat.eqb_spec (S j) (n - 1)); [lia |]. destruct (Nat.eqb_spec j (S j)); [lia |]. rewrite !Nat.eqb_refl. ring.
    + intros i I Q. destruct (Nat.eqb_spec i 0); [destruct (Nat.eqb_spec j 0); [lia |]; destruct (Nat.eqb_spec j 1); [lia | ring] |]. destruct (Nat.eqb_spec i (n - 1)); [destruct (Nat.eqb_spec j (n - 1)); [lia |]; destruct (Nat.eqb_spec j (n - 2)); [lia | ring] |]. destruct (Nat.eqb_spec j i); [lia |]. destruct (Nat.eqb_spec (S j) i); [lia |]. destruct (Nat.eqb_spec j (S i)); [lia |]. ring.
Qed.
(** Any least-squares solver solves the system, whatever its right side. *)
Lemma sp_solved lin n h b : least_squares lin -> (4 <= n)%nat -> h <> 0 -> forall i, (i < n)%nat -> mv (sp_matrix n h) (lin (sp_matrix n h) b) i = b i.
Proof.
  intros LS N H. set (A := sp_matrix n h). set (x := lin A b). set (r := fun i => b i - mv A x i).
  assert (NE : forall j, (j < n)%nat -> rsum n (fun i => r i * m_at A i j) = 0) by (intros j J; exact (normal_equations A b x j (ls_minimises lin A b LS) J)).
  destruct (sp_columns n h r N) as (C0 & C1 & C2 & C3 & C4). fold A in C0, C1, C2, C3, C4. cbv zeta in C0, C1, C2, C3, C4. rewrite NE in C0, C1, C2, C3 by lia.
  assert (D0 : r 0%nat + r 1%nat = 0) by (apply (Rmult_eq_reg_l h); lra). assert (D1 : r (n - 2)%nat + r (n - 1)%nat = 0) by (apply (Rmult_eq_reg_l h); lra). assert (D2 : 2 * r 0%nat + 4 * r 1%nat + r 2%nat = 0) by (apply (Rmult_eq_reg_l h); lra). assert (D3 : r (n - 3)%nat + 4 * r (n - 2)%nat + 2 * r (n - 1)%nat = 0) by (apply (Rmult_eq_reg_l h); lra).
  assert (Z : forall i, (1 <= i <= n - 2)%nat -> r i = 0). { apply (inner_zero (n - 2) r); [lia | lra | | replace (n - 2 - 1)%nat with (n - 3)%nat by lia; lra]. intros i I. specialize (C4 i ltac:(lia)). rewrite NE in C4 by lia. apply (Rmult_eq_reg_l h); lra. }
  assert (ZZ : forall i, (i < n)%nat -> r i = 0). { intros i I. destruct (Nat.eq_dec i 0) as [-> | I0]; [rewrite (Z 1%nat) in D0 by lia; lra |]. destruct (Nat.eq_dec i (n - 1)) as [-> | I1]; [rewrite (Z (n - 2)%nat) in D1 by lia; lra |]. apply Z. lia. }
  intros i I. specialize (ZZ i I). unfold r in ZZ. lra.
Qed.
(** ** The spline *)
Definition sp_c (h : R) (y s : vec) (i : nat) : R := (sp_slope h y i - s i) / h - (s i + s (S i) - 2 * sp_slope h y i) / h.
Definition sp_d (h : R) (y s : vec) (i : nat) : R := (s i + s (S i) - 2 * sp_slope h y i) / h / h.
Lemma spline_good lin n h y : least_squares lin -> (4 <= n)%nat -> 0 < h -> let s := sp_slopes lin n h y in not_a_knot n h y y s (sp_c h y s) (sp_d h y s).
Proof.
  intros LS N H s. assert (SV := sp_solved lin n h (sp_right n h y) LS N ltac:(lra)). assert (SE : s = lin (sp_matrix n h) (sp_right n h y)) by (unfold s, sp_slopes; destruct (Nat.eqb_spec n 2); [lia | reflexivity]). rewrite <- SE in SV. clear SE. clearbody s.
  destruct (sp_rows n h s N) as (R0 & R1 & RI). rewrite SV in R0, R1 by lia.
  assert (R2 : forall i, (1 <= i < n - 1)%nat -> 3 * (h * sp_slope h y (i - 1) + h * sp_slope h y i) = h * s (i - 1)%nat + 4 * h * s i + h * s (S i)).
  { intros i I. rewrite <- RI by exact I. rewrite SV by lia. unfold sp_right. destruct (Nat.eqb_spec n 3); [lia |]. destruct (Nat.eqb_spec i 0); [lia |]. destruct (Nat.eqb_spec i (n - 1)); [lia |]. reflexivity. }
  unfold sp_right in R0, R1. destruct (Nat.eqb_spec n 3) as [Q | _]; [lia |]. cbn [Nat.eqb] in R0. destruct (Nat.eqb_spec (n - 1) 0) as [Q | _]; [lia |]. rewrite Nat.eqb_refl in R1.
  split; [| split; [| split]].
  - intros i I. split; [reflexivity |]. unfold sp_c, sp_d, sp_slope. rewrite Nat.add_1_r. field. lra.
  - intros i I. rewrite Nat.add_1_r. split; [unfold sp_c, sp_d, sp_slope; field; lra |]. specialize (R2 (S i) ltac:(lia)). cbn [Nat.sub] in R2. rewrite Nat.sub_0_r in R2. unfold sp_c, sp_d. apply (Rmult_eq_reg_l h); [| lra]. apply (Rmult_eq_reg_l h); [| lra]. set (m0 := sp_slope h y i) in *. set (m1 := sp_slope h y (S i)) in *. field_simplify; [| lra | lra]. nra.
  - specialize (R2 1%nat ltac:(lia)). cbn [Nat.sub] in R2. unfold sp_d. set (m0 := sp_slope h y 0) in *. set (m1 := sp_slope h y 1) in *. apply (Rmult_eq_reg_l (h * h)); [| nra]. assert (R0' : (5 * m0 + m1) / 2 = s 0%nat + 2 * s 1%nat) by (apply (Rmult_eq_reg_l h); [| lra]; rewrite <- (Rmult_plus_distr_l h) || idtac; replace (h * (s 0%nat + 2 * s 1%nat)) with (h * s 0%nat + 2 * h * s 1%nat) by ring; rewrite <- R0; field; lra).
    assert (R2' : 3 * (m0 + m1) = s 0%nat + 4 * s 1%nat + s 2%nat) by (apply (Rmult_eq_reg_l h); [| lra]; lra). field_simplify; [| lra | lra]. lra.
  - specialize (R2 (n - 2)%nat ltac:(lia)). replace (n - 2 - 1)%nat with (n - 3)%nat in R2 by lia. replace (S (n - 2)) with (n - 1)%nat in R2 by lia. unfold sp_d. replace (S (n - 3)) with (n - 2)%nat by lia. replace (S (n - 2)) with (n - 1)%nat by lia. set (m0 := sp_slope h y (n - 3)) in *. set (m1 := sp_slope h y (n - 2)) in *. apply (Rmult_eq_reg_l (h * h)); [| nra].
    assert (R1' : (m0 + 5 * m1) / 2 = 2 * s (n - 2)%nat + s (n - 1)%nat) by (apply (Rmult_eq_reg_l h); [| lra]; replace (h * (2 * s (n - 2)%nat + s (n - 1)%nat)) with (2 * h * s (n - 2)%nat + h * s (n - 1)%nat) by ring; rewrite <- R1; field; lra).
    assert (R2' : 3 * (m0 + m1) = s (n - 3)%nat + 4 * s (n - 2)%nat + s (n - 1)%nat) by (apply (Rmult_eq_reg_l h); [| lra]; lra). field_simplify; [| lra | lra]. lra.
Qed.
(** Only one set of cubics is such a spline. *)
Lemma spline_unique n h y a b c d a' b' c' d' : (4 <= n)%nat -> 0 < h -> not_a_knot n h y a b c d -> not_a_knot n h y a' b' c' d' ->
  forall i, (i + 1 < n)%nat -> a i = a' i /\ b i = b' i /\ c i = c' i /\ d i = d' i.
Proof.
  intros N H (P1 & P2 & P3 & P4) (Q1 & Q2 & Q3 & Q4).
  set (z := fun i => if (i + 1 <? n)%nat then b i - b' i else (b (n - 2)%nat - b' (n - 2)%nat) + 2 * (c (n - 2)%nat - c' (n - 2)%nat) * h + 3 * (d (n - 2)%nat - d' (n - 2)%nat) * h ^ 2).
  assert (ZI : forall i, (i + 1 < n)%nat -> z i = b i - b' i) by (intros i I; unfold z; destruct (Nat.ltb_spec (i + 1) n); [reflexivity | lia]).
  assert (ZS : forall i, (i + 1 < n)%nat -> z (S i) = (b i - b' i) + 2 * (c i - c' i) * h + 3 * (d i - d' i) * h ^ 2).
  { intros i I. destruct (Nat.eq_dec (i + 2) n) as [E | E]; [unfold z; destruct (Nat.ltb_spec (S i + 1) n); [lia |]; replace (n - 2)%nat with i by lia; reflexivity |]. rewrite ZI by lia. destruct (P2 i ltac:(lia)) as [A _]. destruct (Q2 i ltac:(lia)) as [B _]. rewrite Nat.add_1_r in A, B. lra. }
  assert (CD : forall i, (i + 1 < n)%nat -> (c i - c' i) * h = - (2 * z i + z (S i)) /\ (d i - d' i) * h ^ 2 = z i + z (S i)).
  { intros i I. rewrite ZS, ZI by exact I. destruct (P1 i I) as [A1 A2]. destruct (Q1 i I) as [B1 B2]. assert (E : (b i - b' i) * h + (c i - c' i) * h ^ 2 + (d i - d' i) * h ^ 3 = 0) by lra. assert (E' : (b i - b' i) + (c i - c' i) * h + (d i - d' i) * h ^ 2 = 0) by (apply (Rmult_eq_reg_l h); [| lra]; lra). split; lra. }
  assert (RW : forall i, (1 <= i < n - 1)%nat -> z (i - 1)%nat + 4 * z i + z (S i) = 0).
  { intros i I. destruct i as [| i]; [lia |]. cbn [Nat.sub]. rewrite Nat.sub_0_r. destruct (P2 i ltac:(lia)) as [_ A]. destruct (Q2 i ltac:(lia)) as [_ B]. rewrite Nat.add_1_r in A, B. destruct (CD i ltac:(lia)) as [E1 E2]. destruct (CD (S i) ltac:(lia)) as [E3 _]. assert (F : 2 * ((c (S i) - c' (S i)) * h) = 2 * ((c i - c' i) * h) + 6 * ((d i - d' i) * h ^ 2)) by (replace (2 * ((c (S i) - c' (S i)) * h)) with ((2 * c (S i) - 2 * c' (S i)) * h) by ring; rewrite A, B; ring). lra. }
  assert (K0 : z 0%nat + 2 * z 1%nat = 0). { destruct (CD 0%nat ltac:(lia)) as [_ E1]. destruct (CD 1%nat ltac:(lia)) as [_ E2]. rewrite P3, Q3 in E1. pose proof (RW 1%nat ltac:(lia)) as E3. cbn [Nat.sub] in E3. lra. }
  assert (K1 : 2 * z (n - 2)%nat + z (n - 1)%nat = 0). { destruct (CD (n - 3)%nat ltac:(lia)) as [_ E1]. destruct (CD (n - 2)%nat ltac:(lia)) as [_ E2]. rewrite P4, Q4 in E1. pose proof (RW (n - 2)%nat ltac:(lia)) as E3. replace (n - 2 - 1)%nat with (n - 3)%nat in E3 by lia. replace (S (n - 2)) with (n - 1)%nat in * by lia. replace (S (n - 3)) with (n - 2)%nat in * by lia. lra. }
  assert (Z : forall i, (1 <= i <= n - 2)%nat -> z i = 0).
  { apply (inner_zero (n - 2) z); [lia | | |].
    - pose proof (RW 1%nat ltac:(lia)) as E. cbn [Nat.sub] in E. lra.
    - intros i I. apply RW. lia.
    - pose proof (RW (n - 2)%nat ltac:(lia)) as E. replace (S (n - 2)) with (n - 1)%nat in E by lia. lra. }
  assert (ZA : forall i, (i < n)%nat -> z i = 0). { intros i I. destruct (Nat.eq_dec i 0) as [-> | I0]; [rewrite (Z 1%nat) in K0 by lia; lra |]. destruct (Nat.eq_dec i (n - 1)) as [-> | I1]; [rewrite (Z (n - 2)%nat) in K1 by lia; lra |]. apply Z. lia. }
  intros i I. destruct (P1 i I) as [A1 _]. destruct (Q1 i I) as [B1 _]. destruct (CD i I) as [E1 E2]. pose proof (ZI i I) as E3. rewrite (ZA i) in E1, E2, E3 by lia. rewrite (ZA (S i)) in E1, E2 by lia.
  split; [lra |]. split; [lra |]. assert (HH : h ^ 2 <> 0) by (apply pow_nonzero; lra). split; [apply Rminus_diag_uniq, (Rmult_eq_reg_r h); lra | apply Rminus_diag_uniq, (Rmult_eq_reg_r (h ^ 2)); lra].
Qed.
Lemma piece_form h y s i u : sp_piece h y s i u = y i + s i * u + sp_c h y s i * u ^ 2 + sp_d h y s i * u ^ 3.
Proof. unfold sp_piece, sp_c, sp_d. cbv zeta. ring. Qed.
Lemma interval_good n h v : (2 <= n)%nat -> 0 < h -> interval_of n h v (sp_interval n h v).
Proof.
  intros N H. unfold interval_of, sp_interval. set (z := Zfloor (v / h)). pose proof (Zfloor_lb (v / h)) as A. pose proof (Zfloor_ub (v / h)) as B. fold z in A, B. assert (V : v = v / h * h) by (field; lra). split; [lia |]. split.
  - destruct (Z_le_gt_dec z 0) as [Q | Q]; [right; lia |]. left. apply Rle_trans with (IZR z * h); [| rewrite V; apply Rmult_le_compat_r; lra]. apply Rmult_le_compat_r; [lra |]. rewrite INR_IZR_INZ. apply IZR_le. lia.
  - destruct (Nat.le_gt_cases (n - 2) (Z.to_nat z)) as [Q | Q]; [right; lia |]. left. rewrite V. apply Rmult_lt_compat_r; [exact H |]. eapply Rlt_le_trans; [exact B |]. rewrite INR_IZR_INZ. replace (IZR z + 1) with (IZR (z + 1)) by (rewrite plus_IZR; reflexivity). apply IZR_le. lia.
Qed.
Lemma interval_same n h v i j : 0 < h -> interval_of n h v i -> interval_of n h v j -> i = j.
Proof.
  intros H (I1 & I2 & I3) (J1 & J2 & J3). destruct (Nat.lt_trichotomy i j) as [L | [E | L]]; [exfalso | exact E | exfalso].
  - destruct I3 as [I3 | I3]; [| lia]. destruct J2 as [J2 | J2]; [| lia]. assert (INR (i + 1) * h <= INR j * h) by (apply Rmult_le_compat_r; [lra | apply le_INR; lia]). lra.
  - destruct J3 as [J3 | J3]; [| lia]. destruct I2 as [I2 | I2]; [| lia]. assert (INR (j + 1) * h <= INR i * h) by (apply Rmult_le_compat_r; [lra | apply le_INR; lia]). lra.
Qed.
Lemma spline_at lin n h y v a b c d i : least_squares lin -> (4 <= n)%nat -> 0 < h -> not_a_knot n h y a b c d -> interval_of n h v i ->
  sp_at lin n h y v = let u := v - INR i * h in a i + b i * u + c i * u ^ 2 + d i * u ^ 3.
Proof.
  intros LS N H K I. unfold sp_at. rewrite (interval_same n h v _ i H (interval_good n h v ltac:(lia) H) I). rewrite piece_form. destruct (spline_unique n h y _ _ _ _ _ _ _ _ N H (spline_good lin n h y LS N H) K i (proj1 I)) as (E1 & E2 & E3 & E4). cbv zeta. rewrite <- E1, <- E2, <- E3, <- E4. reflexivity.
Qed.
Lemma jitter_inv lin g x rms draws out : apply_jitter lin g (Some x) rms draws = Ok out -> length draws = g_N g ->
  (2 <= g_N g)%nat /\ length x = g_N g /\ 0 < g_Fs g /\ length out = g_N g /\ forall k, (k < g_N g)%nat -> nth k out 0 = sp_at lin (g_N g) (/ g_Fs g) (fun k => nth k x 0) (INR k / g_Fs g + nth k draws 0 * rms).
Proof.
  unfold apply_jitter, raise_if. destruct ((g_N g <? 2)%nat || negb (length x =? g_N g)%nat || Rleb (g_Fs g) 0)%bool eqn:G; [discriminate |]. apply orb_false_iff in G. destruct G as [G G3]. apply orb_false_iff in G. destruct G as [G1 G2]. apply Nat.ltb_ge in G1. apply negb_false_iff, Nat.eqb_eq in G2. intros E LD. injection E as E. subst out.
  split; [exact G1 |]. split; [exact G2 |]. split; [destruct (Rleb_spec (g_Fs g) 0); [discriminate | lra] |]. split; [rewrite map2_length by (rewrite seq_length; lia); apply seq_length |].
  intros k K. rewrite (map2_nth _ _ _ k 0%nat 0 0) by (rewrite ?seq_length; lia). rewrite seq_nth by exact K. reflexivity.
Qed.
Lemma knot_interval n h k : (2 <= n)%nat -> (k < n)%nat -> 0 < h -> sp_interval n h (INR k * h) = Nat.min k (n - 2).
Proof.
  intros N K H. apply (interval_same n h (INR k * h)); [exact H | apply interval_good; assumption |]. unfold interval_of. split; [lia |]. split.
  - left. apply Rmult_le_compat_r; [lra | apply le_INR; lia].
  - destruct (Nat.le_gt_cases (n - 2) k) as [Q | Q]; [right; lia |]. left. apply Rmult_lt_compat_r; [lra | apply lt_INR; lia].
Qed.
Lemma at_knot lin n h y k : (2 <= n)%nat -> (k < n)%nat -> 0 < h -> sp_at lin n h y (INR k * h) = y k.
Proof.
  intros N K H. unfold sp_at. rewrite knot_interval by assumption. destruct (Nat.le_gt_cases k (n - 2)) as [Q | Q].
  - rewrite Nat.min_l by exact Q. replace (INR k * h - INR k * h) with 0 by ring. unfold sp_piece. cbv zeta. ring.
  - rewrite Nat.min_r by lia. assert (E : k = S (n - 2)) by lia. rewrite E at 1. rewrite S_INR. replace ((INR (n - 2) + 1) * h - INR (n - 2) * h) with h by ring. unfold sp_piece, sp_slope. cbv zeta. rewrite <- E. field. lra.
Qed.
Lemma jitter_ok lin g x rms draws : (2 <= g_N g)%nat -> length x = g_N g -> 0 < g_Fs g -> exists out, apply_jitter lin g (Some x) rms draws = Ok out.
Proof.
  intros N L F. unfold apply_jitter, raise_if. rewrite (proj2 (Nat.ltb_ge _ _) N), (proj2 (Nat.eqb_eq _ _) L). destruct (Rleb_spec (g_Fs g) 0); [lra |]. eexists. reflexivity.
Qed.
Lemma parabola_at lin h y v : least_squares lin -> 0 < h -> sp_at lin 3 h y v = y 0%nat + sp_slope h y 0 * v + (y 2%nat - 2 * y 1%nat + y 0%nat) / (2 * h ^ 2) * v * (v - h).
Proof.
  intros LS H. set (A := sp_matrix 3 h). set (b := sp_right 3 h y). set (s := lin A b). set (r := fun i => b i - mv A s i).
  assert (NE : forall j, (j < 3)%nat -> rsum 3 (fun i => r i * m_at A i j) = 0) by (intros j J; exact (normal_equations A b s j (ls_minimises lin A b LS) J)).
  pose proof (NE 0%nat ltac:(lia)) as E0. pose proof (NE 1%nat ltac:(lia)) as E1. pose proof (NE 2%nat ltac:(lia)) as E2. clear NE. cbn [rsum A sp_matrix m_at Nat.eqb] in E0, E1, E2.
  assert (Z1 : r 1%nat = 0) by (apply (Rmult_eq_reg_l h); lra). assert (Z0 : r 0%nat = 0) by (rewrite Z1 in E0; lra). assert (Z2 : r 2%nat = 0) by (rewrite Z1 in E2; lra).
  unfold r, mv in Z0, Z1, Z2. cbn [rsum A sp_matrix m_at m_m b sp_right Nat.eqb] in Z0, Z1, Z2.
  assert (S0 : s 0%nat = 2 * sp_slope h y 0 - s 1%nat) by lra. assert (S2 : s 2%nat = 2 * sp_slope h y 1 - s 1%nat) by lra. rewrite S0, S2 in Z1.
  assert (S1 : s 1%nat = (sp_slope h y 0 + sp_slope h y 1) / 2) by (apply (Rmult_eq_reg_l h); [| lra]; lra).
  unfold sp_at. change (sp_slopes lin 3 h y) with s. assert (I : sp_interval 3 h v = 0%nat \/ sp_interval 3 h v = 1%nat) by (unfold sp_interval; lia). destruct I as [-> | ->]; unfold sp_piece; cbv zeta; rewrite ?S0, ?S2, ?S1; unfold sp_slope; cbn [INR]; field; lra.
Qed.
Lemma line_at lin h y v : 0 < h -> sp_at lin 2 h y v = y 0%nat + sp_slope h y 0 * v.
Proof. intros H. unfold sp_at. assert (I : sp_interval 2 h v = 0%nat) by (unfold sp_interval; lia). rewrite I. unfold sp_slopes. cbn [Nat.eqb INR]. unfold sp_piece. cbv zeta. field. lra. Qed.
(** ** C197: apply_jitter on a given signal *)
(** When it runs: at least two samples, a signal as long as the generator's record and a positive sampling rate; otherwise a
    ValueError.  The result is as long as the record. *)
Lemma c197_when lin g x rms draws : length draws = g_N g ->
  match apply_jitter lin g (Some x) rms draws with
  | Ok out => (2 <= g_N g)%nat /\ length x = g_N g /\ 0 < g_Fs g /\ length out = g_N g
  | Err e => e = ValueError /\ ((g_N g < 2)%nat \/ length x <> g_N g \/ g_Fs g <= 0)
  end.
Proof.
  intros LD. destruct (apply_jitter lin g (Some x) rms draws) as [out | e] eqn:E.
  - destruct (jitter_inv _ _ _ _ _ _ E LD) as (A & B & C & D & _). auto.
  - unfold apply_jitter, raise_if in E. destruct (Nat.ltb_spec (g_N g) 2); [| destruct (Nat.eqb_spec (length x) (g_N g)); [destruct (Rleb_spec (g_Fs g) 0); [| discriminate] |]]; (split; [injection E; congruence | auto]).
Qed.
(** Sample k of the result is the not-a-knot cubic spline through the given signal, taken at the disturbed time. *)
Lemma c197_is_spline lin g x rms draws out a b c d k i : least_squares lin -> apply_jitter lin g (Some x) rms draws = Ok out -> length draws = g_N g -> (4 <= g_N g)%nat -> (k < g_N g)%nat ->
  not_a_knot (g_N g) (1 / g_Fs g) (fun k => nth k x 0) a b c d -> interval_of (g_N g) (1 / g_Fs g) (INR k / g_Fs g + nth k draws 0 * rms) i ->
  nth k out 0 = let u := INR k / g_Fs g + nth k draws 0 * rms - INR i / g_Fs g in a i + b i * u + c i * u ^ 2 + d i * u ^ 3.
Proof.
  intros LS E LD N K S I. destruct (jitter_inv _ _ _ _ _ _ E LD) as (_ & _ & F & _ & V). rewrite V by exact K. unfold Rdiv in S, I |- *. rewrite Rmult_1_l in S, I. apply (spline_at lin (g_N g) _ _ _ a b c d i LS N); [apply Rinv_0_lt_compat; exact F | exact S | exact I].
Qed.
(** There is exactly one such spline for every signal of four samples or more, and one interval for every time. *)
Lemma c197_one_spline n h y : (4 <= n)%nat -> 0 < h ->
  (exists a b c d, not_a_knot n h y a b c d) /\
  (forall a b c d a' b' c' d', not_a_knot n h y a b c d -> not_a_knot n h y a' b' c' d' -> forall i, (i + 1 < n)%nat -> a i = a' i /\ b i = b' i /\ c i = c' i /\ d i = d' i) /\
  (forall v, exists i, interval_of n h v i /\ forall j, interval_of n h v j -> j = i).
Proof.
  intros N H. split; [| split].
  - exists y. eexists. eexists. eexists. exact (spline_good gs_lstsq n h y gs_least_squares N H).
  - intros. eapply spline_unique; eassumption.
  - intros v. exists (sp_interval n h v). assert (I := interval_good n h v ltac:(lia) H). split; [exact I |]. intros j J. exact (interval_same n h v _ _ H J I).
Qed.
(** With no jitter, in the draw or in the scale, the sample comes back unchanged, whatever the solver does. *)
Lemma c197_no_jitter lin g x rms draws out k : apply_jitter lin g (Some x) rms draws = Ok out -> length draws = g_N g -> (k < g_N g)%nat -> nth k draws 0 * rms = 0 -> nth k out 0 = nth k x 0.
Proof.
  intros E LD K Z. destruct (jitter_inv _ _ _ _ _ _ E LD) as (N & _ & F & _ & V). rewrite V, Z, Rplus_0_r by exact K. apply (at_knot lin (g_N g) (/ g_Fs g) (fun k => nth k x 0) k N K). apply Rinv_0_lt_compat. exact F.
Qed.
(** A cubic signal is moved exactly, also beyond the ends of the record. *)
Lemma c197_cubic lin g p0 p1 p2 p3 x rms draws out k : least_squares lin -> apply_jitter lin g (Some x) rms draws = Ok out -> length draws = g_N g -> (4 <= g_N g)%nat ->
  (forall j, (j < g_N g)%nat -> nth j x 0 = cubic p0 p1 p2 p3 (INR j / g_Fs g)) -> (k < g_N g)%nat -> nth k out 0 = cubic p0 p1 p2 p3 (INR k / g_Fs g + nth k draws 0 * rms).
Proof.
  intros LS E LD N X K. destruct (jitter_inv _ _ _ _ _ _ E LD) as (_ & _ & F & _ & V). rewrite V by exact K. set (v := INR k / g_Fs g + nth k draws 0 * rms). set (h := / g_Fs g). assert (H : 0 < h) by (apply Rinv_0_lt_compat; exact F).
  rewrite (spline_at lin (g_N g) h _ v (fun i => cubic p0 p1 p2 p3 (INR i * h)) (fun i => p1 + 2 * p2 * (INR i * h) + 3 * p3 * (INR i * h) ^ 2) (fun i => p2 + 3 * p3 * (INR i * h)) (fun _ => p3) (sp_interval (g_N g) h v) LS N H); [unfold cubic; cbv zeta; ring | | apply interval_good; [lia | exact H]].
  split; [| split; [| split; reflexivity]].
  - intros i I. rewrite !X by lia. unfold Rdiv, cubic. fold h. rewrite plus_INR. cbn [INR]. split; ring.
  - intros i I. rewrite plus_INR. cbn [INR]. split; ring.
Qed.
(** Two samples: the straight line; three: the parabola (Newton's form). *)
Lemma c197_small lin g x rms draws out k : least_squares lin -> apply_jitter lin g (Some x) rms draws = Ok out -> length draws = g_N g -> (k < g_N g)%nat ->
  let y i := nth i x 0 in let w := INR k + nth k draws 0 * rms * g_Fs g in
  (g_N g = 2%nat -> nth k out 0 = y 0%nat + (y 1%nat - y 0%nat) * w) /\
  (g_N g = 3%nat -> nth k out 0 = y 0%nat + (y 1%nat - y 0%nat) * w + (y 2%nat - 2 * y 1%nat + y 0%nat) / 2 * w * (w - 1)).
Proof.
  intros LS E LD K y w. destruct (jitter_inv _ _ _ _ _ _ E LD) as (_ & _ & F & _ & V). rewrite V by exact K. assert (H : 0 < / g_Fs g) by (apply Rinv_0_lt_compat; exact F). split; intros ->.
  - rewrite line_at by exact H. unfold sp_slope, w, y. field. lra.
  - rewrite parabola_at by assumption. unfold sp_slope, w, y. field. lra.
Qed.
Lemma knot_linear n h y y' p q a b c d a' b' c' d' : not_a_knot n h y a b c d -> not_a_knot n h y' a' b' c' d' ->
  not_a_knot n h (fun i => p * y i + q * y' i) (fun i => p * a i + q * a' i) (fun i => p * b i + q * b' i) (fun i => p * c i + q * c' i) (fun i => p * d i + q * d' i).
Proof.
  intros (P1 & P2 & P3 & P4) (Q1 & Q2 & Q3 & Q4). split; [| split; [| split]].
  - intros i I. destruct (P1 i I) as [A A']. destruct (Q1 i I) as [B B']. rewrite <- A', <- B', <- A, <- B. split; ring.
  - intros i I. destruct (P2 i I) as [A A']. destruct (Q2 i I) as [B B']. rewrite A, B. split; [ring |]. transitivity (p * (2 * c (i + 1)%nat) + q * (2 * c' (i + 1)%nat)); [ring |]. rewrite A', B'. ring.
  - rewrite P3, Q3. reflexivity.
  - rewrite P4, Q4. reflexivity.
Qed.
Lemma at_ext lin n h y y' v : least_squares lin -> (2 <= n)%nat -> 0 < h -> (forall i, (i < n)%nat -> y i = y' i) -> sp_at lin n h y v = sp_at lin n h y' v.
Proof.
  intros LS N H X. destruct (Nat.eq_dec n 2) as [-> | N2]; [rewrite !line_at by exact H; unfold sp_slope; rewrite !X by lia; reflexivity |]. destruct (Nat.eq_dec n 3) as [-> | N3]; [rewrite !parabola_at by assumption; unfold sp_slope; rewrite !X by lia; reflexivity |].
  assert (I := interval_good n h v N H). destruct (spline_good lin n h y' LS ltac:(lia) H) as (P1 & P2 & P3 & P4). rewrite (spline_at lin n h y v y' (sp_slopes lin n h y') (sp_c h y' (sp_slopes lin n h y')) (sp_d h y' (sp_slopes lin n h y')) (sp_interval n h v) LS ltac:(lia) H); [| | exact I].
  - unfold sp_at at 1. rewrite piece_form. reflexivity.
  - split; [| auto]. intros i J. rewrite !X by lia. apply P1. exact J.
Qed.
Lemma at_linear lin n h y y' p q v : least_squares lin -> (2 <= n)%nat -> 0 < h -> sp_at lin n h (fun i => p * y i + q * y' i) v = p * sp_at lin n h y v + q * sp_at lin n h y' v.
Proof.
  intros LS N H. destruct (Nat.eq_dec n 2) as [-> | N2]; [rewrite !line_at by exact H; unfold sp_slope; field; lra |]. destruct (Nat.eq_dec n 3) as [-> | N3]; [rewrite !parabola_at by assumption; unfold sp_slope; field; lra |].
  assert (I := interval_good n h v N H). rewrite (spline_at lin n h _ v _ _ _ _ _ LS ltac:(lia) H (knot_linear n h y y' p q _ _ _ _ _ _ _ _ (spline_good lin n h y LS ltac:(lia) H) (spline_good lin n h y' LS ltac:(lia) H)) I). unfold sp_at. rewrite !piece_form. cbv zeta. ring.
Qed.
(** The same jitter on a weighted sum of two signals is the weighted sum of the two results. *)
Lemma c197_linear lin g x x' p q rms draws out out' : least_squares lin -> length draws = g_N g -> apply_jitter lin g (Some x) rms draws = Ok out -> apply_jitter lin g (Some x') rms draws = Ok out' ->
  exists out2, apply_jitter lin g (Some (map2 (fun u v => p * u + q * v) x x')) rms draws = Ok out2 /\ forall k, (k < g_N g)%nat -> nth k out2 0 = p * nth k out 0 + q * nth k out' 0.
Proof.
  intros LS LD E E'. destruct (jitter_inv _ _ _ _ _ _ E LD) as (N & L & F & _ & V). destruct (jitter_inv _ _ _ _ _ _ E' LD) as (_ & L' & _ & _ & V').
  destruct (jitter_ok lin g (map2 (fun u v => p * u + q * v) x x') rms draws N) as [o O]; [rewrite map2_length; congruence | exact F |]. exists o. split; [exact O |]. intros k K. destruct (jitter_inv _ _ _ _ _ _ O LD) as (_ & _ & _ & _ & W). rewrite W, V, V' by exact K. assert (H : 0 < / g_Fs g) by (apply Rinv_0_lt_compat; exact F).
  rewrite <- at_linear by assumption. apply at_ext; [exact LS | exact N | exact H |]. intros i I. rewrite (map2_nth _ _ _ i 0 0 0) by congruence. reflexivity.
Qed.
(** Without a signal the generator's sine is recomputed at the disturbed times. *)
Lemma c197_from_scratch lin g rms draws : length draws = g_N g -> exists out, apply_jitter lin g None rms draws = Ok out /\ length out = g_N g /\
  forall k, (k < g_N g)%nat -> nth k out 0 = g_A g * sin (2 * PI * g_Fin g * (INR k / g_Fs g + nth k draws 0 * rms)) + g_DC g.
Proof.
  intros LD. eexists. split; [reflexivity |]. unfold jitter_clean. split; [rewrite map2_length by (rewrite seq_length; lia); apply seq_length |]. intros k K. rewrite (map2_nth _ _ _ k 0%nat 0 0) by (rewrite ?seq_length; lia). rewrite seq_nth by exact K. reflexivity.
Qed.
(** The result need not stay between the smallest and the largest sample of the signal: beyond the ends the outermost cubic goes on. *)
Lemma c197_bounded_refuted : exists g x rms draws out, length draws = g_N g /\ apply_jitter gs_lstsq g (Some x) rms draws = Ok out /\ (forall v, In v x -> 0 <= v <= 1) /\ exists v, In v out /\ 1 < v.
Proof.
  set (g := mkGen 4 1 0 1 0). set (x := [0; 1 / 9; 4 / 9; 1]). set (dr := [0; 0; 0; 1]). destruct (jitter_ok gs_lstsq g x 1 dr) as [out E]; [cbn; lia | reflexivity | cbn; lra |]. exists g, x, 1, dr, out. split; [reflexivity |]. split; [exact E |]. split; [unfold x; intros v [<- | [<- | [<- | [<- | []]]]]; lra |].
  exists (nth 3 out 0). destruct (jitter_inv _ _ _ _ _ _ E eq_refl) as (_ & _ & _ & LO & _). split; [apply nth_In; rewrite LO; cbn; lia |]. rewrite (c197_cubic gs_lstsq g 0 0 (1 / 9) 0 x 1 dr out 3 gs_least_squares E); [unfold cubic; cbn; lra | reflexivity | cbn; lia | | cbn; lia].
  intros j J. cbn in J. do 4 (destruct j as [| j]; [unfold cubic; cbn; field |]). lia.
Qed.
(** *** C197 examples *)
Definition jex := mkGen 4 2 (1 / 8) 1 0.
Example c197_is_spline_ex : not_a_knot 4 (1 / 2) (fun k => nth k [0; 1; 8; 27] 0) (fun i => INR i ^ 3) (fun i => 6 * INR i ^ 2) (fun i => 12 * INR i) (fun _ => 8) /\ interval_of 4 (1 / 2) (INR 1 / 2 + 3 * (1 / 4)) 2.
Proof.
  split.
  - split; [| split; [| split; reflexivity]].
    + intros i I. do 3 (destruct i as [| i]; [cbn; split; field |]). lia.
    + intros i I. do 2 (destruct i as [| i]; [cbn; split; field |]). lia.
  - split; [lia |]. split; [left; cbn; lra | right; reflexivity].
Qed.
Example c197_cubic_ex : exists out, apply_jitter gs_lstsq jex (Some [0; 1; 8; 27]) (1 / 4) [0; 3; - (1); 2] = Ok out /\ nth 0 out 0 = 0 /\ nth 1 out 0 = 125 / 8 /\ nth 2 out 0 = 27 / 8 /\ nth 3 out 0 = 64.
Proof.
  destruct (jitter_ok gs_lstsq jex [0; 1; 8; 27] (1 / 4) [0; 3; - (1); 2]) as [out E]; [cbn; lia | reflexivity | cbn; lra |]. exists out. split; [exact E |].
  assert (V : forall k, (k < 4)%nat -> nth k out 0 = cubic 0 0 0 8 (INR k / 2 + nth k [0; 3; - (1); 2] 0 * (1 / 4))) by (intros k K; apply (c197_cubic gs_lstsq jex 0 0 0 8 [0; 1; 8; 27] (1 / 4) _ out k gs_least_squares E); [reflexivity | cbn; lia | | exact K]; intros j J; cbn in J; do 4 (destruct j as [| j]; [unfold cubic; cbn; field |]); lia).
  rewrite !V by lia. unfold cubic. cbn. repeat split; field.
Qed.
Example c197_small_ex : exists out, apply_jitter gs_lstsq (mkGen 3 1 0 1 0) (Some [1; 0; 1]) (1 / 2) [1; 1; 1] = Ok out /\ nth 0 out 0 = 1 / 4 /\ nth 2 out 0 = 9 / 4.
Proof.
  destruct (jitter_ok gs_lstsq (mkGen 3 1 0 1 0) [1; 0; 1] (1 / 2) [1; 1; 1]) as [out E]; [cbn; lia | reflexivity | cbn; lra |]. exists out. split; [exact E |].
  destruct (c197_small gs_lstsq _ _ _ _ out 0 gs_least_squares E eq_refl ltac:(cbn; lia)) as [_ A]. destruct (c197_small gs_lstsq _ _ _ _ out 2 gs_least_squares E eq_refl ltac:(cbn; lia)) as [_ B]. rewrite (A eq_refl), (B eq_refl). cbn. split; field.
Qed.
Example c197_when_ex lin : apply_jitter lin (mkGen 4 2 0 1 0) (Some [1; 2; 3]) 1 [0; 0; 0; 0] = Err ValueError.
Proof. reflexivity. Qed.
(** ** The filter *)
Definition comb (p q : R) : list R -> list R -> list R := map2 (fun u v => p * u + q * v).
Lemma comb_length p q x y : length x = length y -> length (comb p q x y) = length x.
Proof. apply map2_length. Qed.
Lemma comb_nth p q x y i : length x = length y -> nth i (comb p q x y) 0 = p * nth i x 0 + q * nth i y 0.
Proof.
  revert y i. induction x as [| u x IH]; intros [| v y] i L; try discriminate L; [cbn; destruct i; ring |]. destruct i; [reflexivity |]. change (nth i (comb p q x y) 0 = p * nth i x 0 + q * nth i y 0). apply IH. injection L. auto.
Qed.
Lemma list_ext_R (x y : list R) : length x = length y -> (forall i, (i < length x)%nat -> nth i x 0 = nth i y 0) -> x = y.
Proof. intros L E. apply (nth_ext x y 0 0 L E). Qed.
Lemma lfilter2_length b0 b1 b2 a1 a2 x : forall z0 z1, length (lfilter2 b0 b1 b2 a1 a2 z0 z1 x) = length x.
Proof. induction x as [| v x IH]; intros; cbn; [reflexivity |]. rewrite IH. reflexivity. Qed.
Lemma lfilter2_comb b0 b1 b2 a1 a2 p q x : forall y z0 z1 w0 w1, length x = length y ->
  lfilter2 b0 b1 b2 a1 a2 (p * z0 + q * w0) (p * z1 + q * w1) (comb p q x y) = comb p q (lfilter2 b0 b1 b2 a1 a2 z0 z1 x) (lfilter2 b0 b1 b2 a1 a2 w0 w1 y).
Proof.
  induction x as [| u x IH]; intros [| v y] z0 z1 w0 w1 L; try discriminate L; [reflexivity |]. unfold comb. cbn [map2 lfilter2]. fold (comb p q). f_equal; [ring |]. injection L as L. rewrite <- IH by exact L. f_equal; ring.
Qed.
Lemma comb_app p q x x' y y' : length x = length y -> comb p q (x ++ x') (y ++ y') = comb p q x y ++ comb p q x' y'.
Proof. revert y. induction x as [| u x IH]; intros [| v y] L; try discriminate L; [reflexivity |]. unfold comb. cbn. f_equal. apply IH. injection L. auto. Qed.
Lemma comb_rev p q x y : length x = length y -> rev (comb p q x y) = comb p q (rev x) (rev y).
Proof.
  revert y. induction x as [| u x IH]; intros [| v y] L; try discriminate L; [reflexivity |]. injection L as L. unfold comb. cbn [map2 rev]. fold (comb p q). rewrite IH, comb_app by (rewrite ?rev_length; exact L). reflexivity.
Qed.
Lemma comb_firstn p q n x y : firstn n (comb p q x y) = comb p q (firstn n x) (firstn n y).
Proof. revert x y. induction n as [| n IH]; intros [| u x] [| v y]; try reflexivity. unfold comb. cbn. f_equal. apply IH. Qed.
Lemma comb_skipn p q n x y : length x = length y -> skipn n (comb p q x y) = comb p q (skipn n x) (skipn n y).
Proof. revert x y. induction n as [| n IH]; intros [| u x] [| v y] L; try discriminate L; try reflexivity. unfold comb. cbn. apply IH. injection L. auto. Qed.
Lemma comb_hd p q x y : length x = length y -> hd 0 (comb p q x y) = p * hd 0 x + q * hd 0 y.
Proof. destruct x, y; intros L; try discriminate L; cbn; ring. Qed.
Lemma odd_ext_length e x : length (odd_ext e x) = (e + length x + e)%nat.
Proof. unfold odd_ext. rewrite !app_length, !map_length, !seq_length. lia. Qed.
Lemma comb_map {A} p q (f g : A -> R) l : comb p q (map f l) (map g l) = map (fun i => p * f i + q * g i) l.
Proof. induction l as [| i l IH]; [reflexivity |]. unfold comb. cbn. f_equal. exact IH. Qed.
Lemma odd_ext_comb p q e x y : length x = length y -> odd_ext e (comb p q x y) = comb p q (odd_ext e x) (odd_ext e y).
Proof.
  intros L. unfold odd_ext. rewrite comb_length by exact L. rewrite comb_app by (rewrite !map_length; reflexivity). rewrite comb_app by exact L. rewrite <- L, !comb_map. f_equal; [| f_equal]; apply map_ext; intros i; rewrite !comb_nth by exact L; ring.
Qed.
Lemma pass_comb b0 b1 b2 a1 a2 u v p q x y : length x = length y ->
  lfilter2 b0 b1 b2 a1 a2 (u * hd 0 (comb p q x y)) (v * hd 0 (comb p q x y)) (comb p q x y) =
  comb p q (lfilter2 b0 b1 b2 a1 a2 (u * hd 0 x) (v * hd 0 x) x) (lfilter2 b0 b1 b2 a1 a2 (u * hd 0 y) (v * hd 0 y) y).
Proof. intros L. rewrite <- lfilter2_comb by exact L. rewrite comb_hd by exact L. f_equal; ring. Qed.
Lemma filtfilt_comb c p q x y X Y : length x = length y -> filtfilt c x = Ok X -> filtfilt c y = Ok Y -> filtfilt c (comb p q x y) = Ok (comb p q X Y).
Proof.
  intros L. unfold filtfilt, raise_if. rewrite comb_length, <- L by exact L. destruct (length x <=? 9)%nat; [discriminate |]. intros EX EY. injection EX as <-. injection EY as <-. f_equal.
  rewrite odd_ext_comb by exact L. rewrite pass_comb by (rewrite !odd_ext_length; lia). rewrite comb_rev by (rewrite !lfilter2_length, !odd_ext_length; lia). rewrite pass_comb by (rewrite !rev_length, !lfilter2_length, !odd_ext_length; lia). rewrite comb_rev by (rewrite !lfilter2_length, !rev_length, !lfilter2_length, !odd_ext_length; lia). rewrite comb_skipn by (rewrite !rev_length, !lfilter2_length, !rev_length, !lfilter2_length, !odd_ext_length; lia). apply comb_firstn.
Qed.
Lemma filtfilt_ok c x : (10 <= length x)%nat -> exists X, filtfilt c x = Ok X /\ length X = length x.
Proof.
  intros L. unfold filtfilt, raise_if. destruct (Nat.leb_spec (length x) 9); [lia |]. eexists. split; [reflexivity |]. rewrite firstn_length, skipn_length, rev_length, lfilter2_length, rev_length, lfilter2_length, odd_ext_length. lia.
Qed.
Lemma filtfilt_err c x : (length x <= 9)%nat -> filtfilt c x = Err ValueError.
Proof. intros L. unfold filtfilt, raise_if. rewrite (proj2 (Nat.leb_le _ _) L). reflexivity. Qed.
Lemma cumsum_length x : forall acc, length (cumsum_from acc x) = length x.
Proof. induction x as [| v x IH]; intros; cbn; [reflexivity |]. rewrite IH. reflexivity. Qed.
Lemma cumsum_comb p q x : forall y a b, length x = length y -> cumsum_from (p * a + q * b) (comb p q x y) = comb p q (cumsum_from a x) (cumsum_from b y).
Proof.
  induction x as [| u x IH]; intros [| v y] a b L; try discriminate L; [reflexivity |]. unfold comb. cbn [map2 cumsum_from]. fold (comb p q). replace (p * a + q * b + (p * u + q * v)) with (p * (a + u) + q * (b + v)) by ring. rewrite IH by (injection L; auto). reflexivity.
Qed.
Lemma cumsum_zero x : forall acc, Forall (eq 0) x -> Forall (eq acc) (cumsum_from acc x).
Proof. induction x as [| v x IH]; intros acc F; [constructor |]. inversion F as [| ? ? E F']; subst. cbn. rewrite Rplus_0_r. constructor; [reflexivity | apply IH; exact F']. Qed.
Definition drift_of (draws : list R) (scale : R) : result (list R) := filtfilt (butter2 0.001) (cumsum_from 0 (map (fun d => d * scale) draws)).
Lemma walk_length draws scale : length (cumsum_from 0 (map (fun d => d * scale) draws)) = length draws.
Proof. rewrite cumsum_length, map_length. reflexivity. Qed.
Lemma drift_inv g s scale draws out : apply_drift g s scale draws = Ok out -> length (resolve_signal g s) = length draws -> (10 <= length draws)%nat /\ exists D, drift_of draws scale = Ok D /\ length D = length draws /\ out = map2 Rplus (resolve_signal g s) D.
Proof.
  unfold apply_drift, drift_of. intros E L. destruct (Nat.le_gt_cases (length draws) 9) as [Q | Q]; [rewrite filtfilt_err in E by (rewrite walk_length; exact Q); discriminate E |]. destruct (filtfilt_ok (butter2 0.001) (cumsum_from 0 (map (fun d => d * scale) draws))) as (D & ED & LD); [rewrite walk_length; lia |]. rewrite walk_length in LD. rewrite ED in E. cbn [bind] in E. rewrite L, LD, Nat.eqb_refl in E. injection E as <-. split; [lia |]. exists D. auto.
Qed.
Lemma drift_ok g s scale draws : length (resolve_signal g s) = length draws -> (10 <= length draws)%nat -> exists out, apply_drift g s scale draws = Ok out.
Proof.
  intros L N. unfold apply_drift. destruct (filtfilt_ok (butter2 0.001) (cumsum_from 0 (map (fun d => d * scale) draws))) as (D & ED & LD); [rewrite walk_length; lia |]. rewrite ED. cbn [bind]. rewrite LD, walk_length, L, Nat.eqb_refl. eexists. reflexivity.
Qed.
(** *** The coefficients of the low-pass *)
Lemma butter2_facts w : 0 < w < 1 -> let k := tan (PI * w / 2) in 0 < k /\ 0 < 1 + sqrt 2 * k + k ^ 2.
Proof.
  intros W k. assert (P := PI_RGT_0). assert (K : 0 < k) by (apply tan_gt_0; nra). split; [exact K |]. assert (0 <= sqrt 2) by apply sqrt_pos. nra.
Qed.
Lemma butter_sums w : 0 < w < 1 -> let b := fst (butter2 w) in let a := snd (butter2 w) in nth 0 b 0 + nth 1 b 0 + nth 2 b 0 = 1 + nth 1 a 0 + nth 2 a 0 /\ 0 < 1 + nth 1 a 0 + nth 2 a 0.
Proof.
  intros W. destruct (butter2_facts w W) as [K D]. unfold butter2. cbn [fst snd nth]. set (k := tan (PI * w / 2)) in *. cbv zeta. set (d := 1 + sqrt 2 * k + k ^ 2) in *. assert (E : 1 + 2 * (k ^ 2 - 1) / d + (1 - sqrt 2 * k + k ^ 2) / d = 4 * (k ^ 2 / d)) by (unfold d; field; unfold d in D; lra).
  rewrite E. split; [ring |]. assert (0 < k ^ 2 / d) by (apply Rdiv_lt_0_compat; [nra | exact D]). lra.
Qed.
Lemma pass_constant b0 b1 b2 a1 a2 v l : b0 + b1 + b2 = 1 + a1 + a2 -> 0 < 1 + a1 + a2 -> Forall (eq v) l -> let zi := lfilter_zi2 b0 b1 b2 a1 a2 in Forall (eq v) (lfilter2 b0 b1 b2 a1 a2 (fst zi * hd 0 l) (snd zi * hd 0 l) l).
Proof.
  intros S P F. destruct l as [| u l]; [constructor |]. assert (U : v = u) by (inversion F; assumption). subst u. cbn [hd]. cbv zeta. set (zi := lfilter_zi2 b0 b1 b2 a1 a2).
  assert (Z0 : fst zi = 1 - b0). { unfold zi, lfilter_zi2. cbn [fst]. replace (b1 - a1 * b0 + (b2 - a2 * b0)) with ((1 - b0) * (1 + a1 + a2)) by (transitivity (b1 + b2 - b0 * (a1 + a2)); [replace b2 with (1 + a1 + a2 - b0 - b1) by lra; ring | ring]). field. lra. }
  assert (Z1 : snd zi = b2 - a2). { change (snd zi) with ((1 + a1) * fst zi - (b1 - a1 * b0)). rewrite Z0. replace b2 with (1 + a1 + a2 - b0 - b1) by lra. ring. }
  clearbody zi. rewrite Z0, Z1. revert F. generalize (v :: l). induction l0 as [| u t IH]; intros F; [constructor |]. assert (U : v = u) by (inversion F; assumption). subst u. assert (F' : Forall (eq v) t) by (inversion F; assumption). cbn [lfilter2]. replace (b0 * v + (1 - b0) * v) with v by ring. constructor; [reflexivity |]. replace (b1 * v - a1 * v + (b2 - a2) * v) with ((1 - b0) * v) by (replace b2 with (1 + a1 + a2 - b0 - b1) by lra; ring). replace (b2 * v - a2 * v) with ((b2 - a2) * v) by ring. apply IH. exact F'.
Qed.
Lemma Forall_nth_eq (v : R) l i : Forall (eq v) l -> (i < length l)%nat -> nth i l 0 = v.
Proof. intros F I. rewrite Forall_forall in F. symmetry. apply F. apply nth_In. exact I. Qed.
Lemma odd_ext_constant v x : (10 <= length x)%nat -> Forall (eq v) x -> Forall (eq v) (odd_ext 9 x).
Proof.
  intros L F. unfold odd_ext. apply Forall_app. split; [| apply Forall_app; split; [exact F |]]; apply Forall_forall; intros u I; apply in_map_iff in I; destruct I as (i & <- & I); apply in_seq in I; rewrite !(Forall_nth_eq v) by (try exact F; lia); ring.
Qed.
Lemma filtfilt_constant w v x X : 0 < w < 1 -> Forall (eq v) x -> filtfilt (butter2 w) x = Ok X -> Forall (eq v) X.
Proof.
  intros W F. destruct (butter_sums w W) as [S P]. cbv zeta in S, P. unfold filtfilt, raise_if. destruct (Nat.leb_spec (length x) 9) as [Q | Q]; [discriminate |]. intros E. assert (OK : forall (a b : list R), Ok a = Ok b -> a = b) by (intros a b O; injection O; auto). apply OK in E. subst X. clear OK.
  assert (J : forall n (l : list R), Forall (eq v) l -> Forall (eq v) (firstn n l)) by (intros n l A; rewrite <- (firstn_skipn n l) in A; apply Forall_app in A; tauto). assert (J' : forall n (l : list R), Forall (eq v) l -> Forall (eq v) (skipn n l)) by (intros n l A; rewrite <- (firstn_skipn n l) in A; apply Forall_app in A; tauto). apply J. apply J'. apply Forall_rev.
  apply pass_constant; [exact S | exact P |]. apply Forall_rev. apply pass_constant; [exact S | exact P |]. apply odd_ext_constant; [lia | exact F].
Qed.
Lemma lfilter2_step b0 b1 b2 a1 a2 n : forall l z0 z1, (n + 2 < length l)%nat -> let y := lfilter2 b0 b1 b2 a1 a2 z0 z1 l in
  nth (n + 2) y 0 = b0 * nth (n + 2) l 0 + b1 * nth (n + 1) l 0 + b2 * nth n l 0 - a1 * nth (n + 1) y 0 - a2 * nth n y 0.
Proof.
  induction n as [| n IH]; intros l z0 z1 L.
  - destruct l as [| v0 [| v1 [| v2 l]]]; cbn in L; try lia. cbn. ring.
  - destruct l as [| v0 l]; cbn in L; [lia |]. cbn [lfilter2 Nat.add nth]. cbv zeta. apply IH. lia.
Qed.
Lemma pass_spec b0 b1 b2 a1 a2 l : b0 + b1 + b2 = 1 + a1 + a2 -> 0 < 1 + a1 + a2 -> (2 <= length l)%nat -> let zi := lfilter_zi2 b0 b1 b2 a1 a2 in let y := lfilter2 b0 b1 b2 a1 a2 (fst zi * hd 0 l) (snd zi * hd 0 l) l in
  nth 0 y 0 = nth 0 l 0 /\ nth 1 y 0 = nth 0 l 0 + b0 * (nth 1 l 0 - nth 0 l 0) /\
  forall n, (n + 2 < length l)%nat -> nth (n + 2) y 0 = b0 * nth (n + 2) l 0 + b1 * nth (n + 1) l 0 + b2 * nth n l 0 - a1 * nth (n + 1) y 0 - a2 * nth n y 0.
Proof.
  intros S P L zi y.
  assert (Z0 : fst zi = 1 - b0). { unfold zi, lfilter_zi2. cbn [fst]. replace (b1 - a1 * b0 + (b2 - a2 * b0)) with ((1 - b0) * (1 + a1 + a2)) by (transitivity (b1 + b2 - b0 * (a1 + a2)); [replace b2 with (1 + a1 + a2 - b0 - b1) by lra; ring | ring]). field. lra. }
  assert (Z1 : snd zi = b2 - a2). { change (snd zi) with ((1 + a1) * fst zi - (b1 - a1 * b0)). rewrite Z0. replace b2 with (1 + a1 + a2 - b0 - b1) by lra. ring. }
  unfold y. rewrite Z0, Z1. split; [| split].
  - destruct l; cbn in L; [lia |]. cbn. ring.
  - destruct l as [| u [| v l]]; cbn in L; try lia. cbn. replace b2 with (1 + a1 + a2 - b0 - b1) by lra. ring.
  - intros n N. apply lfilter2_step. exact N.
Qed.
Lemma cumsum_nth x k : forall acc, (k < length x)%nat -> nth k (cumsum_from acc x) 0 = acc + rsum (k + 1) (fun i => nth i x 0).
Proof.
  revert k. induction x as [| v x IH]; intros k acc K; cbn in K; [lia |]. destruct k as [| k]; [cbn; ring |]. cbn [cumsum_from nth]. rewrite IH by lia. rewrite (rsum_app 1 (k + 1)). cbn [rsum Nat.add nth]. ring.
Qed.
Lemma odd_ext_nth e x i : (e < length x)%nat -> (i < e + length x + e)%nat -> nth i (odd_ext e x) 0 = if (i <? e)%nat then 2 * nth 0 x 0 - nth (e - i) x 0 else if (i <? e + length x)%nat then nth (i - e) x 0 else 2 * nth (length x - 1) x 0 - nth (length x - 2 - (i - e - length x)) x 0.
Proof.
  intros E I. unfold odd_ext. destruct (Nat.ltb_spec i e) as [A | A].
  - rewrite app_nth1 by (rewrite map_length, seq_length; exact A). rewrite (nth_map_in _ _ i 0%nat) by (rewrite seq_length; exact A). rewrite seq_nth by exact A. reflexivity.
  - rewrite app_nth2 by (rewrite map_length, seq_length; exact A). rewrite map_length, seq_length. destruct (Nat.ltb_spec i (e + length x)) as [B | B]; [rewrite app_nth1 by lia; reflexivity |]. rewrite app_nth2 by lia. rewrite (nth_map_in _ _ _ 0%nat) by (rewrite seq_length; lia). rewrite seq_nth by lia. reflexivity.
Qed.
Lemma nth_firstn_skipn (l : list R) a n i : (i < n)%nat -> nth i (firstn n (skipn a l)) 0 = nth (a + i) l 0.
Proof. intros I. rewrite <- (firstn_skipn n (skipn a l)) at 1 || idtac. transitivity (nth i (skipn a l) 0); [| revert l; induction a as [| a IH]; intros l; [reflexivity |]; destruct l as [| u l]; [destruct i; reflexivity | apply IH]]. generalize (skipn a l). revert n I. induction i as [| i IH]; intros n I m; destruct n as [| n], m as [| u m]; try lia; try reflexivity. cbn. apply IH. lia. Qed.
(** ** C198: apply_drift *)
(** When it runs: ten samples or more and a signal as long as the record (a single value is repeated); otherwise a ValueError. *)
Lemma c198_when g x scale draws : length draws = g_N g ->
  match apply_drift g (Some x) scale draws with
  | Ok out => (10 <= g_N g)%nat /\ (length x = g_N g \/ length x = 1%nat) /\ length out = g_N g
  | Err e => e = ValueError /\ ((g_N g <= 9)%nat \/ (length x <> g_N g /\ length x <> 1%nat))
  end.
Proof.
  intros LD. unfold apply_drift. cbn [resolve_signal]. destruct (Nat.le_gt_cases (g_N g) 9) as [Q | Q].
  - rewrite filtfilt_err by (rewrite walk_length; lia). cbn. auto.
  - destruct (filtfilt_ok (butter2 0.001) (cumsum_from 0 (map (fun d => d * scale) draws))) as (D & ED & LL); [rewrite walk_length; lia |]. rewrite walk_length in LL. rewrite ED. cbn [bind]. rewrite LL, LD. destruct (Nat.eqb_spec (length x) (g_N g)) as [A | A]; [rewrite map2_length by congruence; repeat split; auto; lia |]. destruct (Nat.eqb_spec (length x) 1) as [B | B]; [rewrite map_length, LL; repeat split; auto; lia |]. auto.
Qed.
(** A record of fewer than ten samples is an error, whatever the signal, also the generator's own. *)
Lemma c198_short g s scale draws : length draws = g_N g -> (g_N g < 10)%nat -> apply_drift g s scale draws = Err ValueError.
Proof. intros LD N. unfold apply_drift. rewrite filtfilt_err by (rewrite walk_length; lia). reflexivity. Qed.
(** What is added: the running sum of the scaled draws, continued by nine point-mirrored samples at either end, passed through the
    low-pass forwards and then backwards, each time starting as if the first value had always been there. *)
Lemma c198_filtered g x scale draws out : length draws = g_N g -> length x = g_N g -> apply_drift g (Some x) scale draws = Ok out ->
  let N := g_N g in
  let b i := nth i (fst (butter2 0.001)) 0 in let a i := nth i (snd (butter2 0.001)) 0 in
  exists E F G : nat -> R,
  (forall k, (k < N)%nat -> E (9 + k)%nat = scale * rsum (k + 1) (fun i => nth i draws 0)) /\
  (forall k, (k <= 9)%nat -> E (9 - k)%nat = 2 * E 9%nat - E (9 + k)%nat) /\
  (forall k, (k <= 9)%nat -> E (N + 8 + k)%nat = 2 * E (N + 8)%nat - E (N + 8 - k)%nat) /\
  F 0%nat = E 0%nat /\ F 1%nat = E 0%nat + b 0%nat * (E 1%nat - E 0%nat) /\
  (forall n, (n + 2 < N + 18)%nat -> F (n + 2)%nat = b 0%nat * E (n + 2)%nat + b 1%nat * E (n + 1)%nat + b 2%nat * E n - a 1%nat * F (n + 1)%nat - a 2%nat * F n) /\
  G (N + 17)%nat = F (N + 17)%nat /\ G (N + 16)%nat = F (N + 17)%nat + b 0%nat * (F (N + 16)%nat - F (N + 17)%nat) /\
  (forall n, (n + 2 < N + 18)%nat -> G n = b 0%nat * F n + b 1%nat * F (n + 1)%nat + b 2%nat * F (n + 2)%nat - a 1%nat * G (n + 1)%nat - a 2%nat * G (n + 2)%nat) /\
  forall k, (k < N)%nat -> nth k out 0 = nth k x 0 + G (9 + k)%nat.
Proof.
  intros LD LX EQ N b a. destruct (drift_inv g (Some x) scale draws out EQ) as (N10 & D & ED & LDD & ->); [cbn; congruence |]. cbn [resolve_signal]. assert (NN : length draws = N) by exact LD. clear EQ.
  assert (W : 0 < 0.001 < 1) by lra. destruct (butter_sums 0.001 W) as [BS BP]. cbv zeta in BS, BP. unfold drift_of, filtfilt, raise_if in ED. set (walk := cumsum_from 0 (map (fun d => d * scale) draws)) in *. assert (LW : length walk = N) by (unfold walk; rewrite walk_length; exact LD). destruct (Nat.leb_spec (length walk) 9); [lia |].
  assert (OK : forall (a b : list R), Ok a = Ok b -> a = b) by (intros p q O; injection O; auto). apply OK in ED. clear OK. fold (b 0%nat) (b 1%nat) (b 2%nat) (a 1%nat) (a 2%nat) in *. clearbody b a. set (e := odd_ext 9 walk) in *. assert (LE : length e = (N + 18)%nat) by (unfold e; rewrite odd_ext_length; lia).
  set (f := lfilter2 _ _ _ _ _ _ _ e) in ED. assert (LF : length f = (N + 18)%nat) by (unfold f; rewrite lfilter2_length; exact LE).
  set (h := lfilter2 _ _ _ _ _ _ _ (rev f)) in ED. assert (LH : length h = (N + 18)%nat) by (unfold h; rewrite lfilter2_length, rev_length; exact LF).
  destruct (pass_spec (b 0%nat) (b 1%nat) (b 2%nat) (a 1%nat) (a 2%nat) e BS BP ltac:(lia)) as (F0 & F1 & FS). fold f in F0, F1, FS. destruct (pass_spec (b 0%nat) (b 1%nat) (b 2%nat) (a 1%nat) (a 2%nat) (rev f) BS BP ltac:(rewrite rev_length; lia)) as (G0 & G1 & GS). fold h in G0, G1, GS. rewrite rev_length in GS.
  assert (RF : forall i, (i < N + 18)%nat -> nth i (rev f) 0 = nth (N + 17 - i) f 0) by (intros i I; rewrite rev_nth by lia; f_equal; lia).
  assert (RH : forall i, (i < N + 18)%nat -> nth i (rev h) 0 = nth (N + 17 - i) h 0) by (intros i I; rewrite rev_nth by lia; f_equal; lia).
  assert (EN : forall i, (i < N + 18)%nat -> nth i e 0 = if (i <? 9)%nat then 2 * nth 0 walk 0 - nth (9 - i) walk 0 else if (i <? 9 + N)%nat then nth (i - 9) walk 0 else 2 * nth (N - 1) walk 0 - nth (N - 2 - (i - 9 - N)) walk 0) by (intros i I; unfold e; rewrite odd_ext_nth by lia; rewrite LW; reflexivity).
  assert (EM : forall k, (k < N)%nat -> nth (9 + k) e 0 = nth k walk 0) by (intros k K; rewrite EN by lia; destruct (Nat.ltb_spec (9 + k) 9); [lia |]; destruct (Nat.ltb_spec (9 + k) (9 + N)); [f_equal; lia | lia]).
  exists (fun i => nth i e 0), (fun i => nth i f 0), (fun i => nth i (rev h) 0). cbv beta.
  split; [| split; [| split; [| split; [| split; [| split; [| split; [| split; [| split]]]]]]]].
  - intros k K. rewrite EM by exact K. unfold walk. rewrite cumsum_nth by (rewrite map_length; lia). rewrite Rplus_0_l, <- rsum_scale. apply rsum_ext. intros i I. rewrite (nth_map_in _ _ i 0) by lia. ring.
  - intros k K. destruct (Nat.eq_dec k 0) as [-> | K0]; [cbn [Nat.sub Nat.add]; ring |]. rewrite (EN (9 - k)%nat) by lia. destruct (Nat.ltb_spec (9 - k) 9); [| lia]. rewrite EM by lia. pose proof (EM 0%nat ltac:(lia)) as Q. rewrite Nat.add_0_r in Q. rewrite Q. replace (9 - (9 - k))%nat with k by lia. ring.
  - intros k K. destruct (Nat.eq_dec k 0) as [-> | K0]; [rewrite Nat.add_0_r, Nat.sub_0_r; ring |]. rewrite (EN (N + 8 + k)%nat) by lia. destruct (Nat.ltb_spec (N + 8 + k) 9); [lia |]. destruct (Nat.ltb_spec (N + 8 + k) (9 + N)); [lia |]. replace (N + 8)%nat with (9 + (N - 1))%nat by lia. rewrite (EM (N - 1)%nat) by lia. replace (9 + (N - 1) - k)%nat with (9 + (N - 1 - k))%nat by lia. rewrite EM by lia. replace (N - 2 - (9 + (N - 1) + k - 9 - N))%nat with (N - 1 - k)%nat by lia. ring.
  - exact F0.
  - exact F1.
  - intros n K. apply FS. lia.
  - rewrite RH by lia. rewrite Nat.sub_diag, G0, RF by lia. f_equal. lia.
  - rewrite RH by lia. replace (N + 17 - (N + 16))%nat with 1%nat by lia. rewrite G1, !RF by lia. rewrite Nat.sub_0_r. replace (N + 17 - 1)%nat with (N + 16)%nat by lia. reflexivity.
  - intros n K. rewrite !RH by lia. specialize (GS (N + 15 - n)%nat ltac:(lia)). rewrite !RF in GS by lia. replace (N + 17 - n)%nat with (N + 15 - n + 2)%nat by lia. rewrite GS. replace (N + 17 - (n + 1))%nat with (N + 15 - n + 1)%nat by lia. replace (N + 17 - (n + 2))%nat with (N + 15 - n)%nat by lia.
    replace (N + 17 - (N + 15 - n + 2))%nat with n by lia. replace (N + 17 - (N + 15 - n + 1))%nat with (n + 1)%nat by lia. replace (N + 17 - (N + 15 - n))%nat with (n + 2)%nat by lia. reflexivity.
  - intros k K. rewrite (map2_nth _ _ _ k 0 0 0) by lia. f_equal. subst D. rewrite LW. apply nth_firstn_skipn. exact K.
Qed.
(** The low-pass: second order Butterworth, with the power gain 1 / (1 + (tan(w/2) / tan(wc/2))^4) at the angular frequency w per
    sample, so half the power at the cutoff wc = PI/1000 and all of it at frequency 0; and it is stable. *)
Lemma c198_response w : cos (w / 2) <> 0 -> let b := fst (butter2 0.001) in let a := snd (butter2 0.001) in
  nth 0 a 0 = 1 /\ gain2 b w * (1 + (tan (w / 2) / tan (PI / 1000 / 2)) ^ 4) = gain2 a w /\
  gain2 b (PI / 1000) = gain2 a (PI / 1000) / 2 /\ gain2 b 0 = gain2 a 0 /\ 0 < gain2 a 0 /\ Rabs (nth 1 a 0) < 1 + nth 2 a 0 /\ nth 2 a 0 < 1.
Proof.
  assert (W : 0 < 0.001 < 1) by lra. destruct (butter2_facts 0.001 W) as [K D]. assert (KE : tan (PI * 0.001 / 2) = tan (PI / 1000 / 2)) by (replace (PI * 0.001 / 2) with (PI / 1000 / 2) by lra; reflexivity).
  assert (S2 : sqrt 2 ^ 2 = 2) by (rewrite <- Rsqr_pow2; apply Rsqr_sqrt; lra). assert (SP : 0 < sqrt 2) by (apply sqrt_lt_R0; lra).
  assert (GEN : forall v, cos (v / 2) <> 0 -> gain2 (fst (butter2 0.001)) v * (1 + (tan (v / 2) / tan (PI / 1000 / 2)) ^ 4) = gain2 (snd (butter2 0.001)) v).
  { intros v C. unfold gain2, butter2. cbn [fst snd nth]. cbv zeta. rewrite <- KE. set (k := tan (PI * 0.001 / 2)) in *. set (r := sqrt 2) in *. set (d := 1 + r * k + k ^ 2) in *.
    unfold tan. set (c := cos (v / 2)) in *. set (s := sin (v / 2)). assert (SC : s ^ 2 = 1 - c ^ 2) by (pose proof (sin2_cos2 (v / 2)) as Q; unfold Rsqr in Q; fold s c in Q; lra).
    assert (CV : cos v = 2 * c ^ 2 - 1) by (replace v with (2 * (v / 2)) by field; rewrite cos_2a_cos; fold c; ring). assert (SV : sin v = 2 * s * c) by (replace v with (2 * (v / 2)) by field; rewrite sin_2a; fold s c; ring). rewrite cos_2a_cos, sin_2a, CV, SV.
    set (t := c ^ 2) in *.
    assert (L : (k ^ 2 / d + 2 * (k ^ 2 / d) * (2 * t - 1) + k ^ 2 / d * (2 * (2 * t - 1) * (2 * t - 1) - 1)) ^ 2 + (2 * (k ^ 2 / d) * (2 * s * c) + k ^ 2 / d * (2 * (2 * s * c) * (2 * t - 1))) ^ 2 = 16 * t ^ 2 * (k ^ 2 / d) ^ 2).
    { set (q := k ^ 2 / d). replace ((2 * q * (2 * s * c) + q * (2 * (2 * s * c) * (2 * t - 1))) ^ 2) with (q ^ 2 * 64 * (s ^ 2 * c ^ 2) * t ^ 2) by (unfold t; ring). rewrite SC. fold t. ring. }
    rewrite L. clear L. replace (s / c / k) with (s / (c * k)) by (field; split; lra || exact C). replace ((s / (c * k)) ^ 4) with ((s ^ 2) ^ 2 / (t ^ 2 * k ^ 4)) by (unfold t; field; split; lra || exact C). rewrite SC. assert (T0 : t <> 0) by (unfold t; apply pow_nonzero; exact C).
    transitivity (16 / d ^ 2 * (t ^ 2 * k ^ 4 + (1 - t) ^ 2)); [field; repeat split; lra |].
    set (A1 := 2 * (k ^ 2 - 1) / d). set (A2 := (1 - r * k + k ^ 2) / d). replace ((A1 * (2 * s * c) + A2 * (2 * (2 * s * c) * (2 * t - 1))) ^ 2) with (4 * (s ^ 2 * c ^ 2) * (A1 + 2 * A2 * (2 * t - 1)) ^ 2) by ring. rewrite SC. fold t. unfold A1, A2.
    apply (Rmult_eq_reg_l (d ^ 2)); [| apply pow_nonzero; lra]. replace (d ^ 2 * (16 / d ^ 2 * (t ^ 2 * k ^ 4 + (1 - t) ^ 2))) with (16 * (t ^ 2 * k ^ 4 + (1 - t) ^ 2)) by (field; lra).
    transitivity ((d + 2 * (k ^ 2 - 1) * (2 * t - 1) + (1 - r * k + k ^ 2) * (2 * (2 * t - 1) * (2 * t - 1) - 1)) ^ 2 + 4 * ((1 - t) * t) * (2 * (k ^ 2 - 1) + 2 * (1 - r * k + k ^ 2) * (2 * t - 1)) ^ 2); [| field; lra]. unfold d.
    assert (HR : forall z, (1 + z + k ^ 2 + 2 * (k ^ 2 - 1) * (2 * t - 1) + (1 - z + k ^ 2) * (2 * (2 * t - 1) * (2 * t - 1) - 1)) ^ 2 + 4 * ((1 - t) * t) * (2 * (k ^ 2 - 1) + 2 * (1 - z + k ^ 2) * (2 * t - 1)) ^ 2 = 16 * (t ^ 2 * k ^ 4 + (1 - t) ^ 2) + 16 * (t * (1 - t)) * (z ^ 2 - 2 * k ^ 2)) by (intros z; ring).
    rewrite HR. replace ((r * k) ^ 2) with (r ^ 2 * k ^ 2) by ring. rewrite S2. ring. }
  intros C b a. assert (P := PI_RGT_0). split; [reflexivity |]. split; [apply GEN; exact C |].
  assert (CC : cos (PI / 1000 / 2) <> 0) by (apply Rgt_not_eq, cos_gt_0; lra). split; [| split; [| split; [| split]]].
  - pose proof (GEN (PI / 1000) CC) as Q. fold b a in Q. rewrite <- Q. assert (tan (PI / 1000 / 2) <> 0) by (rewrite <- KE; lra). field. assumption.
  - assert (C0 : cos (0 / 2) <> 0) by (replace (0 / 2) with 0 by field; rewrite cos_0; lra). pose proof (GEN 0 C0) as Q. fold b a in Q. rewrite <- Q. replace (0 / 2) with 0 by field. rewrite tan_0. unfold Rdiv. rewrite Rmult_0_l. ring.
  - destruct (butter_sums 0.001 W) as [_ BP]. cbv zeta in BP. fold a in BP. unfold gain2. rewrite Rmult_0_r, cos_0, sin_0. replace (nth 0 a 0) with 1 by reflexivity. nra.
  - unfold a, butter2. cbn [fst snd nth]. cbv zeta. set (k := tan (PI * 0.001 / 2)) in *. set (d := 1 + sqrt 2 * k + k ^ 2) in *. replace (1 + (1 - sqrt 2 * k + k ^ 2) / d) with (2 * (1 + k ^ 2) / d) by (unfold d; field; fold d; lra). unfold Rabs. destruct (Rcase_abs _) as [Q | Q]; [replace (- (2 * (k ^ 2 - 1) / d)) with (2 * (1 - k ^ 2) / d) by (field; lra) |]; apply Rmult_lt_compat_r; try (apply Rinv_0_lt_compat; exact D); nra.
  - unfold a, butter2. cbn [fst snd nth]. cbv zeta. set (k := tan (PI * 0.001 / 2)) in *. set (d := 1 + sqrt 2 * k + k ^ 2) in *. apply (Rmult_lt_reg_r d); [exact D |]. replace ((1 - sqrt 2 * k + k ^ 2) / d * d) with (1 - sqrt 2 * k + k ^ 2) by (field; lra). unfold d. nra.
Qed.
(** The drift is linear in the draws and in the scale and does not depend on the signal. *)
Lemma c198_linear g x1 x2 x3 s1 s2 s3 d1 d2 d3 o1 o2 o3 p q : length d1 = g_N g -> length d2 = g_N g -> length d3 = g_N g -> length x1 = g_N g -> length x2 = g_N g -> length x3 = g_N g ->
  apply_drift g (Some x1) s1 d1 = Ok o1 -> apply_drift g (Some x2) s2 d2 = Ok o2 -> apply_drift g (Some x3) s3 d3 = Ok o3 ->
  (forall k, (k < g_N g)%nat -> nth k d3 0 * s3 = p * (nth k d1 0 * s1) + q * (nth k d2 0 * s2)) ->
  forall k, (k < g_N g)%nat -> nth k o3 0 - nth k x3 0 = p * (nth k o1 0 - nth k x1 0) + q * (nth k o2 0 - nth k x2 0).
Proof.
  intros L1 L2 L3 X1 X2 X3 E1 E2 E3 H k K. destruct (drift_inv g (Some x1) _ _ _ E1) as (_ & D1 & F1 & M1 & ->); [cbn; congruence |]. destruct (drift_inv g (Some x2) _ _ _ E2) as (_ & D2 & F2 & M2 & ->); [cbn; congruence |]. destruct (drift_inv g (Some x3) _ _ _ E3) as (_ & D3 & F3 & M3 & ->); [cbn; congruence |]. cbn [resolve_signal].
  unfold drift_of in F1, F2, F3. assert (Q : map (fun d => d * s3) d3 = comb p q (map (fun d => d * s1) d1) (map (fun d => d * s2) d2)).
  { apply list_ext_R; [rewrite comb_length, !map_length by (rewrite !map_length; lia); lia |]. intros i I. rewrite map_length in I. rewrite comb_nth by (rewrite !map_length; lia). rewrite !(nth_map_in _ _ i 0) by lia. apply H. lia. }
  assert (Q2 : cumsum_from 0 (map (fun d => d * s3) d3) = comb p q (cumsum_from 0 (map (fun d => d * s1) d1)) (cumsum_from 0 (map (fun d => d * s2) d2))) by (rewrite Q, <- cumsum_comb by (rewrite !map_length; lia); f_equal; ring).
  rewrite Q2, (filtfilt_comb _ p q _ _ D1 D2) in F3 by (try assumption; rewrite !walk_length; lia). injection F3 as <-. rewrite !(map2_nth _ _ _ k 0 0 0) by (rewrite ?comb_length; lia). rewrite comb_nth by lia. ring.
Qed.
(** A first step and then none: the drift is that step everywhere.  With the scale 0 the signal comes back. *)
Lemma c198_constant g x scale c draws out k : length x = g_N g -> length draws = g_N g -> nth 0 draws 0 = c -> (forall i, (1 <= i < g_N g)%nat -> nth i draws 0 * scale = 0) -> apply_drift g (Some x) scale draws = Ok out -> (k < g_N g)%nat -> nth k out 0 = nth k x 0 + c * scale.
Proof.
  intros LX LD C Z E K. destruct (drift_inv g (Some x) _ _ _ E) as (_ & D & F & M & ->); [cbn; congruence |]. cbn [resolve_signal]. rewrite (map2_nth _ _ _ k 0 0 0) by lia. f_equal. apply Forall_nth_eq; [| lia]. apply (filtfilt_constant 0.001 (c * scale) _ D) with (2 := F) || (revert F; apply filtfilt_constant); [lra |]. destruct draws as [| d0 t]; [constructor |]. cbn in C. subst d0. cbn [map cumsum_from]. rewrite Rplus_0_l. constructor; [reflexivity |]. apply cumsum_zero. apply Forall_forall. intros u I. apply in_map_iff in I. destruct I as (v & <- & I). apply (In_nth _ _ 0) in I. destruct I as (i & I & <-). symmetry. apply (Z (S i)). cbn in LD. lia.
Qed.
Lemma c198_zero g x draws out k : length x = g_N g -> length draws = g_N g -> apply_drift g (Some x) 0 draws = Ok out -> (k < g_N g)%nat -> nth k out 0 = nth k x 0.
Proof. intros LX LD E K. rewrite (c198_constant g x 0 _ draws out k LX LD eq_refl) by (try assumption; intros; ring). ring. Qed.
(** *** C198 examples *)
Definition dex := mkGen 10 1 (1 / 8) 1 0.
Example c198_constant_ex : exists out, apply_drift dex (Some [1; 2; 3; 4; 5; 6; 7; 8; 9; 10]) (1 / 2) [4; 0; 0; 0; 0; 0; 0; 0; 0; 0] = Ok out /\ nth 0 out 0 = 3 /\ nth 9 out 0 = 12.
Proof.
  destruct (drift_ok dex (Some [1; 2; 3; 4; 5; 6; 7; 8; 9; 10]) (1 / 2) [4; 0; 0; 0; 0; 0; 0; 0; 0; 0]) as [out E]; [reflexivity | cbn; lia |]. exists out. split; [exact E |].
  assert (Z : forall i, (1 <= i < 10)%nat -> nth i [4; 0; 0; 0; 0; 0; 0; 0; 0; 0] 0 * (1 / 2) = 0) by (intros i I; do 10 (destruct i as [| i]; [cbn; lra || lia |]); lia).
  rewrite (c198_constant dex [1; 2; 3; 4; 5; 6; 7; 8; 9; 10] (1 / 2) 4 [4; 0; 0; 0; 0; 0; 0; 0; 0; 0] out 0 eq_refl eq_refl eq_refl Z E), (c198_constant dex [1; 2; 3; 4; 5; 6; 7; 8; 9; 10] (1 / 2) 4 [4; 0; 0; 0; 0; 0; 0; 0; 0; 0] out 9 eq_refl eq_refl eq_refl Z E) by (cbn; lia). cbn. split; field.
Qed.
Example c198_short_ex : apply_drift (mkGen 8 1 (1 / 8) 1 0) None 1 [1; 2; 3; 4; 5; 6; 7; 8] = Err ValueError.
Proof. apply c198_short; cbn; [reflexivity | lia]. Qed.
(** ** C199: the amplitude for a wanted level *)
(** If a gain of the amplitude raises the measured level by 20 log10 of it, the new amplitude gives the target level. *)
Lemma c199_target (level : R -> R) vpp target : 0 < vpp -> (forall v r, 0 < v -> 0 < r -> level (v * r) = level v + 20 * (ln r / ln 10)) -> let new := vpp_for_target_dbfs vpp (level vpp) target in 0 < new /\ level new = target.
Proof.
  intros V H. unfold vpp_for_target_dbfs, db_to_mag. cbv zeta. assert (P := pow10_pos ((target - level vpp) / 20)). split; [apply Rmult_lt_0_compat; assumption |]. rewrite H by assumption. pose proof (lg_pow10 ((target - level vpp) / 20)) as Q. unfold lg in Q. rewrite Q. field.
Qed.
(** No change when the level is right already; a second correction adds up with the first; no other amplitude does it. *)
Lemma c199_steps vpp m t u : vpp_for_target_dbfs vpp t t = vpp /\ vpp_for_target_dbfs (vpp_for_target_dbfs vpp m t) t u = vpp_for_target_dbfs vpp m u /\ vpp_for_target_dbfs 0 m t = 0 /\
  (0 < vpp -> mag_to_db (vpp_for_target_dbfs vpp m t / vpp) = Fin (t - m)) /\ (0 < vpp -> t < u -> vpp_for_target_dbfs vpp m t < vpp_for_target_dbfs vpp m u).
Proof.
  unfold vpp_for_target_dbfs, db_to_mag. split; [replace ((t - t) / 20) with 0 by field; unfold pow10; rewrite Rpower_O by lra; ring |]. split; [rewrite Rmult_assoc, <- pow10_plus; do 2 f_equal; field |]. split; [ring |]. split.
  - intros V. unfold mag_to_db. replace (vpp * pow10 ((t - m) / 20) / vpp) with (pow10 ((t - m) / 20)) by (field; lra). rewrite xlog10_pos by apply pow10_pos. cbn. rewrite lg_pow10. f_equal. field.
  - intros V L. apply Rmult_lt_compat_l; [exact V |]. apply pow10_lt. lra.
Qed.
Example c199_target_ex : vpp_for_target_dbfs (1 / 2) (-20) 0 = 5.
Proof. unfold vpp_for_target_dbfs, db_to_mag. replace ((0 - -20) / 20) with 1 by field. unfold pow10. rewrite Rpower_1 by lra. field. Qed.
