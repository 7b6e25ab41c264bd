(** * The assumptions on lstsq and matrix_rank can be met: Gram-Schmidt versions of both.
    (Not part of the model; they show that the hypotheses of the theorems are satisfiable.) *)
From Coq Require Import FunctionalExtensionality.
From Verif Require Import Base BaseLemmas CalModel CalSpec SpecLemmas DoutProofs CalProofs.
Local Open Scope R_scope.

Definition inner (n : nat) (u v : vec) : R := rsum n (fun i => u i * v i).
Definition comb (m : nat) (at_ : nat -> nat -> R) (x : vec) : vec := fun i => rsum m (fun j => at_ i j * x j).
(** Coefficients of the projection of b on the first m columns. *)
Fixpoint project (n : nat) (at_ : nat -> nat -> R) (m : nat) (b : vec) : vec :=
  match m with
  | O => zvec
  | S k => let y := project n at_ k (fun i => at_ i k) in
           let r := fun i => at_ i k - comb k at_ y i in
           let x := project n at_ k b in
           let t := if Reqb (inner n r r) 0 then 0 else inner n b r / inner n r r in
           fun j => if (j <? k)%nat then x j - t * y j else t
  end.
Definition gs_lstsq : lstsq_fun := fun A b => project (m_n A) (m_at A) (m_m A) b.
Fixpoint gs_rank_cols (n : nat) (at_ : nat -> nat -> R) (m : nat) : nat :=
  match m with
  | O => O
  | S k => let y := project n at_ k (fun i => at_ i k) in
           let r := fun i => at_ i k - comb k at_ y i in
           if Reqb (inner n r r) 0 then gs_rank_cols n at_ k else S (gs_rank_cols n at_ k)
  end.
Definition gs_rank : rank_fun := fun A => gs_rank_cols (m_n A) (m_at A) (m_m A).

Lemma inner_zero n r : inner n r r = 0 -> forall i, (i < n)%nat -> r i = 0.
Proof.
  intros Z i I. apply Rsqr_0_uniq. unfold Rsqr. apply (rsum_nonneg_zero n (fun i => r i * r i)); [intros k _; apply Rle_0_sqr | unfold inner in Z; lra | exact I].
Qed.
Lemma inner_comb n m at_ x v : inner n v (comb m at_ x) = rsum m (fun j => x j * inner n v (fun i => at_ i j)).
Proof.
  unfold inner, comb. rewrite (rsum_ext n _ (fun i => rsum m (fun j => v i * at_ i j * x j))).
  2:{ intros i I. rewrite <- rsum_scale. apply rsum_ext. intros; ring. }
  rewrite rsum_swap. apply rsum_ext. intros j J. rewrite <- rsum_scale. apply rsum_ext. intros; ring.
Qed.
Lemma inner_minus_l n u v w : inner n (fun i => u i - v i) w = inner n u w - inner n v w.
Proof. unfold inner. rewrite <- rsum_minus. apply rsum_ext. intros; ring. Qed.
Lemma inner_ext n u v w : (forall i, (i < n)%nat -> u i = v i) -> inner n u w = inner n v w.
Proof. intros E. unfold inner. apply rsum_ext. intros i I. rewrite (E i I). reflexivity. Qed.
Lemma inner_comm n u v : inner n u v = inner n v u.
Proof. unfold inner. apply rsum_ext. intros; ring. Qed.
Lemma comb_ext m at_ x y i : (forall j, (j < m)%nat -> x j = y j) -> comb m at_ x i = comb m at_ y i.
Proof. intros E. unfold comb. apply rsum_ext. intros j J. rewrite (E j J). reflexivity. Qed.
(** The residual is orthogonal to every column. *)
Lemma project_orthogonal n at_ m : forall b j, (j < m)%nat -> inner n (fun i => b i - comb m at_ (project n at_ m b) i) (fun i => at_ i j) = 0.
Proof.
  induction m as [| k IH]; intros b j J; [lia |].
  cbn [project]. set (y := project n at_ k (fun i => at_ i k)). set (r := fun i => at_ i k - comb k at_ y i). set (x := project n at_ k b).
  set (t := if Reqb (inner n r r) 0 then 0 else inner n b r / inner n r r).
  assert (EX : forall i, comb (S k) at_ (fun j => if (j <? k)%nat then x j - t * y j else t) i = comb k at_ x i + t * r i).
  { intros i. unfold comb at 1. cbn [rsum]. rewrite Nat.ltb_irrefl. rewrite (rsum_ext k _ (fun j => at_ i j * x j - t * (at_ i j * y j))).
    2:{ intros q Q. destruct (Nat.ltb_spec q k); [ring | lia]. } rewrite rsum_minus, rsum_scale. unfold r, comb. ring. }
  assert (OR : forall q, (q < k)%nat -> inner n r (fun i => at_ i q) = 0) by (intros q Q; apply IH; exact Q).
  assert (OX : forall q, (q < k)%nat -> inner n (fun i => b i - comb k at_ x i) (fun i => at_ i q) = 0) by (intros q Q; apply IH; exact Q).
  rewrite (inner_ext n _ (fun i => (b i - comb k at_ x i) - t * r i)) by (intros i I; rewrite EX; ring).
  assert (LIN : forall c, inner n (fun i => (b i - comb k at_ x i) - t * r i) c = inner n (fun i => b i - comb k at_ x i) c - t * inner n r c).
  { intros c. rewrite inner_minus_l. f_equal. unfold inner. rewrite <- rsum_scale. apply rsum_ext. intros; ring. }
  rewrite LIN. destruct (Nat.lt_ge_cases j k) as [Y | Y]. { rewrite OX, OR by exact Y. ring. }
  replace j with k by lia.
  assert (SPLIT : forall v, (forall q, (q < k)%nat -> inner n v (fun i => at_ i q) = 0) -> inner n v (fun i => at_ i k) = inner n v r).
  { intros v V. assert (E : inner n v (comb k at_ y) = 0). { rewrite inner_comb. apply rsum_zero. intros q Q. rewrite V by exact Q. ring. }
    assert (X : inner n v r = inner n v (fun i => at_ i k) - inner n v (comb k at_ y)) by (unfold inner, r; rewrite <- rsum_minus; apply rsum_ext; intros; ring). rewrite X, E. ring. }
  rewrite (SPLIT _ OX), (SPLIT _ OR). rewrite (inner_minus_l n b (comb k at_ x)).
  assert (E : inner n (comb k at_ x) r = 0).
  { rewrite inner_comm. rewrite inner_comb. apply rsum_zero. intros q Q. rewrite OR by exact Q. ring. }
  rewrite E. unfold t. destruct (Reqb_spec (inner n r r) 0) as [Z | Z].
  - rewrite Z. pose proof (inner_zero n r Z) as RZ. replace (inner n b r) with 0; [ring |]. symmetry. unfold inner. apply rsum_zero. intros i I. rewrite (RZ i I). ring.
  - field. exact Z.
Qed.
Lemma gs_least_squares : least_squares gs_lstsq.
Proof.
  intros A b y. set (n := m_n A). set (m := m_m A). set (x := gs_lstsq A b).
  set (res := fun i => b i - comb m (m_at A) x i). set (d := comb m (m_at A) (fun j => x j - y j)).
  assert (O : inner n res d = 0). { unfold d. rewrite inner_comb. apply rsum_zero. intros j J. replace (inner n res (fun i => m_at A i j)) with 0 by (symmetry; exact (project_orthogonal n (m_at A) m b j J)). ring. }
  assert (E : forall i, comb m (m_at A) y i - b i = - (res i + d i)).
  { intros i. unfold res, d. assert (X : comb m (m_at A) (fun j => x j - y j) i = comb m (m_at A) x i - comb m (m_at A) y i) by (unfold comb; rewrite <- rsum_minus; apply rsum_ext; intros; ring). rewrite X. ring. }
  change (rsum n (fun i => (comb m (m_at A) x i - b i) ^ 2) <= rsum n (fun i => (comb m (m_at A) y i - b i) ^ 2)).
  rewrite (rsum_ext n (fun i => (comb m (m_at A) y i - b i) ^ 2) (fun i => (comb m (m_at A) x i - b i) ^ 2 + (2 * (res i * d i) + d i ^ 2))).
  2:{ intros i I. rewrite E. replace (comb m (m_at A) x i - b i) with (- res i) by (unfold res; ring). ring. }
  rewrite !rsum_plus, rsum_scale. fold (inner n res d). rewrite O.
  assert (0 <= rsum n (fun i => d i ^ 2)) by (apply rsum_nonneg; intros; apply pow2_ge_0). lra.
Qed.
(** The residual of a column vanishes iff it is in the span of the columns before it. *)
Lemma residual_span n at_ k c : inner n (fun i => c i - comb k at_ (project n at_ k c) i) (fun i => c i - comb k at_ (project n at_ k c) i) = 0
  <-> exists x, forall i, (i < n)%nat -> c i = comb k at_ x i.
Proof.
  split.
  - intros Z. exists (project n at_ k c). intros i I. pose proof (inner_zero n _ Z i I) as E. cbn beta in E. lra.
  - intros (x & X). set (r := fun i => c i - comb k at_ (project n at_ k c) i).
    unfold r at 1. rewrite (inner_minus_l n c (comb k at_ (project n at_ k c))).
    assert (OR : forall z, inner n (comb k at_ z) r = 0).
    { intros z. rewrite inner_comm, inner_comb. apply rsum_zero. intros q Q. replace (inner n r (fun i => at_ i q)) with 0 by (symmetry; exact (project_orthogonal n at_ k c q Q)). ring. }
    rewrite (inner_ext n c (comb k at_ x)) by exact X. rewrite !OR. ring.
Qed.
Lemma project_ext n at1 at2 m : (forall i j, (j < m)%nat -> at1 i j = at2 i j) -> forall b j, project n at1 m b j = project n at2 m b j.
Proof.
  induction m as [| k IH]; intros E b j; [reflexivity |]. cbn [project].
  assert (IH' : forall b j, project n at1 k b j = project n at2 k b j) by (apply IH; intros; apply E; lia).
  assert (PE : forall i, project n at1 k (fun i => at1 i k) i = project n at2 k (fun i => at2 i k) i).
  { intros i. rewrite IH'. f_equal. apply functional_extensionality. intros q. apply E. lia. }
  assert (RE : (fun i => at1 i k - comb k at1 (project n at1 k (fun i => at1 i k)) i) = (fun i => at2 i k - comb k at2 (project n at2 k (fun i => at2 i k)) i)).
  { apply functional_extensionality. intros i. rewrite E by lia. f_equal. unfold comb. apply rsum_ext. intros q Q. rewrite PE, E by lia. reflexivity. }
  rewrite RE, IH', PE. reflexivity.
Qed.
Lemma gs_rank_ext n at1 at2 m : (forall i j, (j < m)%nat -> at1 i j = at2 i j) -> gs_rank_cols n at1 m = gs_rank_cols n at2 m.
Proof.
  induction m as [| k IH]; intros E; [reflexivity |]. cbn [gs_rank_cols]. rewrite IH by (intros; apply E; lia).
  replace (fun i => at1 i k - comb k at1 (project n at1 k (fun i => at1 i k)) i) with (fun i => at2 i k - comb k at2 (project n at2 k (fun i => at2 i k)) i); [reflexivity |].
  apply functional_extensionality. intros i. rewrite (E i k) by lia. f_equal. unfold comb. apply rsum_ext. intros q Q. rewrite (E i q) by lia. f_equal.
  replace (fun i => at1 i k) with (fun i => at2 i k) by (apply functional_extensionality; intros; symmetry; apply E; lia). symmetry. apply project_ext. intros; apply E; lia.
Qed.
Lemma gs_rank_le n at_ m : (gs_rank_cols n at_ m <= m)%nat.
Proof. induction m as [| k IH]; [cbn; lia |]. cbn [gs_rank_cols]. cbv zeta. destruct (Reqb _ 0); lia. Qed.
Lemma gs_rank_step n at_ k : gs_rank_cols n at_ (S k) = if Reqb (inner n (fun i => at_ i k - comb k at_ (project n at_ k (fun i => at_ i k)) i) (fun i => at_ i k - comb k at_ (project n at_ k (fun i => at_ i k)) i)) 0
  then gs_rank_cols n at_ k else S (gs_rank_cols n at_ k).
Proof. reflexivity. Qed.
Lemma gs_rank_correct : rank_correct gs_rank.
Proof.
  split.
  - intros A. unfold gs_rank. set (n := m_n A). set (m := m_m A). set (at_ := m_at A). unfold independent. fold n m at_.
    change ((m <= gs_rank_cols n at_ m)%nat <-> (forall x, (forall i, (i < n)%nat -> comb m at_ x i = 0) -> forall j, (j < m)%nat -> x j = 0)).
    clearbody m. induction m as [| k IH]. { cbn. split; [intros; lia | lia]. }
    rewrite gs_rank_step. pose proof (gs_rank_le n at_ k) as LE. pose proof (residual_span n at_ k (fun i => at_ i k)) as RS.
    destruct (Reqb_spec (inner n (fun i => at_ i k - comb k at_ (project n at_ k (fun i => at_ i k)) i) (fun i => at_ i k - comb k at_ (project n at_ k (fun i => at_ i k)) i)) 0) as [Z | Z].
    + split; [lia |]. intros I. exfalso. apply RS in Z. destruct Z as (x & X).
      specialize (I (fun j => if (j <? k)%nat then x j else -1)).
      assert (P : -1 = 0); [| lra].
      { replace (-1) with ((fun j => if (j <? k)%nat then x j else -1) k) by (cbv beta; rewrite Nat.ltb_irrefl; reflexivity). apply I; [| lia].
        intros i Hi. unfold comb. cbn [rsum]. rewrite Nat.ltb_irrefl. rewrite (rsum_ext k _ (fun j => at_ i j * x j)).
        2:{ intros j J. destruct (Nat.ltb_spec j k); [reflexivity | lia]. } fold (comb k at_ x i). rewrite <- (X i Hi). ring. }
    + split.
      * intros L x X j J. assert (XK : x k = 0).
        { destruct (Req_dec (x k) 0) as [Y | Y]; [exact Y |]. exfalso. apply Z. apply RS. exists (fun j => - x j / x k). intros i Hi. specialize (X i Hi). unfold comb in X. cbn [rsum] in X.
          unfold comb. rewrite (rsum_ext k _ (fun j => (- / x k) * (at_ i j * x j))) by (intros; field; exact Y). rewrite rsum_scale. apply (Rmult_eq_reg_r (x k)); [| exact Y].
          replace (rsum k (fun j => at_ i j * x j)) with (- (at_ i k * x k)) by lra. field. exact Y. }
        destruct (Nat.eq_dec j k) as [-> | N]; [exact XK |]. apply (proj1 IH); [lia | | lia]. intros i Hi. specialize (X i Hi). unfold comb in X. cbn [rsum] in X. rewrite XK in X. unfold comb. lra.
      * intros I. apply le_n_S. apply (proj2 IH). intros x X j J.
        specialize (I (fun j => if (j <? k)%nat then x j else 0)). replace (x j) with ((fun j => if (j <? k)%nat then x j else 0) j) by (cbv beta; destruct (Nat.ltb_spec j k); [reflexivity | lia]).
        apply I; [| lia]. intros i Hi. unfold comb. cbn [rsum]. rewrite Nat.ltb_irrefl. rewrite (rsum_ext k _ (fun j => at_ i j * x j)).
        2:{ intros q Q. destruct (Nat.ltb_spec q k); [reflexivity | lia]. } fold (comb k at_ x i). rewrite (X i Hi). ring.
  - intros A A' c HN HM E0 EC0. unfold gs_rank. rewrite HN, HM. set (n := m_n A). set (m := m_m A) in *. set (at_ := m_at A) in *. rewrite Nat.add_1_r.
    set (at2 := m_at A') in *. rewrite gs_rank_step.
    assert (E : forall i j, (j < m)%nat -> at2 i j = at_ i j) by exact E0.
    rewrite (gs_rank_ext n at2 at_ m E). assert (EC : (fun i => at2 i m) = c) by (apply functional_extensionality; exact EC0).
    replace (fun i => at2 i m - comb m at2 (project n at2 m (fun i => at2 i m)) i) with (fun i => c i - comb m at_ (project n at_ m c) i).
    2:{ apply functional_extensionality. intros i. rewrite EC, EC0. f_equal. unfold comb. apply rsum_ext. intros q Q. rewrite (E i q Q). f_equal. symmetry. apply project_ext. exact E. }
    pose proof (residual_span n at_ m c) as RS. unfold in_span. fold n m at_.
    destruct (Reqb_spec (inner n (fun i => c i - comb m at_ (project n at_ m c) i) (fun i => c i - comb m at_ (project n at_ m c) i)) 0) as [Z | Z].
    + split; [lia |]. intros N. exfalso. apply N. apply RS in Z. exact Z.
    + split; [| lia]. intros _ S. apply Z. apply RS. exact S.
Qed.
