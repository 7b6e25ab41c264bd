(** * Proofs for the error phase plane. *)
From Coq Require Import Sorted Permutation.
From Verif Require Import Base BaseLemmas Cplx SpecModel SpecLemmas DoutProofs SiggenModel SiggenSpec SiggenProofs CalModel CalSpec CalProofs CalExLemmas CohLemmas FitModel FitSpec FitProofs HarmProofs NonlinModel NonlinSpec NonlinProofs PlaneProofs EplaneModel EplaneSpec.
Local Open Scope R_scope.

(* ---------- masks ---------- *)
Lemma positions_sum n m (g : nat -> R) : rsum (length (positions n m)) (fun i => g (nth i (positions n m) 0%nat)) = sum_over n m g.
Proof.
  unfold positions, sum_over.
  assert (G : forall k s, lsum (map g (filter m (seq s k))) = rsum k (fun t => if m (s + t)%nat then g (s + t)%nat else 0)).
  { induction k as [| k IH]; intros s; [reflexivity |]. cbn [seq filter]. rewrite rsum_shift, Nat.add_0_r.
    rewrite (rsum_ext k _ (fun t => if m (S s + t)%nat then g (S s + t)%nat else 0)) by (intros t _; rewrite Nat.add_succ_r; reflexivity).
    rewrite <- IH. destruct (m s); cbn [map lsum]; lra. }
  specialize (G n 0%nat). cbn [Nat.add] in G. rewrite <- G, lsum_rsum, map_length. apply rsum_ext. intros i Hi. symmetry. apply nth_map_in. exact Hi.
Qed.
Lemma positions_count n m : length (positions n m) = count_of n m.
Proof.
  unfold positions. induction n as [| n IH]; [reflexivity |]. rewrite seq_S, filter_app, app_length, IH. cbn [count_of Nat.add filter]. destruct (m n); reflexivity.
Qed.
Lemma positions_in n m t : In t (positions n m) <-> (t < n)%nat /\ m t = true.
Proof. unfold positions. rewrite filter_In, in_seq. split; intros [A B]; split; (assumption || lia). Qed.
Lemma masked_length l m : length (masked l m) = length (positions (length l) m).
Proof. apply map_length. Qed.
Lemma masked_nth l m i : (i < length (positions (length l) m))%nat -> nth i (masked l m) 0 = nth (nth i (positions (length l) m) 0%nat) l 0.
Proof. intros Hi. unfold masked. apply (nth_map_in (fun t => nth t l 0)). exact Hi. Qed.
Lemma positions_ext n m m' : (forall t, (t < n)%nat -> m t = m' t) -> positions n m = positions n m'.
Proof. intros E. unfold positions. apply filter_ext_in. intros t Ht. apply in_seq in Ht. apply E. lia. Qed.

Lemma masked_polyfit lstsq (x y : list R) m deg c' : least_squares lstsq -> length x = length y ->
  (exists t, (t < length x)%nat /\ m t = true /\ nth t x 0 <> 0) ->
  let p := polyfit lstsq (masked x m) (masked y m) deg in
  sum_over (length x) m (fun t => (nth t y 0 - polyval p deg (nth t x 0)) ^ 2) <= sum_over (length x) m (fun t => (nth t y 0 - poly deg c' (nth t x 0)) ^ 2).
Proof.
  intros L HL (t & Ht & Mt & NZ) p.
  assert (EX : exists i, (i < length (masked x m))%nat /\ nth i (masked x m) 0 <> 0).
  { assert (IN : In t (positions (length x) m)) by (apply positions_in; split; assumption). apply (In_nth _ _ 0%nat) in IN. destruct IN as (i & Hi & E).
    exists i. rewrite masked_length. split; [exact Hi |]. rewrite masked_nth by exact Hi. rewrite E. exact NZ. }
  pose proof (polyfit_optimal lstsq (masked x m) (masked y m) deg c' L EX) as O.
  rewrite masked_length in O.
  rewrite (rsum_ext _ (fun t0 => (poly deg (fun i => polyfit lstsq (masked x m) (masked y m) deg (deg - i)%nat) (nth t0 (masked x m) 0) - nth t0 (masked y m) 0) ^ 2)
             (fun i => (fun t => (nth t y 0 - polyval p deg (nth t x 0)) ^ 2) (nth i (positions (length x) m) 0%nat))) in O.
  2:{ intros i Hi. cbv beta. rewrite masked_nth by exact Hi. rewrite (masked_nth y) by (rewrite <- HL; exact Hi). rewrite <- HL. rewrite poly_rev. fold p. unfold polyval. ring. }
  rewrite (rsum_ext _ (fun t0 => (poly deg c' (nth t0 (masked x m) 0) - nth t0 (masked y m) 0) ^ 2)
             (fun i => (fun t => (nth t y 0 - poly deg c' (nth t x 0)) ^ 2) (nth i (positions (length x) m) 0%nat))) in O.
  2:{ intros i Hi. cbv beta. rewrite masked_nth by exact Hi. rewrite (masked_nth y) by (rewrite <- HL; exact Hi). rewrite <- HL. ring. }
  rewrite (positions_sum (length x) m (fun t => (nth t y 0 - polyval p deg (nth t x 0)) ^ 2)) in O.
  rewrite (positions_sum (length x) m (fun t => (nth t y 0 - poly deg c' (nth t x 0)) ^ 2)) in O. exact O.
Qed.
Lemma polyval_poly p deg x : polyval p deg x = poly deg (fun i => p (deg - i)%nat) x.
Proof. rewrite poly_rev. reflexivity. Qed.
Lemma sum_over_ext n P Q g h : (forall t, (t < n)%nat -> P t = Q t) -> (forall t, (t < n)%nat -> P t = true -> g t = h t) -> sum_over n P g = sum_over n Q h.
Proof. intros E F. apply rsum_ext. intros t Ht. rewrite <- E by exact Ht. destruct (P t) eqn:B; [apply F; assumption | reflexivity]. Qed.
Lemma masked_best lstsq (x y : list R) m deg : least_squares lstsq -> length x = length y ->
  (exists t, (t < length x)%nat /\ m t = true /\ nth t x 0 <> 0) ->
  best_polynomial (length x) m (fun t => nth t x 0) (fun t => nth t y 0) deg (fun i => polyfit lstsq (masked x m) (masked y m) deg (deg - i)%nat).
Proof.
  intros L HL NZ c'. pose proof (masked_polyfit lstsq x y m deg c' L HL NZ) as H. cbv zeta in H. eapply Rle_trans; [| exact H].
  apply Req_le. apply sum_over_ext; [reflexivity |]. intros t _ _. rewrite polyval_poly. reflexivity.
Qed.
(** If the data lie on a polynomial and enough different values occur, the best polynomial is that one. *)
Lemma best_exact n P d e deg c a : best_polynomial n P d e deg c -> distinct_among n P d (S deg) ->
  (forall t, (t < n)%nat -> P t = true -> e t = poly deg a (d t)) -> forall x, poly deg c x = poly deg a x.
Proof.
  intros B (l & LL & ND & LT) E x. apply poly_ext. intros i Hi. cut (c i - a i = 0); [lra |].
  apply (poly_zeros deg (fun i => c i - a i) (map d l)); [rewrite map_length; exact LL | exact ND | | exact Hi].
  intros z Hz. apply in_map_iff in Hz. destruct Hz as (t & <- & T). destruct (LT t T) as [T1 T2]. rewrite poly_minus.
  pose proof (B a) as Q. unfold sum_over in Q. rewrite (rsum_zero n (fun t => if P t then (e t - poly deg a (d t)) ^ 2 else 0)) in Q.
  2:{ intros u Hu. destruct (P u) eqn:PU; [rewrite (E u Hu PU); ring | reflexivity]. }
  assert (G : (if P t then (e t - poly deg c (d t)) ^ 2 else 0) = 0).
  { apply (rsum_nonneg_zero n (fun t => if P t then (e t - poly deg c (d t)) ^ 2 else 0)); [intros u Hu; destruct (P u); [apply pow2_ge_0 | lra] | exact Q | exact T1]. }
  rewrite T2 in G. apply sq_zero in G. rewrite (E t T1 T2) in G. lra.
Qed.
Lemma distinct_nonzero n P d m : distinct_among n P d (S (S m)) -> exists t, (t < n)%nat /\ P t = true /\ d t <> 0.
Proof.
  intros (l & LL & ND & LT). destruct l as [| a [| b l]]; [discriminate | discriminate |].
  destruct (Req_dec (d a) 0) as [Za | Za].
  - exists b. destruct (LT b (or_intror (or_introl eq_refl))) as [B1 B2]. split; [exact B1 |]. split; [exact B2 |]. intros Zb. cbn [map] in ND. inversion ND as [| ? ? NI _]; subst. apply NI. left. lra.
  - exists a. destruct (LT a (or_introl eq_refl)) as [A1 A2]. split; [exact A1 |]. split; [exact A2 | exact Za].
Qed.
(** Two best polynomials over samples with enough different values agree everywhere. *)
Lemma rsum_sq_mid n (P : nat -> bool) (u v : nat -> R) : rsum n (fun t => if P t then ((u t + v t) / 2) ^ 2 else 0) =
  (rsum n (fun t => if P t then u t ^ 2 else 0) + rsum n (fun t => if P t then v t ^ 2 else 0)) / 2 - rsum n (fun t => if P t then (u t - v t) ^ 2 else 0) / 4.
Proof.
  induction n as [| n IH]; cbn [rsum]; [lra |]. rewrite IH. destruct (P n); [| lra].
  set (a := u n). set (b := v n). lra.
Qed.
Lemma poly_plus_half deg c d x : poly deg (fun i => (c i + d i) / 2) x = (poly deg c x + poly deg d x) / 2.
Proof. unfold poly. induction (S deg) as [| k IH]; cbn [rsum]; [lra |]. rewrite IH. lra. Qed.
Lemma best_unique n P d e deg c c' : best_polynomial n P d e deg c -> best_polynomial n P d e deg c' -> distinct_among n P d (S deg) ->
  forall x, poly deg c x = poly deg c' x.
Proof.
  intros B B' (l & LL & ND & LT) x. apply poly_ext. intros i Hi. cut (c i - c' i = 0); [lra |].
  apply (poly_zeros deg (fun i => c i - c' i) (map d l)); [rewrite map_length; exact LL | exact ND | | exact Hi].
  intros z Hz. apply in_map_iff in Hz. destruct Hz as (t & <- & T). destruct (LT t T) as [T1 T2]. rewrite poly_minus.
  pose proof (B c') as Q1. pose proof (B' c) as Q2. pose proof (B (fun i => (c i + c' i) / 2)) as Q3. unfold sum_over in *.
  rewrite (rsum_ext n (fun t => if P t then (e t - poly deg (fun i => (c i + c' i) / 2) (d t)) ^ 2 else 0)
             (fun t => if P t then (((e t - poly deg c (d t)) + (e t - poly deg c' (d t))) / 2) ^ 2 else 0)) in Q3
    by (intros u _; destruct (P u); [rewrite poly_plus_half; f_equal; lra | reflexivity]).
  rewrite rsum_sq_mid in Q3.
  assert (Z : rsum n (fun t => if P t then (e t - poly deg c (d t) - (e t - poly deg c' (d t))) ^ 2 else 0) <= 0) by lra.
  assert (G : (if P t then (e t - poly deg c (d t) - (e t - poly deg c' (d t))) ^ 2 else 0) = 0).
  { apply (rsum_nonneg_zero n (fun t => if P t then (e t - poly deg c (d t) - (e t - poly deg c' (d t))) ^ 2 else 0)); [intros u Hu; destruct (P u); [apply pow2_ge_0 | lra] | exact Z | exact T1]. }
  rewrite T2 in G. apply sq_zero in G. lra.
Qed.

(* ---------- percentiles and slopes ---------- *)
Lemma ascending_sorted l : ascending l -> StronglySorted Rle l.
Proof.
  induction l as [| x l IH]; intros A; constructor.
  - apply IH. apply (ascending_tail x l A).
  - apply Forall_forall. apply (ascending_tail x l A).
Qed.
Lemma percentile_is data q : data <> [] -> 0 <= q <= 100 -> exists v, percentile data q = Ok v /\ is_percentile (length data) (fun t => nth t data 0) q v.
Proof.
  intros HD Hq. rewrite percentile_ok by exact Hq. eexists. split; [reflexivity |]. pose proof (m_nonneg data HD) as M.
  set (h := (INR (length data) - 1) * (q / 100)). assert (Hh : 0 <= h <= INR (length (rsort data)) - 1) by (rewrite rsort_length; unfold h; split; [apply Rmult_le_pos; lra |]; rewrite <- Rmult_1_r; apply Rmult_le_compat_l; lra).
  destruct (floor_index (rsort data) h Hh) as (I1 & I2). rewrite rsort_length in I1.
  exists (rsort data), (Z.to_nat (Zfloor h)), (h - IZR (Zfloor h)). split.
  { rewrite <- (list_as_map data (length data) eq_refl). symmetry. apply rsort_perm. }
  split; [apply ascending_sorted, rsort_ascending |]. split; [exact I1 |]. split; [apply frac_range |]. split.
  - rewrite INR_IZR_INZ, Z2Nat.id by exact I2. unfold h. lra.
  - unfold order_at. lra.
Qed.
Lemma percentile_range n d q v : is_percentile n d q v -> exists i j, (i < n)%nat /\ (j < n)%nat /\ d i <= v <= d j.
Proof.
  intros (u & i & e & P1 & S1 & Hi & He & _ & ->). assert (LU : length u = n) by (rewrite (Permutation_length P1), map_length, seq_length; reflexivity).
  assert (IN : forall k, (k < n)%nat -> exists t, (t < n)%nat /\ d t = nth k u 0).
  { intros k Hk. assert (I : In (nth k u 0) (map d (seq 0 n))) by (apply (Permutation_in _ P1), nth_In; lia). apply in_map_iff in I. destruct I as (t & E & T). apply in_seq in T. exists t. split; [lia | exact E]. }
  destruct (Nat.lt_ge_cases (i + 1) n) as [L | L].
  - destruct (IN i Hi) as (t1 & T1 & E1). destruct (IN (i + 1)%nat L) as (t2 & T2 & E2). exists t1, t2. split; [exact T1 |]. split; [exact T2 |].
    rewrite (nth_indep u (nth i u 0) 0) by lia. pose proof (sorted_nth u S1 i (i + 1) ltac:(lia)). rewrite E1, E2. split; nra.
  - destruct (IN i Hi) as (t1 & T1 & E1). exists t1, t1. split; [exact T1 |]. split; [exact T1 |]. rewrite (nth_overflow u (nth i u 0)) by lia. rewrite E1. lra.
Qed.
Lemma sumbool_ltb a b : Rltb a b = (if Rlt_dec a b then true else false).
Proof. reflexivity. Qed.
Lemma valid_inside data lo hi t : (Rltb lo (nth t data 0) && Rltb (nth t data 0) hi)%bool = inside (fun t => nth t data 0) lo hi t.
Proof. unfold inside. rewrite !sumbool_ltb. destruct (Rlt_dec lo (nth t data 0)); reflexivity. Qed.
Lemma gradient_slope data t : (2 <= length data)%nat -> (t < length data)%nat -> exists k, 0 < k /\ gradient data t = k * slope (fun t => nth t data 0) (length data) t.
Proof.
  intros Hn Ht. unfold gradient, slope. cbv zeta. destruct (Nat.eqb_spec t 0) as [-> | D0].
  - exists 1. split; [lra |]. rewrite Nat.min_l by lia. cbn [Nat.add Nat.sub]. lra.
  - destruct (Nat.eqb_spec t (length data - 1)) as [E | D1].
    + exists 1. split; [lra |]. rewrite Nat.min_r by lia. rewrite <- E. lra.
    + exists (1 / 2). split; [lra |]. rewrite Nat.min_l by lia. lra.
Qed.
Lemma rise_is data t : (2 <= length data)%nat -> (t < length data)%nat -> Rltb 0 (gradient data t) = rises (fun t => nth t data 0) (length data) t.
Proof.
  intros Hn Ht. destruct (gradient_slope data t Hn Ht) as (k & Hk & ->). unfold rises. destruct (Rlt_dec 0 (slope (fun t => nth t data 0) (length data) t)) as [L | L]; [apply Rltb_true | apply Rltb_false]; nra.
Qed.
Lemma fall_is data t : (2 <= length data)%nat -> (t < length data)%nat -> Rltb (gradient data t) 0 = falls (fun t => nth t data 0) (length data) t.
Proof.
  intros Hn Ht. destruct (gradient_slope data t Hn Ht) as (k & Hk & ->). unfold falls. destruct (Rlt_dec (slope (fun t => nth t data 0) (length data) t) 0) as [L | L]; [apply Rltb_true | apply Rltb_false]; nra.
Qed.

(* ---------- C115 ---------- *)
Lemma fit_runs lstsq y mi tol : (2 <= length y)%nat -> exists fit, fit_core lstsq y None mi tol = Ok fit /\ length (f_fitted fit) = length y /\ f_residuals fit = map2 Rminus y (f_fitted fit).
Proof.
  intros Hn. unfold fit_core, estimate_frequency_fft. cbv zeta. assert (D : (1 <= length y / 2)%nat) by (apply Nat.div_le_lower_bound; lia).
  unfold raise_if. destruct (Nat.eqb_spec (length y / 2) 0); [lia |]. destruct (_ && _)%bool; cbn [bind]; eexists; (split; [reflexivity |]); cbn [f_fitted f_residuals]; rewrite map_length, seq_length; split; reflexivity.
Qed.
Lemma fit_short lstsq y mi tol : (length y <= 1)%nat -> fit_core lstsq y None mi tol = Err ValueError.
Proof. intros Hn. unfold fit_core, estimate_frequency_fft. cbv zeta. rewrite (Nat.div_small (length y) 2) by lia. reflexivity. Qed.

Lemma percentile_unique n d q v w : is_percentile n d q v -> is_percentile n d q w -> v = w.
Proof.
  intros (u & i & x & P1 & S1 & I1 & X1 & X2 & ->) (u' & i' & x' & P1' & S1' & I1' & X1' & X2' & ->).
    assert (u = u') by (apply sorted_unique; [exact S1 | exact S1' | rewrite P1; symmetry; exact P1']). subst u'.
    assert (IE : i = i'). { assert (Hx : Rabs (INR i - INR i') < 1) by (apply Rabs_def1; lra). destruct (Nat.lt_trichotomy i i') as [Lt | [Eq | Lt]]; [exfalso | exact Eq | exfalso]; apply le_INR in Lt; rewrite S_INR in Lt; apply Rabs_def2 in Hx; lra. }
    subst i'. assert (x = x') by lra. subst x'. reflexivity.
Qed.
(** the flattened result *)
Definition eplane_gap (lstsq : lstsq_fun) (data residual : list R) (deg : nat) (valid : nat -> bool) (detect : bool) : R :=
  let n := length data in let d := fun t => nth t data 0 in
  let rise := rises d n in let fall := falls d n in
  let vr := fun t => (rise t && valid t)%bool in let vf := fun t => (fall t && valid t)%bool in
  if (detect && (100 <? count_of n rise)%nat && (100 <? count_of n fall)%nat && (50 <? count_of n vr)%nat && (50 <? count_of n vf)%nat)%bool
  then lmean (map (fun x => Rabs (polyval (polyfit lstsq (masked data vr) (masked residual vr) deg) deg x - polyval (polyfit lstsq (masked data vf) (masked residual vf) deg) deg x)) (rsort data))
  else 0.
Lemma masked_ext l m m' : (forall t, (t < length l)%nat -> m t = m' t) -> masked l m = masked l m'.
Proof. intros E. unfold masked. rewrite (positions_ext _ m m' E). reflexivity. Qed.
Lemma checked_ok lstsq x y order : (0 <= order)%Z -> x <> [] -> polyfit_checked lstsq x y order = Ok (polyfit lstsq x y (Z.to_nat order)).
Proof. intros O X. unfold polyfit_checked, raise_if. destruct (Z.ltb_spec order 0); [lia |]. destruct x; [contradiction | reflexivity]. Qed.
Lemma masked_nonempty l m n : length l = n -> (50 < count_of n m)%nat -> masked l m <> [].
Proof. intros L C E. apply (f_equal (@length R)) in E. rewrite masked_length, L, positions_count in E. cbn [length] in E. lia. Qed.
Lemma eplane_flat lstsq data order detect mode : (2 <= length data)%nat -> mode <> UnitOther ->
  exists fit lo hi, fit_core lstsq data None 3 (1 / 10 ^ 9) = Ok fit /\ length (f_residuals fit) = length data /\
  (forall t, (t < length data)%nat -> nth t (f_residuals fit) 0 = nth t data 0 - nth t (f_fitted fit) 0) /\
  is_percentile (length data) (fun t => nth t data 0) 2 lo /\ is_percentile (length data) (fun t => nth t data 0) 98 hi /\
  let valid := inside (fun t => nth t data 0) lo hi in
  error_phase_plane lstsq data order detect mode =
    if (order <? 0)%Z then Err ValueError else if (count_of (length data) valid =? 0)%nat then Err TypeError
    else Ok (mkEplane (f_residuals fit) fit (polyfit lstsq (masked data valid) (masked (f_residuals fit) valid) (Z.to_nat order)) (eplane_gap lstsq data (f_residuals fit) (Z.to_nat order) valid detect)).
Proof.
  intros Hn HM. destruct (fit_runs lstsq data 3 (1 / 10 ^ 9) Hn) as (fit & F & LF & RF).
  assert (ND : data <> []) by (intros ->; cbn [length] in Hn; lia).
  destruct (percentile_is data 2 ND ltac:(lra)) as (lo & P1 & Q1). destruct (percentile_is data 98 ND ltac:(lra)) as (hi & P2 & Q2).
  assert (LR : length (f_residuals fit) = length data) by (rewrite RF, map2_length; lia).
  exists fit, lo, hi. split; [exact F |]. split; [exact LR |]. split.
  { intros t Ht. rewrite RF. apply map2_nth; lia. }
  split; [exact Q1 |]. split; [exact Q2 |]. intros valid.
  assert (EV : forall t, (Rltb lo (nth t data 0) && Rltb (nth t data 0) hi)%bool = valid t) by (intros t; apply valid_inside).
  unfold error_phase_plane. cbv zeta. unfold raise_if at 1 2.
  replace (match mode with UnitOther => true | _ => false end) with false by (destruct mode; [reflexivity | reflexivity | reflexivity | reflexivity | contradiction]).
  replace (match mode with UnitAuto => (length data =? 0)%nat | _ => false end) with false by (destruct mode; try reflexivity; destruct (Nat.eqb_spec (length data) 0); [lia | reflexivity]).
  rewrite F. cbn [bind]. rewrite P1, P2. cbn [bind].
  rewrite (masked_ext data _ valid) by (intros; apply EV). rewrite (masked_ext (f_residuals fit) _ valid) by (intros; apply EV).
  unfold polyfit_checked at 1, raise_if. destruct (Z.ltb_spec order 0) as [O | O]; [reflexivity |].
  rewrite masked_length, positions_count. destruct (Nat.eqb_spec (count_of (length data) valid) 0) as [Z0 | Z0]; [reflexivity |]. cbn [bind].
  unfold eplane_gap. cbv zeta. set (n := length data) in *. set (d := fun t => nth t data 0) in *.
  destruct detect; cbn [andb]; [| reflexivity].
  rewrite (positions_ext n (fun t => Rltb 0 (gradient data t)) (rises d n)) by (intros t Ht; apply rise_is; assumption).
  rewrite (positions_ext n (fun t => Rltb (gradient data t) 0) (falls d n)) by (intros t Ht; apply fall_is; assumption).
  rewrite !positions_count. destruct ((100 <? count_of n (rises d n))%nat && (100 <? count_of n (falls d n))%nat)%bool; cbn [andb]; [| reflexivity].
  set (vr := fun t => (rises d n t && valid t)%bool). set (vf := fun t => (falls d n t && valid t)%bool).
  assert (ER : forall t, (t < n)%nat -> (Rltb 0 (gradient data t) && (Rltb lo (nth t data 0) && Rltb (nth t data 0) hi))%bool = vr t) by (intros t Ht; unfold vr; rewrite EV, rise_is by assumption; reflexivity).
  assert (EF : forall t, (t < n)%nat -> (Rltb (gradient data t) 0 && (Rltb lo (nth t data 0) && Rltb (nth t data 0) hi))%bool = vf t) by (intros t Ht; unfold vf; rewrite EV, fall_is by assumption; reflexivity).
  rewrite <- !positions_count, (positions_ext n _ vr ER), (positions_ext n _ vf EF), !positions_count.
  pose proof ER as ER'. pose proof EF as EF'. rewrite <- LR in ER', EF'.
  rewrite (masked_ext data _ vr ER), (masked_ext data _ vf EF), (masked_ext (f_residuals fit) _ vr ER'), (masked_ext (f_residuals fit) _ vf EF').
  destruct (Nat.ltb_spec 50 (count_of n vr)) as [CR | CR]; [rewrite checked_ok by (assumption || (apply (masked_nonempty _ _ n); [reflexivity | exact CR])); cbn [bind andb] | cbn [bind andb]].
  - destruct (Nat.ltb_spec 50 (count_of n vf)) as [CF | CF]; [rewrite checked_ok by (assumption || (apply (masked_nonempty _ _ n); [reflexivity | exact CF])); reflexivity | reflexivity].
  - destruct (Nat.ltb_spec 50 (count_of n vf)) as [CF | CF]; [rewrite checked_ok by (assumption || (apply (masked_nonempty _ _ n); [reflexivity | exact CF])); reflexivity | reflexivity].
Qed.
Lemma lmean_perm l l' : Permutation l l' -> lmean l = lmean l'.
Proof.
  intros P. unfold lmean. rewrite (Permutation_length P). f_equal. induction P; cbn [lsum]; try lra.
Qed.
Lemma gap_average data (g : R -> R) : lmean (map g (rsort data)) = average (length data) (fun t => g (nth t data 0)).
Proof.
  rewrite (lmean_perm _ (map g data)) by (apply Permutation_map; symmetry; apply rsort_perm).
  unfold lmean, average. rewrite lsum_rsum, map_length. f_equal. apply rsum_ext. intros i Hi. apply (nth_map_in g). exact Hi.
Qed.

(** What is returned: the residual of the sine fit; a trend that is the best polynomial of the given order for the residual
    over the samples strictly between the 2nd and the 98th percentile; and the gap, which is zero unless detection is on, more
    than 100 samples rise, more than 100 fall, and more than 50 of each lie in that range, and otherwise the mean over all samples
    of the distance between the best polynomials for the rising and for the falling samples of that range. *)
Lemma c115_result lstsq data order detect mode r : least_squares lstsq -> (2 <= length data)%nat -> error_phase_plane lstsq data order detect mode = Ok r ->
  let n := length data in let d := fun t => nth t data 0 in let e := fun t => nth t (ep_residual r) 0 in let deg := Z.to_nat order in
  fit_core lstsq data None 3 (1 / 10 ^ 9) = Ok (ep_fit r) /\ length (ep_residual r) = n /\ (forall t, (t < n)%nat -> e t = d t - nth t (f_fitted (ep_fit r)) 0) /\
  exists lo hi, is_percentile n d 2 lo /\ is_percentile n d 98 hi /\
  let used := inside d lo hi in let up := fun t => (rises d n t && used t)%bool in let down := fun t => (falls d n t && used t)%bool in
  let some_nonzero := fun m => exists t, (t < n)%nat /\ m t = true /\ d t <> 0 in
  (some_nonzero used -> best_polynomial n used d e deg (fun i => ep_trend r (deg - i)%nat)) /\
  (detect = false \/ (count_of n (rises d n) <= 100)%nat \/ (count_of n (falls d n) <= 100)%nat \/ (count_of n up <= 50)%nat \/ (count_of n down <= 50)%nat -> ep_gap r = 0) /\
  (detect = true -> (100 < count_of n (rises d n))%nat -> (100 < count_of n (falls d n))%nat -> (50 < count_of n up)%nat -> (50 < count_of n down)%nat ->
     exists p q, ep_gap r = average n (fun t => Rabs (poly deg p (d t) - poly deg q (d t))) /\
       (some_nonzero up -> best_polynomial n up d e deg p) /\ (some_nonzero down -> best_polynomial n down d e deg q)).
Proof.
  intros L Hn E n d e deg. assert (HM : mode <> UnitOther) by (intros ->; discriminate).
  destruct (eplane_flat lstsq data order detect mode Hn HM) as (fit & lo & hi & F & LR & RD & Q1 & Q2 & Fl). cbv zeta in Fl. rewrite E in Fl.
  destruct (Z.ltb_spec order 0); [discriminate |]. destruct (Nat.eqb_spec (count_of (length data) (inside (fun t => nth t data 0) lo hi)) 0); [discriminate |].
  injection Fl as ->. cbn [ep_residual ep_fit ep_trend ep_gap] in *. split; [exact F |]. split; [exact LR |]. split; [exact RD |].
  exists lo, hi. split; [exact Q1 |]. split; [exact Q2 |]. fold n d deg. set (used := inside d lo hi). set (up := fun t => (rises d n t && used t)%bool). set (down := fun t => (falls d n t && used t)%bool). split; [| split].
  - intros NZ. apply masked_best; [exact L | symmetry; exact LR | exact NZ].
  - intros H0. unfold eplane_gap. cbv zeta. fold n d used. fold up down. destruct H0 as [-> | [H0 | [H0 | [H0 | H0]]]]; [reflexivity | | | |].
    + destruct (Nat.ltb_spec 100 (count_of n (rises d n))); [lia |]. rewrite Bool.andb_false_r. reflexivity.
    + destruct (Nat.ltb_spec 100 (count_of n (falls d n))); [lia |]. rewrite !Bool.andb_false_r. reflexivity.
    + destruct (Nat.ltb_spec 50 (count_of n up)); [lia |]. rewrite !Bool.andb_false_r. reflexivity.
    + destruct (Nat.ltb_spec 50 (count_of n down)); [lia |]. rewrite !Bool.andb_false_r. reflexivity.
  - intros -> C1 C2 C3 C4. unfold eplane_gap. cbv zeta. fold n d used. fold up down.
    rewrite (proj2 (Nat.ltb_lt _ _) C1), (proj2 (Nat.ltb_lt _ _) C2), (proj2 (Nat.ltb_lt _ _) C3), (proj2 (Nat.ltb_lt _ _) C4). cbn [andb].
    rewrite gap_average. fold n. eexists. eexists. split; [| split].
    + unfold average. f_equal. apply rsum_ext. intros t _. rewrite !polyval_poly. reflexivity.
    + intros NZ. apply masked_best; [exact L | symmetry; exact LR | exact NZ].
    + intros NZ. apply masked_best; [exact L | symmetry; exact LR | exact NZ].
Qed.
Lemma average_nonneg n g : (forall t, (t < n)%nat -> 0 <= g t) -> 0 <= average n g.
Proof.
  intros H. unfold average. destruct n as [| n]; [cbn [rsum]; unfold Rdiv; rewrite Rmult_0_l; lra |]. apply Rdiv_le_0_compat; [apply rsum_nonneg; exact H | apply lt_0_INR; lia].
Qed.
(** The gap is never negative. *)
Lemma c115_nonnegative lstsq data order detect mode r : error_phase_plane lstsq data order detect mode = Ok r -> 0 <= ep_gap r.
Proof.
  intros E. assert (HM : mode <> UnitOther) by (intros ->; discriminate).
  destruct (Nat.lt_ge_cases (length data) 2) as [S1 | S1].
  { exfalso. unfold error_phase_plane, raise_if in E. cbv zeta in E. rewrite fit_short in E by lia. destruct mode; try discriminate. destruct (length data =? 0)%nat; discriminate. }
  destruct (eplane_flat lstsq data order detect mode S1 HM) as (fit & lo & hi & _ & _ & _ & _ & _ & Fl). cbv zeta in Fl. rewrite E in Fl.
  destruct (order <? 0)%Z; [discriminate |]. destruct (_ =? 0)%nat; [discriminate |]. injection Fl as ->. cbn [ep_gap]. unfold eplane_gap. cbv zeta.
  destruct (_ && _)%bool; [| lra]. rewrite gap_average. apply average_nonneg. intros. apply Rabs_pos.
Qed.
(** If over the used rising samples the residual is the polynomial a of the data and over the used falling ones the polynomial b,
    with order + 1 different values on either side, the gap is exactly the mean of |a - b|; in particular a residual that is one
    polynomial of the data has gap zero, and the trend is then that polynomial. *)
Lemma c115_exact lstsq data order mode r a b : least_squares lstsq -> (1 <= order)%Z -> error_phase_plane lstsq data order true mode = Ok r ->
  let n := length data in let d := fun t => nth t data 0 in let e := fun t => nth t (ep_residual r) 0 in let deg := Z.to_nat order in
  forall lo hi, is_percentile n d 2 lo -> is_percentile n d 98 hi ->
  let used := inside d lo hi in let up := fun t => (rises d n t && used t)%bool in let down := fun t => (falls d n t && used t)%bool in
  (100 < count_of n (rises d n))%nat -> (100 < count_of n (falls d n))%nat -> (50 < count_of n up)%nat -> (50 < count_of n down)%nat ->
  distinct_among n up d (S deg) -> distinct_among n down d (S deg) ->
  (forall t, (t < n)%nat -> up t = true -> e t = poly deg a (d t)) -> (forall t, (t < n)%nat -> down t = true -> e t = poly deg b (d t)) ->
  ep_gap r = average n (fun t => Rabs (poly deg a (d t) - poly deg b (d t))) /\
  ((forall t, (t < n)%nat -> used t = true -> e t = poly deg a (d t)) -> ep_gap r = 0 /\ forall x, poly deg (fun i => ep_trend r (deg - i)%nat) x = poly deg a x).
Proof.
  intros L O E n d e deg lo hi Q1 Q2 used up down C1 C2 C3 C4 D1 D2 A B.
  assert (Hn : (2 <= length data)%nat). { fold n. assert (G : forall m P, (count_of m P <= m)%nat) by (induction m as [| m IH]; intros P; cbn [count_of]; [lia | specialize (IH P); destruct (P m); lia]). specialize (G n (rises d n)). lia. }
  destruct (c115_result lstsq data order true mode r L Hn E) as (_ & _ & _ & lo' & hi' & Q1' & Q2' & H). fold n d in Q1', Q2'.
  assert (lo' = lo) by (eapply percentile_unique; [exact Q1' | exact Q1]). assert (hi' = hi) by (eapply percentile_unique; [exact Q2' | exact Q2]). subst lo' hi'. cbv zeta in H. fold n d e deg in H. fold used in H. fold up down in H.
  destruct H as (HT & _ & HG). destruct (HG eq_refl C1 C2 C3 C4) as (p & q & G & BP & BQ). destruct deg as [| dg] eqn:ED; [unfold deg in ED; lia |].
  pose proof (BP (distinct_nonzero _ _ _ _ D1)) as BP'. pose proof (BQ (distinct_nonzero _ _ _ _ D2)) as BQ'.
  assert (PA : forall x, poly (S dg) p x = poly (S dg) a x) by (apply (best_exact n up d e (S dg) p a BP' D1 A)).
  assert (QB : forall x, poly (S dg) q x = poly (S dg) b x) by (apply (best_exact n down d e (S dg) q b BQ' D2 B)).
  split; [rewrite G; unfold average; f_equal; apply rsum_ext; intros t _; rewrite PA, QB; reflexivity |].
  intros U. assert (UP : forall t, up t = true -> used t = true) by (intros t; unfold up; rewrite Bool.andb_true_iff; tauto).
  assert (DN : forall t, down t = true -> used t = true) by (intros t; unfold down; rewrite Bool.andb_true_iff; tauto). split.
  - assert (QA : forall x, poly (S dg) q x = poly (S dg) a x) by (apply (best_exact n down d e (S dg) q a BQ' D2); intros t T1 T2; apply U; [exact T1 | apply DN; exact T2]).
    rewrite G. unfold average. rewrite rsum_zero; [unfold Rdiv; apply Rmult_0_l |]. intros t _. rewrite PA, QA. unfold Rminus. rewrite Rplus_opp_r. apply Rabs_R0.
  - assert (DU : distinct_among n used d (S (S dg))) by (destruct D1 as (l & LL & ND & LT); exists l; split; [exact LL |]; split; [exact ND |]; intros t T; destruct (LT t T) as [T1 T2]; split; [exact T1 | apply UP; exact T2]).
    apply (best_exact n used d e (S dg) _ a (HT (distinct_nonzero _ _ _ _ DU)) DU U).
Qed.
(** Which arguments are refused: an unknown unit mode and fewer than two samples raise ValueError, a negative order ValueError, and a
    record with at most two different values (a one-bit converter) TypeError, because no sample lies strictly inside the range; the
    unit mode has no other influence on the result. *)
Lemma c115_errors lstsq data order detect mode :
  (mode = UnitOther \/ (length data <= 1)%nat \/ (order < 0)%Z -> error_phase_plane lstsq data order detect mode = Err ValueError) /\
  (mode <> UnitOther -> (2 <= length data)%nat -> (0 <= order)%Z -> (exists v w, forall t, (t < length data)%nat -> nth t data 0 = v \/ nth t data 0 = w) ->
     error_phase_plane lstsq data order detect mode = Err TypeError) /\
  (mode <> UnitOther -> error_phase_plane lstsq data order detect mode = error_phase_plane lstsq data order detect UnitCode).
Proof.
  assert (SH : mode <> UnitOther -> (length data <= 1)%nat -> error_phase_plane lstsq data order detect mode = Err ValueError).
  { intros HM Hn. unfold error_phase_plane, raise_if. cbv zeta. rewrite fit_short by exact Hn. destruct mode; try reflexivity; destruct (length data =? 0)%nat; reflexivity. }
  split; [| split].
  - intros H. assert (DM : mode = UnitOther \/ mode <> UnitOther) by (destruct mode; auto; right; discriminate). destruct DM as [-> | HM]; [reflexivity |].
    destruct H as [H | [H | H]]; [contradiction | apply SH; assumption |]. destruct (Nat.lt_ge_cases (length data) 2) as [S1 | S1]; [apply SH; [exact HM | lia] |].
    destruct (eplane_flat lstsq data order detect mode S1 HM) as (fit & lo & hi & _ & _ & _ & _ & _ & ->). cbv zeta. destruct (Z.ltb_spec order 0); [reflexivity | lia].
  - intros HM Hn O (v & w & VW). destruct (eplane_flat lstsq data order detect mode Hn HM) as (fit & lo & hi & _ & _ & _ & Q1 & Q2 & ->). cbv zeta.
    destruct (Z.ltb_spec order 0); [lia |].
    assert (C0 : count_of (length data) (inside (fun t => nth t data 0) lo hi) = 0%nat).
    { assert (NI : forall t, (t < length data)%nat -> inside (fun t => nth t data 0) lo hi t = false).
      { intros t Ht. unfold inside. destruct (Rlt_dec lo (nth t data 0)) as [A |]; [| reflexivity]. destruct (Rlt_dec (nth t data 0) hi) as [B |]; [| reflexivity]. exfalso.
        destruct (percentile_range _ _ _ _ Q1) as (i & _ & I1 & _ & I2 & _). destruct (percentile_range _ _ _ _ Q2) as (_ & j & _ & J1 & _ & J2).
        cbv beta in *. destruct (VW t Ht) as [Et | Et], (VW i I1) as [Ei | Ei], (VW j J1) as [Ej | Ej]; rewrite Et in A, B; rewrite Ei in I2; rewrite Ej in J2; lra. }
      clear - NI. induction (length data) as [| k IH]; [reflexivity |]. cbn [count_of]. rewrite IH by (intros t Ht; apply NI; lia). rewrite NI by lia. reflexivity. }
    rewrite C0. reflexivity.
  - intros HM. unfold error_phase_plane, raise_if. cbv zeta. destruct mode; try reflexivity; [| contradiction].
    destruct (Nat.eqb_spec (length data) 0) as [Z0 |]; [| reflexivity]. rewrite fit_short by lia. reflexivity.
Qed.
(** If the used rising samples and the used falling samples show the same data and residuals (each value the same number of times),
    as for a memoryless converter sampled symmetrically on both edges, the gap is zero. *)
Lemma c115_memoryless lstsq data order mode r : least_squares lstsq -> (1 <= order)%Z -> (2 <= length data)%nat -> error_phase_plane lstsq data order true mode = Ok r ->
  let n := length data in let d := fun t => nth t data 0 in let e := fun t => nth t (ep_residual r) 0 in let deg := Z.to_nat order in
  (forall lo hi, is_percentile n d 2 lo -> is_percentile n d 98 hi ->
    let used := inside d lo hi in let up := fun t => (rises d n t && used t)%bool in let down := fun t => (falls d n t && used t)%bool in
    distinct_among n up d (S deg) /\ distinct_among n down d (S deg) /\
    Permutation (map (fun t => (d t, e t)) (filter up (seq 0 n))) (map (fun t => (d t, e t)) (filter down (seq 0 n)))) ->
  ep_gap r = 0.
Proof.
  intros L O Hn E n d e deg SYM.
  destruct (c115_result lstsq data order true mode r L Hn E) as (_ & _ & _ & lo & hi & Q1 & Q2 & H). fold n d in Q1, Q2. cbv zeta in H. fold n d e deg in H.
  destruct (SYM lo hi Q1 Q2) as (D1 & D2 & PM). set (used := inside d lo hi) in *. set (up := fun t => (rises d n t && used t)%bool) in *. set (down := fun t => (falls d n t && used t)%bool) in *.
  destruct H as (_ & HZ & HG).
  destruct (le_lt_dec (count_of n (rises d n)) 100) as [C1 | C1]; [apply HZ; auto |]. destruct (le_lt_dec (count_of n (falls d n)) 100) as [C2 | C2]; [apply HZ; auto |].
  destruct (le_lt_dec (count_of n up) 50) as [C3 | C3]; [apply HZ; auto |]. destruct (le_lt_dec (count_of n down) 50) as [C4 | C4]; [apply HZ; auto 6 |].
  destruct (HG eq_refl C1 C2 C3 C4) as (p & q & G & BP & BQ). destruct deg as [| dg] eqn:ED; [unfold deg in ED; lia |].
  pose proof (BP (distinct_nonzero _ _ _ _ D1)) as BP'. pose proof (BQ (distinct_nonzero _ _ _ _ D2)) as BQ'.
  assert (SUM : forall c, sum_over n up (fun t => (e t - poly (S dg) c (d t)) ^ 2) = sum_over n down (fun t => (e t - poly (S dg) c (d t)) ^ 2)).
  { intros c. set (g := fun z : R * R => (snd z - poly (S dg) c (fst z)) ^ 2).
    assert (SL : forall m, sum_over n m (fun t => (e t - poly (S dg) c (d t)) ^ 2) = lsum (map g (map (fun t => (d t, e t)) (filter m (seq 0 n))))).
    { intros m. rewrite <- positions_sum. rewrite lsum_rsum, map_map, map_length. apply rsum_ext. intros i Hi. symmetry. apply (nth_map_in (fun t => g (d t, e t)) (filter m (seq 0 n)) i 0%nat). exact Hi. }
    rewrite !SL. apply (Permutation_map g) in PM. clear - PM. induction PM; cbn [lsum]; lra. }
  assert (BQ2 : best_polynomial n up d e (S dg) q) by (intros c'; rewrite !SUM; apply BQ').
  rewrite G. unfold average. rewrite rsum_zero; [unfold Rdiv; apply Rmult_0_l |]. intros t _. rewrite (best_unique n up d e (S dg) p q BP' BQ2 D1). unfold Rminus. rewrite Rplus_opp_r. apply Rabs_R0.
Qed.
(** how percentiles compare with counts *)
Lemma count_filter n (d : nat -> R) (p : R -> bool) : count_of n (fun t => p (d t)) = length (filter p (map d (seq 0 n))).
Proof.
  induction n as [| n IH]; [reflexivity |]. cbn [count_of]. rewrite seq_S, map_app, filter_app, app_length, IH. cbn [map filter Nat.add]. destruct (p (d n)); cbn [length]; lia.
Qed.
Lemma percentile_low n d q v x : is_percentile n d q v -> q / 100 * (INR n - 1) + 1 < INR (count_of n (fun t => Rleb (d t) x)) -> v <= x.
Proof.
  intros (u & i & e & P1 & S1 & Hi & He & HE & ->) HC. assert (LU : length u = n) by (rewrite (Permutation_length P1), map_length, seq_length; reflexivity).
  rewrite (count_filter n d (fun z => Rleb z x)), <- (filter_perm_length _ _ _ P1) in HC.
  assert (C2 : (i + 1 < length (filter (fun z => Rleb z x) u))%nat). { apply INR_lt. rewrite plus_INR. change (INR 1) with 1. lra. }
  pose proof (filter_len_le (fun z => Rleb z x) u) as FL.
  assert (X : nth (i + 1) u 0 <= x).
  { destruct (Rle_lt_dec (nth (i + 1) u 0) x) as [Y | Y]; [exact Y | exfalso]. assert (length (filter (fun z => Rleb z x) u) <= i + 1)%nat; [| lia].
    apply count_prefix. intros j Hj. apply Rleb_false. pose proof (sorted_nth u S1 (i + 1) j ltac:(lia)). lra. }
  rewrite (nth_indep u (nth i u 0) 0) by lia. pose proof (sorted_nth u S1 i (i + 1) ltac:(lia)). nra.
Qed.
Lemma percentile_high n d q v x : is_percentile n d q v -> (1 - q / 100) * (INR n - 1) + 1 < INR (count_of n (fun t => Rleb x (d t))) -> x <= v.
Proof.
  intros (u & i & e & P1 & S1 & Hi & He & HE & ->) HC. assert (LU : length u = n) by (rewrite (Permutation_length P1), map_length, seq_length; reflexivity).
  rewrite (count_filter n d (fun z => Rleb x z)), <- (filter_perm_length _ _ _ P1) in HC.
  assert (C2 : (n - i <= length (filter (fun z => Rleb x z) u))%nat). { assert (n - i - 1 < length (filter (fun z => Rleb x z) u))%nat; [| lia]. apply INR_lt. rewrite !minus_INR by lia. change (INR 1) with 1. lra. }
  assert (X : x <= nth i u 0).
  { destruct (Rle_lt_dec x (nth i u 0)) as [Y | Y]; [exact Y | exfalso]. assert (length (filter (fun z => Rleb x z) u) <= length u - S i)%nat; [| lia].
    apply count_suffix; [lia |]. intros j Hj. apply Rleb_false. pose proof (sorted_nth u S1 j i ltac:(lia)). lra. }
  destruct (Nat.lt_ge_cases (i + 1) n) as [G | G]; [rewrite (nth_indep u (nth i u 0) 0) by lia; pose proof (sorted_nth u S1 i (i + 1) ltac:(lia)); nra | rewrite (nth_overflow u (nth i u 0)) by lia; lra].
Qed.
Lemma percentile_at_most n d q v : is_percentile n d q v -> INR (count_of n (fun t => Rltb (d t) v)) < q / 100 * (INR n - 1) + 1 /\ INR (count_of n (fun t => Rltb v (d t))) < (1 - q / 100) * (INR n - 1) + 1.
Proof.
  intros (u & i & e & P1 & S1 & Hi & He & HE & ->). assert (LU : length u = n) by (rewrite (Permutation_length P1), map_length, seq_length; reflexivity).
  set (v := (1 - e) * nth i u 0 + e * nth (i + 1) u (nth i u 0)).
  assert (VB : nth i u 0 <= v /\ ((i + 1 < n)%nat -> v <= nth (i + 1) u 0) /\ ((i + 1 >= n)%nat \/ e = 0 -> v = nth i u 0)).
  { unfold v. destruct (Nat.lt_ge_cases (i + 1) n) as [G | G].
    - rewrite (nth_indep u (nth i u 0) 0) by lia. pose proof (sorted_nth u S1 i (i + 1) ltac:(lia)). split; [nra |]. split; [intros; nra |]. intros [Q | ->]; [lia | lra].
    - rewrite (nth_overflow u (nth i u 0)) by lia. split; [lra |]. split; [lia |]. intros; lra. }
  destruct VB as (V1 & V2 & V3).
  rewrite (count_filter n d (fun z => Rltb z v)), (count_filter n d (fun z => Rltb v z)), <- !(filter_perm_length _ _ _ P1). split.
  - destruct (Req_dec e 0) as [E0 | E0].
    + assert (K : (length (filter (fun z => Rltb z v) u) <= i)%nat). { apply count_prefix. intros j Hj. apply Rltb_false. rewrite (V3 (or_intror E0)). apply (sorted_nth u S1 i j); lia. }
      apply le_INR in K. lra.
    + assert (K : (length (filter (fun z => Rltb z v) u) <= i + 1)%nat). { apply count_prefix. intros j Hj. apply Rltb_false. eapply Rle_trans; [apply V2; lia | apply (sorted_nth u S1 (i + 1) j); lia]. }
      apply le_INR in K. rewrite plus_INR in K. change (INR 1) with 1 in K. lra.
  - assert (K : (length (filter (fun z => Rltb v z) u) <= length u - S i)%nat). { apply count_suffix; [lia |]. intros j Hj. apply Rltb_false. eapply Rle_trans; [apply (sorted_nth u S1 j i); lia | exact V1]. }
    apply le_INR in K. rewrite minus_INR, S_INR, LU in K by lia. lra.
Qed.
(** The trend and the two edge fits leave out the samples at or beyond the percentiles: fewer than 0.02 (n - 1) + 1 samples lie
    below the lower limit, and as many above the upper one; if more samples than that sit at the lowest value of the record, the
    limit is that value and they are all left out. *)
Lemma c115_interior n d lo hi : is_percentile n d 2 lo -> is_percentile n d 98 hi ->
  INR (count_of n (fun t => Rltb (d t) lo)) < 0.02 * (INR n - 1) + 1 /\ INR (count_of n (fun t => Rltb hi (d t))) < 0.02 * (INR n - 1) + 1 /\
  (forall b, (forall t, (t < n)%nat -> b <= d t) -> 0.02 * (INR n - 1) + 1 < INR (count_of n (fun t => Rleb (d t) b)) -> lo = b) /\
  (forall b, (forall t, (t < n)%nat -> d t <= b) -> 0.02 * (INR n - 1) + 1 < INR (count_of n (fun t => Rleb b (d t))) -> hi = b).
Proof.
  intros Q1 Q2. destruct (percentile_at_most n d 2 lo Q1) as [A _]. destruct (percentile_at_most n d 98 hi Q2) as [_ B].
  split; [replace 0.02 with (2 / 100) by lra; exact A |]. split; [replace 0.02 with (1 - 98 / 100) by lra; exact B |]. split; intros b M C.
  - apply Rle_antisym; [apply (percentile_low n d 2 lo b Q1); replace (2 / 100) with 0.02 by lra; exact C |]. destruct (percentile_range n d 2 lo Q1) as (i & j & I & _ & H1 & _). specialize (M i I). lra.
  - apply Rle_antisym; [| apply (percentile_high n d 98 hi b Q2); replace (1 - 98 / 100) with 0.02 by lra; exact C]. destruct (percentile_range n d 98 hi Q2) as (i & j & _ & J & _ & H1). specialize (M j J). lra.
Qed.
(** A coherent sine leaves nothing: the residual is zero at every sample, and if enough different values lie inside on both edges the
    trend and the gap are zero. *)
Lemma c115_pure_sine lstsq data k A ph off order detect mode r : least_squares lstsq -> (0 < k)%nat -> (k < length data / 2)%nat -> (5 <= length data)%nat -> INR (length data) <= 10 ^ 10 -> 0 < A ->
  is_record data (sine A (INR k / INR (length data)) ph off) -> (1 <= order)%Z -> error_phase_plane lstsq data order detect mode = Ok r ->
  let n := length data in let d := fun t => nth t data 0 in
  (forall t, (t < n)%nat -> nth t (ep_residual r) 0 = 0) /\
  (forall lo hi, is_percentile n d 2 lo -> is_percentile n d 98 hi ->
     let used := inside d lo hi in distinct_among n (fun t => (rises d n t && used t)%bool) d (S (Z.to_nat order)) -> distinct_among n (fun t => (falls d n t && used t)%bool) d (S (Z.to_nat order)) ->
     ep_gap r = 0 /\ forall x, poly (Z.to_nat order) (fun i => ep_trend r (Z.to_nat order - i)%nat) x = 0).
Proof.
  intros L K1 K2 N5 NB PA RC O E n d.
  destruct (c84_auto_fit lstsq data k A ph off 3 (1 / 10 ^ 9) L K1 K2 N5 NB PA ltac:(lia) ltac:(apply Rdiv_lt_0_compat; [lra | apply pow_lt; lra]) RC) as (fit & F & _ & _ & _ & _ & RZ).
  assert (HM : mode <> UnitOther) by (intros ->; discriminate).
  assert (RR : forall t, (t < n)%nat -> nth t (ep_residual r) 0 = 0).
  { destruct (eplane_flat lstsq data order detect mode ltac:(lia) HM) as (fit' & lo & hi & F' & _ & _ & _ & _ & Fl). rewrite F in F'. injection F' as <-. cbv zeta in Fl. rewrite E in Fl.
    destruct (order <? 0)%Z; [discriminate |]. destruct (_ =? 0)%nat; [discriminate |]. injection Fl as ->. exact RZ. }
  split; [exact RR |]. intros lo hi Q1 Q2 used D1 D2.
  destruct (c115_result lstsq data order detect mode r L ltac:(lia) E) as (_ & _ & _ & lo' & hi' & Q1' & Q2' & H). fold n d in Q1', Q2'. cbv zeta in H. fold n d in H.
  assert (lo' = lo) by (eapply percentile_unique; [exact Q1' | exact Q1]). assert (hi' = hi) by (eapply percentile_unique; [exact Q2' | exact Q2]). subst lo' hi'. fold used in H.
  destruct H as (HT & HZ & HG). set (up := fun t => (rises d n t && used t)%bool) in *. set (down := fun t => (falls d n t && used t)%bool) in *. set (deg := Z.to_nat order) in *. destruct deg as [| dg] eqn:ED; [unfold deg in ED; lia |].
  assert (P0 : forall x, poly (S dg) (fun _ => 0) x = 0) by (intros x; unfold poly; apply rsum_zero; intros; ring).
  assert (DU : distinct_among n used d (S (S dg))) by (destruct D1 as (l & LL & ND & LT); exists l; split; [exact LL |]; split; [exact ND |]; intros t T; destruct (LT t T) as [T1 T2]; split; [exact T1 | unfold up in T2; apply Bool.andb_true_iff in T2; tauto]).
  split; [| intros x; rewrite <- (P0 x); apply (best_exact n used d _ (S dg) _ _ (HT (distinct_nonzero _ _ _ _ DU)) DU); intros t T _; rewrite P0; apply RR; exact T].
  destruct detect; [| apply HZ; auto]. destruct (le_lt_dec (count_of n (rises d n)) 100) as [C1 | C1]; [apply HZ; auto |]. destruct (le_lt_dec (count_of n (falls d n)) 100) as [C2 | C2]; [apply HZ; auto |].
  destruct (le_lt_dec (count_of n up) 50) as [C3 | C3]; [apply HZ; auto |]. destruct (le_lt_dec (count_of n down) 50) as [C4 | C4]; [apply HZ; auto 6 |].
  destruct (HG eq_refl C1 C2 C3 C4) as (p & q & G & BP & BQ). rewrite G. unfold average. rewrite rsum_zero; [unfold Rdiv; apply Rmult_0_l |]. intros t _.
  rewrite (best_exact n up d _ (S dg) p (fun _ => 0) (BP (distinct_nonzero _ _ _ _ D1)) D1) by (intros; rewrite P0; apply RR; assumption).
  rewrite (best_exact n down d _ (S dg) q (fun _ => 0) (BQ (distinct_nonzero _ _ _ _ D2)) D2) by (intros; rewrite P0; apply RR; assumption).
  rewrite P0, Rminus_0_r. apply Rabs_R0.
Qed.

(* ---------- examples ---------- *)
(** a sine with eight samples per period *)
Definition eighth (m : nat) : list R := map (fun t => cos (PI / 4 * INR t)) (seq 0 (8 * m)).
Lemma eighth_at m q j : (8 * q + j < 8 * m)%nat -> nth (8 * q + j) (eighth m) 0 = cos (PI / 4 * INR j).
Proof.
  intros H. unfold eighth. rewrite nth_map_seq by exact H. rewrite plus_INR, mult_INR. replace (INR 8) with 8 by (rewrite INR_IZR_INZ; reflexivity).
  replace (PI / 4 * (8 * INR q + INR j)) with (PI / 4 * INR j + 2 * INR q * PI) by field. apply cos_period.
Qed.
Lemma eighth_values : let s := 1 / sqrt 2 in 0 < s < 1 /\ cos (PI / 4 * INR 0) = 1 /\ cos (PI / 4 * INR 1) = s /\ cos (PI / 4 * INR 2) = 0 /\ cos (PI / 4 * INR 3) = - s /\
  cos (PI / 4 * INR 4) = -1 /\ cos (PI / 4 * INR 5) = - s /\ cos (PI / 4 * INR 6) = 0 /\ cos (PI / 4 * INR 7) = s.
Proof.
  intros s. assert (S2 : 1 < sqrt 2) by (rewrite <- sqrt_1; apply sqrt_lt_1; lra).
  assert (N : forall k, INR k = IZR (Z.of_nat k)) by (intros; apply INR_IZR_INZ). rewrite !N. simpl (IZR (Z.of_nat _)).
  split; [split; [apply Rdiv_lt_0_compat; lra | apply (Rmult_lt_reg_r (sqrt 2)); [lra |]; unfold s; field_simplify; lra] |].
  replace (PI / 4 * 0) with 0 by ring. rewrite cos_0. replace (PI / 4 * 1) with (PI / 4) by ring. rewrite cos_PI4. replace (PI / 4 * 2) with (PI / 2) by field. rewrite cos_PI2.
  replace (PI / 4 * 3) with (PI - PI / 4) by field. rewrite Rtrigo_facts.cos_pi_minus, cos_PI4. replace (PI / 4 * 4) with PI by field. rewrite cos_PI.
  replace (PI / 4 * 5) with (PI / 4 + PI) by field. rewrite neg_cos, cos_PI4. replace (PI / 4 * 6) with (3 * (PI / 2)) by field. rewrite cos_3PI2. replace (PI / 4 * 7) with (- (PI / 4) + 2 * INR 1 * PI) by (change (INR 1) with 1; field). rewrite cos_period, cos_neg, cos_PI4.
  unfold s. repeat split; reflexivity.
Qed.
Lemma eighth_length m : length (eighth m) = (8 * m)%nat.
Proof. unfold eighth. rewrite map_length, seq_length. reflexivity. Qed.
Lemma eighth_bounds m t : (t < 8 * m)%nat -> -1 <= nth t (eighth m) 0 <= 1.
Proof. intros H. unfold eighth. rewrite nth_map_seq by exact H. apply COS_bound. Qed.
Lemma count_of_last P k j : (j < k)%nat -> P j = true -> (1 + count_of j P <= count_of k P)%nat.
Proof. intros Hj Q. induction k as [| k IH]; [lia |]. cbn [count_of]. destruct (Nat.eq_dec j k) as [-> | NE]; [rewrite Q; lia |]. specialize (IH ltac:(lia)). lia. Qed.
Lemma count_of_mono P k j : (j <= k)%nat -> (count_of j P <= count_of k P)%nat.
Proof. intros H. induction k as [| k IH]; [replace j with 0%nat by lia; lia |]. destruct (Nat.eq_dec j (S k)) as [-> | NE]; [lia |]. cbn [count_of]. specialize (IH ltac:(lia)). lia. Qed.
Lemma count_block m P j : (forall q, (q < m)%nat -> P (8 * q + j)%nat = true) -> (j < 8)%nat -> (m <= count_of (8 * m) P)%nat.
Proof.
  intros H J. induction m as [| m IH]; [lia |]. specialize (IH ltac:(intros q Hq; apply H; lia)). specialize (H m ltac:(lia)).
  pose proof (count_of_last P (8 * S m) (8 * m + j) ltac:(lia) H). pose proof (count_of_mono P (8 * m + j) (8 * m) ltac:(lia)). lia.
Qed.
Lemma count_blocks m P j1 j2 j3 : (j1 < j2 < j3)%nat -> (j3 < 8)%nat -> (forall q, (q < m)%nat -> P (8 * q + j1)%nat = true /\ P (8 * q + j2)%nat = true /\ P (8 * q + j3)%nat = true) -> (3 * m <= count_of (8 * m) P)%nat.
Proof.
  intros J1 J3 H. assert (AP : forall k, (k <= 8)%nat -> forall n, count_of (n + k) P = (count_of n P + count_of k (fun i => P (n + i)%nat))%nat).
  { induction k as [| k IH]; intros K n; [rewrite Nat.add_0_r; cbn [count_of]; lia |]. rewrite Nat.add_succ_r. cbn [count_of]. rewrite IH by lia. lia. }
  assert (C8 : forall Q : nat -> bool, Q j1 = true -> Q j2 = true -> Q j3 = true -> (3 <= count_of 8 Q)%nat).
  { intros Q A B C. assert (GE : forall k j, (j < k)%nat -> Q j = true -> (1 + count_of j Q <= count_of k Q)%nat).
    { induction k as [| k IH]; intros j Hj Qj; [lia |]. cbn [count_of]. destruct (Nat.eq_dec j k) as [-> | NE]; [rewrite Qj; lia |]. specialize (IH j ltac:(lia) Qj). lia. }
    pose proof (GE 8%nat j3 J3 C). pose proof (GE j3 j2 ltac:(lia) B). pose proof (GE j2 j1 ltac:(lia) A). lia. }
  induction m as [| m IH]; [lia |]. replace (8 * S m)%nat with (8 * m + 8)%nat by lia. rewrite AP by lia. specialize (IH ltac:(intros q Hq; apply H; lia)). destruct (H m ltac:(lia)) as (A & B & C). specialize (C8 (fun i => P (8 * m + i)%nat) A B C). lia.
Qed.
Lemma eighth_limits m lo hi : (2 <= m)%nat -> is_percentile (8 * m) (fun t => nth t (eighth m) 0) 2 lo -> is_percentile (8 * m) (fun t => nth t (eighth m) 0) 98 hi -> lo = -1 /\ hi = 1.
Proof.
  intros M Q1 Q2. destruct (c115_interior _ _ lo hi Q1 Q2) as (_ & _ & A & B). destruct eighth_values as (_ & V0 & _ & _ & _ & V4 & _).
  assert (MM : 0.02 * (INR (8 * m) - 1) + 1 < INR m). { rewrite mult_INR. replace (INR 8) with 8 by (rewrite INR_IZR_INZ; reflexivity). apply le_INR in M. change (INR 2) with 2 in M. lra. }
  split; [apply A | apply B].
  - intros t Ht. apply eighth_bounds. exact Ht.
  - eapply Rlt_le_trans; [exact MM |]. apply le_INR, (count_block m _ 4); [| lia]. intros q Hq. rewrite eighth_at by lia. rewrite V4. apply Rleb_true. lra.
  - intros t Ht. apply eighth_bounds. exact Ht.
  - eapply Rlt_le_trans; [exact MM |]. apply le_INR, (count_block m _ 0); [| lia]. intros q Hq. rewrite eighth_at by lia. rewrite V0. apply Rleb_true. lra.
Qed.
Lemma eighth_edges m q : (q < m)%nat -> let d := fun t => nth t (eighth m) 0 in let used := inside d (-1) 1 in
  let up := fun t => (rises d (8 * m) t && used t)%bool in let down := fun t => (falls d (8 * m) t && used t)%bool in
  (up (8 * q + 5)%nat = true /\ up (8 * q + 6)%nat = true /\ up (8 * q + 7)%nat = true) /\ (down (8 * q + 1)%nat = true /\ down (8 * q + 2)%nat = true /\ down (8 * q + 3)%nat = true).
Proof.
  intros Q d used up down. destruct eighth_values as (S1 & V0 & V1 & V2 & V3 & V4 & V5 & V6 & V7). set (s := 1 / sqrt 2) in *. clearbody s.
  assert (U : forall j v, cos (PI / 4 * INR j) = v -> (j < 8)%nat -> d (8 * q + j)%nat = v) by (intros j v <- J; apply eighth_at; lia).
  assert (RS : forall t a b v, (1 <= t)%nat -> d (Nat.min (t + 1) (8 * m - 1)) = a -> d (t - 1)%nat = b -> d t = v -> b < a -> -1 < v < 1 -> up t = true).
  { intros t a b v _ A B C AB V. unfold up, rises, used, inside, slope. rewrite A, B, C. destruct (Rlt_dec 0 (a - b)); [| lra]. destruct (Rlt_dec (-1) v); [| lra]. destruct (Rlt_dec v 1); [reflexivity | lra]. }
  assert (FS : forall t a b v, (1 <= t)%nat -> d (Nat.min (t + 1) (8 * m - 1)) = a -> d (t - 1)%nat = b -> d t = v -> a < b -> -1 < v < 1 -> down t = true).
  { intros t a b v _ A B C AB V. unfold down, falls, used, inside, slope. rewrite A, B, C. destruct (Rlt_dec (a - b) 0); [| lra]. destruct (Rlt_dec (-1) v); [| lra]. destruct (Rlt_dec v 1); [reflexivity | lra]. }
  assert (MN : forall j, (j < 7)%nat -> Nat.min (8 * q + j + 1) (8 * m - 1) = (8 * q + (j + 1))%nat) by (intros; lia).
  assert (PR : forall j, (1 <= j)%nat -> (8 * q + j - 1 = 8 * q + (j - 1))%nat) by (intros; lia).
  split; (split; [| split]).
  - apply (RS _ 0 (-1) (- s)); [lia | rewrite MN by lia; apply U; [exact V6 | lia] | rewrite PR by lia; apply U; [exact V4 | lia] | apply U; [exact V5 | lia] | lra | lra].
  - apply (RS _ s (- s) 0); [lia | rewrite MN by lia; apply U; [exact V7 | lia] | rewrite PR by lia; apply U; [exact V5 | lia] | apply U; [exact V6 | lia] | lra | lra].
  - destruct (Nat.eq_dec (S q) m) as [E | E].
    + apply (RS _ s 0 s); [lia | replace (Nat.min (8 * q + 7 + 1) (8 * m - 1)) with (8 * q + 7)%nat by lia; apply U; [exact V7 | lia] | rewrite PR by lia; apply U; [exact V6 | lia] | apply U; [exact V7 | lia] | lra | lra].
    + apply (RS _ 1 0 s); [lia | replace (Nat.min (8 * q + 7 + 1) (8 * m - 1)) with (8 * (S q) + 0)%nat by lia; unfold d; rewrite eighth_at by lia; exact V0 | rewrite PR by lia; apply U; [exact V6 | lia] | apply U; [exact V7 | lia] | lra | lra].
  - apply (FS _ 0 1 s); [lia | rewrite MN by lia; apply U; [exact V2 | lia] | rewrite PR by lia; apply U; [exact V0 | lia] | apply U; [exact V1 | lia] | lra | lra].
  - apply (FS _ (- s) s 0); [lia | rewrite MN by lia; apply U; [exact V3 | lia] | rewrite PR by lia; apply U; [exact V1 | lia] | apply U; [exact V2 | lia] | lra | lra].
  - apply (FS _ (-1) 0 (- s)); [lia | rewrite MN by lia; apply U; [exact V4 | lia] | rewrite PR by lia; apply U; [exact V2 | lia] | apply U; [exact V3 | lia] | lra | lra].
Qed.
Lemma eighth_distinct m : (1 <= m)%nat -> let d := fun t => nth t (eighth m) 0 in let used := inside d (-1) 1 in
  distinct_among (8 * m) (fun t => (rises d (8 * m) t && used t)%bool) d 3 /\ distinct_among (8 * m) (fun t => (falls d (8 * m) t && used t)%bool) d 3.
Proof.
  intros M d used. destruct eighth_values as (S1 & V0 & V1 & V2 & V3 & V4 & V5 & V6 & V7). set (s := 1 / sqrt 2) in *. clearbody s.
  destruct (eighth_edges m 0 M) as ((A1 & A2 & A3) & (B1 & B2 & B3)). cbn [Nat.mul Nat.add] in *.
  assert (U : forall j v, cos (PI / 4 * INR j) = v -> (j < 8)%nat -> d j = v) by (intros j v <- J; apply (eighth_at m 0 j); clear - M J; lia).
  split; [exists [5; 6; 7]%nat | exists [1; 2; 3]%nat]; (split; [reflexivity |]; split).
  - cbn [map]. rewrite (U 5%nat _ V5), (U 6%nat _ V6), (U 7%nat _ V7) by (clear; lia). repeat constructor; cbn [In]; intros H; repeat destruct H as [H | H]; try (clear - S1 H; lra); contradiction.
  - intros t [<- | [<- | [<- | []]]]; (split; [clear - M; lia | assumption]).
  - cbn [map]. rewrite (U 1%nat _ V1), (U 2%nat _ V2), (U 3%nat _ V3) by (clear; lia). repeat constructor; cbn [In]; intros H; repeat destruct H as [H | H]; try (clear - S1 H; lra); contradiction.
  - intros t [<- | [<- | [<- | []]]]; (split; [clear - M; lia | assumption]).
Qed.
Lemma eighth_record m : (1 <= m)%nat -> is_record (eighth m) (sine 1 (INR m / INR (length (eighth m))) 0 0).
Proof.
  intros M t Ht. rewrite eighth_length in *. unfold eighth. rewrite nth_map_seq by exact Ht. unfold sine. rewrite mult_INR. replace (INR 8) with 8 by (rewrite INR_IZR_INZ; reflexivity). assert (0 < INR m) by (apply lt_0_INR; lia).
  replace (2 * PI * (INR m / (8 * INR m)) * INR t + 0) with (PI / 4 * INR t) by (field; lra). ring.
Qed.
Lemma eighth_runs m order detect : (2 <= m)%nat -> (0 <= order)%Z -> exists r, error_phase_plane gs_lstsq (eighth m) order detect UnitAuto = Ok r.
Proof.
  intros M O. destruct (eplane_flat gs_lstsq (eighth m) order detect UnitAuto) as (fit & lo & hi & _ & _ & _ & Q1 & Q2 & E); [rewrite eighth_length; lia | discriminate |]. rewrite eighth_length in *.
  cbv zeta in E. destruct (eighth_limits m lo hi M Q1 Q2) as [-> ->]. destruct (Z.ltb_spec order 0); [lia |].
  destruct (Nat.eqb_spec (count_of (8 * m) (inside (fun t => nth t (eighth m) 0) (-1) 1)) 0) as [Z0 |]; [exfalso | eexists; exact E].
  assert (C : (3 * m <= count_of (8 * m) (inside (fun t => nth t (eighth m) 0%R) (-1) 1))%nat); [| lia]. apply (count_blocks m _ 1 2 3); [lia | lia |]. intros q Hq. destruct (eighth_edges m q Hq) as (_ & B1 & B2 & B3). cbv beta zeta in B1, B2, B3.
  apply Bool.andb_true_iff in B1, B2, B3. tauto.
Qed.
Lemma eighth_counts m : let d := fun t => nth t (eighth m) 0 in let used := inside d (-1) 1 in let n := (8 * m)%nat in
  (3 * m <= count_of n (fun t => rises d n t && used t)%bool)%nat /\ (3 * m <= count_of n (fun t => falls d n t && used t)%bool)%nat /\ (3 * m <= count_of n (rises d n))%nat /\ (3 * m <= count_of n (falls d n))%nat.
Proof.
  intros d used n. unfold n. split; [| split; [| split]].
  - apply (count_blocks m _ 5 6 7); [lia | lia |]. intros q Hq. apply (proj1 (eighth_edges m q Hq)).
  - apply (count_blocks m _ 1 2 3); [lia | lia |]. intros q Hq. apply (proj2 (eighth_edges m q Hq)).
  - apply (count_blocks m _ 5 6 7); [lia | lia |]. intros q Hq. destruct (eighth_edges m q Hq) as ((B1 & B2 & B3) & _). cbv beta zeta in B1, B2, B3. apply Bool.andb_true_iff in B1, B2, B3. tauto.
  - apply (count_blocks m _ 1 2 3); [lia | lia |]. intros q Hq. destruct (eighth_edges m q Hq) as (_ & B1 & B2 & B3). cbv beta zeta in B1, B2, B3. apply Bool.andb_true_iff in B1, B2, B3. tauto.
Qed.

Lemma c115_result_ex : exists r, error_phase_plane gs_lstsq (eighth 34) 2 true UnitAuto = Ok r /\ length (ep_residual r) = 272%nat /\
  best_polynomial 272 (inside (fun t => nth t (eighth 34) 0) (-1) 1) (fun t => nth t (eighth 34) 0) (fun t => nth t (ep_residual r) 0) 2 (fun i => ep_trend r (2 - i)%nat).
Proof.
  destruct (eighth_runs 34 2 true ltac:(lia) ltac:(lia)) as (r & E). exists r. split; [exact E |].
  destruct (c115_result gs_lstsq (eighth 34) 2 true UnitAuto r gs_least_squares ltac:(rewrite eighth_length; lia) E) as (_ & LR & _ & lo & hi & Q1 & Q2 & H). rewrite eighth_length in *. split; [exact LR |].
  destruct (eighth_limits 34 lo hi ltac:(lia) Q1 Q2) as [-> ->]. apply H. destruct (eighth_distinct 34 ltac:(lia)) as [D1 _]. destruct (distinct_nonzero _ _ _ _ D1) as (t & T1 & T2 & T3). exists t. split; [exact T1 |]. split; [| exact T3]. apply Bool.andb_true_iff in T2. tauto.
Qed.
Lemma c115_nonnegative_ex : forall r, error_phase_plane gs_lstsq (eighth 34) 2 true UnitAuto = Ok r -> 0 <= ep_gap r.
Proof. intros r. apply c115_nonnegative. Qed.
Lemma c115_interior_ex : forall lo hi, is_percentile 272 (fun t => nth t (eighth 34) 0) 2 lo -> is_percentile 272 (fun t => nth t (eighth 34) 0) 98 hi -> lo = -1 /\ hi = 1.
Proof. intros lo hi. apply (eighth_limits 34). lia. Qed.
Lemma c115_pure_sine_ex : exists r, error_phase_plane gs_lstsq (eighth 34) 2 true UnitAuto = Ok r /\ (forall t, (t < 272)%nat -> nth t (ep_residual r) 0 = 0) /\ ep_gap r = 0.
Proof.
  destruct (eighth_runs 34 2 true ltac:(lia) ltac:(lia)) as (r & E). exists r. split; [exact E |].
  assert (N2 : INR (length (eighth 34)) <= 10 ^ 10) by (rewrite eighth_length, (INR_IZR_INZ (8 * 34)); simpl (IZR (Z.of_nat _)); lra).
  assert (N3 : (34 < length (eighth 34) / 2)%nat) by (rewrite eighth_length; apply Nat.ltb_lt; vm_compute; reflexivity).
  destruct (c115_pure_sine gs_lstsq (eighth 34) 34 1 0 0 2 true UnitAuto r gs_least_squares ltac:(lia) N3 ltac:(rewrite eighth_length; lia) N2 ltac:(lra) (eighth_record 34 ltac:(lia)) ltac:(lia) E) as (A & B).
  rewrite eighth_length in *. split; [exact A |].
  destruct (percentile_is (eighth 34) 2) as (lo & _ & Q1); [intros Z; apply (f_equal (@length R)) in Z; rewrite eighth_length in Z; cbn in Z; lia | lra |].
  destruct (percentile_is (eighth 34) 98) as (hi & _ & Q2); [intros Z; apply (f_equal (@length R)) in Z; rewrite eighth_length in Z; cbn in Z; lia | lra |]. rewrite eighth_length in Q1, Q2.
  destruct (eighth_limits 34 lo hi ltac:(lia) Q1 Q2) as [-> ->]. destruct (eighth_distinct 34 ltac:(lia)) as [D1 D2]. apply (B (-1) 1 Q1 Q2); [exact D1 | exact D2].
Qed.
Lemma c115_exact_ex : exists r, error_phase_plane gs_lstsq (eighth 34) 2 true UnitAuto = Ok r /\ ep_gap r = average 272 (fun t => Rabs (poly 2 (fun _ => 0) (nth t (eighth 34) 0) - poly 2 (fun _ => 0) (nth t (eighth 34) 0))).
Proof.
  destruct c115_pure_sine_ex as (r & E & Z & _). exists r. split; [exact E |]. pose proof (c115_exact gs_lstsq (eighth 34) 2 UnitAuto r (fun _ => 0) (fun _ => 0) gs_least_squares ltac:(lia) E) as H. cbv zeta in H. rewrite eighth_length in H.
  destruct (percentile_is (eighth 34) 2) as (lo & _ & Q1); [intros Y; apply (f_equal (@length R)) in Y; rewrite eighth_length in Y; cbn in Y; lia | lra |].
  destruct (percentile_is (eighth 34) 98) as (hi & _ & Q2); [intros Y; apply (f_equal (@length R)) in Y; rewrite eighth_length in Y; cbn in Y; lia | lra |]. rewrite eighth_length in Q1, Q2.
  destruct (eighth_limits 34 lo hi ltac:(lia) Q1 Q2) as [-> ->]. destruct (eighth_distinct 34 ltac:(lia)) as [D1 D2]. destruct (eighth_counts 34) as (C1 & C2 & C3 & C4).
  assert (P0 : forall x, poly 2 (fun _ => 0) x = 0) by (intros x; unfold poly; apply rsum_zero; intros; ring).
  apply (H (-1) 1 Q1 Q2); [lia | lia | lia | lia | exact D1 | exact D2 | intros t T _; change (Z.to_nat 2) with 2%nat; rewrite P0; apply Z; exact T | intros t T _; change (Z.to_nat 2) with 2%nat; rewrite P0; apply Z; exact T].
Qed.
Lemma c115_errors_ex : error_phase_plane gs_lstsq [1; -1; 1; 1; -1; -1] 3 true UnitAuto = Err TypeError /\ error_phase_plane gs_lstsq [1; 2; 3] 3 true UnitOther = Err ValueError /\ error_phase_plane gs_lstsq [1] 3 true UnitVoltage = Err ValueError.
Proof.
  split; [| split; [reflexivity | apply (proj1 (c115_errors gs_lstsq [1] 3 true UnitVoltage)); right; left; cbn; lia]]. apply (proj1 (proj2 (c115_errors gs_lstsq [1; -1; 1; 1; -1; -1] 3 true UnitAuto))); [discriminate | cbn; lia | lia |].
  exists 1, (-1). intros t Ht. cbn [length] in Ht. do 6 (destruct t as [| t]; [cbn [nth]; auto |]). lia.
Qed.
Lemma eighth_symmetric m (e : nat -> R) : (forall t, (t < 8 * m)%nat -> e t = 0) -> let d := fun t => nth t (eighth m) 0 in let used := inside d (-1) 1 in let n := (8 * m)%nat in
  Permutation (map (fun t => (d t, e t)) (filter (fun t => rises d n t && used t)%bool (seq 0 n))) (map (fun t => (d t, e t)) (filter (fun t => falls d n t && used t)%bool (seq 0 n))).
Proof.
  intros E0 d used n. destruct eighth_values as (S1 & V0 & V1 & V2 & V3 & V4 & V5 & V6 & V7). set (s := 1 / sqrt 2) in *. clearbody s.
  set (up := fun t => (rises d n t && used t)%bool). set (down := fun t => (falls d n t && used t)%bool).
  assert (X : forall t, (up t = true -> down t = false) /\ (down t = true -> up t = false)).
  { intros t. unfold up, down, rises, falls. split; intros H; apply Bool.andb_true_iff in H; destruct H as [H _].
    - destruct (Rlt_dec (slope d n t) 0); [| reflexivity]. destruct (Rlt_dec 0 (slope d n t)); [lra | discriminate].
    - destruct (Rlt_dec 0 (slope d n t)); [| reflexivity]. destruct (Rlt_dec (slope d n t) 0); [lra | discriminate]. }
  assert (Y : forall t, d t = 1 \/ d t = -1 -> up t = false /\ down t = false).
  { intros t H. assert (U : used t = false) by (unfold used, inside; destruct (Rlt_dec (-1) (d t)); [destruct (Rlt_dec (d t) 1); [lra | reflexivity] | reflexivity]). unfold up, down. rewrite U, !Bool.andb_false_r. auto. }
  assert (G : forall k, (k <= m)%nat -> Permutation (map (fun t => (d t, e t)) (filter up (seq 0 (8 * k)))) (map (fun t => (d t, e t)) (filter down (seq 0 (8 * k))))); [| apply G; lia].
  induction k as [| k IH]; intros K; [apply perm_nil |]. specialize (IH ltac:(lia)).
  replace (8 * S k)%nat with (8 * k + 8)%nat by lia. rewrite seq_app, !filter_app, !map_app. apply Permutation_app; [exact IH |].
  assert (SQ : forall a, seq a 8 = [a + 0; a + 1; a + 2; a + 3; a + 4; a + 5; a + 6; a + 7]%nat) by (intros a; rewrite Nat.add_0_r, <- (Nat.add_comm 1), <- (Nat.add_comm 2), <- (Nat.add_comm 3), <- (Nat.add_comm 4), <- (Nat.add_comm 5), <- (Nat.add_comm 6), <- (Nat.add_comm 7); reflexivity).
  rewrite SQ, Nat.add_0_l.
  destruct (eighth_edges m k ltac:(lia)) as ((A5 & A6 & A7) & (B1 & B2 & B3)). fold d used in A5, A6, A7, B1, B2, B3. cbv zeta in A5, A6, A7, B1, B2, B3. fold n in A5, A6, A7, B1, B2, B3.
  change (up (8 * k + 5)%nat = true) in A5. change (up (8 * k + 6)%nat = true) in A6. change (up (8 * k + 7)%nat = true) in A7. change (down (8 * k + 1)%nat = true) in B1. change (down (8 * k + 2)%nat = true) in B2. change (down (8 * k + 3)%nat = true) in B3.
  assert (U : forall j v, cos (PI / 4 * INR j) = v -> (j < 8)%nat -> d (8 * k + j)%nat = v) by (intros j v <- J; apply eighth_at; clear - K J; lia).
  destruct (Y (8 * k + 0)%nat (or_introl (U _ _ V0 ltac:(clear; lia)))) as (A0 & B0). destruct (Y (8 * k + 4)%nat (or_intror (U _ _ V4 ltac:(clear; lia)))) as (A4 & B4).
  cbn [filter]. rewrite A0, B0, A4, B4, A5, A6, A7, B1, B2, B3, (proj2 (X _) B1), (proj2 (X _) B2), (proj2 (X _) B3), (proj1 (X _) A5), (proj1 (X _) A6), (proj1 (X _) A7). cbn [map].
  rewrite (U _ _ V1), (U _ _ V2), (U _ _ V3), (U _ _ V5), (U _ _ V6), (U _ _ V7) by (clear; lia). rewrite !E0 by (clear - K; lia).
  apply (Permutation_rev [(- s, 0); (0, 0); (s, 0)]).
Qed.
Lemma c115_memoryless_ex : exists r, error_phase_plane gs_lstsq (eighth 34) 2 true UnitAuto = Ok r /\ ep_gap r = 0.
Proof.
  destruct c115_pure_sine_ex as (r & E & Z & _). exists r. split; [exact E |]. apply (c115_memoryless gs_lstsq (eighth 34) 2 UnitAuto r gs_least_squares ltac:(lia) ltac:(rewrite eighth_length; lia) E).
  rewrite eighth_length. intros lo hi Q1 Q2. destruct (eighth_limits 34 lo hi ltac:(lia) Q1 Q2) as [-> ->]. destruct (eighth_distinct 34 ltac:(lia)) as [D1 D2]. split; [exact D1 |]. split; [exact D2 |].
  apply (eighth_symmetric 34). exact Z.
Qed.
