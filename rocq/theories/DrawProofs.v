(** * Plots of INL/DNL and of the harmonic decomposition: the final lemmas are named c141_ - c143_. *)
From Verif Require Import Base BaseLemmas Cplx FreqProofs TiProofs SpecModel SpecLemmas SpecProofs RampModel RampSpec RampProofs SineHistModel SineHistSpec SineHistProofs PlotModel PlotSpec PlotProofs.
From Verif Require Import DoutProofs UnitsModel CalModel CalSpec CalProofs CalExLemmas CalExProofs TiModel TiToneProofs SpecToneProofs FitModel FitSpec FitProofs AcfModel AcfProofs RearProofs HarmModel HarmSpec HarmProofs DrawModel DrawSpec.
From Coq Require Import Psatz.
Local Open Scope R_scope.

Lemma rlist_extremes l : l <> [] -> extremes l (rmin_list l) (rmax_list l).
Proof.
  intros N. split; [apply rmin_list_in, N |]. split; [apply rmax_list_in, N |]. intros v I. cbn [fst snd]. split; [apply fold_rmin_le, I | apply fold_rmax_ge, I].
Qed.
Lemma extremes_unique l a b c d : extremes l a b -> extremes l c d -> a = c /\ b = d.
Proof.
  intros (I1 & I2 & C1) (J1 & J2 & C2). pose proof (C1 c J1) as X1. pose proof (C1 d J2) as X2. pose proof (C2 a I1) as X3. pose proof (C2 b I2) as X4. cbn [fst snd] in *. split; lra.
Qed.
Lemma all_fin_map l : all_fin (map Fin l) = Some l.
Proof. induction l as [| x t IH]; [reflexivity |]. cbn. rewrite IH. reflexivity. Qed.
Lemma all_fin_some l v : all_fin l = Some v -> l = map Fin v.
Proof.
  revert v. induction l as [| x t IH]; intros v E; cbn in E; [injection E as <-; reflexivity |]. destruct x; try discriminate E. destruct (all_fin t) as [w |]; [| discriminate E]. injection E as <-. cbn. rewrite <- (IH w eq_refl). reflexivity.
Qed.
Lemma all_fin_nan l : In NaN l -> all_fin l = None.
Proof. induction l as [| x t IH]; intros []; cbn; [subst; reflexivity |]. destruct x; try reflexivity. rewrite (IH H). reflexivity. Qed.

(** The limits of one curve: [-1, 1] when the data stay within, else 1.2 times the two extremes.  Every
    point is inside, unless all values lie on one side of zero and reach beyond one; both reference lines
    are inside exactly when the data stay within one or go beyond 1/1.2 on both sides. *)
Lemma curve_inv code data nb p : single_curve code data nb = Ok p ->
  exists v lo hi, data = map Fin v /\ length code = length v /\ pn_y p = v /\ extremes v lo hi /\
  pn_x p = match nb with Some b => map (fun c => IZR c / 2 ^ b) code | None => map IZR code end /\
  pn_xlim p = match nb with Some _ => (0, 1) | None => (IZR (zmin_list code), IZR (zmax_list code)) end /\
  ((-1 <= lo /\ hi <= 1) /\ pn_ylim p = (-1, 1) \/ (lo < -1 \/ 1 < hi) /\ pn_ylim p = (lo * (12 / 10), hi * (12 / 10))).
Proof.
  unfold single_curve. destruct (Nat.eqb_spec (length code) (length data)) as [L |]; [| discriminate]. cbn [negb raise_if]. destruct (Nat.eqb_spec (length data) 0) as [| NE]; [discriminate |]. cbn [raise_if].
  destruct (all_fin data) as [v |] eqn:F; [| discriminate]. apply all_fin_some in F. intros E. apply Ok_inj in E. subst p. subst data. rewrite map_length in L, NE.
  assert (NV : v <> []) by (intros ->; cbn in NE; lia). exists v, (rmin_list v), (rmax_list v). cbn [pn_x pn_y pn_xlim pn_ylim]. pose proof (rlist_extremes v NV) as X. pose proof X as (I1 & I2 & C). pose proof (C _ I1) as C1. cbn [fst snd] in C1.
  split; [reflexivity |]. split; [exact L |]. split; [reflexivity |]. split; [exact X |]. split; [reflexivity |]. split; [reflexivity |].
  destruct (Rleb_spec (Rmax (Rabs (rmin_list v)) (Rabs (rmax_list v))) 1) as [B | B].
  - left. split; [| reflexivity]. pose proof (Rmax_l (Rabs (rmin_list v)) (Rabs (rmax_list v))). pose proof (Rmax_r (Rabs (rmin_list v)) (Rabs (rmax_list v))).
    split; [pose proof (Rle_abs (- rmin_list v)) as RA; rewrite Rabs_Ropp in RA; lra | pose proof (Rle_abs (rmax_list v)); lra].
  - right. split; [| reflexivity]. destruct (Rlt_or_le (rmin_list v) (-1)) as [| A1]; [left; assumption |]. destruct (Rlt_or_le 1 (rmax_list v)) as [| A2]; [right; assumption |]. exfalso.
    revert B. apply Rle_not_lt. apply Rmax_lub; apply Rabs_le; lra.
Qed.
Lemma curve_ok code v nb : length code = length v -> v <> [] -> exists p, single_curve code (map Fin v) nb = Ok p.
Proof.
  intros L N. unfold single_curve. rewrite map_length, L, Nat.eqb_refl. cbn [negb raise_if]. destruct (Nat.eqb_spec (length v) 0) as [E |]; [apply length_zero_iff_nil in E; contradiction |]. cbn [raise_if]. rewrite all_fin_map. eexists. reflexivity.
Qed.
(** The vertical limits. *)
Lemma c141_limits code data nb p lo hi : single_curve code data nb = Ok p -> extremes (pn_y p) lo hi ->
  data = map Fin (pn_y p) /\
  (covers (pn_ylim p) (pn_y p) <-> -1 <= lo /\ hi <= 1 \/ lo <= 0 <= hi) /\
  (covers (pn_ylim p) reference_lines <-> -1 <= lo /\ hi <= 1 \/ lo <= - (5 / 6) /\ 5 / 6 <= hi) /\
  (lo <= 0 <= hi -> lo < -1 \/ 1 < hi -> fst (pn_ylim p) = 6 / 5 * lo /\ snd (pn_ylim p) = 6 / 5 * hi).
Proof.
  intros E X. destruct (curve_inv _ _ _ _ E) as (v & l & h & D & L & Y & X' & _ & _ & C). rewrite Y in *. destruct (extremes_unique _ _ _ _ _ X X') as (<- & <-). destruct X as (I1 & I2 & CV). split; [exact D |].
  pose proof (CV _ I1) as B. cbn [fst snd] in B. unfold covers, reference_lines. destruct C as [((C1 & C2) & ->) | (C & ->)]; cbn [fst snd].
  - split; [| split].
    + split; [left; split; assumption |]. intros _ w I. pose proof (CV w I) as W. cbn [fst snd] in W. lra.
    + split; [left; split; assumption |]. intros _ w [<- | [<- | []]]; lra.
    + intros _ [|]; lra.
  - split; [| split].
    + split.
      * intros H. pose proof (H _ I1). pose proof (H _ I2). right. lra.
      * intros [? | ?] w I; pose proof (CV w I) as W; cbn [fst snd] in W; [destruct C; lra | lra].
    + split.
      * intros H. pose proof (H 1 ltac:(left; reflexivity)). pose proof (H (-1) ltac:(right; left; reflexivity)). right. lra.
      * intros [? | ?] w [<- | [<- | []]]; destruct C; lra.
    + intros _ _. split; lra.
Qed.
(** "minimum +-1": a curve between -0.1 and 5 is drawn without the line at -1. *)
Lemma c141_lines_refuted : exists code data nb p, single_curve code data nb = Ok p /\ ~ covers (pn_ylim p) reference_lines.
Proof.
  destruct (curve_ok [0; 1]%Z [- (1 / 10); 5] None eq_refl ltac:(discriminate)) as (p & E). exists [0; 1]%Z, (map Fin [- (1 / 10); 5]), None, p. split; [exact E |].
  destruct (curve_inv _ _ _ _ E) as (v & _ & _ & D & _ & Y & _). assert (V : v = [- (1 / 10); 5]) by (cbn in D; destruct v as [| a [| b [| c v]]]; inversion D; reflexivity). rewrite V in Y.
  assert (X : extremes (pn_y p) (- (1 / 10)) 5). { rewrite Y. split; [left; reflexivity |]. split; [right; left; reflexivity |]. intros w [<- | [<- | []]]; cbn [fst snd]; lra. }
  destruct (c141_limits _ _ _ _ _ _ E X) as (_ & _ & R & _). rewrite R. lra.
Qed.

Lemma sum0_sides l : l <> [] -> lsum l = 0 -> rmin_list l <= 0 <= rmax_list l.
Proof.
  intros N S. destruct (rlist_extremes l N) as (_ & _ & C).
  assert (LB : forall m, (forall v, In v l -> m <= v) -> INR (length l) * m <= lsum l).
  { clear. induction l as [| x t IH]; intros m H; [cbn; lra |]. cbn [length lsum]. rewrite S_INR. pose proof (H x ltac:(left; reflexivity)). pose proof (IH m ltac:(intros v I; apply H; right; exact I)). lra. }
  assert (UB : forall m, (forall v, In v l -> v <= m) -> lsum l <= INR (length l) * m).
  { clear. induction l as [| x t IH]; intros m H; [cbn; lra |]. cbn [length lsum]. rewrite S_INR. pose proof (H x ltac:(left; reflexivity)). pose proof (IH m ltac:(intros v I; apply H; right; exact I)). lra. }
  assert (P : 0 < INR (length l)) by (apply lt_0_INR; destruct l; [contradiction | cbn; lia]).
  pose proof (LB (rmin_list l) ltac:(intros v I; apply (C v I))) as L1. pose proof (UB (rmax_list l) ltac:(intros v I; apply (C v I))) as L2. rewrite S in *. split.
  - apply Rnot_lt_le. intros H. pose proof (Rmult_lt_0_compat _ _ P H). lra.
  - apply Rnot_lt_le. intros H. assert (0 < INR (length l) * - rmax_list l) by (apply Rmult_lt_0_compat; lra). lra.
Qed.
Lemma zero_sides l i : nth i l 0 = 0 -> (i < length l)%nat -> rmin_list l <= 0 <= rmax_list l.
Proof.
  intros Z I. assert (N : l <> []) by (intros ->; cbn in I; lia). destruct (rlist_extremes l N) as (_ & _ & C). rewrite <- Z at 1 2. apply (C (nth i l 0)), nth_In, I.
Qed.
Lemma curve_sides code data nb p : single_curve code data nb = Ok p -> rmin_list (pn_y p) <= 0 <= rmax_list (pn_y p) -> covers (pn_ylim p) (pn_y p).
Proof.
  intros E S. destruct (curve_inv _ _ _ _ E) as (v & l & h & _ & _ & Y & (I1 & _) & _). assert (NY : pn_y p <> []) by (rewrite Y; intros ->; destruct I1).
  apply (c141_limits _ _ _ _ _ _ E (rlist_extremes _ NY)). right. exact S.
Qed.
Lemma curve_x code data nb p lo hi : single_curve code data nb = Ok p -> code = arange lo hi -> (lo < hi)%Z ->
  (forall b, nb = Some b -> (0 <= lo)%Z /\ (hi - 1 <= 2 ^ Z.of_nat b)%Z) -> covers (pn_xlim p) (pn_x p).
Proof.
  intros E CD LT B. destruct (curve_inv _ _ _ _ E) as (v & l & h & _ & _ & _ & _ & X & XL & _). rewrite X, XL. intros w I. destruct nb as [b |].
  - destruct (B b eq_refl) as (B1 & B2). apply in_map_iff in I. destruct I as (c & <- & I). rewrite CD in I. apply arange_in in I. cbn [fst snd].
    assert (P : 0 < 2 ^ b) by (apply pow_lt; lra). assert (Q : IZR c <= 2 ^ b). { rewrite (pow_IZR 2 b). apply IZR_le. lia. } assert (0 <= IZR c) by (apply IZR_le; lia).
    split; [apply Rdiv_le_0_compat; assumption |]. apply (Rmult_le_reg_r (2 ^ b)); [exact P |]. unfold Rdiv. rewrite Rmult_assoc, Rinv_l by lra. lra.
  - apply in_map_iff in I. destruct I as (c & <- & I). cbn [fst snd]. assert (N : code <> []) by (intros Q; rewrite Q in I; destruct I).
    split; apply IZR_le; [apply (proj2 (zmin_list_spec code N)), I | apply (proj2 (zmax_list_spec code N)), I].
Qed.
Lemma inl_sides codes nb cmin cm ep ex r : compute_inl_from_ramp codes nb cmin cm ep ex = Ok r -> length (r_inl r) = S (length (r_dnl r)) /\ rmin_list (r_inl r) <= 0 <= rmax_list (r_inl r).
Proof.
  intros E. destruct (ramp_inv _ _ _ _ _ _ _ E) as (ci & lo & hi & H). destruct ep.
  - destruct (c31_inl _ _ _ _ _ _ _ E (or_introl eq_refl)) as (_ & L & Z & _). split; [exact L |]. apply (zero_sides _ 0); [exact Z | lia].
  - destruct (c31_inl _ _ _ _ _ _ _ E (or_intror eq_refl)) as (_ & L & Z & _). split; [exact L |]. apply (zero_sides _ 0); [exact Z | lia].
  - destruct (c31_fit _ _ _ _ _ _ E) as (L & _ & S & _). rewrite (r_raw_len _ _ _ _ _ _ _ _ _ _ H) in L, S. rewrite (r_dnl_len _ _ _ _ _ _ _ _ _ _ H). split; [exact L |].
    apply sum0_sides; [intros Q; rewrite Q in L; discriminate L |]. rewrite lsum_rsum, L. exact S.
  - pose proof (ro_inl _ _ _ _ _ _ _ _ _ _ H) as Q. pose proof (r_raw_len _ _ _ _ _ _ _ _ _ _ H) as L. unfold correct_inl in Q. destruct (r_raw r); [discriminate L | discriminate Q].
Qed.
(** The ramp analysis with a plot succeeds exactly when it does without, and returns the same result.  No
    point is hidden vertically.  Horizontally none is hidden either when no resolution is given, or when it
    is and the codes run from zero or more to at most 2^bits.  The titles state the true extremes. *)
Lemma c141_ramp codes nb cmin cm ep ex st r : compute_inl_from_ramp codes nb cmin cm ep ex = Ok r ->
  exists g, analyze_inl_from_ramp true codes nb cmin cm ep ex true st = Ok (r, Some g) /\
  pn_y (di_dnl g) = r_dnl r /\ pn_y (di_inl g) = r_inl r /\
  covers (pn_ylim (di_dnl g)) (r_dnl r) /\ covers (pn_ylim (di_inl g)) (r_inl r) /\
  (nb = None -> pn_x (di_dnl g) = map IZR (r_code r) /\ pn_x (di_inl g) = map IZR (r_trans r)) /\
  (forall b, nb = Some b -> pn_x (di_dnl g) = map (fun c => IZR c / IZR (2 ^ b)) (r_code r) /\ pn_x (di_inl g) = map (fun c => IZR c / IZR (2 ^ b)) (r_trans r) /\
     pn_xlim (di_dnl g) = (0, 1) /\ pn_xlim (di_inl g) = (0, 1)) /\
  (match nb with None => True | Some b => (0 <= cmin)%Z /\ (r_code_max r < 2 ^ b)%Z end ->
     covers (pn_xlim (di_dnl g)) (pn_x (di_dnl g)) /\ covers (pn_xlim (di_inl g)) (pn_x (di_inl g))) /\
  match di_titles g with
  | None => st = false
  | Some ((a, b), (c, d)) => st = true /\ exists dl dh il ih, extremes (r_dnl r) dl dh /\ extremes (r_inl r) il ih /\
      reads false a (Fin dl) /\ reads false b (Fin dh) /\ reads false c (Fin il) /\ reads false d (Fin ih)
  end.
Proof.
  intros E. pose proof (inl_sides _ _ _ _ _ _ _ E) as (LI & SI). destruct (ramp_inv _ _ _ _ _ _ _ E) as (ci & lo & hi & H).
  pose proof (r_code_len _ _ _ _ _ _ _ _ _ _ H) as LC. pose proof (r_dnl_len _ _ _ _ _ _ _ _ _ _ H) as LD. pose proof (ro_le _ _ _ _ _ _ _ _ _ _ H) as LE. pose proof (ro_code _ _ _ _ _ _ _ _ _ _ H) as CD. pose proof (ro_trans _ _ _ _ _ _ _ _ _ _ H) as TR.
  assert (ND : r_dnl r <> []) by (intros Q; rewrite Q in LD; cbn in LD; lia). assert (NI : r_inl r <> []) by (intros Q; rewrite Q in LI; cbn in LI; lia).
  assert (LT : length (r_trans r) = length (r_inl r)) by (rewrite TR, arange_length, LI, LD; lia).
  destruct (curve_ok (r_code r) (r_dnl r) (option_map Z.to_nat nb) ltac:(lia) ND) as (p1 & E1). destruct (curve_ok (r_trans r) (r_inl r) (option_map Z.to_nat nb) LT NI) as (p2 & E2).
  destruct (curve_inv _ _ _ _ E1) as (v1 & l1 & h1 & D1 & _ & Y1 & _ & X1 & XL1 & _). destruct (curve_inv _ _ _ _ E2) as (v2 & l2 & h2 & D2 & _ & Y2 & _ & X2 & XL2 & _).
  assert (V1 : v1 = r_dnl r) by (assert (Some v1 = Some (r_dnl r)) by (rewrite <- !all_fin_map, D1; reflexivity); congruence).
  assert (V2 : v2 = r_inl r) by (assert (Some v2 = Some (r_inl r)) by (rewrite <- !all_fin_map, D2; reflexivity); congruence). rewrite V1 in Y1. rewrite V2 in Y2.
  eexists. split. { unfold analyze_inl_from_ramp, plot_dnl_inl. cbn [negb raise_if]. rewrite E. cbn [bind]. rewrite E1. cbn [bind]. rewrite E2. cbn [bind]. reflexivity. }
  cbn [di_dnl di_inl di_titles]. split; [exact Y1 |]. split; [exact Y2 |].
  split. { rewrite <- Y1. apply (curve_sides _ _ _ _ E1). rewrite Y1. apply sum0_sides; [exact ND | apply (r_dnl_sum _ _ _ _ _ _ _ _ _ _ H)]. }
  split. { rewrite <- Y2. apply (curve_sides _ _ _ _ E2). rewrite Y2. exact SI. }
  split. { intros ->. cbn [option_map] in X1, X2. auto. }
  pose proof (ro_bits _ _ _ _ _ _ _ _ _ _ H) as B.
  assert (PW : forall b, nb = Some b -> 2 ^ Z.to_nat b = IZR (2 ^ b)). { intros b ->. rewrite (pow_IZR 2). do 2 f_equal. lia. }
  split. { intros b ->. cbn [option_map] in X1, X2, XL1, XL2. rewrite (PW b eq_refl) in X1, X2. auto. }
  split.
  - intros K. assert (AN : forall b, nb = Some b -> (0 <= lo)%Z /\ (hi + 1 <= 2 ^ b)%Z). { intros b ->. pose proof (ro_an _ _ _ _ _ _ _ _ _ _ H) as A. unfold analysed in A. pose proof (ro_lim _ _ _ _ _ _ _ _ _ _ H). destruct (ex && _)%bool; lia. }
    split.
    + apply (curve_x _ _ _ _ lo (hi + 1)%Z E1 CD ltac:(lia)). intros b Q. destruct nb as [z |]; [| discriminate Q]. cbn in Q. injection Q as <-. rewrite Z2Nat.id by lia. specialize (AN z eq_refl). lia.
    + apply (curve_x _ _ _ _ lo (hi + 2)%Z E2 TR ltac:(lia)). intros b Q. destruct nb as [z |]; [| discriminate Q]. cbn in Q. injection Q as <-. rewrite Z2Nat.id by lia. specialize (AN z eq_refl). lia.
  - destruct st; [| reflexivity]. unfold range_text. split; [reflexivity |]. rewrite Y1, Y2. exists (rmin_list (r_dnl r)), (rmax_list (r_dnl r)), (rmin_list (r_inl r)), (rmax_list (r_inl r)).
    split; [apply rlist_extremes, ND |]. split; [apply rlist_extremes, NI |]. unfold reads.
    assert (FS : forall x, (exists z, fixed 2 x = Num 2 z) /\ says (fixed 2 x, Unit) x). { intros x. split; [eexists; reflexivity |]. replace (fixed 2 x) with (fixed 2 (x / 1)) by (f_equal; field). apply fixed_says. reflexivity. }
    repeat split; apply FS.
Qed.
(** Signed codes: a two-bit ramp over -2 .. 1 with the resolution given is drawn half outside the axes. *)
Lemma c141_signed_refuted : exists codes b cmin r g, (forall z, In (Fin (IZR z)) codes -> (cmin <= z < cmin + 2 ^ b)%Z) /\
  analyze_inl_from_ramp true codes (Some b) cmin None EpEndpoints false true true = Ok (r, Some g) /\
  ~ covers (pn_xlim (di_dnl g)) (pn_x (di_dnl g)) /\ ~ covers (pn_xlim (di_inl g)) (pn_x (di_inl g)).
Proof.
  set (codes := map (fun z => Fin (IZR z)) [-2; -1; 0; 1]%Z).
  assert (RG : forall z, In (Fin (IZR z)) codes -> (-2 <= z < -2 + 2 ^ 2)%Z). { intros z Hz. unfold codes in Hz. apply in_map_iff in Hz. destruct Hz as (w & E & Hw). inversion E as [E']. apply eq_IZR in E'. subst w. cbn in Hw. lia. }
  assert (An : analysed false (-2) 1 (-2) 1) by (split; reflexivity).
  assert (V : ramp_valid codes (Some 2%Z) (-2) None EpEndpoints false).
  { split; [lia|]. split; [discriminate|]. split; [intros x Hx; apply in_map_iff in Hx; destruct Hx as (z & <- & _); exists z; reflexivity|]. split; [discriminate|].
    exists 1%Z, (-2)%Z, 1%Z. split; [reflexivity|]. split; [lia|]. split; [|split; [exact An|exists 0%Z; split; [right; right; left; reflexivity|lia]]]. intros z Hz. specialize (RG z Hz). lia. }
  apply (proj1 (c31_success_iff _ _ _ _ _ _)) in V. destruct V as (r & E). destruct (c141_ramp _ _ _ _ _ _ true _ E) as (g & G & _ & _ & _ & _ & _ & X & _). destruct (X 2%Z eq_refl) as (X1 & X2 & L1 & L2).
  exists codes, 2%Z, (-2)%Z, r, g. split; [exact RG |]. split; [exact G |]. rewrite X1, X2, L1, L2. destruct (ramp_inv _ _ _ _ _ _ _ E) as (ci & lo & hi & H).
  assert (M : r_code_max r = 1%Z) by exact (ro_upper _ _ _ _ _ _ _ _ _ _ H). pose proof (ro_an _ _ _ _ _ _ _ _ _ _ H) as A. rewrite M in A. destruct A as (-> & ->). rewrite (ro_code _ _ _ _ _ _ _ _ _ _ H), (ro_trans _ _ _ _ _ _ _ _ _ _ H).
  split; intros C.
  - specialize (C (IZR (-2) / IZR (2 ^ 2)) ltac:(apply (in_map (fun c => IZR c / IZR (2 ^ 2))), arange_in; lia)). cbn in C. lra.
  - specialize (C (IZR (-2) / IZR (2 ^ 2)) ltac:(apply (in_map (fun c => IZR c / IZR (2 ^ 2))), arange_in; lia)). cbn in C. lra.
Qed.

Lemma curve_err code data nb : (data = [] \/ In NaN data) -> single_curve code data nb = Err ValueError.
Proof.
  intros [-> | I]; unfold single_curve; destruct (Nat.eqb_spec (length code) (length (data))) as [L | L] || destruct (Nat.eqb_spec (length code) (length (@nil xr))); try reflexivity; cbn [negb raise_if].
  destruct (Nat.eqb_spec (length data) 0); [reflexivity |]. cbn [raise_if]. rewrite (all_fin_nan _ I). reflexivity.
Qed.
Lemma rsum_pos_ne n f : (0 < n)%nat -> (forall i, (i < n)%nat -> 0 < f i) -> rsum n f <> 0.
Proof.
  intros P H. assert (0 < rsum n f); [| lra]. destruct n; [lia |]. cbn [rsum]. pose proof (H n ltac:(lia)). assert (0 <= rsum n f) by (apply rsum_nonneg; intros i I; apply Rlt_le, H; lia). lra.
Qed.
(** The sine analysis with a plot: ValueError when no sample lies strictly between the end codes, although
    the analysis itself succeeds; otherwise the DNL is never hidden vertically, nor the INL when no code has
    to be clamped; horizontally nothing is hidden for codes from zero or more to at most 2^bits. *)
Lemma c141_sine is_float data nb fs clip st r codes lo hi :
  compute_inl_from_sine is_float data nb fs clip = Ok r -> record_codes is_float data nb fs codes -> hist_range codes clip lo hi ->
  (~ interior_hit codes lo hi -> analyze_inl_from_sine is_float data nb fs clip true st = Err ValueError) /\
  (interior_hit codes lo hi -> exists g dn il, analyze_inl_from_sine is_float data nb fs clip true st = Ok (r, Some g) /\
     s_dnl r = map Fin dn /\ s_inl r = map Fin il /\ pn_y (di_dnl g) = dn /\ pn_y (di_inl g) = il /\
     pn_x (di_dnl g) = pn_x (di_inl g) /\ pn_x (di_inl g) = map (fun c => IZR c / match nb with Some b => 2 ^ b | None => 1 end) (s_codes r) /\
     covers (pn_ylim (di_dnl g)) dn /\
     ((forall c, (lo < c < hi)%Z -> -1 <= dnl_of codes lo hi c) -> covers (pn_ylim (di_inl g)) il) /\
     (match nb with None => True | Some b => (0 <= lo)%Z /\ (hi <= 2 ^ Z.of_nat b)%Z end ->
        covers (pn_xlim (di_dnl g)) (pn_x (di_dnl g)) /\ covers (pn_xlim (di_inl g)) (pn_x (di_inl g)))).
Proof.
  intros E C HR. destruct (c32_shape _ _ _ _ _ _ _ _ _ E C HR) as (LI & LD & LC & W). split.
  - intros NI. pose proof (c32_no_interior _ _ _ _ _ _ _ _ _ E C HR NI) as NN. unfold analyze_inl_from_sine, plot_dnl_inl. rewrite E. cbn [bind]. rewrite curve_err; [reflexivity |].
    destruct (s_dnl r) as [| x t] eqn:D; [left; reflexivity |]. right. left. apply NN. left. left. reflexivity.
  - intros I. destruct (c32_values _ _ _ _ _ _ _ _ _ E C HR I) as (dn & D & Dl & V & N). pose proof (width_total codes clip lo hi HR I) as Tot. set (m := Z.to_nat (hi - lo - 1)) in *.
    assert (Pm : (0 < m)%nat) by (unfold m; destruct I as (z & _ & ?); lia). assert (Ln : length dn = m) by (rewrite <- LD, D, map_length; reflexivity).
    set (il := map (fun i => rsum (S i) (fun j => nth j dn 0)) (seq 0 m)).
    assert (DI : s_inl r = map Fin il). { apply (nth_ext _ _ NaN NaN); [unfold il; rewrite !map_length, seq_length; exact LI |]. intros i Hi. rewrite LI in Hi. rewrite N by lia. unfold il. rewrite map_map. rewrite (nth_map_in _ _ _ 0%nat) by (rewrite seq_length; exact Hi). rewrite seq_nth by exact Hi. reflexivity. }
    assert (Li : length il = m) by (unfold il; rewrite map_length, seq_length; reflexivity).
    assert (CD : s_codes r = arange lo (hi - 1)). { apply (nth_ext _ _ 0%Z 0%Z); [rewrite LC, arange_length; unfold m; f_equal; lia |]. intros i Hi. rewrite LC in Hi. rewrite W by exact Hi. rewrite arange_nth; [reflexivity | unfold m in Hi; lia]. }
    destruct (curve_ok (s_codes r) dn nb ltac:(lia) ltac:(intros Q; rewrite Q in Ln; cbn in Ln; lia)) as (p1 & E1). destruct (curve_ok (s_codes r) il nb ltac:(lia) ltac:(intros Q; rewrite Q in Li; cbn in Li; lia)) as (p2 & E2).
    destruct (curve_inv _ _ _ _ E1) as (v1 & l1 & h1 & D1 & _ & Y1 & _ & X1 & XL1 & _). destruct (curve_inv _ _ _ _ E2) as (v2 & l2 & h2 & D2 & _ & Y2 & _ & X2 & XL2 & _).
    assert (V1 : v1 = dn) by (assert (Some v1 = Some dn) by (rewrite <- !all_fin_map, D1; reflexivity); congruence).
    assert (V2 : v2 = il) by (assert (Some v2 = Some il) by (rewrite <- !all_fin_map, D2; reflexivity); congruence). rewrite V1 in Y1. rewrite V2 in Y2.
    eexists. exists dn, il. split. { unfold analyze_inl_from_sine, plot_dnl_inl. rewrite E. cbn [bind]. rewrite D, DI, E1. cbn [bind]. rewrite E2. cbn [bind]. reflexivity. }
    cbn [di_dnl di_inl di_titles]. split; [exact D |]. split; [exact DI |]. split; [exact Y1 |]. split; [exact Y2 |]. split; [rewrite X1, X2; reflexivity |].
    split. { rewrite X2. destruct nb; [reflexivity |]. apply map_ext. intros c. unfold Rdiv. rewrite Rinv_1. ring. }
    assert (NE : dn <> []) by (intros Q; rewrite Q in Ln; cbn in Ln; lia). destruct (rlist_extremes dn NE) as (I1 & I2 & CV).
    split. { rewrite <- Y1. apply (curve_sides _ _ _ _ E1). rewrite Y1. split; apply Rnot_lt_le; intros H.
      - revert Tot. apply rsum_pos_ne; [exact Pm |]. intros i Hi. pose proof (CV (nth i dn 0) ltac:(apply nth_In; lia)) as B. cbn [fst snd] in B. rewrite V in B by lia. revert B. apply Rmax_case_strong; intros; lra.
      - assert (G : rsum m (fun i => - dnl_of codes lo hi (lo + Z.of_nat i + 1)) <> 0).
        { apply rsum_pos_ne; [exact Pm |]. intros i Hi. pose proof (CV (nth i dn 0) ltac:(apply nth_In; lia)) as B. cbn [fst snd] in B. rewrite V in B by lia. pose proof (Rmax_l (dnl_of codes lo hi (lo + Z.of_nat i + 1)) (-1)). lra. }
        apply G. rewrite (rsum_ext m _ (fun i => (-1) * dnl_of codes lo hi (lo + Z.of_nat i + 1))) by (intros; ring). rewrite rsum_scale, Tot. ring. }
    split. { intros NC. rewrite <- Y2. apply (curve_sides _ _ _ _ E2). rewrite Y2. apply (zero_sides il (m - 1)); [| lia]. unfold il. rewrite (nth_map_in _ _ _ 0%nat) by (rewrite seq_length; lia). rewrite seq_nth by lia. replace (S (0 + (m - 1))) with m by lia.
      etransitivity; [| exact Tot]. apply rsum_ext. intros i Hi. rewrite V by lia. apply Rmax_left, NC. unfold m in Hi. lia. }
    intros K. assert (LH : (lo < hi - 1)%Z) by (unfold m in Pm; lia). split.
    + apply (curve_x _ _ _ _ _ _ E1 CD LH). intros b ->. lia.
    + apply (curve_x _ _ _ _ _ _ E2 CD LH). intros b ->. lia.
Qed.
(** A missing code hides INL points: the record 0, 1, 4 gives INL 10/3, 7/3, 4/3 on an axis from 1.6. *)
Lemma c141_sine_refuted : exists r g, analyze_inl_from_sine false [0; 1; 4] None None 0 true true = Ok (r, Some g) /\
  pn_y (di_inl g) = [10 / 3; 7 / 3; 4 / 3] /\ fst (pn_ylim (di_inl g)) = 1.6 /\ ~ covers (pn_ylim (di_inl g)) (pn_y (di_inl g)).
Proof.
  assert (E : compute_inl_from_sine false [0; 1; 4] None None 0 = Ok (sine_histogram (sine_codes false [0; 1; 4] None None) 0)) by reflexivity.
  assert (C : record_codes false [0; 1; 4] None None [0; 1; 4]%Z). { unfold record_codes. repeat (apply Forall2_cons; [right; (split; [intros [? _]; discriminate|symmetry; apply round_he_IZR])|]). apply Forall2_nil. }
  assert (HR : hist_range [0; 1; 4]%Z 0 0 4). { exists 0%Z, 4%Z. split; [left; reflexivity|]. split; [do 2 right; left; reflexivity|]. split; [intros z Hz; cbn in Hz; lia|]. cbv zeta. rewrite Rmult_0_l. rewrite (round_he_IZR 0). split; reflexivity. }
  assert (I : interior_hit [0; 1; 4]%Z 0 4) by (exists 1%Z; split; [right; left; reflexivity|lia]).
  destruct (proj2 (c141_sine _ _ _ _ _ true _ _ _ _ E C HR) I) as (g & dn & il & G & D & DI & Y1 & Y2 & _ & _ & _). eexists. exists g. split; [exact G |].
  destruct (c32_shape _ _ _ _ _ _ _ _ _ E C HR) as (LI & LD & _ & _). destruct (c32_values _ _ _ _ _ _ _ _ _ E C HR I) as (dn' & D' & _ & V & N). change (Z.to_nat (4 - 0 - 1)) with 3%nat in *.
  assert (L0 : level [0; 1; 4]%Z 0 = - (1 / 2)) by (unfold level; change (at_most 0 [0;1;4]%Z) with 1%nat; cbn [length]; replace (PI * (INR 1 / INR 3)) with (PI / 3) by (cbn; field); rewrite cos_PI3; reflexivity).
  assert (L2 : forall c, (1 <= c < 4)%Z -> level [0; 1; 4]%Z c = 1 / 2).
  { intros c Hc. unfold level. replace (at_most c [0;1;4]%Z) with 2%nat. 2:{ unfold at_most. cbn [filter]. replace (0 <=? c)%Z with true by lia. replace (1 <=? c)%Z with true by lia. replace (4 <=? c)%Z with false by lia. reflexivity. }
    cbn [length]. replace (PI * (INR 2 / INR 3)) with (2 * (PI / 3)) by (cbn; field). rewrite cos_2PI3. lra. }
  assert (Ln : length dn' = 3%nat) by (rewrite <- LD, D', map_length; reflexivity).
  assert (V0 : nth 0 dn' 0 = 10 / 3). { rewrite V by lia. change (0 + Z.of_nat 0 + 1)%Z with 1%Z. unfold SineHistSpec.dnl_of, SineHistSpec.width. change (1 - 1)%Z with 0%Z. change (4 - 1)%Z with 3%Z. rewrite ?(L2 1%Z ltac:(lia)), ?(L2 2%Z ltac:(lia)), ?(L2 3%Z ltac:(lia)), ?L0. change (4 - 0 + 1)%Z with 5%Z. change (4 - 0 - 1)%Z with 3%Z. replace (1 / 2 - - (1 / 2)) with 1 by lra. rewrite Rmax_left; lra. }
  assert (V1 : nth 1 dn' 0 = -1). { rewrite V by lia. change (0 + Z.of_nat 1 + 1)%Z with 2%Z. unfold SineHistSpec.dnl_of, SineHistSpec.width. change (2 - 1)%Z with 1%Z. change (4 - 1)%Z with 3%Z. rewrite ?(L2 1%Z ltac:(lia)), ?(L2 2%Z ltac:(lia)), ?(L2 3%Z ltac:(lia)), ?L0. change (4 - 0 + 1)%Z with 5%Z. change (4 - 0 - 1)%Z with 3%Z. replace (1 / 2 - - (1 / 2)) with 1 by lra. rewrite Rmax_right; lra. }
  assert (V2 : nth 2 dn' 0 = -1). { rewrite V by lia. change (0 + Z.of_nat 2 + 1)%Z with 3%Z. unfold SineHistSpec.dnl_of, SineHistSpec.width. change (3 - 1)%Z with 2%Z. change (4 - 1)%Z with 3%Z. rewrite ?(L2 1%Z ltac:(lia)), ?(L2 2%Z ltac:(lia)), ?(L2 3%Z ltac:(lia)), ?L0. change (4 - 0 + 1)%Z with 5%Z. change (4 - 0 - 1)%Z with 3%Z. replace (1 / 2 - - (1 / 2)) with 1 by lra. rewrite Rmax_right; lra. }
  pose proof (N 0%nat ltac:(lia)) as N0. pose proof (N 1%nat ltac:(lia)) as N1. pose proof (N 2%nat ltac:(lia)) as N2. cbn [rsum] in N0, N1, N2. rewrite V0, ?V1, ?V2 in N0, N1, N2. rewrite DI in N0, N1, N2, LI. rewrite map_length in LI.
  assert (IL : il = [10 / 3; 7 / 3; 4 / 3]). { destruct il as [| a [| b [| c [| d il]]]]; try discriminate LI. cbn [map nth] in N0, N1, N2. injection N0 as ->. injection N1 as ->. injection N2 as ->. f_equal; [lra | f_equal; [lra | f_equal; lra]]. }
  rewrite Y2, IL. split; [reflexivity |]. unfold analyze_inl_from_sine, plot_dnl_inl in G. rewrite E in G. cbn [bind] in G.
  destruct (single_curve _ (s_dnl _) None) as [p1 |]; [| discriminate G]. cbn [bind] in G. destruct (single_curve _ (s_inl _) None) as [p2 |] eqn:E2; [| discriminate G]. cbn [bind] in G. apply Ok_inj in G. injection G as <-. cbn [di_inl] in *.
  assert (X : extremes (pn_y p2) (4 / 3) (10 / 3)). { rewrite Y2, IL. split; [do 2 right; left; reflexivity |]. split; [left; reflexivity |]. intros w [<- | [<- | [<- | []]]]; cbn [fst snd]; lra. }
  destruct (curve_inv _ _ _ _ E2) as (v & l & h & _ & _ & Y & X' & _ & _ & CC). rewrite <- Y in X'. destruct (extremes_unique _ _ _ _ _ X X') as (<- & <-). destruct CC as [? | (_ & CC)]; [lra |]. rewrite CC. cbn [fst snd].
  split; [lra |]. intros Q. specialize (Q (4 / 3) ltac:(do 2 right; left; reflexivity)). cbn [fst snd] in Q. lra.
Qed.
(** Four codes, one of them missing: DNL 0, 1, -1, 0 on axes from -1 to 1, titles -1.00 .. 1.00 and 0.00 .. 1.00. *)
Lemma c141_ramp_ex : exists r g, analyze_inl_from_ramp true (map (fun z => Fin (IZR z)) [0;1;1;3]%Z) (Some 2%Z) 0 None EpEndpoints false true true = Ok (r, Some g) /\
  pn_y (di_dnl g) = [0; 1; -1; 0] /\ pn_ylim (di_dnl g) = (-1, 1) /\ pn_y (di_inl g) = [0; 0; 1; 0; 0] /\ di_titles g = Some ((Num 2 (-100), Num 2 100), (Num 2 0, Num 2 100)).
Proof.
  destruct c31_ramp_ex as (r & E & _ & D & I & _). destruct (c141_ramp _ _ _ _ _ _ true _ E) as (g & G & Y1 & Y2 & _). exists r, g. split; [exact G |]. rewrite Y1, Y2, D, I. split; [reflexivity |].
  unfold analyze_inl_from_ramp, plot_dnl_inl in G. rewrite E in G. cbn [bind negb raise_if] in G. destruct (single_curve (r_code r) _ _) as [p1 |] eqn:E1; [| discriminate G]. cbn [bind] in G. destruct (single_curve (r_trans r) _ _) as [p2 |]; [| discriminate G]. cbn [bind] in G.
  apply Ok_inj in G. injection G as <-. cbn [di_dnl di_inl di_titles] in *.
  assert (X1 : extremes (r_dnl r) (-1) 1). { rewrite D. split; [do 2 right; left; reflexivity |]. split; [right; left; reflexivity |]. intros w [<- | [<- | [<- | [<- | []]]]]; cbn [fst snd]; lra. }
  assert (X2 : extremes (r_inl r) 0 1). { rewrite I. split; [left; reflexivity |]. split; [do 2 right; left; reflexivity |]. intros w [<- | [<- | [<- | [<- | [<- | []]]]]]; cbn [fst snd]; lra. }
  destruct (curve_inv _ _ _ _ E1) as (v & l & h & _ & _ & Y & X' & _ & _ & CC). rewrite <- Y, Y1 in X'. destruct (extremes_unique _ _ _ _ _ X1 X') as (<- & <-). destruct CC as [(_ & CC) | ?]; [| lra]. rewrite CC. split; [reflexivity |]. split; [reflexivity |].
  unfold range_text. rewrite Y1, Y2.
  assert (N1 : r_dnl r <> []) by (rewrite D; discriminate). assert (N2 : r_inl r <> []) by (rewrite I; discriminate).
  destruct (extremes_unique _ _ _ _ _ X1 (rlist_extremes _ N1)) as (<- & <-). destruct (extremes_unique _ _ _ _ _ X2 (rlist_extremes _ N2)) as (<- & <-).
  rewrite (fixed_exact 2 (-1) (-100)), (fixed_exact 2 1 100), (fixed_exact 2 0 0) by (cbn; lra). reflexivity.
Qed.

(* ---------- C142: time-domain plot of the decomposition ---------- *)
Lemma time_window_spec n m d : (m < n)%nat -> (0 < d)%nat -> (d <= n)%nat -> exists s, time_window n m d = (s, (s + d)%nat) /\ (s + d <= n)%nat /\ (s <= m < s + d)%nat /\
  (d / 3 <= m -> m - d / 3 + d <= n -> s = m - d / 3)%nat /\ (m < d / 3 -> s = 0)%nat /\ (n < m - d / 3 + d -> s = n - d)%nat.
Proof.
  intros M D N. pose proof (Nat.div_lt d 3 D ltac:(lia)) as T. unfold time_window. set (q := (d / 3)%nat) in *. clearbody q.
  destruct (le_lt_dec (m - q + d) n) as [L | L].
  - rewrite Nat.min_r by lia. replace (m - q + d - (m - q) <? d)%nat with false by (symmetry; apply Nat.ltb_ge; lia). rewrite Bool.andb_false_r. exists (m - q)%nat. split; [reflexivity |]. repeat split; lia.
  - rewrite Nat.min_l by lia. rewrite Nat.eqb_refl. replace (n - (m - q) <? d)%nat with true by (symmetry; apply Nat.ltb_lt; lia). cbn [andb]. exists (n - d)%nat. replace (n - d + d)%nat with n by lia. split; [reflexivity |]. repeat split; lia.
Qed.
Lemma slice_part (l : list R) s d : (s + d <= length l)%nat -> part_of l s d (slice s (s + d) l).
Proof.
  intros L. split; [rewrite slice_length; lia |]. intros i I. split; [lia |]. apply slice_nth. lia.
Qed.
Lemma part_In l s d p v : part_of l s d p -> In v p -> In v l.
Proof. intros (L & H) I. apply (In_nth _ _ 0) in I. destruct I as (i & I & <-). rewrite L in I. destruct (H i I) as (A & ->). apply nth_In, A. Qed.
Lemma margin_spec v lo hi : extremes v lo hi -> lo < hi /\ margin_limits v = (lo - (hi - lo) / 10, hi + (hi - lo) / 10) \/ lo = hi /\ margin_limits v = (lo - 1 / 10, hi + 1 / 10).
Proof.
  intros X. assert (N : v <> []) by (destruct X as (I & _); intros ->; destruct I). unfold margin_limits. destruct (extremes_unique _ _ _ _ _ X (rlist_extremes v N)) as (<- & <-). destruct X as (I & _ & C). pose proof (C _ I) as B. cbn [fst snd] in B.
  destruct (Reqb_spec (hi - lo) 0); [right | left]; (split; [lra |]); f_equal; lra.
Qed.
Lemma margin_covers v : v <> [] -> covers (margin_limits v) v.
Proof.
  intros N. pose proof (rlist_extremes v N) as X. pose proof X as (I & _ & C). pose proof (C _ I) as B. cbn [fst snd] in B. intros w W. pose proof (C w W) as CW. cbn [fst snd] in CW. destruct (margin_spec v _ _ X) as [(L & ->) | (L & ->)]; cbn [fst snd]; lra.
Qed.
Lemma trunc_nonneg x : 0 <= x -> IZR (Ztrunc x) <= x < IZR (Ztrunc x) + 1 /\ (0 <= Ztrunc x)%Z.
Proof. intros H. rewrite Ztrunc_floor by exact H. split; [split; [apply Zfloor_lb | apply Zfloor_ub] |]. apply Zfloor_lub. exact H. Qed.
Lemma harm_one_row (signal : list R) : signal <> [] -> harm_rows [signal] = [signal].
Proof. intros N. unfold harm_rows. cbn [hd]. destruct (Nat.eqb_spec (length signal) 1) as [L |]; [| reflexivity]. destruct signal as [| x [| y t]]; try discriminate L. reflexivity. Qed.
Lemma decompose_lengths lstsq signal nh f mi tol r : decompose_harmonic_error lstsq [signal] nh f mi tol = Ok r -> (0 < length signal)%nat /\ length (h_fundamental r) = length signal /\ length (h_harmonic r) = length signal /\ length (h_noise r) = length signal.
Proof.
  intros E. assert (P : (0 < length signal)%nat). { destruct signal as [| x t]; [| cbn; lia]. destruct (c36_accepts lstsq [[]] nh f mi tol) as (_ & A). rewrite A in E; [discriminate E |]. cbn. lia. }
  split; [exact P |]. assert (N : signal <> []) by (intros ->; cbn in P; lia). pose proof (c36_adds_up _ _ _ _ _ _ _ E ltac:(rewrite harm_one_row by exact N; discriminate)) as (A & _ & B & C & _). rewrite harm_one_row in A, B, C by exact N. auto.
Qed.
Lemma peak_abs_diff a b : length a = length b -> (0 < length a)%nat -> first_peak (length a) (fun t => Rabs (nth t a 0 - nth t b 0)) (argmax (map Rabs (map2 Rminus a b))).
Proof.
  intros L P. set (l := map Rabs (map2 Rminus a b)). assert (LL : length l = length a) by (unfold l; rewrite map_length, map2_length; [reflexivity | exact L]).
  assert (NT : forall t, (t < length a)%nat -> nth t l 0 = Rabs (nth t a 0 - nth t b 0)). { intros t T. unfold l. rewrite (nth_map_in _ _ _ 0) by (rewrite map2_length by exact L; exact T). f_equal. apply map2_nth_R; assumption. }
  destruct (argmax_spec l) as (A & B & C); [intros Q; rewrite Q in LL; cbn in LL; lia |]. split; [lia |]. split; intros i I; rewrite <- !NT by lia; [apply B; lia | apply C; exact I].
Qed.
Lemma window_core lstsq signal nh nc f mi tol r g : analyze_decomposition_time lstsq signal nh nc true f mi tol = Ok (r, Some g) ->
  decompose_harmonic_error lstsq [signal] nh f mi tol = Ok r /\
  let n := length signal in exists s d m, first_peak n (fun t => Rabs (nth t signal 0 - nth t (h_fundamental r) 0)) m /\
  d = samples_shown n (h_freq r) nc /\ (0 < d)%nat /\ (s + d <= n)%nat /\ (s <= m < s + d)%nat /\
  (d / 3 <= m -> m - d / 3 + d <= n -> s = m - d / 3)%nat /\ (m < d / 3 -> s = 0)%nat /\ (n < m - d / 3 + d -> s = n - d)%nat /\
  part_of signal s d (tf_signal g) /\ part_of (h_fundamental r) s d (tf_fitted g) /\ part_of (h_harmonic r) s d (tf_harmonic g) /\ part_of (h_noise r) s d (tf_other g) /\
  tf_index g = seq (s + 1) d /\ tf_xlim g = ((s + 1)%nat, (s + d)%nat) /\
  (forall i, (i < d)%nat -> nth i (tf_signal g) 0 = nth i (tf_fitted g) 0 + nth i (tf_harmonic g) 0 + nth i (tf_other g) 0) /\
  tf_top g = margin_limits (tf_signal g) /\ tf_bottom g = margin_limits (tf_harmonic g ++ tf_other g).
Proof.
  unfold analyze_decomposition_time. destruct (decompose_harmonic_error lstsq [signal] nh f mi tol) as [r' |] eqn:E; [| discriminate]. cbn [bind]. intros G.
  destruct (plot_decomposition_time _ _ _ _ _ _) as [g' |] eqn:P; [| discriminate G]. cbn [bind] in G. apply Ok_inj in G. injection G as -> ->. split; [reflexivity |].
  destruct (decompose_lengths _ _ _ _ _ _ _ E) as (N & LF & LH & LN). unfold plot_decomposition_time in P. rewrite LF, Nat.eqb_refl in P. cbn [negb raise_if] in P. destruct (Nat.eqb_spec (length signal) 0); [lia |]. cbn [raise_if] in P.
  pose proof (peak_abs_diff signal (h_fundamental r) (eq_sym LF) N) as PK. set (m := argmax _) in *. set (d := samples_shown _ _ _) in *. cbv zeta.
  destruct (Nat.eq_dec d 0) as [D0 | D0].
  { exfalso. unfold time_window in P. rewrite D0 in P. change (0 / 3)%nat with 0%nat in P. rewrite Nat.sub_0_r, Nat.add_0_r in P. destruct PK as (PM & _). rewrite Nat.min_r in P by lia. replace (m - m <? 0)%nat with false in P by (symmetry; apply Nat.ltb_ge; lia). rewrite Bool.andb_false_r in P. rewrite Nat.sub_diag in P. discriminate P. }
  assert (DN : (d <= length signal)%nat) by (unfold d, samples_shown; destruct (Rltb _ _); lia).
  destruct (time_window_spec (length signal) m d (proj1 PK) ltac:(lia) DN) as (s & TW & W1 & W2 & W3 & W4 & W5). rewrite TW in P. replace (s + d - s)%nat with d in P by lia. destruct (Nat.eqb_spec d 0); [contradiction |]. cbn [raise_if] in P. apply Ok_inj in P. subst g. cbn [tf_signal tf_fitted tf_harmonic tf_other tf_index tf_xlim tf_top tf_bottom].
  exists s, d, m. repeat (split; [first [exact PK | reflexivity | lia | assumption] |]).
  pose proof (slice_part signal s d ltac:(lia)) as S1. pose proof (slice_part (h_fundamental r) s d ltac:(lia)) as S2. pose proof (slice_part (h_harmonic r) s d ltac:(lia)) as S3. pose proof (slice_part (h_noise r) s d ltac:(lia)) as S4.
  repeat (split; [first [assumption | reflexivity] |]). split; [| split; reflexivity].
  intros i I. rewrite (proj2 (proj2 S1 i I)), (proj2 (proj2 S2 i I)), (proj2 (proj2 S3 i I)), (proj2 (proj2 S4 i I)).
  assert (NE : signal <> []) by (intros ->; cbn in N; lia). pose proof (c36_adds_up _ _ _ _ _ _ _ E ltac:(rewrite harm_one_row by exact NE; discriminate)) as (_ & _ & _ & _ & A & _). rewrite harm_one_row in A by exact NE. cbn [hd] in A.
  destruct (A (s + i)%nat ltac:(lia)) as (-> & _). unfold run_mean. cbn [length rsum nth]. change (INR 1) with 1. field.
Qed.
Lemma cycles_core lstsq signal nh nc f mi tol r : decompose_harmonic_error lstsq [signal] nh f mi tol = Ok r -> 0 <= nc ->
  let n := length signal in let d := samples_shown n (h_freq r) nc in
  (d = 0%nat -> analyze_decomposition_time lstsq signal nh nc true f mi tol = Err ValueError) /\
  ((0 < d)%nat -> exists g, analyze_decomposition_time lstsq signal nh nc true f mi tol = Ok (r, Some g) /\ length (tf_signal g) = d) /\
  (0 < h_freq r -> INR d <= nc / h_freq r /\ ((d < n)%nat -> nc / h_freq r - nc - 1 < INR d) /\ (d <= n)%nat /\
     (forall p k : nat, 1 / h_freq r = INR p -> nc * INR p = INR k -> d = Nat.min k n)) /\
  (h_freq r <= 0 -> d = Nat.min 50 n).
Proof.
  intros E NC n d. destruct (decompose_lengths _ _ _ _ _ _ _ E) as (N & LF & LH & LN). split; [| split; [| split]].
  - intros D0. unfold analyze_decomposition_time. rewrite E. cbn [bind]. unfold plot_decomposition_time. rewrite LF, Nat.eqb_refl. cbn [negb raise_if]. destruct (Nat.eqb_spec (length signal) 0); [lia |]. cbn [raise_if]. fold n d. rewrite D0.
    pose proof (peak_abs_diff signal (h_fundamental r) (eq_sym LF) N) as (PM & _). set (m := argmax _) in *. unfold time_window. change (0 / 3)%nat with 0%nat. rewrite Nat.sub_0_r, Nat.add_0_r. rewrite Nat.min_r by lia. replace (m - m <? 0)%nat with false by (symmetry; apply Nat.ltb_ge; lia). rewrite Bool.andb_false_r, Nat.sub_diag. reflexivity.
  - intros DP. pose proof (peak_abs_diff signal (h_fundamental r) (eq_sym LF) N) as (PM & _). set (m := argmax _) in *.
    assert (DN : (d <= n)%nat) by (unfold d, samples_shown; destruct (Rltb _ _); lia). destruct (time_window_spec n m d PM DP DN) as (s & TW & W1 & _).
    eexists. split. { unfold analyze_decomposition_time. rewrite E. cbn [bind]. unfold plot_decomposition_time. rewrite LF, Nat.eqb_refl. cbn [negb raise_if]. destruct (Nat.eqb_spec (length signal) 0); [lia |]. cbn [raise_if]. fold n d m. rewrite TW. replace (s + d - s)%nat with d by lia. destruct (Nat.eqb_spec d 0); [lia |]. cbn [raise_if bind]. reflexivity. }
    cbn [tf_signal]. apply (slice_part signal s d W1).
  - intros FP. assert (Q0 : 0 <= 1 / h_freq r) by (apply Rlt_le, Rdiv_lt_0_compat; lra). destruct (trunc_nonneg _ Q0) as (T1 & T2). set (p := Ztrunc (1 / h_freq r)) in *.
    assert (P0 : 0 <= IZR p) by (apply IZR_le; exact T2). assert (Q1 : 0 <= nc * IZR p) by (apply Rmult_le_pos; assumption). destruct (trunc_nonneg _ Q1) as (U1 & U2).
    assert (DE : d = Nat.min (Z.to_nat (Ztrunc (nc * IZR p))) n). { unfold d, samples_shown. destruct (Rltb_spec 0 (h_freq r)); [reflexivity | lra]. } set (j := Ztrunc (nc * IZR p)) in *.
    assert (IJ : INR (Z.to_nat j) = IZR j) by (rewrite INR_IZR_INZ, Z2Nat.id by exact U2; reflexivity).
    assert (A1 : nc * IZR p <= nc * (1 / h_freq r)) by (apply Rmult_le_compat_l; lra). assert (A2 : nc * (1 / h_freq r) <= nc * (IZR p + 1)) by (apply Rmult_le_compat_l; lra).
    assert (A3 : nc / h_freq r = nc * (1 / h_freq r)) by (field; lra). split; [| split; [| split]].
    + rewrite DE. eapply Rle_trans; [apply le_INR, Nat.le_min_l |]. rewrite IJ. lra.
    + intros DL. replace (INR d) with (IZR j) by (rewrite <- IJ; f_equal; lia). lra.
    + lia.
    + intros p' k E1 E2. rewrite DE. f_equal. assert (EP : p = Z.of_nat p'). { unfold p. rewrite E1. rewrite INR_IZR_INZ. apply Ztrunc_IZR. } unfold j. rewrite EP, <- INR_IZR_INZ, E2, INR_IZR_INZ, Ztrunc_IZR. apply Nat2Z.id.
  - intros FN. unfold d, samples_shown. destruct (Rltb_spec 0 (h_freq r)); [lra | reflexivity].
Qed.
(** What is shown: d consecutive samples from s on, inside the record and around the (first) largest
    deviation of the signal from the fitted sine, which sits a third into the window unless an end of the
    record is in the way.  The samples are numbered from one. *)
Lemma c142_window lstsq signal nh nc f mi tol r g : analyze_decomposition_time lstsq signal nh nc true f mi tol = Ok (r, Some g) ->
  decompose_harmonic_error lstsq [signal] nh f mi tol = Ok r /\
  let n := length signal in exists s d m, first_peak n (fun t => Rabs (nth t signal 0 - nth t (h_fundamental r) 0)) m /\
  (0 < d)%nat /\ (s + d <= n)%nat /\ (s <= m < s + d)%nat /\
  (d / 3 <= m -> m - d / 3 + d <= n -> s = m - d / 3)%nat /\ (m < d / 3 -> s = 0)%nat /\ (n < m - d / 3 + d -> s = n - d)%nat /\
  part_of signal s d (tf_signal g) /\ part_of (h_fundamental r) s d (tf_fitted g) /\ part_of (h_harmonic r) s d (tf_harmonic g) /\ part_of (h_noise r) s d (tf_other g) /\
  tf_index g = seq (s + 1) d /\ tf_xlim g = ((s + 1)%nat, (s + d)%nat) /\
  (forall i, (i < d)%nat -> nth i (tf_signal g) 0 = nth i (tf_fitted g) 0 + nth i (tf_harmonic g) 0 + nth i (tf_other g) 0).
Proof.
  intros G. destruct (window_core _ _ _ _ _ _ _ _ _ G) as (E & s & d & m & H1 & _ & H3 & H4 & H5 & H6 & H7 & H8 & H9 & H10 & H11 & H12 & H13 & H14 & H15 & _).
  split; [exact E |]. exists s, d, m. repeat (split; [assumption |]). assumption.
Qed.
(** How many: with n_cycles >= 0 and a positive frequency at most n_cycles periods, and unless the record is
    too short more than n_cycles periods less n_cycles + 1 samples; exactly n_cycles periods when the period
    is a whole number of samples and n_cycles of them too.  With a frequency that is not positive 50 (or all).
    The plot fails only when less than one sample is asked for. *)
Lemma c142_cycles lstsq signal nh nc f mi tol r : decompose_harmonic_error lstsq [signal] nh f mi tol = Ok r -> 0 <= nc ->
  let n := length signal in
  analyze_decomposition_time lstsq signal nh nc true f mi tol = Err ValueError /\ 0 < h_freq r /\ nc / h_freq r - nc < 1 \/
  exists g, analyze_decomposition_time lstsq signal nh nc true f mi tol = Ok (r, Some g) /\ let d := length (tf_signal g) in (0 < d <= n)%nat /\
  (0 < h_freq r -> INR d <= nc / h_freq r /\ ((d < n)%nat -> nc / h_freq r - nc - 1 < INR d) /\
     (forall p k : nat, 1 / h_freq r = INR p -> nc * INR p = INR k -> d = Nat.min k n)) /\
  (h_freq r <= 0 -> d = Nat.min 50 n).
Proof.
  intros E NC n. destruct (decompose_lengths _ _ _ _ _ _ _ E) as (N & _). destruct (cycles_core _ _ _ nc _ _ _ _ E NC) as (Z & P & F1 & F2). cbv zeta in *. fold n in Z, P, F1, F2, N. set (d := samples_shown n (h_freq r) nc) in *.
  destruct (Nat.eq_dec d 0) as [D | D].
  - left. split; [apply Z, D |]. destruct (Rlt_or_le 0 (h_freq r)) as [FP | FN]; [| specialize (F2 FN); lia]. split; [exact FP |]. destruct (F1 FP) as (_ & A & _). specialize (A ltac:(lia)). rewrite D in A. change (INR 0) with 0 in A. lra.
  - right. destruct (P ltac:(lia)) as (g & G & L). exists g. split; [exact G |]. rewrite L. destruct (Rlt_or_le 0 (h_freq r)) as [FP | FN].
    + destruct (F1 FP) as (A & B & C & D1). split; [lia |]. split; [auto |]. intros FN. lra.
    + split; [specialize (F2 FN); lia |]. split; [intros FP; lra |]. intros _. apply F2, FN.
Qed.
(** Vertical limits: a tenth of the range beyond the extremes of the signal (top) and of both error parts
    together (bottom), 0.1 beyond a constant; so every sample of these three curves is inside. *)
Lemma c142_vertical lstsq signal nh nc f mi tol r g : analyze_decomposition_time lstsq signal nh nc true f mi tol = Ok (r, Some g) ->
  covers (tf_top g) (tf_signal g) /\ covers (tf_bottom g) (tf_harmonic g) /\ covers (tf_bottom g) (tf_other g) /\
  (forall lo hi, extremes (tf_signal g) lo hi -> lo < hi -> tf_top g = (lo - (hi - lo) / 10, hi + (hi - lo) / 10)) /\
  (forall lo hi, extremes (tf_signal g) lo hi -> lo = hi -> tf_top g = (lo - 1 / 10, hi + 1 / 10)) /\
  (forall lo hi, extremes (tf_harmonic g ++ tf_other g) lo hi -> lo < hi -> tf_bottom g = (lo - (hi - lo) / 10, hi + (hi - lo) / 10)) /\
  (forall lo hi, extremes (tf_harmonic g ++ tf_other g) lo hi -> lo = hi -> tf_bottom g = (lo - 1 / 10, hi + 1 / 10)).
Proof.
  intros G. destruct (window_core _ _ _ _ _ _ _ _ _ G) as (_ & s & d & m & _ & _ & D & _ & _ & _ & _ & _ & (L1 & _) & _ & (L3 & _) & _ & _ & _ & _ & TT & TB).
  assert (N1 : tf_signal g <> []) by (intros Q; rewrite Q in L1; cbn in L1; lia). assert (N2 : tf_harmonic g ++ tf_other g <> []) by (intros Q; apply app_eq_nil in Q; destruct Q as (Q & _); rewrite Q in L3; cbn in L3; lia).
  rewrite TT, TB. split; [apply margin_covers, N1 |]. split. { intros v I. apply margin_covers; [exact N2 | apply in_or_app; left; exact I]. } split. { intros v I. apply margin_covers; [exact N2 | apply in_or_app; right; exact I]. }
  repeat split; intros lo hi X L; destruct (margin_spec _ _ _ X) as [(L' & ->) | (L' & ->)]; first [reflexivity | lra].
Qed.
(** "Number of cycles to display": at frequency 0.34 five cycles are asked for and the record has room for
    them, yet 10 samples, 3.4 cycles, are shown. *)
Lemma c142_cycles_refuted : exists signal f r g, f = 0.34 /\ 5 / f <= INR (length signal) /\ h_freq r = f /\
  analyze_decomposition_time gs_lstsq signal 1 5 true (Some f) 0 (1 / 10 ^ 9) = Ok (r, Some g) /\ INR (length (tf_signal g)) * f = 3.4.
Proof.
  set (signal := map (fun t => cos (2 * PI * 0.34 * INR t)) (seq 0 20)). assert (L : length signal = 20%nat) by (unfold signal; rewrite map_length, seq_length; reflexivity).
  assert (NE : signal <> []) by (intros Q; rewrite Q in L; discriminate L).
  destruct (proj1 (c36_accepts gs_lstsq [signal] 1 (Some 0.34) 0 (1 / 10 ^ 9))) as (r & E). { rewrite harm_one_row by exact NE. cbn [hd]. rewrite L. split; [lia |]. split; [lia | discriminate]. }
  pose proof (c95_no_refinement _ _ _ _ _ _ E) as FR. destruct (cycles_core _ _ _ 5 _ _ _ _ E ltac:(lra)) as (_ & P & _). cbv zeta in P. rewrite L, FR in P.
  assert (D : samples_shown 20 0.34 5 = 10%nat).
  { unfold samples_shown. destruct (Rltb_spec 0 0.34); [| lra]. assert (T1 : Ztrunc (1 / 0.34) = 2%Z). { rewrite Ztrunc_floor by lra. apply Zfloor_imp. cbn. lra. } rewrite T1. replace (5 * 2) with (IZR 10) by lra. rewrite Ztrunc_IZR. reflexivity. }
  rewrite D in P. destruct (P ltac:(lia)) as (g & G & LG). exists signal, 0.34, r, g. split; [reflexivity |]. rewrite L. split; [replace (INR 20) with 20 by (rewrite INR_IZR_INZ; reflexivity); lra |]. split; [exact FR |]. split; [exact G |]. rewrite LG. replace (INR 10) with 10 by (rewrite INR_IZR_INZ; reflexivity). lra.
Qed.
Lemma triple_cos x : cos (3 * x) = 4 * cos x ^ 3 - 3 * cos x.
Proof.
  replace (3 * x) with (2 * x + x) by ring. rewrite cos_plus, cos_2a, sin_2a. pose proof (sin2_cos2 x) as S. unfold Rsqr in S. assert (S' : sin x * sin x = 1 - cos x * cos x) by lra.
  replace ((cos x * cos x - sin x * sin x) * cos x - 2 * sin x * cos x * sin x) with (cos x * cos x * cos x - 3 * (sin x * sin x) * cos x) by ring. rewrite S'. ring.
Qed.
(** The top panel shows the fitted sine too, but its limits are those of the signal: for
    cos x - 0.17 cos 3x the peaks of the fitted cos x are cut off. *)
Lemma c142_fit_hidden_refuted : exists signal A ph r g, is_record signal (distorted 3 0 A ph (1 / 8)) /\ length signal = 8%nat /\
  analyze_decomposition_time gs_lstsq signal 3 1 true (Some (1 / 8)) 0 (1 / 10 ^ 9) = Ok (r, Some g) /\ (forall t, (t < 8)%nat -> nth t (tf_fitted g) 0 = cos (PI / 4 * INR t)) /\
  ~ covers (tf_top g) (tf_fitted g).
Proof.
  set (A := fun h : nat => match h with 0%nat => 1 | 2%nat => 0.17 | _ => 0 end). set (ph := fun h : nat => match h with 2%nat => PI | _ => 0 end).
  set (signal := map (distorted 3 0 A ph (1 / 8)) (seq 0 8)). assert (L : length signal = 8%nat) by (unfold signal; rewrite map_length, seq_length; reflexivity).
  assert (NE : signal <> []) by (intros Q; rewrite Q in L; discriminate L).
  assert (RC : is_record signal (distorted 3 0 A ph (1 / 8))). { intros t T. rewrite L in T. unfold signal. rewrite (nth_map_in _ _ _ 0%nat) by (rewrite seq_length; exact T). rewrite seq_nth by exact T. reflexivity. }
  assert (IND : independent (harm_basis 8 (1 / 8) 3)). { replace (1 / 8) with (INR 1 / INR 8) by (cbn; field). apply c94_coherent_independent; lia. }
  destruct (c94_exact gs_lstsq [signal] 3 (1 / 8) (1 / 10 ^ 9) 0 A ph gs_least_squares) as (r & E & FR & V & _).
  { rewrite harm_one_row by exact NE. discriminate. } { lia. } { rewrite harm_one_row by exact NE. cbn [hd]. lia. } { rewrite harm_one_row by exact NE. cbn [hd]. rewrite L. exact IND. }
  { rewrite harm_one_row by exact NE. cbn [hd]. intros t T. unfold run_mean. cbn [length rsum nth]. change (INR 1) with 1. rewrite (RC t T). change (Z.to_nat 3) with 3%nat. field. }
  rewrite harm_one_row in V by exact NE. cbn [hd] in V. rewrite L in V.
  destruct (cycles_core _ _ _ 1 _ _ _ _ E ltac:(lra)) as (_ & P & F1 & _). cbv zeta in P, F1. rewrite L, FR in P, F1. destruct (F1 ltac:(lra)) as (_ & _ & _ & D). specialize (D 8%nat 8%nat ltac:(rewrite INR_IZR_INZ; cbn; lra) ltac:(ring)). change (Nat.min 8 8) with 8%nat in D. rewrite D in P.
  destruct (P ltac:(lia)) as (g & G & LG). exists signal, A, ph, r, g. split; [exact RC |]. split; [exact L |]. split; [exact G |].
  destruct (window_core _ _ _ _ _ _ _ _ _ G) as (_ & s & d & m & _ & DD & _ & W & _ & _ & _ & _ & S1 & S2 & _ & _ & _ & _ & _ & TT & _). cbv zeta in *. rewrite L, FR in DD. rewrite D in DD. subst d. rewrite L in W. assert (s = 0)%nat by lia. subst s.
  assert (FI : forall t, (t < 8)%nat -> nth t (tf_fitted g) 0 = cos (PI / 4 * INR t)). { intros t T. rewrite (proj2 (proj2 S2 t T)). cbn [Nat.add]. destruct (V t T) as (_ & -> & _). unfold A, ph. rewrite Rplus_0_l, Rmult_1_l, Rplus_0_r. f_equal. field. }
  split; [exact FI |]. intros C. specialize (C (nth 0 (tf_fitted g) 0) ltac:(apply nth_In; rewrite (proj1 S2); lia)). rewrite (FI 0%nat ltac:(lia)) in C. change (INR 0) with 0 in C. rewrite Rmult_0_r, cos_0 in C.
  assert (SB : forall w, In w (tf_signal g) -> -0.83 <= w <= 0.83).
  { intros w I. apply (In_nth _ _ 0) in I. destruct I as (t & I & <-). rewrite (proj1 S1) in I. rewrite (proj2 (proj2 S1 t I)). cbn [Nat.add]. rewrite (RC t ltac:(rewrite L; exact I)). unfold distorted. cbn [rsum]. unfold A, ph. rewrite !Rplus_0_l, !Rplus_0_r, !Rmult_0_l, !Rplus_0_r, Rmult_1_l. rewrite neg_cos.
    change (INR 1) with 1. replace (INR 3) with 3 by (cbn; lra). rewrite Rmult_1_l. set (x := 2 * PI * (1 / 8) * INR t). rewrite triple_cos.
    assert (K : cos x ^ 2 = 0 \/ cos x ^ 2 = 1 / 2 \/ cos x ^ 2 = 1).
    { pose proof (cos_2a_cos x) as Q. replace (2 * x) with (INR t * (PI / 2)) in Q by (unfold x; field). rewrite (proj1 (quarter_trig t)) in Q. unfold qcos in Q. destruct (t mod 4)%nat as [| [| [| ?]]]; nra. }
    set (c := cos x) in *. clearbody c. assert (SQ : (c + 0.17 * - (4 * c ^ 3 - 3 * c)) ^ 2 <= 0.83 ^ 2). { replace ((c + 0.17 * - (4 * c ^ 3 - 3 * c)) ^ 2) with (c ^ 2 * (1.51 - 0.68 * c ^ 2) ^ 2) by lra. destruct K as [-> | [-> | ->]]; lra. }
    set (y := c + 0.17 * - (4 * c ^ 3 - 3 * c)) in *. clearbody y. nra. }
  rewrite TT in C. destruct (rlist_extremes (tf_signal g)) as (I1 & I2 & CV); [intros Q; rewrite Q in LG; discriminate LG |]. pose proof (SB _ I1). pose proof (SB _ I2).
  destruct (margin_spec (tf_signal g) _ _ (conj I1 (conj I2 CV))) as [(_ & M) | (_ & M)]; rewrite M in C; cbn [fst snd] in C; lra.
Qed.
(** Windows of 30 samples in a record of 100: largest deviation at 50, 2 and 95. *)
Lemma c142_window_ex : time_window 100 50 30 = (40, 70)%nat /\ time_window 100 2 30 = (0, 30)%nat /\ time_window 100 95 30 = (70, 100)%nat.
Proof. repeat split. Qed.

(* ---------- C143: polar plot of the decomposition ---------- *)
Lemma ticks_spec (b : Z) k : (0 <= k)%Z -> let B := IZR b * 10 in let m := IZR k * 10 in
  (forall rad lab, In (rad, lab) (radial_ticks B m) -> IZR lab = B + rad) /\
  (forall rad, (exists lab, In (rad, lab) (radial_ticks B m)) <-> exists j : nat, rad = 10 * INR j /\ rad <= m).
Proof.
  intros K B m. unfold radial_ticks. assert (C : Zceil ((m + 1) / 10) = (k + 1)%Z). { apply Zceil_imp. unfold m. rewrite minus_IZR, plus_IZR. lra. } rewrite C.
  split.
  - intros rad lab I. apply in_map_iff in I. destruct I as (i & Q & _). injection Q as <- <-. replace (B + 10 * INR i) with (IZR (b * 10 + 10 * Z.of_nat i)). { rewrite Ztrunc_IZR. reflexivity. } unfold B. rewrite INR_IZR_INZ, plus_IZR, !mult_IZR. reflexivity.
  - intros rad. split.
    + intros (lab & I). apply in_map_iff in I. destruct I as (i & Q & I). injection Q as <- _. apply in_seq in I. exists i. split; [reflexivity |]. unfold m. rewrite INR_IZR_INZ. assert (IZR (Z.of_nat i) <= IZR k) by (apply IZR_le; lia). lra.
    + intros (j & -> & J). eexists. apply in_map_iff. exists j. split; [reflexivity |]. apply in_seq. assert (INR j <= IZR k) by (unfold m in J; lra). rewrite INR_IZR_INZ in H. apply le_IZR in H. lia.
Qed.
Lemma firstn_len_all {A : Type} (l : list A) n : length l = n -> firstn n l = l.
Proof. intros <-. apply firstn_all. Qed.
Lemma decompose_counts lstsq signal nh f mi tol r : decompose_harmonic_error lstsq [signal] nh f mi tol = Ok r ->
  (0 < nh)%Z /\ length (h_phases r) = Z.to_nat nh /\ length (h_magnitudes_db r) = Z.to_nat nh /\ nth 0 (h_phases r) 0 = 0.
Proof.
  intros E. destruct (decompose_lengths _ _ _ _ _ _ _ E) as (N & _). assert (NE : signal <> []) by (intros ->; cbn in N; lia).
  pose proof (c36_adds_up _ _ _ _ _ _ _ E ltac:(rewrite harm_one_row by exact NE; discriminate)) as (_ & _ & _ & _ & _ & LP & LM & _ & P0). destruct (harm_inv _ _ _ _ _ _ _ E) as (fit & _ & NH & _ & _ & _ & _ & _ & _ & _ & _ & _ & _ & MD & _).
  split; [exact NH |]. split; [exact LP |]. split; [rewrite MD, map_length; exact LM | exact P0].
Qed.
(** What the plot says, with B the level at the centre (a multiple of 10 dB): every harmonic is marked at its
    phase, the fundamental at angle zero, at radius level - B, between 10 and the outer radius; the ring
    labels are exactly B + radius, one ring every 10 dB from 0 to the outer radius, itself a multiple of
    10 dB less than 10 dB beyond the largest harmonic.  The residual circle has radius level - B, at least
    10, and its level is printed to two decimals; B is less than 20 dB below the lowest of all levels; the
    circle is inside the axes when some harmonic reaches it. *)
Lemma c143_reading lstsq signal nh f mi tol r g : analyze_decomposition_polar lstsq signal nh true f mi tol = Ok (r, Some g) ->
  decompose_harmonic_error lstsq [signal] nh f mi tol = Ok r /\
  exists (b : Z) (lev : nat -> R), let B := IZR b * 10 in let H := Z.to_nat nh in let out := pf_max_radius g in
  (0 < H)%nat /\ length (pf_points g) = H /\
  (forall h, (h < H)%nat -> nth h (h_magnitudes_db r) NaN = Fin (lev h) /\ nth h (pf_points g) (0, 0) = (nth h (h_phases r) 0, lev h - B) /\ 10 <= lev h - B <= out) /\
  fst (nth 0 (pf_points g) (0, 0)) = 0 /\
  (forall rad lab, In (rad, lab) (pf_ticks g) -> IZR lab = B + rad) /\
  (forall rad, (exists lab, In (rad, lab) (pf_ticks g)) <-> exists j : nat, rad = 10 * INR j /\ rad <= out) /\
  (exists k : Z, out = IZR k * 10) /\ (exists h, (h < H)%nat /\ out < lev h - B + 10) /\
  reads false (pf_noise_text g) (h_noise_db r) /\
  (forall x, h_noise_db r = Fin x -> pf_noise_radius g = Fin (x - B) /\ 10 <= x - B /\ (x < B + 20 \/ exists h, (h < H)%nat /\ lev h < B + 20) /\
     ((exists h, (h < H)%nat /\ x <= lev h) -> x - B <= out)).
Proof.
  unfold analyze_decomposition_polar. destruct (decompose_harmonic_error lstsq [signal] nh f mi tol) as [r' |] eqn:E; [| discriminate]. cbn [bind]. intros G.
  destruct (plot_decomposition_polar _ _ _ _) as [g' |] eqn:P; [| discriminate G]. cbn [bind] in G. apply Ok_inj in G. injection G as -> ->. split; [reflexivity |].
  destruct (decompose_counts _ _ _ _ _ _ _ E) as (NH & LP & LM & P0). unfold plot_decomposition_polar in P. rewrite (firstn_len_all (h_phases r)), (firstn_len_all (h_magnitudes_db r)) in P by assumption.
  destruct (Nat.eqb_spec (length (h_magnitudes_db r)) 0); [lia |]. cbn [raise_if] in P. rewrite LM, LP, Nat.ltb_irrefl in P. cbn [orb raise_if] in P.
  destruct (all_fin (h_magnitudes_db r)) as [v |] eqn:AF; [| discriminate P]. apply all_fin_some in AF. assert (LV : length v = Z.to_nat nh) by (rewrite <- LM, AF, map_length; reflexivity).
  destruct (min_noise (rmin_list v) (h_noise_db r)) as [low |] eqn:ML; [| discriminate P]. apply Ok_inj in P. assert (NV : v <> []) by (intros ->; cbn in LV; lia). pose proof (rlist_extremes v NV) as (I1 & I2 & CV).
  assert (LOW : low <= rmin_list v /\ (low = rmin_list v \/ h_noise_db r = Fin low) /\ forall x, h_noise_db r = Fin x -> low <= x).
  { unfold min_noise in ML. destruct (h_noise_db r) as [x | | |]; try discriminate ML; injection ML as <-.
    - destruct (Rltb_spec x (rmin_list v)); (split; [lra |]); (split; [auto |]); intros y Q; injection Q as ->; lra.
    - split; [lra |]. split; [auto | discriminate]. - split; [lra |]. split; [auto | discriminate]. }
  destruct LOW as (LO1 & LO2 & LO3). set (b := Zfloor ((low - 10) / 10)) in *. set (c := Zceil (rmax_list v / 10)) in *.
  assert (FB : IZR b <= (low - 10) / 10 < IZR b + 1) by (split; [apply Zfloor_lb | apply Zfloor_ub]). assert (CB : IZR c - 1 < rmax_list v / 10 <= IZR c). { split; [pose proof (Zceil_lb (rmax_list v / 10)); unfold c; lra | apply Zceil_ub]. }
  pose proof (CV _ I1) as MM. cbn [fst snd] in MM. assert (CBZ : (0 <= c - b)%Z) by (apply le_IZR; rewrite minus_IZR; lra).
  assert (OUT : IZR c * 10 - IZR b * 10 = IZR (c - b) * 10) by (rewrite minus_IZR; ring). rewrite OUT in P. subst g. cbn [pf_points pf_noise_radius pf_noise_text pf_ticks pf_max_radius].
  exists b, (fun h => nth h v 0). cbv zeta. split; [lia |]. split; [rewrite combine_length, map_length; lia |].
  assert (PT : forall h, (h < Z.to_nat nh)%nat -> nth h (combine (h_phases r) (map (fun x => x - IZR b * 10) v)) (0, 0) = (nth h (h_phases r) 0, nth h v 0 - IZR b * 10)).
  { intros h Hh. assert (HN : nth h (map (fun x => x - IZR b * 10) v) 0 = nth h v 0 - IZR b * 10) by (rewrite (nth_map_in _ _ _ 0) by lia; reflexivity). rewrite <- HN. apply combine_nth. rewrite map_length. lia. }
  split. { intros h Hh. split; [rewrite AF; rewrite (nth_map_in _ _ _ 0) by lia; reflexivity |]. split; [apply PT, Hh |]. pose proof (CV (nth h v 0) ltac:(apply nth_In; lia)) as Q. cbn [fst snd] in Q. rewrite minus_IZR. lra. }
  split. { rewrite PT by lia. exact P0. }
  destruct (ticks_spec b (c - b)%Z CBZ) as (T1 & T2). split; [exact T1 |]. split; [exact T2 |]. split; [exists (c - b)%Z; reflexivity |].
  split. { apply (In_nth _ _ 0) in I2. destruct I2 as (h & Hh & E2). exists h. split; [lia |]. rewrite E2, minus_IZR. lra. }
  split. { destruct (h_noise_db r) as [x | | |]; cbn [fmt2 reads]; try reflexivity. split; [eexists; reflexivity |]. replace (fixed 2 x) with (fixed 2 (x / 1)) by (f_equal; field). apply fixed_says. reflexivity. }
  intros x X. rewrite X. split; [reflexivity |]. specialize (LO3 x X). split; [lra |]. split.
  - destruct LO2 as [L | L]; [| rewrite X in L; injection L as ->; left; lra]. right. apply (In_nth _ _ 0) in I1. destruct I1 as (h & Hh & E1). exists h. split; [lia |]. rewrite E1, <- L. lra.
  - intros (h & Hh & XH). pose proof (CV (nth h v 0) ltac:(apply nth_In; lia)) as Q. cbn [fst snd] in Q. rewrite minus_IZR. lra.
Qed.
(** The plot can be drawn exactly when the record is not constant and the decomposition leaves a residual;
    otherwise ValueError although the decomposition itself succeeds. *)
Lemma c143_accepts lstsq signal nh f mi tol r lo hi : decompose_harmonic_error lstsq [signal] nh f mi tol = Ok r -> extremes signal lo hi ->
  (lo < hi -> 0 < rms_of (h_noise r) -> exists g, analyze_decomposition_polar lstsq signal nh true f mi tol = Ok (r, Some g)) /\
  (lo = hi \/ rms_of (h_noise r) = 0 -> analyze_decomposition_polar lstsq signal nh true f mi tol = Err ValueError).
Proof.
  intros E X. destruct (decompose_lengths _ _ _ _ _ _ _ E) as (N & _). assert (NE : signal <> []) by (intros ->; cbn in N; lia). destruct (decompose_counts _ _ _ _ _ _ _ E) as (NH & LP & LM & P0). destruct X as (I1 & I2 & CV).
  assert (RM : forall t, run_mean [signal] t = nth t signal 0) by (intros t; unfold run_mean; cbn [length rsum nth]; change (INR 1) with 1; field).
  assert (SP : spans (length (hd [] (harm_rows [signal]))) (run_mean (harm_rows [signal])) lo hi).
  { rewrite harm_one_row by exact NE. cbn [hd]. apply (In_nth _ _ 0) in I1. apply (In_nth _ _ 0) in I2. destruct I1 as (i & Hi & Ei). destruct I2 as (j & Hj & Ej). split; [exists i; rewrite RM; auto |]. split; [exists j; rewrite RM; auto |]. intros t T. rewrite RM. apply (CV (nth t signal 0)), nth_In, T. }
  assert (HR : harm_rows [signal] <> []) by (rewrite harm_one_row by exact NE; discriminate).
  assert (FF : forall g, plot_decomposition_polar (h_phases r) (h_magnitudes_db r) (h_noise_db r) (Z.to_nat nh) = g -> analyze_decomposition_polar lstsq signal nh true f mi tol = bind g (fun g => Ok (r, Some g))) by (intros g <-; unfold analyze_decomposition_polar; rewrite E; reflexivity).
  assert (PP : plot_decomposition_polar (h_phases r) (h_magnitudes_db r) (h_noise_db r) (Z.to_nat nh) = match all_fin (h_magnitudes_db r) with None => Err ValueError | Some v => match min_noise (rmin_list v) (h_noise_db r) with None => Err ValueError | Some low =>
      let max_r := IZR (Zceil (rmax_list v / 10)) * 10 in let min_r := IZR (Zfloor ((low - 10) / 10)) * 10 in
      Ok (mkPF (combine (h_phases r) (map (fun x => x - min_r) v)) (match h_noise_db r with Fin x => Fin (x - min_r) | _ => h_noise_db r end) (fmt2 (h_noise_db r)) (radial_ticks min_r (max_r - min_r)) (max_r - min_r)) end end).
  { unfold plot_decomposition_polar. rewrite (firstn_len_all (h_phases r)), (firstn_len_all (h_magnitudes_db r)) by assumption. destruct (Nat.eqb_spec (length (h_magnitudes_db r)) 0); [lia |]. cbn [raise_if]. rewrite LM, LP, Nat.ltb_irrefl. reflexivity. }
  assert (FIN : lo < hi -> exists v, h_magnitudes_db r = map Fin v).
  { intros LT. pose proof (c96_decibels _ _ _ _ _ _ _ lo hi HR E SP LT) as (_ & _ & MD). eexists (map _ (seq 0 (Z.to_nat nh))). apply (nth_ext _ _ NaN NaN); [rewrite !map_length, seq_length; exact LM |]. intros h Hh. rewrite LM in Hh. rewrite (MD h Hh), map_map. rewrite (nth_map_in _ _ _ 0%nat) by (rewrite seq_length; exact Hh). rewrite seq_nth by exact Hh. cbn [Nat.add].
    match goal with |- Fin ?a = Fin (?F h) => instantiate (1 := fun h => 20 * (ln (nth h (h_magnitudes r) 0 / (hi - lo) + 1 / 10 ^ 20) / ln 10)) end. reflexivity. }
  split.
  - intros LT RP. pose proof (c96_decibels _ _ _ _ _ _ _ lo hi HR E SP LT) as (ND & _). rewrite (FF _ eq_refl), PP. destruct (FIN LT) as (v & MV). rewrite MV, all_fin_map, (ND RP). cbn [min_noise]. eexists. reflexivity.
  - intros [EQ | RZ].
    + rewrite (FF _ eq_refl), PP. replace (all_fin (h_magnitudes_db r)) with (@None (list R)); [reflexivity |]. symmetry. destruct (harm_inv _ _ _ _ _ _ _ E) as (fit & _ & _ & _ & _ & _ & _ & _ & _ & _ & _ & _ & _ & MD & _). destruct (span_avg [signal] lo hi HR SP) as (HI & LOO). rewrite HI, LOO, EQ, Rminus_eq_0 in MD. rewrite MD.
      destruct (h_magnitudes r) as [| m t] eqn:HM; [cbn in MD; rewrite MD in LM; cbn in LM; lia |]. cbn [map]. unfold db_ratio. destruct (Reqb_spec 0 0) as [_ | Q]; [| exfalso; apply Q; reflexivity]. destruct (Reqb m 0); [reflexivity |]. destruct (Rltb 0 m); reflexivity.
    + destruct (Rlt_or_le lo hi) as [LT | GE].
      * pose proof (c96_decibels _ _ _ _ _ _ _ lo hi HR E SP LT) as (_ & ND & _). rewrite (FF _ eq_refl), PP. destruct (FIN LT) as (v & MV). rewrite MV, all_fin_map, (ND RZ). reflexivity.
      * assert (EQ : lo = hi) by (pose proof (CV _ I1) as Q; cbn [fst snd] in Q; lra). rewrite (FF _ eq_refl), PP. replace (all_fin (h_magnitudes_db r)) with (@None (list R)); [reflexivity |]. symmetry. destruct (harm_inv _ _ _ _ _ _ _ E) as (fit & _ & _ & _ & _ & _ & _ & _ & _ & _ & _ & _ & _ & MD & _). destruct (span_avg [signal] lo hi HR SP) as (HI & LOO). rewrite HI, LOO, EQ, Rminus_eq_0 in MD. rewrite MD.
        destruct (h_magnitudes r) as [| m t] eqn:HM; [cbn in MD; rewrite MD in LM; cbn in LM; lia |]. cbn [map]. unfold db_ratio. destruct (Reqb_spec 0 0) as [_ | Q]; [| exfalso; apply Q; reflexivity]. destruct (Reqb m 0); [reflexivity |]. destruct (Rltb 0 m); reflexivity.
Qed.
(** A signal that the harmonics describe completely cannot be drawn (in exact arithmetic). *)
Lemma c143_perfect_refuted : exists signal r, decompose_harmonic_error gs_lstsq [signal] 2 None 0 (1 / 10 ^ 9) = Ok r /\ h_magnitudes r = [2; 1] /\
  analyze_decomposition_polar gs_lstsq signal 2 true None 0 (1 / 10 ^ 9) = Err ValueError.
Proof.
  destruct quad_result as (r & E & _ & M & _ & Z). exists quad_record, r. split; [exact E |]. split; [exact M |]. assert (NQ : quad_record <> []) by discriminate.
  apply (proj2 (c143_accepts _ _ _ _ _ _ _ _ _ E (rlist_extremes _ NQ))). right. destruct (decompose_lengths _ _ _ _ _ _ _ E) as (_ & _ & _ & LN). assert (L16 : length quad_record = 16%nat) by (unfold quad_record; rewrite map_length, seq_length; reflexivity).
  unfold rms_of. rewrite LN, L16. rewrite (rsum_zero 16); [unfold Rdiv; rewrite Rmult_0_l; apply sqrt_0 |]. intros t T. rewrite (Z t T). ring.
Qed.
Lemma floor_level : 20 * (ln (0 / (1 - -1) + 1 / 10 ^ 20) / ln 10) = - (400).
Proof.
  replace (0 / (1 - -1) + 1 / 10 ^ 20) with (/ 10 ^ 20) by (unfold Rdiv; rewrite Rmult_0_l, Rplus_0_l, Rmult_1_l; reflexivity). assert (P : 0 < 10 ^ 20) by (apply pow_lt; lra). rewrite (ln_Rinv _ P). rewrite (ln_pow 10 ltac:(lra) 20). rewrite INR_IZR_INZ. change (IZR (Z.of_nat 20)) with 20.
  assert (ln 10 <> 0) by (pose proof (ln_increasing 1 10 ltac:(lra) ltac:(lra)) as Q; rewrite ln_1 in Q; lra). field. assumption.
Qed.
(** The circle of the residual can lie far outside the axes: an alternating record analysed at a quarter of
    the sampling rate has a fundamental of -400 dB and a residual above 0 dB. *)
Lemma c143_circle_refuted : exists signal r g x, analyze_decomposition_polar gs_lstsq signal 1 true (Some (1 / 4)) 0 (1 / 10 ^ 9) = Ok (r, Some g) /\
  signal = [1; -1; 1; -1] /\ h_noise_db r = Fin x /\ exists y, pf_noise_radius g = Fin y /\ pf_max_radius g + 400 < y.
Proof.
  set (signal := [1; -1; 1; -1]).
  destruct (proj1 (c36_accepts gs_lstsq [signal] 1 (Some (1 / 4)) 0 (1 / 10 ^ 9))) as (r & E); [split; [lia | split; [cbn; lia | discriminate]] |].
  assert (RW : harm_rows [signal] = [signal]) by reflexivity.
  pose proof (c95_no_refinement _ _ _ _ _ _ E) as FR.
  pose proof (c93_optimal _ _ _ _ _ _ _ gs_least_squares ltac:(rewrite RW; discriminate) E) as (_ & Z & O & _). rewrite RW in Z, O. change (length (hd [] [signal])) with 4%nat in Z, O. rewrite FR in O.
  pose proof (O 0%nat 0 ltac:(cbn; lia)) as O1. pose proof (O 0%nat (- (PI / 2)) ltac:(cbn; lia)) as O2.
  rewrite (rsum_ext 4 _ (fun t => nth t (h_noise r) 0 * qcos t)) in O1. 2:{ intros t T. rewrite <- (proj1 (quarter_trig t)). f_equal. f_equal. cbn [INR]. field. }
  rewrite (rsum_ext 4 _ (fun t => nth t (h_noise r) 0 * qsin t)) in O2. 2:{ intros t T. rewrite <- (proj2 (quarter_trig t)). f_equal. rewrite sin_cos. rewrite <- cos_neg. replace (- (INR 1 * (2 * PI * (1 / 4) * INR t) + - (PI / 2))) with (PI / 2 - INR t * (PI / 2)) by (cbn [INR]; field). rewrite cos_shift, <- sin_cos. reflexivity. }
  destruct (harm_inv _ _ _ _ _ _ _ E) as (fit & FC & _ & _ & FR2 & LN & _ & _ & _ & V & MG & _). cbv zeta in V, MG. change (length (dec_avg [signal])) with 4%nat in *. rewrite FR in FR2. rewrite <- FR2 in V, MG. change (Z.to_nat 1) with 1%nat in V, MG.
  set (W := gs_lstsq (harm_basis 4 (1 / 4) 1) _) in V, MG. clearbody W.
  assert (NO : forall t, (t < 4)%nat -> nth t (h_noise r) 0 = nth t signal 0 - lmean (dec_avg [signal]) - (W 0%nat + (W 1%nat * qcos t + W 2%nat * qsin t))).
  { intros t T. destruct (V t T) as (_ & -> & _). rewrite basis_mv. cbn [rsum Nat.mul Nat.add]. change (INR 1) with 1. replace (1 * (2 * PI * (1 / 4) * INR t)) with (INR t * (PI / 2)) by field. rewrite (proj1 (quarter_trig t)), (proj2 (quarter_trig t)), Rplus_0_l. f_equal. f_equal.
    unfold dec_avg. rewrite average_nth by (rewrite RW; first [discriminate | exact T]). rewrite RW. unfold run_mean. cbn [length rsum]. change (INR 1) with 1. change (nth 0 [signal] []) with signal. field. }
  pose proof (NO 0%nat ltac:(lia)) as N0. pose proof (NO 1%nat ltac:(lia)) as N1. pose proof (NO 2%nat ltac:(lia)) as N2. pose proof (NO 3%nat ltac:(lia)) as N3. cbn [rsum] in Z, O1, O2. unfold qcos, qsin, signal in *. cbn [Nat.modulo Nat.divmod fst snd Nat.sub nth] in N0, N1, N2, N3, O1, O2.
  assert (W1 : W 1%nat = 0) by lra. assert (W2 : W 2%nat = 0) by lra.
  assert (HN : h_noise r = [1; -1; 1; -1]). { apply (nth_ext_eq 0); [rewrite LN; reflexivity |]. intros i I. rewrite LN in I. destruct i as [| [| [| [| i]]]]; [| | | | lia]; cbn [nth]; lra. }
  assert (MG' : h_magnitudes r = [0]). { rewrite MG. cbn [seq map Nat.mul Nat.add]. rewrite W1, W2. f_equal. unfold Cmod, Cmod2. cbn [fst snd]. replace (0 * 0 + 0 * 0) with 0 by ring. rewrite sqrt_0. ring. }
  assert (RMS : rms_of (h_noise r) = 1). { rewrite HN. unfold rms_of. cbn [length rsum nth]. replace (_ / INR 4) with 1 by (cbn; field). apply sqrt_1. }
  assert (X : extremes signal (-1) 1). { split; [right; left; reflexivity |]. split; [left; reflexivity |]. intros w [<- | [<- | [<- | [<- | []]]]]; cbn [fst snd]; lra. }
  destruct (proj1 (c143_accepts _ _ _ _ _ _ _ _ _ E X) ltac:(lra) ltac:(lra)) as (g & G).
  assert (SP : spans (length (hd [] (harm_rows [signal]))) (run_mean (harm_rows [signal])) (-1) 1).
  { change (harm_rows [signal]) with [signal]. cbn [hd]. unfold run_mean, signal. split; [exists 1%nat; cbn; split; [lia | field] |]. split; [exists 0%nat; cbn; split; [lia | field] |]. intros t T. destruct t as [| [| [| [| t]]]]; [| | | | cbn in T; lia]; cbn; lra. }
  assert (NEH : harm_rows [signal] <> []) by discriminate. pose proof (c96_decibels _ _ _ _ _ _ _ (-1) 1 NEH E SP ltac:(lra)) as (ND & _ & MD). rewrite RMS in ND. specialize (ND ltac:(lra)). specialize (MD 0%nat ltac:(cbn; lia)). rewrite MG' in MD. cbn [nth] in MD.
  exists signal, r, g. eexists. split; [exact G |]. split; [reflexivity |]. split; [exact ND |].
  destruct (c143_reading _ _ _ _ _ _ _ _ G) as (_ & b & lev & _ & _ & LV & _ & _ & _ & (k & OUT) & (h & Hh & TIGHT) & _ & NS). change (Z.to_nat 1) with 1%nat in *.
  assert (h = 0)%nat by lia. subst h. destruct (LV 0%nat ltac:(lia)) as (LV0 & _ & _ & LV2). rewrite MD in LV0. injection LV0 as LV0. destruct (NS _ ND) as (NR & _). eexists. split; [exact NR |].
  assert (L400 : lev 0%nat = - (400)) by (rewrite <- LV0; exact floor_level).
  assert (XP : 0 < 20 * (ln (2 * sqrt 2 * 1 / (1 - -1)) / ln 10)). { apply Rmult_lt_0_compat; [lra |]. apply Rdiv_lt_0_compat. - rewrite <- ln_1. apply ln_increasing; [lra |]. assert (1 < sqrt 2) by (rewrite <- sqrt_1 at 1; apply sqrt_lt_1; lra). lra. - rewrite <- ln_1. apply ln_increasing; lra. }
  assert (KB : (k + b <= -40)%Z). { apply Z.lt_succ_r, lt_IZR. rewrite plus_IZR. change (IZR (Z.succ (-40))) with (-39). rewrite OUT, L400 in TIGHT. lra. }
  apply IZR_le in KB. rewrite plus_IZR in KB. rewrite OUT. lra.
Qed.
