(** * Plots of the binned errors and of the coherent spectrum: the final lemmas are named c144_ - c147_. *)
From Verif Require Import Base BaseLemmas Cplx FreqProofs TiProofs SpecModel SpecLemmas SpecProofs SineHistModel SineHistSpec SineHistProofs SiggenModel PlotModel PlotSpec PlotProofs.
From Verif Require Import DoutProofs UnitsModel CalModel CalSpec CalProofs CalExLemmas CalExProofs TiModel TiToneProofs SpecToneProofs FitModel FitSpec FitProofs AcfModel AcfProofs RearModel RearSpec RearProofs OsrSpec EplaneSpec EplaneProofs CohModel CohSpec CohLemmas CohProofs DrawModel DrawSpec DrawProofs PanelModel PanelSpec.
From Coq Require Import Psatz Permutation Sorted.
Local Open Scope R_scope.

(* ---------- C144: error by value ---------- *)
Lemma value_shapes lstsq signal f n clip range mi tol r : rearrange_error_by_value lstsq signal f n clip range mi tol = Ok r ->
  (0 < bins_of n)%Z /\ signal <> [] /\ length (v_centers r) = Z.to_nat (bins_of n) /\ length (v_mean r) = Z.to_nat (bins_of n) /\ length (v_rms r) = Z.to_nat (bins_of n) /\
  exists i, (i < length signal)%nat /\ inner (bins_of n) clip (nth i (v_bins r) 0%nat) = true.
Proof.
  unfold rearrange_error_by_value. fold (bins_of n). set (m := bins_of n).
  destruct (Nat.eqb_spec (length signal) 0) as [L | L]; [discriminate |]. cbn [raise_if].
  destruct (Z.leb_spec m 0) as [M | M]; [discriminate |]. cbn [raise_if].
  destruct (Rltb_spec clip 0) as [C | C]; [discriminate |]. cbn [raise_if].
  destruct (match range with Some (a, b) => Rleb b a | None => false end); [discriminate |]. cbn [raise_if].
  destruct (infer_signal_range signal range) as [lo hi]. destruct (Rleb_spec hi lo) as [V | V]; [discriminate |]. cbn [raise_if].
  destruct (fit_core lstsq signal f mi tol) as [fit |] eqn:E; [| discriminate]. cbn [bind].
  destruct (Rltb 0 clip && (m <=? Zfloor (IZR m * clip) * 2)%Z); [discriminate |]. cbn [raise_if].
  destruct (existsb (value_valid m clip) (map (value_bin m lo hi) signal)) eqn:X; [| discriminate]. cbn [negb raise_if]. cbv zeta.
  intros H. apply Ok_inj in H. subst r. cbn [v_bins v_error v_centers v_counts v_mean v_rms]. rewrite !map_length, !seq_length.
  split; [exact M |]. split; [intros ->; apply L; reflexivity |]. repeat (split; [reflexivity |]).
  apply existsb_exists in X. destruct X as (k & I & Y). apply (In_nth _ _ 0%nat) in I. destruct I as (i & Hi & Ei). rewrite map_length in Hi. exists i. split; [exact Hi |]. rewrite Ei. rewrite <- valid_inner; [exact Y | exact M | exact C |]. rewrite <- Ei, (nth_map_in _ _ _ 0) by exact Hi. apply clip_bin_lt, M.
Qed.
Lemma numbers_In l x : In x (numbers l) <-> In (Fin x) l.
Proof.
  unfold numbers. rewrite in_flat_map. split.
  - intros (y & I & Q). destruct y; cbn in Q; try contradiction. destruct Q as [-> | []]. exact I.
  - intros I. exists (Fin x). split; [exact I | left; reflexivity].
Qed.
Lemma nanmax_spec l : (exists m, nanmax l = Fin m /\ largest_number l m) \/ (nanmax l = NaN /\ forall x, ~ In (Fin x) l).
Proof.
  unfold nanmax. destruct (numbers l) as [| a t] eqn:E.
  - right. split; [reflexivity |]. intros x I. apply numbers_In in I. rewrite E in I. exact I.
  - left. eexists. split; [reflexivity |]. rewrite <- E. assert (N : numbers l <> []) by (rewrite E; discriminate). destruct (rlist_extremes _ N) as (_ & I2 & C). split; [apply numbers_In, I2 |]. intros x I. apply numbers_In in I. apply C in I. cbn [fst snd] in I. lra.
Qed.
Lemma nanmax_is l m : largest_number l m -> nanmax l = Fin m.
Proof.
  intros (I & G). destruct (nanmax_spec l) as [(m' & -> & I' & G') | (_ & N)]; [| exfalso; exact (N _ I)]. f_equal. apply Rle_antisym; [apply G, I' | apply G', I].
Qed.
Lemma error_limits_spec e : e <> [] -> covers (error_limits e) e /\
  (forall lo hi, extremes e lo hi -> (lo < hi -> error_limits e = (lo - (hi - lo) / 10, hi + (hi - lo) / 10)) /\ (lo = hi -> error_limits e = (lo - 1, hi + 1))).
Proof.
  intros N. pose proof (rlist_extremes e N) as X. destruct X as (I1 & I2 & C). pose proof (C _ I1) as C1. cbn [fst snd] in C1. unfold error_limits. split.
  - intros v I. pose proof (C v I) as Q. cbn [fst snd] in Q. cbv zeta. cbn [fst snd]. destruct (Reqb_spec (rmax_list e - rmin_list e) 0); lra.
  - intros lo hi X. destruct (extremes_unique _ _ _ _ _ X (conj I1 (conj I2 C))) as (-> & ->). cbv zeta. split; intros L; destruct (Reqb_spec (rmax_list e - rmin_list e) 0); try lra; apply f_equal2; lra.
Qed.
Lemma total_between N P e lo hi : (forall i, (i < N)%nat -> lo <= e i <= hi) -> lo * total_in N P (fun _ => 1) <= total_in N P e <= hi * total_in N P (fun _ => 1).
Proof.
  intros B. unfold total_in. rewrite <- !rsum_scale. split; apply rsum_le; intros i I; specialize (B i I); destruct (P i); lra.
Qed.
Lemma mean_between N P e c mean rms m lo hi : bin_statistics N P e c mean rms -> mean = Fin m -> (forall i, (i < N)%nat -> lo <= e i <= hi) -> lo <= m <= hi.
Proof.
  intros (S1 & S2 & S3) -> B. destruct (Nat.eq_dec c 0) as [-> | NZ]; [destruct (S2 eq_refl); discriminate |]. destruct (S3 ltac:(lia)) as (m' & r' & Q & _ & T & _). injection Q as <-. assert (CP : 0 < INR c) by (apply lt_0_INR; lia). pose proof (total_between N P e lo hi B) as W. rewrite <- S1, <- T in W. split; nra.
Qed.
Lemma spread_step n lo hi k : spread n lo hi (S k) - spread n lo hi k = (hi - lo) / IZR (n - 1).
Proof. unfold spread. rewrite S_INR. ring. Qed.
Lemma spread_range n lo hi k : (2 <= n)%Z -> lo < hi -> (k < Z.to_nat n)%nat -> lo <= spread n lo hi k <= hi.
Proof.
  intros N L K. unfold spread. assert (P : 0 < IZR (n - 1)) by (apply (IZR_lt 0); lia). assert (K2 : INR k <= IZR (n - 1)) by (rewrite INR_IZR_INZ; apply IZR_le; lia). pose proof (pos_INR k).
  assert (Q : INR k * ((hi - lo) / IZR (n - 1)) = INR k / IZR (n - 1) * (hi - lo)) by (field; lra). rewrite Q. assert (0 <= INR k / IZR (n - 1)) by (apply Rdiv_le_0_compat; lra). assert (INR k / IZR (n - 1) <= 1) by (apply (Rmult_le_reg_r (IZR (n - 1))); [exact P |]; unfold Rdiv; rewrite Rmult_assoc, Rinv_l by lra; lra). split; nra.
Qed.
Lemma spread_ends n lo hi : (2 <= n)%Z -> spread n lo hi 0 = lo /\ spread n lo hi (Z.to_nat (n - 1)) = hi.
Proof. intros N. unfold spread. assert (P : 0 < IZR (n - 1)) by (apply (IZR_lt 0); lia). split; [change (INR 0) with 0; ring |]. rewrite INR_IZR_INZ, Z2Nat.id by lia. field. lra. Qed.
Lemma centers_spec n c lo hi : (0 < n)%Z -> lo < hi -> length c = Z.to_nat n -> (forall b, (b < Z.to_nat n)%nat -> nth b c 0 = spread n lo hi b) ->
  ((n = 1)%Z -> center_limits c = (lo - 1 / 2, lo + 1 / 2) /\ bar_width c = 9 / 10) /\
  ((2 <= n)%Z -> center_limits c = (lo - (hi - lo) / 50, hi + (hi - lo) / 50) /\ bar_width c = 9 / 10 * ((hi - lo) / IZR (n - 1))).
Proof.
  intros N L LC V. assert (NE : c <> []) by (intros ->; cbn in LC; lia). split.
  - intros ->. destruct c as [| x [| y t]]; try discriminate LC. specialize (V 0%nat ltac:(cbn; lia)). cbn [nth] in V. unfold spread in V. change (INR 0) with 0 in V. rewrite Rmult_0_l, Rplus_0_r in V. subst x. unfold center_limits, bar_width, rmin_list, rmax_list. cbn. rewrite Rmin_left, Rmax_left by lra. destruct (Rltb_spec lo lo); [lra |]. split; reflexivity.
  - intros N2. assert (X : extremes c lo hi).
    { destruct (spread_ends n lo hi N2) as (E1 & E2). split; [rewrite <- E1, <- V by lia; apply nth_In; lia |]. split; [rewrite <- E2, <- V by lia; apply nth_In; lia |]. intros v I. apply (In_nth _ _ 0) in I. destruct I as (k & Hk & <-). rewrite V by lia. apply spread_range; [exact N2 | exact L | lia]. }
    destruct (extremes_unique _ _ _ _ _ X (rlist_extremes c NE)) as (M1 & M2). split.
    + unfold center_limits. rewrite <- M1, <- M2. destruct (Rltb_spec lo hi); [| lra]. apply f_equal2; lra.
    + unfold bar_width. destruct (Nat.ltb_spec 1 (length c)); [| lia]. f_equal. assert (MB : (hi - lo) / IZR (n - 1) <= median (diffs c) <= (hi - lo) / IZR (n - 1)); [| lra].
      apply median_bounds; [intros D; apply (f_equal (@length R)) in D; unfold diffs in D; rewrite map_length, seq_length in D; cbn in D; lia |]. intros x I. unfold diffs in I. apply in_map_iff in I. destruct I as (k & <- & I). apply in_seq in I. rewrite !V by lia. rewrite spread_step. lra.
Qed.
(** The wrapper returns what the analysis returns, with or without plot.  Every sample is drawn at the bin
    centre nearest to it with its error, inside the axes, and so is the mean of every bin that has one; the
    vertical limits are a tenth of the range beyond the extremes of the error (one beyond a constant). *)
Lemma c144_points lstsq signal f n clip range mi tol r g : analyze_error_by_value lstsq signal f n clip range true mi tol = Ok (r, Some g) ->
  rearrange_error_by_value lstsq signal f n clip range mi tol = Ok r /\ analyze_error_by_value lstsq signal f n clip range false mi tol = Ok (r, None) /\
  length (vf_scatter g) = length signal /\
  (forall i, (i < length signal)%nat -> exists c, nth i (vf_scatter g) (0, 0) = (c, nth i (v_error r) 0) /\ In c (v_centers r) /\
     (forall c', In c' (v_centers r) -> Rabs (nth i signal 0 - c) <= Rabs (nth i signal 0 - c')) /\ within (vf_xlim g) c /\ within (vf_ylim g) (nth i (v_error r) 0)) /\
  length (vf_mean g) = Z.to_nat (bins_of n) /\
  (forall b, (b < Z.to_nat (bins_of n))%nat -> nth b (vf_mean g) (0, NaN) = (nth b (v_centers r) 0, nth b (v_mean r) NaN) /\ within (vf_xlim g) (nth b (v_centers r) 0) /\
     forall m, nth b (v_mean r) NaN = Fin m -> within (vf_ylim g) m) /\
  (forall lo hi, extremes (v_error r) lo hi -> (lo < hi -> vf_ylim g = (lo - (hi - lo) / 10, hi + (hi - lo) / 10)) /\ (lo = hi -> vf_ylim g = (lo - 1, hi + 1))).
Proof.
  unfold analyze_error_by_value. destruct (rearrange_error_by_value lstsq signal f n clip range mi tol) as [r' |] eqn:E; [| discriminate]. cbn [bind]. intros G. apply Ok_inj in G. injection G as -> <-. split; [reflexivity |]. split; [reflexivity |].
  destruct (value_shapes _ _ _ _ _ _ _ _ _ E) as (NP & NS & LC & LM & LR & _). destruct (c34_statistics _ _ _ _ _ _ _ _ _ E) as (fit & lo & hi & _ & _ & LH & LB & LE & SA & ST).
  unfold plot_rearranged_error_by_value. cbn [vf_scatter vf_mean vf_xlim vf_ylim]. set (nn := Z.to_nat (bins_of n)) in *.
  assert (NE : v_error r <> []) by (intros Q; rewrite Q in LE; destruct signal; [apply NS; reflexivity | discriminate LE]). destruct (error_limits_spec _ NE) as (CE & XE).
  destruct (centers_spec _ _ _ _ NP LH LC (fun b Hb => proj1 (ST b Hb))) as (C1 & C2).
  assert (XL : forall b, (b < nn)%nat -> within (center_limits (v_centers r)) (nth b (v_centers r) 0)).
  { intros b Hb. rewrite (proj1 (ST b Hb)). destruct (Z.eq_dec (bins_of n) 1) as [O | O].
    - destruct (C1 O) as (-> & _). unfold nn in Hb. rewrite O in Hb. assert (b = 0)%nat by (cbn in Hb; lia). subst b. unfold spread, within. change (INR 0) with 0. cbn [fst snd]. lra.
    - destruct (C2 ltac:(lia)) as (-> & _). pose proof (spread_range (bins_of n) lo hi b ltac:(lia) LH Hb). unfold within. cbn [fst snd]. lra. }
  split; [rewrite combine_length, map_length; lia |]. split.
  { intros i I. destruct (SA i I) as (_ & B & NR). exists (nth (nth i (v_bins r) 0%nat) (v_centers r) 0). split.
    - rewrite combine_nth by (rewrite ?map_length; lia). rewrite (nth_map_in _ _ _ 0%nat) by lia. reflexivity.
    - split; [apply nth_In; unfold nn in *; lia |]. split; [| split; [apply XL, B | apply CE, nth_In; lia]]. intros c' I'. apply (In_nth _ _ 0) in I'. destruct I' as (j & Hj & <-). rewrite !(fun b Hb => proj1 (ST b Hb)) by (unfold nn in *; lia). apply NR. unfold nn in *; lia. }
  split; [rewrite combine_length; unfold nn; lia |]. split; [| exact XE].
  intros b Hb. split; [apply combine_nth; congruence |]. split; [apply XL, Hb |]. intros m M. destruct (rlist_extremes _ NE) as (_ & _ & CV).
  assert (RB : rmin_list (v_error r) <= m <= rmax_list (v_error r)).
  { refine (mean_between _ _ _ _ _ _ m _ _ (proj2 (ST b Hb)) _ _); [rewrite (nth_indep _ PInf NaN) by (unfold nn in *; lia); exact M |]. intros i I. apply (CV (nth i (v_error r) 0)), nth_In. lia. }
  unfold error_limits, within. cbv zeta. cbn [fst snd]. destruct (Reqb_spec (rmax_list (v_error r) - rmin_list (v_error r)) 0); lra.
Qed.
(** The bars: one per bin at its centre, as high as the rms error of the bin (none for an empty bin), nine
    tenths of the distance of the centres wide, so that neighbours do not touch; the axis reaches from zero to
    1.15 times the highest.  All bars are entirely inside the axes exactly when there is one bin or at least
    24 of them. *)
Lemma c144_bars lstsq signal f n clip range mi tol r g : analyze_error_by_value lstsq signal f n clip range true mi tol = Ok (r, Some g) ->
  let k := Z.to_nat (bins_of n) in
  (0 < k)%nat /\ length (vf_bars g) = k /\
  (forall b, (b < k)%nat -> nth b (vf_bars g) (0, NaN) = (nth b (v_centers r) 0, nth b (v_rms r) NaN)) /\
  (forall b, (S b < k)%nat -> vf_width g = 9 / 10 * (nth (S b) (v_centers r) 0 - nth b (v_centers r) 0) /\ nth b (v_centers r) 0 + vf_width g / 2 < nth (S b) (v_centers r) 0 - vf_width g / 2) /\
  (exists m, largest_number (v_rms r) m /\ vf_bar_ylim g = (0, 115 / 100 * m) /\ forall x, In (Fin x) (v_rms r) -> 0 <= x <= snd (vf_bar_ylim g)) /\
  ((forall b, (b < k)%nat -> bar_within (vf_bar_xlim g) (vf_width g) (nth b (v_centers r) 0)) <-> (k = 1 \/ 24 <= k)%nat).
Proof.
  unfold analyze_error_by_value. destruct (rearrange_error_by_value lstsq signal f n clip range mi tol) as [r' |] eqn:E; [| discriminate]. cbn [bind]. intros G. apply Ok_inj in G. injection G as -> <-.
  destruct (value_shapes _ _ _ _ _ _ _ _ _ E) as (NP & NS & LC & LM & LR & (i0 & I0 & IN)). destruct (c34_statistics _ _ _ _ _ _ _ _ _ E) as (fit & lo & hi & _ & _ & LH & LB & LE & SA & ST).
  unfold plot_rearranged_error_by_value. cbn [vf_bars vf_width vf_bar_ylim vf_bar_xlim]. cbv zeta. destruct (centers_spec _ _ _ _ NP LH LC (fun b Hb => proj1 (ST b Hb))) as (C1 & C2).
  split; [lia |]. split; [rewrite combine_length; lia |]. split; [intros b Hb; apply combine_nth; congruence |]. split.
  { intros b Hb. destruct (C2 ltac:(lia)) as (_ & W). rewrite !(fun b Hb => proj1 (ST b Hb)) by lia. pose proof (spread_step (bins_of n) lo hi b) as SS. assert (0 < (hi - lo) / IZR (bins_of n - 1)) by (apply Rdiv_lt_0_compat; [lra | apply (IZR_lt 0); lia]). rewrite W, SS. split; [reflexivity | lra]. }
  assert (POS : forall x, In (Fin x) (v_rms r) -> 0 <= x).
  { intros x I. apply (In_nth _ _ PInf) in I. destruct I as (b & Hb & Q). destruct (ST b ltac:(lia)) as (_ & _ & S2 & S3). rewrite Q in S2, S3. destruct (Nat.eq_dec (nth b (v_counts r) 0%nat) 0) as [Z0 | NZ]; [destruct (S2 Z0); discriminate |]. destruct (S3 ltac:(lia)) as (_ & x' & _ & Q' & _ & P & _). injection Q' as ->. exact P. }
  split.
  { destruct (nanmax_spec (v_rms r)) as [(m & M & L) | (_ & N)].
    - rewrite M. exists m. split; [exact L |]. split; [apply f_equal2; lra |]. intros x I. pose proof (POS x I). pose proof (proj2 L x I). cbn [snd]. lra.
    - exfalso. destruct (SA i0 I0) as (_ & B & _). destruct (ST _ B) as (_ & S1 & _ & S3).
      assert (CP : 0 < INR (nth (nth i0 (v_bins r) 0%nat) (v_counts r) 0%nat)).
      { rewrite S1. unfold total_in. apply Rlt_le_trans with (rsum (length signal) (fun i => if (i =? i0)%nat then 1 else 0)).
        - rewrite (rsum_single _ i0) by (first [exact I0 | intros i _ D; destruct (Nat.eqb_spec i i0); [contradiction | reflexivity]]). rewrite Nat.eqb_refl. lra.
        - apply rsum_le. intros i I. destruct (Nat.eqb_spec i i0) as [-> |]; [rewrite IN, Nat.eqb_refl; cbn [andb]; lra |]. destruct (_ && _); lra. }
      destruct (S3 ltac:(apply INR_lt; exact CP)) as (_ & x & _ & Q & _). apply (N x). rewrite <- Q. apply nth_In. lia. }
  split.
  - intros H. destruct (Z.eq_dec (bins_of n) 1) as [O | O]; [left; rewrite O; reflexivity |]. right. destruct (C2 ltac:(lia)) as (L & W). specialize (H 0%nat ltac:(lia)). rewrite L, W, (proj1 (ST 0%nat ltac:(lia))), (proj1 (spread_ends (bins_of n) lo hi ltac:(lia))) in H. unfold bar_within in H. cbn [fst snd] in H. destruct H as (H & _).
    assert (P : 0 < IZR (bins_of n - 1)) by (apply (IZR_lt 0); lia). assert (Q : 9 / 20 * ((hi - lo) / IZR (bins_of n - 1)) <= (hi - lo) / 50) by lra. apply (Rmult_le_compat_r (IZR (bins_of n - 1))) in Q; [| lra]. replace (9 / 20 * ((hi - lo) / IZR (bins_of n - 1)) * IZR (bins_of n - 1)) with (9 / 20 * (hi - lo)) in Q by (field; lra).
    assert (B : 22.5 <= IZR (bins_of n - 1)) by nra. assert (22 < bins_of n - 1)%Z by (apply lt_IZR; lra). lia.
  - intros [O | B].
    + assert (Q : (bins_of n = 1)%Z) by lia. intros b Hb. destruct (C1 Q) as (-> & ->). rewrite (proj1 (ST b ltac:(lia))). replace b with 0%nat by lia. unfold spread, bar_within. change (INR 0) with 0. cbn [fst snd]. lra.
    + intros b Hb. destruct (C2 ltac:(lia)) as (-> & ->). rewrite (proj1 (ST b Hb)). pose proof (spread_range (bins_of n) lo hi b ltac:(lia) LH Hb). unfold bar_within. cbn [fst snd].
      assert (P : 23 <= IZR (bins_of n - 1)) by (apply (IZR_le 23); lia). assert (Q : (hi - lo) / IZR (bins_of n - 1) <= (hi - lo) / 23) by (apply Rmult_le_compat_l; [lra |]; apply Rinv_le_contravar; lra). lra.
Qed.
(** Three bins: the outer bars are cut off. *)
Lemma c144_bars_refuted : exists r g, analyze_error_by_value gs_lstsq acf_record (Some (1 / 4)) (Some 3%Z) 0 (Some (-1, 1)) true 0 (1 / 10 ^ 9) = Ok (r, Some g) /\
  vf_bar_xlim g = (-1.04, 1.04) /\ vf_width g = 0.9 /\ nth 2 (v_centers r) 0 = 1 /\ ~ bar_within (vf_bar_xlim g) (vf_width g) (nth 2 (v_centers r) 0).
Proof.
  destruct c34_statistics_ex as (r & E & _ & _ & _ & C). exists r, (plot_rearranged_error_by_value r). unfold analyze_error_by_value. rewrite E. cbn [bind]. split; [reflexivity |]. unfold plot_rearranged_error_by_value. cbn [vf_bar_xlim vf_width].
  assert (V : forall b, (b < Z.to_nat 3)%nat -> nth b (v_centers r) 0 = spread 3 (-1) 1 b) by (intros b Hb; rewrite C; unfold spread; change (IZR (3 - 1)) with 2; destruct b as [| [| [| b]]]; [| | | cbn in Hb; lia]; cbn [nth INR]; lra).
  destruct (centers_spec 3 (v_centers r) (-1) 1 ltac:(lia) ltac:(lra) ltac:(rewrite C; reflexivity) V) as (_ & X). destruct (X ltac:(lia)) as (-> & ->). change (IZR (3 - 1)) with 2. split; [apply f_equal2; lra |]. split; [lra |]. rewrite C. cbn [nth]. split; [reflexivity |]. unfold bar_within. cbn [fst snd]. lra.
Qed.
(** The same record: eight points at three centres with the errors -1, 0, 1. *)
Lemma c144_points_ex : exists r g, analyze_error_by_value gs_lstsq acf_record (Some (1 / 4)) (Some 3%Z) 0 (Some (-1, 1)) true 0 (1 / 10 ^ 9) = Ok (r, Some g) /\
  map fst (vf_scatter g) = [1; 0; 0; -1; -1; 0; 0; 1] /\ vf_mean g = [(-1, Fin (-1)); (0, Fin 0); (1, Fin 1)].
Proof.
  destruct c34_statistics_ex as (r & E & B & _ & M & C). exists r, (plot_rearranged_error_by_value r). unfold analyze_error_by_value. rewrite E. cbn [bind]. split; [reflexivity |]. destruct (c34_statistics _ _ _ _ _ _ _ _ _ E) as (fit & lo & hi & _ & _ & _ & _ & LE & _).
  unfold plot_rearranged_error_by_value. cbn [vf_scatter vf_mean]. rewrite B, C, M. split; [| reflexivity]. cbn [map nth]. apply map_combine. rewrite LE. reflexivity.
Qed.
(* ---------- C145: error by phase ---------- *)
Lemma wrap360_deg p : wrap360 (p * 180 / PI) = wrap2pi p * 180 / PI.
Proof. pose proof PI_RGT_0. unfold wrap360, wrap2pi. replace (p * 180 / PI / 360) with (p / (2 * PI)) by (field; lra). field. lra. Qed.
Lemma wrap360_range x : 0 <= wrap360 x < 360.
Proof. unfold wrap360. pose proof (Zfloor_lb (x / 360)). pose proof (Zfloor_ub (x / 360)). lra. Qed.
Lemma phase_figure_inv argsort lstsq signal f n base mi tol r g : analyze_error_by_phase argsort lstsq signal f n base true mi tol = Ok (r, Some g) ->
  exists fit top total, rearrange_error_by_phase lstsq signal f n base mi tol = Ok r /\ fit_core lstsq signal f mi tol = Ok fit /\ signal <> [] /\
  largest_number (p_bin_rms r) top /\ p_total_v r = Fin total /\
  let deg := map (fun p => wrap360 (p * 180 / PI)) (p_phase r) in let cdeg := map (fun c => c * 180 / PI) (p_centers r) in
  let v := p_variances r in let curve (q : R -> R) := combine cdeg (map (fun c => sqrt (q c)) (p_centers r)) in
  let s_min := rmin_list (f_fitted fit) in let s_max := rmax_list (f_fitted fit) in let m := (s_max - s_min) * (1 / 10) in
  hf_line g = map (fun i => (nth i deg 0, nth i (f_fitted fit) 0)) (argsort deg) /\ hf_line_ylim g = (s_min - m, s_max + m) /\
  hf_error g = combine deg (p_error r) /\ hf_mean g = combine cdeg (p_bin_mean r) /\ hf_error_ylim g = error_limits (p_error r) /\
  hf_bars g = combine cdeg (p_bin_rms r) /\ hf_width g = 360 / INR (length (p_centers r)) * (8 / 10) /\ hf_bar_ylim g = (0, top * (15 / 10)) /\
  hf_am g = curve (fun c => am_of v * cos c ^ 2 + base_of v) /\ hf_pm g = curve (fun c => pm_of v * sin c ^ 2 + base_of v) /\
  hf_base g = (if base then Some (combine cdeg (map (fun _ => sqrt (base_of v)) (p_centers r))) else None) /\ hf_total g = curve (am_pm_power v) /\
  hf_am_text g = format_volt (p_am_v r) /\ hf_pm_text g = format_volt (p_pm_v r) /\ hf_rad_text g = format_urad (p_pm_rad r) /\ hf_base_text g = format_volt (p_base_v r) /\
  hf_total_text g = format_volt total /\ hf_r2_text g = fixed 3 (p_r2_binned r) /\ hf_xlim g = (0, 360).
Proof.
  unfold analyze_error_by_phase. destruct (rearrange_error_by_phase lstsq signal f n base mi tol) as [r' |] eqn:E; [| discriminate]. cbn [bind]. destruct (fit_core lstsq signal f mi tol) as [fit |] eqn:F; [| discriminate]. cbn [bind].
  destruct (plot_rearranged_error_by_phase argsort r' (f_fitted fit) base) as [g' |] eqn:P; [| discriminate]. cbn [bind]. intros Q. apply Ok_inj in Q. injection Q as -> ->.
  unfold plot_rearranged_error_by_phase in P. destruct (p_variances r) as [[am pm] b0]. cbv zeta in P. rewrite map_length in P.
  destruct (Nat.eqb_spec (length (p_phase r)) 0) as [L | L]; [discriminate |]. cbn [raise_if] in P. destruct (nanmax_spec (p_bin_rms r)) as [(top & T & LN) | (T & _)]; rewrite T in P; [| discriminate]. destruct (p_total_v r) as [total | | |]; try discriminate. apply Ok_inj in P. subst g.
  exists fit, top, total. split; [reflexivity |]. split; [reflexivity |]. split. { intros ->. destruct (by_phase_inv _ _ _ _ _ _ _ _ E) as (fit' & _ & _ & _ & PP & _). rewrite PP in L. apply L. reflexivity. }
  split; [exact LN |]. split; [reflexivity |]. cbv zeta. cbn [hf_line hf_line_ylim hf_error hf_mean hf_error_ylim hf_bars hf_width hf_bar_ylim hf_am hf_pm hf_base hf_total hf_am_text hf_pm_text hf_rad_text hf_base_text hf_total_text hf_r2_text hf_xlim]. unfold am_of, pm_of, base_of, am_pm_power. cbn [fst snd]. repeat split; reflexivity.
Qed.
Lemma phase_lengths lstsq signal f n base mi tol r : rearrange_error_by_phase lstsq signal f n base mi tol = Ok r ->
  (0 < n)%Z /\ length (p_phase r) = length signal /\ length (p_error r) = length signal /\ length (p_bins r) = length signal /\ length (p_centers r) = Z.to_nat n /\ length (p_bin_mean r) = Z.to_nat n /\ length (p_bin_rms r) = Z.to_nat n.
Proof.
  intros E. destruct (by_phase_inv _ _ _ _ _ _ _ _ E) as (fit & FE & NP & PE & PP & _ & PB & _ & _ & _ & _ & _ & _ & _ & _ & _ & BR & BM & PC & CN).
  assert (LP : length (p_phase r) = length signal) by (rewrite PP, map_length, seq_length; reflexivity). split; [exact NP |]. split; [exact LP |].
  split; [rewrite PE, map2_length; [reflexivity | symmetry; apply (fitted_length _ _ _ _ _ _ FE)] |]. split; [rewrite PB, !map_length; exact LP |]. rewrite PC, BM, BR, !map_length, !seq_length. repeat split.
Qed.
Lemma some_bin_rms lstsq signal f n base mi tol r : rearrange_error_by_phase lstsq signal f n base mi tol = Ok r -> signal <> [] -> exists x, In (Fin x) (p_bin_rms r).
Proof.
  intros E NE. destruct (phase_lengths _ _ _ _ _ _ _ _ E) as (NP & LP & LE & LB & LC & LM & LR). destruct (c92_phase_bins _ _ _ _ _ _ _ _ E) as (_ & _ & PB & ST & _). assert (L0 : (0 < length signal)%nat) by (destruct signal; [contradiction | cbn; lia]).
  destruct (PB 0%nat L0) as (_ & B & _). destruct (ST _ B) as (_ & S1 & _ & S3).
  assert (CP : 0 < INR (nth (nth 0 (p_bins r) 0%nat) (p_counts r) 0%nat)).
  { rewrite S1. unfold total_in. apply Rlt_le_trans with (rsum (length signal) (fun i => if (i =? 0)%nat then 1 else 0)).
    - rewrite (rsum_single _ 0%nat) by (first [exact L0 | intros i _ D; destruct (Nat.eqb_spec i 0); [contradiction | reflexivity]]). rewrite Nat.eqb_refl. lra.
    - apply rsum_le. intros i I. destruct (Nat.eqb_spec i 0) as [-> |]; [rewrite Nat.eqb_refl; lra |]. destruct (_ =? _)%nat; lra. }
  destruct (S3 ltac:(apply INR_lt; exact CP)) as (_ & x & _ & Q & _). exists x. rewrite <- Q. apply nth_In. lia.
Qed.
(** Whatever non-empty record can be analysed can also be drawn, with the same result. *)
Lemma c145_accepts argsort lstsq signal f n base mi tol r : rearrange_error_by_phase lstsq signal f n base mi tol = Ok r ->
  analyze_error_by_phase argsort lstsq signal f n base false mi tol = Ok (r, None) /\
  (signal <> [] -> exists g, analyze_error_by_phase argsort lstsq signal f n base true mi tol = Ok (r, Some g)) /\
  (signal = [] -> analyze_error_by_phase argsort lstsq signal f n base true mi tol = Err ValueError).
Proof.
  intros E. destruct (by_phase_inv _ _ _ _ _ _ _ _ E) as (fit & FE & NP & PE & PP & _ & _ & _ & _ & _ & _ & _ & _ & TV & _). destruct (phase_lengths _ _ _ _ _ _ _ _ E) as (_ & LP & LE & _).
  unfold analyze_error_by_phase. rewrite E. cbn [bind]. split; [reflexivity |]. rewrite FE. cbn [bind]. unfold plot_rearranged_error_by_phase. destruct (p_variances r) as [[am pm] b0]. cbv zeta. rewrite map_length, LP. split.
  - intros NE. destruct (Nat.eqb_spec (length signal) 0) as [L | L]; [destruct signal; [contradiction | discriminate L] |]. cbn [raise_if]. destruct (some_bin_rms _ _ _ _ _ _ _ _ E NE) as (x & I). destruct (nanmax_spec (p_bin_rms r)) as [(top & -> & _) | (_ & N)]; [| exfalso; exact (N x I)].
    rewrite TV. destruct (p_error r) as [| e es]; [cbn in LE; lia |]. cbn [map bind]. eexists. reflexivity.
  - intros ->. reflexivity.
Qed.
(** The upper panel.  Every sample is drawn at its phase in degrees, taken into [0, 360), at most half a bin
    from the centre of the bin it is counted in, with its error; the error, the bin means and the data line
    are inside their axes; the line runs through the samples' phases in ascending order and each of its
    points is offset + amplitude * cos of the phase. *)
Lemma c145_upper argsort lstsq signal f n base mi tol r g : (forall l, sorts l (argsort l)) -> analyze_error_by_phase argsort lstsq signal f n base true mi tol = Ok (r, Some g) ->
  hf_xlim g = (0, 360) /\ length (hf_error g) = length signal /\
  (forall t, (t < length signal)%nat -> exists x turns, nth t (hf_error g) (0, 0) = (x, nth t (p_error r) 0) /\ 0 <= x < 360 /\ x = nth t (p_phase r) 0 * 180 / PI - 360 * IZR turns /\
     Rabs (x - 360 * (INR (nth t (p_bins r) 0%nat) + 1 / 2) / IZR n) <= 180 / IZR n /\ within (hf_error_ylim g) (nth t (p_error r) 0)) /\
  length (hf_mean g) = Z.to_nat n /\
  (forall b, (b < Z.to_nat n)%nat -> nth b (hf_mean g) (0, NaN) = (360 * (INR b + 1 / 2) / IZR n, nth b (p_bin_mean r) NaN) /\ forall m, nth b (p_bin_mean r) NaN = Fin m -> within (hf_error_ylim g) m) /\
  (forall lo hi, extremes (p_error r) lo hi -> (lo < hi -> hf_error_ylim g = (lo - (hi - lo) / 10, hi + (hi - lo) / 10)) /\ (lo = hi -> hf_error_ylim g = (lo - 1, hi + 1))) /\
  (forall lo hi, extremes (map snd (hf_line g)) lo hi -> hf_line_ylim g = (lo - (hi - lo) / 10, hi + (hi - lo) / 10)) /\
  Permutation (map fst (hf_line g)) (map fst (hf_error g)) /\ StronglySorted (fun p q => fst p <= fst q) (hf_line g) /\
  exists dc, forall x y, In (x, y) (hf_line g) -> y = dc + p_amplitude r * cos (x * PI / 180) /\ within (hf_line_ylim g) y.
Proof.
  intros AS G. destruct (phase_figure_inv _ _ _ _ _ _ _ _ _ _ G) as (fit & top & total & E & FE & NE & LN & TV & H). cbv zeta in H. destruct H as (HL & HLY & HE & HM & HEY & _ & _ & _ & _ & _ & _ & _ & _ & _ & _ & _ & _ & _ & HX). rewrite HL, HLY, HE, HM, HEY, HX.
  destruct (phase_lengths _ _ _ _ _ _ _ _ E) as (NP & LP & LE & LB & LC & LM & LR). destruct (c92_phase_bins _ _ _ _ _ _ _ _ E) as (_ & _ & PB & ST & _). destruct (by_phase_inv _ _ _ _ _ _ _ _ E) as (fit' & FE' & _ & PE & PP & _ & BN & _ & _ & _ & AM & _). assert (fit' = fit) by congruence. subst fit'. clear FE'.
  pose proof PI_RGT_0 as PI0. assert (NR : 0 < IZR n) by (apply (IZR_lt 0); exact NP). assert (NE2 : p_error r <> []) by (intros Q; rewrite Q in LE; destruct signal; [contradiction | discriminate LE]). destruct (error_limits_spec _ NE2) as (CE & XE).
  set (deg := map (fun p => wrap360 (p * 180 / PI)) (p_phase r)). assert (LD : length deg = length signal) by (unfold deg; rewrite map_length; exact LP).
  assert (DT : forall t, (t < length signal)%nat -> nth t deg 0 = wrap2pi (nth t (p_phase r) 0) * 180 / PI) by (intros t T; unfold deg; rewrite (nth_map_in _ _ _ 0) by lia; apply wrap360_deg).
  assert (CT : forall b, (b < Z.to_nat n)%nat -> nth b (map (fun c => c * 180 / PI) (p_centers r)) 0 = 360 * (INR b + 1 / 2) / IZR n) by (intros b B; rewrite (nth_map_in _ _ _ 0) by lia; rewrite (proj1 (ST b B)); field; lra).
  split; [reflexivity |]. split; [rewrite combine_length; lia |]. split.
  { intros t T. exists (nth t deg 0), (Zfloor (nth t (p_phase r) 0 / (2 * PI))). split; [apply combine_nth; lia |]. split; [unfold deg; rewrite (nth_map_in _ _ _ 0) by lia; apply wrap360_range |].
    split; [rewrite DT by exact T; unfold wrap2pi; field; lra |]. split; [| apply CE, nth_In; lia].
    assert (BT : nth t (p_bins r) 0%nat = phase_bin n (wrap2pi (nth t (p_phase r) 0))) by (rewrite BN, (nth_map_in _ _ _ 0) by (rewrite map_length; lia); rewrite (nth_map_in _ _ _ 0) by lia; reflexivity).
    rewrite DT, BT by exact T. set (w := wrap2pi (nth t (p_phase r) 0)). pose proof (wrap2pi_range (nth t (p_phase r) 0)) as W. fold w in W. unfold phase_bin, clip_bin. set (k := Zfloor (w / (2 * PI / IZR n))). pose proof (Zfloor_lb (w / (2 * PI / IZR n))) as K1. pose proof (Zfloor_ub (w / (2 * PI / IZR n))) as K2. fold k in K1, K2.
    replace (w / (2 * PI / IZR n)) with (w * IZR n / (2 * PI)) in K1, K2 by (field; lra). assert (X : w * IZR n / (2 * PI) * (2 * PI) = w * IZR n) by (field; lra). set (u := w * IZR n / (2 * PI)) in *.
    assert (U0 : 0 <= u) by (unfold u; apply Rdiv_le_0_compat; [apply Rmult_le_pos; lra | lra]). assert (U1 : u < IZR n) by (apply (Rmult_lt_reg_r (2 * PI)); [lra |]; rewrite X, Rmult_comm; apply Rmult_lt_compat_l; lra).
    assert (KR : (0 <= k < n)%Z). { split; [apply Zlt_succ_le; apply lt_IZR; rewrite succ_IZR; change (IZR 0) with 0; lra | apply lt_IZR; lra]. }
    rewrite INR_IZR_INZ, Z2Nat.id by lia. replace (Z.min (Z.max k 0) (n - 1)) with k by lia. replace (w * 180 / PI - 360 * (IZR k + 1 / 2) / IZR n) with (180 / IZR n * (2 * (u - IZR k) - 1)) by (unfold u; field; lra).
    assert (0 < 180 / IZR n) by (apply Rdiv_lt_0_compat; lra). rewrite Rabs_mult, (Rabs_pos_eq (180 / IZR n)) by lra. rewrite <- (Rmult_1_r (180 / IZR n)) at 2. apply Rmult_le_compat_l; [lra |]. apply Rabs_le. lra. }
  split; [rewrite combine_length, map_length; lia |]. split.
  { intros b B. split; [rewrite combine_nth by (rewrite map_length; lia); rewrite CT by exact B; reflexivity |]. intros m M. destruct (rlist_extremes _ NE2) as (_ & _ & CV).
    assert (RB : rmin_list (p_error r) <= m <= rmax_list (p_error r)).
    { refine (mean_between _ _ _ _ _ _ m _ _ (proj2 (ST b B)) _ _); [rewrite (nth_indep _ PInf NaN) by lia; exact M |]. intros i I. apply (CV (nth i (p_error r) 0)), nth_In. lia. }
    unfold error_limits, within. cbv zeta. cbn [fst snd]. destruct (Reqb_spec (rmax_list (p_error r) - rmin_list (p_error r)) 0); lra. }
  split; [exact XE |]. destruct (AS deg) as (A1 & A2). destruct (c52_parameters _ _ _ _ _ _ FE) as (LF & _ & FT & _). assert (NF : f_fitted fit <> []) by (intros Q; rewrite Q in LF; destruct signal; [contradiction | discriminate LF]). split.
  { rewrite map_map. cbn [snd]. intros lo hi X. assert (PF : Permutation (map (fun i => nth i (f_fitted fit) 0) (argsort deg)) (f_fitted fit)).
    { assert (Q : map (fun i => nth i (f_fitted fit) 0) (seq 0 (length deg)) = f_fitted fit). { apply (nth_ext _ _ 0 0); [rewrite map_length, seq_length; lia |]. intros i I. rewrite map_length, seq_length in I. rewrite (nth_map_in _ _ _ 0%nat) by (rewrite seq_length; exact I). rewrite seq_nth by exact I. reflexivity. } rewrite <- Q at 1. apply Permutation_map, A1. }
    assert (X2 : extremes (f_fitted fit) lo hi). { destruct X as (X1 & X2 & X3). split; [apply (Permutation_in _ PF X1) |]. split; [apply (Permutation_in _ PF X2) |]. intros v V. apply X3, (Permutation_in _ (Permutation_sym PF) V). }
    destruct (extremes_unique _ _ _ _ _ X2 (rlist_extremes _ NF)) as (-> & ->). f_equal; lra. }
  split.
  { rewrite (proj1 (map_combine deg (p_error r) ltac:(lia))), map_map. cbn [fst]. assert (Q : map (fun i => nth i deg 0) (seq 0 (length deg)) = deg). { apply (nth_ext _ _ 0 0); [rewrite map_length, seq_length; reflexivity |]. intros i I. rewrite map_length, seq_length in I. rewrite (nth_map_in _ _ _ 0%nat) by (rewrite seq_length; exact I). rewrite seq_nth by exact I. reflexivity. } rewrite <- Q at 2. apply Permutation_map, A1. }
  split. { revert A2. generalize (argsort deg). intros o A2. induction A2 as [| a l S IH F]; cbn [map]; constructor; [exact IH |]. rewrite Forall_forall in F |- *. intros p I. apply in_map_iff in I. destruct I as (j & <- & J). cbn [fst]. apply F, J. }
  destruct (rlist_extremes _ NF) as (I1 & _ & CF). pose proof (CF _ I1) as C1. cbn [fst snd] in C1.
  exists (f_dc fit). intros x y I. apply in_map_iff in I. destruct I as (i & Q & I). injection Q as <- <-. assert (IL : (i < length signal)%nat) by (apply (Permutation_in _ A1), in_seq in I; lia). split.
  - rewrite DT by exact IL. rewrite (proj1 (FT i IL)), AM. f_equal. f_equal. replace (wrap2pi (nth i (p_phase r) 0) * 180 / PI * PI / 180) with (wrap2pi (nth i (p_phase r) 0)) by (field; lra). rewrite (proj1 (wrap2pi_cos _)). rewrite PP, (nth_map_in _ _ _ 0%nat) by (rewrite seq_length; exact IL). rewrite seq_nth by exact IL. reflexivity.
  - pose proof (CF (nth i (f_fitted fit) 0) ltac:(apply nth_In; lia)) as Q. unfold within. cbn [fst snd] in *. lra.
Qed.
(** The bars: one per bin at the bin's centre in degrees, with the rms of the errors in the bin; all inside
    [0, 360] without touching, and the tallest takes up two thirds of the axis. *)
Lemma c145_bars argsort lstsq signal f n base mi tol r g : analyze_error_by_phase argsort lstsq signal f n base true mi tol = Ok (r, Some g) ->
  length (hf_bars g) = Z.to_nat n /\ hf_width g = 288 / IZR n /\
  (forall b, (b < Z.to_nat n)%nat -> nth b (hf_bars g) (0, NaN) = (360 * (INR b + 1 / 2) / IZR n, nth b (p_bin_rms r) NaN) /\ bar_within (hf_xlim g) (hf_width g) (360 * (INR b + 1 / 2) / IZR n)) /\
  (forall b, (S b < Z.to_nat n)%nat -> fst (nth b (hf_bars g) (0, NaN)) + hf_width g / 2 < fst (nth (S b) (hf_bars g) (0, NaN)) - hf_width g / 2) /\
  exists top, largest_number (map snd (hf_bars g)) top /\ 0 <= top /\ hf_bar_ylim g = (0, 3 / 2 * top).
Proof.
  intros G. destruct (phase_figure_inv _ _ _ _ _ _ _ _ _ _ G) as (fit & top & total & E & FE & NE & LN & TV & H). cbv zeta in H. destruct H as (_ & _ & _ & _ & _ & HB & HW & HY & _ & _ & _ & _ & _ & _ & _ & _ & _ & _ & HX).
  destruct (phase_lengths _ _ _ _ _ _ _ _ E) as (NP & LP & LE & LB & LC & LM & LR). destruct (c92_phase_bins _ _ _ _ _ _ _ _ E) as (_ & _ & PB & ST & _). pose proof PI_RGT_0 as PI0. assert (NR : 0 < IZR n) by (apply (IZR_lt 0); exact NP).
  assert (W : hf_width g = 288 / IZR n) by (rewrite HW, LC, INR_IZR_INZ, Z2Nat.id by lia; field; lra).
  assert (CT : forall b, (b < Z.to_nat n)%nat -> nth b (hf_bars g) (0, NaN) = (360 * (INR b + 1 / 2) / IZR n, nth b (p_bin_rms r) NaN)).
  { intros b B. rewrite HB, combine_nth by (rewrite map_length; lia). f_equal. rewrite (nth_map_in _ _ _ 0) by lia. rewrite (proj1 (ST b B)). field. lra. }
  split; [rewrite HB, combine_length, map_length; lia |]. split; [exact W |]. split; [| split].
  - intros b B. split; [apply CT, B |]. rewrite HX, W. unfold bar_within. cbn [fst snd]. assert (BN : INR b + 1 <= IZR n) by (rewrite INR_IZR_INZ, <- plus_IZR; apply IZR_le; lia). pose proof (pos_INR b) as B0.
    replace (360 * (INR b + 1 / 2) / IZR n - 288 / IZR n / 2) with ((360 * INR b + 36) / IZR n) by (field; lra). replace (360 * (INR b + 1 / 2) / IZR n + 288 / IZR n / 2) with ((360 * INR b + 324) / IZR n) by (field; lra).
    split; [apply Rdiv_le_0_compat; lra | apply Rdiv_le_upper; lra].
  - intros b B. rewrite !CT by lia. cbn [fst]. rewrite W, S_INR. assert (0 < 72 / IZR n) by (apply Rdiv_lt_0_compat; lra).
    replace (360 * (INR b + 1 + 1 / 2) / IZR n - 288 / IZR n / 2) with (360 * (INR b + 1 / 2) / IZR n + 288 / IZR n / 2 + 72 / IZR n) by (field; lra). lra.
  - exists top. assert (MS : map snd (hf_bars g) = p_bin_rms r) by (rewrite HB; apply map_combine; rewrite map_length; lia). rewrite MS. split; [exact LN |]. split; [| rewrite HY; f_equal; lra].
    destruct LN as (I & _). apply (In_nth _ _ NaN) in I. destruct I as (b & B & Q). destruct (ST b ltac:(lia)) as (_ & S1 & S2 & S3). rewrite (nth_indep (p_bin_rms r) PInf NaN) in S2, S3 by lia. rewrite Q in S2, S3.
    destruct (Nat.eq_dec (nth b (p_counts r) 0%nat) 0) as [Z0 | Z0]; [destruct (S2 Z0) as (_ & S2'); discriminate |]. destruct (S3 ltac:(lia)) as (m & x & _ & X & _ & X0 & _). injection X as <-. exact X0.
Qed.
(** The curves over the bars.  At the centre of every bin the total curve is the square root of the modelled
    error power there, the AM and PM curves those of amplitude or phase noise with the base noise; the base
    curve is drawn exactly when base noise was asked for. *)
Lemma c145_curves argsort lstsq signal f n base mi tol r g : analyze_error_by_phase argsort lstsq signal f n base true mi tol = Ok (r, Some g) ->
  length (hf_am g) = Z.to_nat n /\ length (hf_pm g) = Z.to_nat n /\ length (hf_total g) = Z.to_nat n /\
  (base = false <-> hf_base g = None) /\ (forall l, hf_base g = Some l -> length l = Z.to_nat n /\ forall b, (b < Z.to_nat n)%nat -> nth b l (0, 0) = (360 * (INR b + 1 / 2) / IZR n, p_base_v r)) /\
  (forall b, (b < Z.to_nat n)%nat -> let x := 360 * (INR b + 1 / 2) / IZR n in exists am pm total,
     nth b (hf_am g) (0, 0) = (x, am) /\ nth b (hf_pm g) (0, 0) = (x, pm) /\ nth b (hf_total g) (0, 0) = (x, total) /\ 0 <= am <= total /\ 0 <= pm <= total /\
     am ^ 2 = p_am_v r ^ 2 * cos (x * PI / 180) ^ 2 + p_base_v r ^ 2 /\ pm ^ 2 = p_pm_v r ^ 2 * sin (x * PI / 180) ^ 2 + p_base_v r ^ 2 /\
     total ^ 2 = am_pm_power (p_variances r) (x * PI / 180) /\ total ^ 2 + p_base_v r ^ 2 = am ^ 2 + pm ^ 2).
Proof.
  intros G. destruct (phase_figure_inv _ _ _ _ _ _ _ _ _ _ G) as (fit & top & total & E & FE & NE & LN & TV & H). cbv zeta in H. destruct H as (_ & _ & _ & _ & _ & _ & _ & _ & HA & HP & HB & HT & _).
  destruct (phase_lengths _ _ _ _ _ _ _ _ E) as (NP & LP & LE & LB & LC & LM & LR). destruct (c92_phase_bins _ _ _ _ _ _ _ _ E) as (_ & _ & _ & ST & _). pose proof PI_RGT_0 as PI0. assert (NR : 0 < IZR n) by (apply (IZR_lt 0); exact NP).
  destruct (c35_variances _ _ _ _ _ _ _ _ E) as (A0 & P0 & B0 & A2 & P2 & B2 & _). destruct (by_phase_inv _ _ _ _ _ _ _ _ E) as (_ & _ & _ & _ & _ & _ & _ & _ & _ & BV & _).
  assert (CV : forall (q : R -> R) b, (b < Z.to_nat n)%nat -> nth b (combine (map (fun c => c * 180 / PI) (p_centers r)) (map q (p_centers r))) (0, 0) = (360 * (INR b + 1 / 2) / IZR n, q (360 * (INR b + 1 / 2) / IZR n * PI / 180))).
  { intros q b B. rewrite combine_nth by (rewrite !map_length; reflexivity). rewrite !(nth_map_in _ _ _ 0) by lia. rewrite (proj1 (ST b B)). f_equal; [field; lra |]. f_equal. field. lra. }
  split; [rewrite HA, combine_length, !map_length; lia |]. split; [rewrite HP, combine_length, !map_length; lia |]. split; [rewrite HT, combine_length, !map_length; lia |].
  split; [rewrite HB; destruct base; split; intros; first [discriminate | reflexivity] |]. split.
  { intros l L. rewrite HB in L. destruct base; [| discriminate]. injection L as <-. split; [rewrite combine_length, !map_length; lia |]. intros b B. rewrite (CV (fun _ => sqrt (base_of (p_variances r)))) by exact B. rewrite BV. reflexivity. }
  intros b B. cbv zeta. set (x := 360 * (INR b + 1 / 2) / IZR n). rewrite HA, HP, HT. pose proof (CV (fun c => sqrt (am_of (p_variances r) * cos c ^ 2 + base_of (p_variances r))) b B) as QA. pose proof (CV (fun c => sqrt (pm_of (p_variances r) * sin c ^ 2 + base_of (p_variances r))) b B) as QP. pose proof (CV (fun c => sqrt (am_pm_power (p_variances r) c)) b B) as QT. cbv beta in QA, QP, QT. fold x in QA, QP, QT.
  rewrite A2, P2, B2. set (y := x * PI / 180) in *. assert (TP : am_pm_power (p_variances r) y = am_of (p_variances r) * cos y ^ 2 + pm_of (p_variances r) * sin y ^ 2 + base_of (p_variances r)) by (unfold am_pm_power, am_of, pm_of, base_of; destruct (p_variances r) as [[? ?] ?]; reflexivity). rewrite TP in QT |- *.
  assert (C2 : 0 <= am_of (p_variances r) * cos y ^ 2) by (apply Rmult_le_pos; [assumption | apply pow2_ge_0]). assert (S2 : 0 <= pm_of (p_variances r) * sin y ^ 2) by (apply Rmult_le_pos; [assumption | apply pow2_ge_0]).
  do 3 eexists. split; [exact QA |]. split; [exact QP |]. split; [exact QT |]. rewrite !pow2_sqrt by lra. split; [split; [apply sqrt_pos | apply sqrt_le_1_alt; lra] |]. split; [split; [apply sqrt_pos | apply sqrt_le_1_alt; lra] |]. repeat split; lra.
Qed.
Lemma fixed_names d v s : 0 < s -> names d (fixed d (v / s)) s v.
Proof.
  intros S. unfold names, fixed. split; [reflexivity |]. pose proof (pow_lt 10 d ltac:(lra)) as T. pose proof (round_he_half (v / s * 10 ^ d)) as Q. set (z := round_he _) in *. replace (IZR z / 10 ^ d * s - v) with (s / 10 ^ d * (IZR z - v / s * 10 ^ d)) by (field; split; lra).
  assert (SD : 0 < s / 10 ^ d) by (apply Rdiv_lt_0_compat; assumption). rewrite Rabs_mult, (Rabs_pos_eq (s / 10 ^ d)) by lra. replace (s / (2 * 10 ^ d)) with (s / 10 ^ d * / 2) by (field; lra). apply Rmult_le_compat_l; [lra | exact Q].
Qed.
Lemma format_volt_names v : let t := format_volt v in names 2 (fst t) (unit_volts (snd t)) v /\ (1 / 10 ^ 12 <= Rabs v < 1000 -> unit_volts (snd t) <= Rabs v < 1000 * unit_volts (snd t)).
Proof.
  cbv zeta. unfold format_volt. destruct (Rltb_spec (Rabs v) (1 / 10 ^ 12)) as [L | L].
  - cbn [fst snd unit_volts]. split; [| lra]. unfold names. split; [reflexivity |]. rewrite <- Rabs_Ropp. replace (- (0 / 10 ^ 2 * (1 / 1000000) - v)) with v by field. lra.
  - destruct (Rleb_spec 1 (Rabs v)); [cbn [fst snd unit_volts]; split; [replace v with (v / 1) at 1 by field; apply fixed_names; lra | lra] |].
    destruct (Rleb_spec (1 / 10 ^ 3) (Rabs v)); [cbn [fst snd unit_volts]; split; [replace (v * 10 ^ 3) with (v / (1 / 1000)) by field; apply fixed_names; lra | lra] |].
    destruct (Rleb_spec (1 / 10 ^ 6) (Rabs v)); [cbn [fst snd unit_volts]; split; [replace (v * 10 ^ 6) with (v / (1 / 1000000)) by field; apply fixed_names; lra | lra] |].
    destruct (Rleb_spec (1 / 10 ^ 9) (Rabs v)); [cbn [fst snd unit_volts]; split; [replace (v * 10 ^ 9) with (v / (1 / 1000000000)) by field; apply fixed_names; lra | lra] |].
    cbn [fst snd unit_volts]; split; [replace (v * 10 ^ 12) with (v / (1 / 1000000000000)) by field; apply fixed_names; lra | lra].
Qed.
(** The numbers written into the plot: each is the result named to half a unit of its last digit, and the
    unit is chosen so that the number is between 1 and 1000. *)
Lemma c145_texts argsort lstsq signal f n base mi tol r g : analyze_error_by_phase argsort lstsq signal f n base true mi tol = Ok (r, Some g) ->
  exists total, p_total_v r = Fin total /\
  (forall t v, In (t, v) [(hf_am_text g, p_am_v r); (hf_pm_text g, p_pm_v r); (hf_base_text g, p_base_v r); (hf_total_text g, total)] ->
     names 2 (fst t) (unit_volts (snd t)) v /\ (1 / 10 ^ 12 <= v < 1000 -> unit_volts (snd t) <= v < 1000 * unit_volts (snd t))) /\
  names 2 (hf_rad_text g) (1 / 10 ^ 6) (p_pm_rad r) /\ names 3 (hf_r2_text g) 1 (p_r2_binned r).
Proof.
  intros G. destruct (phase_figure_inv _ _ _ _ _ _ _ _ _ _ G) as (fit & top & total & E & FE & NE & LN & TV & H). cbv zeta in H. destruct H as (_ & _ & _ & _ & _ & _ & _ & _ & _ & _ & _ & _ & H1 & H2 & H3 & H4 & H5 & H6 & _). exists total. split; [exact TV |].
  destruct (by_phase_inv _ _ _ _ _ _ _ _ E) as (_ & _ & _ & _ & _ & _ & _ & VA & VP & VB & _ & _ & PR & TT & _).
  assert (T0 : 0 <= total). { rewrite TV in TT. destruct (map (fun e => e ^ 2) (p_error r)) as [| e es]; [discriminate |]. injection TT as ->. apply sqrt_pos. }
  rewrite H1, H2, H3, H4, H5, H6. split.
  - intros t v I. assert (X : t = format_volt v /\ 0 <= v). { cbn [In] in I. destruct I as [Q | [Q | [Q | [Q | []]]]]; injection Q as <- <-; split; first [reflexivity | exact T0 | rewrite ?VA, ?VP, ?VB; apply sqrt_pos]. }
    destruct X as (-> & V0). destruct (format_volt_names v) as (N1 & N2). rewrite (Rabs_pos_eq v) in N2 by exact V0. split; assumption.
  - split. 2:{ replace (p_r2_binned r) with (p_r2_binned r / 1) at 1 by field. apply fixed_names. lra. }
    assert (0 <= p_pm_rad r). { rewrite PR. destruct (Rltb_spec (1 / 10 ^ 10) (p_amplitude r)) as [L | L]; [| lra]. apply Rdiv_le_0_compat; [rewrite VP; apply sqrt_pos |]. assert (0 < 1 / 10 ^ 10) by (apply Rdiv_lt_0_compat; [lra | apply pow_lt; lra]). lra. }
    unfold format_urad. destruct (Rltb_spec (p_pm_rad r) (1 / 10 ^ 12)).
    + unfold names. split; [reflexivity |]. rewrite <- Rabs_Ropp. replace (- (0 / 10 ^ 2 * (1 / 10 ^ 6) - p_pm_rad r)) with (p_pm_rad r) by field. rewrite Rabs_pos_eq; lra.
    + replace (p_pm_rad r * 10 ^ 6) with (p_pm_rad r / (1 / 10 ^ 6)) by field. apply fixed_names. lra.
Qed.
(** The axis of the bars is set by the bars alone: a curve can lie above it. *)
Lemma c145_curve_refuted : exists signal f, forall argsort, exists r g, analyze_error_by_phase argsort gs_lstsq signal (Some f) 1 true true 0 (1 / 10 ^ 9) = Ok (r, Some g) /\
  exists x y, In (x, y) (hf_am g) /\ snd (hf_bar_ylim g) < y.
Proof.
  exists pulses, (1 / 8). intros argsort. destruct (proj1 (c92_bin_count gs_lstsq pulses (1 / 8) 1 true 0 (1 / 10 ^ 9)) ltac:(lia)) as (r & E). exists r.
  destruct (c145_accepts argsort _ _ _ _ _ _ _ _ E) as (_ & G & _). destruct (G ltac:(discriminate)) as (g & G1). clear G. exists g. split; [exact G1 |].
  assert (PI16 : cos (2 * PI * (1 / 8) * INR 8) = 1 /\ sin (2 * PI * (1 / 8) * INR 8) = 0).
  { replace (2 * PI * (1 / 8) * INR 8) with (2 * PI) by (cbn; field). split; [apply cos_2PI | apply sin_2PI]. }
  destruct (unfitted_phase gs_lstsq pulses (1 / 8) 1 true (1 / 10 ^ 9) r gs_least_squares) as (PE & PH); [lra | cbn; lia | | | | exact E |].
  { change (length pulses) with 16%nat. unfold pulses. cbn [rsum nth]. rewrite (proj1 PI16). change (INR 0) with 0. rewrite Rmult_0_r, cos_0. lra. }
  { change (length pulses) with 16%nat. unfold pulses. cbn [rsum nth]. rewrite (proj2 PI16). change (INR 0) with 0. rewrite Rmult_0_r, sin_0. lra. }
  { cbn. lra. }
  destruct (c35_reproduces _ _ _ _ _ _ _ gs_least_squares E) as (A & B & MIN & _ & SPL). rewrite PE in MIN.
  assert (SUM : forall a b, rsum (length pulses) (fun t => (a * cos (2 * nth t (p_phase r) 0) + b - nth t pulses 0 ^ 2) ^ 2) = 8 * (a - 1 / 4) ^ 2 + 16 * (b - 1 / 8) ^ 2 + 5 / 4).
  { intros a b. rewrite (rsum_ext _ _ (fun t => (a * qcos t + b - nth t pulses 0 ^ 2) ^ 2)).
    2:{ intros t T. rewrite PH by exact T. rewrite eighth_cos, (proj1 (quarter_trig t)). reflexivity. }
    change (length pulses) with 16%nat. unfold pulses. cbn [rsum nth]. unfold qcos. cbn -[pow]. field. }
  pose proof (MIN (1 / 4) (1 / 8)) as M. rewrite !SUM in M.
  assert (A = 1 / 4). { apply Rminus_diag_uniq, sq_zero. pose proof (pow2_ge_0 (A - 1 / 4)). pose proof (pow2_ge_0 (B - 1 / 8)). lra. }
  subst A. destruct (c145_curves _ _ _ _ _ _ _ _ _ _ G1) as (LA & _ & _ & _ & _ & CU). destruct (CU 0%nat ltac:(cbn; lia)) as (am & _ & _ & QA & _ & _ & (AM0 & _) & _ & AM2 & _).
  destruct (c145_bars _ _ _ _ _ _ _ _ _ _ G1) as (LB & _ & BB & _ & top & (TI & _) & T0 & YL). rewrite YL. cbn [snd]. do 2 eexists. split; [rewrite <- QA; apply nth_In; rewrite LA; cbn; lia |].
  destruct (c35_variances _ _ _ _ _ _ _ _ E) as (_ & _ & BP & A2 & _ & B2 & _). rewrite A2, B2 in AM2. assert (AV : am_of (p_variances r) = 1 / 2).
  { rewrite SPL. unfold am_of, am_pm_split. destruct (Rltb_spec 0 (1 / 4)); [| lra]. cbn [fst]. rewrite Rmax_right; lra. }
  rewrite AV in AM2. replace (360 * (INR 0 + 1 / 2) / IZR 1 * PI / 180) with PI in AM2 by (cbn; field). rewrite cos_PI in AM2.
  assert (TT : top ^ 2 = 1 / 8).
  { destruct (phase_lengths _ _ _ _ _ _ _ _ E) as (_ & _ & _ & LBI & _ & _ & LR). change (Z.to_nat 1) with 1%nat in *. change (length pulses) with 16%nat in *.
    destruct (c92_phase_bins _ _ _ _ _ _ _ _ E) as (_ & _ & PB & ST & _). change (length pulses) with 16%nat in *. change (Z.to_nat 1) with 1%nat in *.
    assert (TB : nth 0 (p_bin_rms r) NaN = Fin top). { apply (In_nth _ _ NaN) in TI. destruct TI as (i & I & Q). rewrite map_length, LB in I. assert (i = 0%nat) by (cbn in I; lia). subst i. change NaN with (snd (0, NaN)) in Q at 1. rewrite map_nth in Q. rewrite (proj1 (BB 0%nat ltac:(cbn; lia))) in Q. exact Q. }
    assert (MB : forall q, total_in 16 (fun i => (nth i (p_bins r) 0 =? 0)%nat) q = rsum 16 q). { intros q. unfold total_in. apply rsum_ext. intros t T. destruct (PB t T) as (_ & X & _). replace (nth t (p_bins r) 0%nat) with 0%nat by lia. reflexivity. }
    destruct (ST 0%nat ltac:(lia)) as (_ & S1 & S2 & S3). rewrite MB in S1. rewrite (nth_indep (p_bin_rms r) PInf NaN) in S2, S3 by lia. rewrite TB in S2, S3. cbn [rsum] in S1.
    destruct (S3 ltac:(apply INR_lt; rewrite S1; cbn; lra)) as (m & x & _ & X & _ & _ & X2 & _). injection X as <-. rewrite MB, S1, PE in X2. unfold pulses in X2. cbn [rsum nth] in X2. lra. }
  apply Rnot_le_lt. intros C. assert (am ^ 2 <= (3 / 2 * top) ^ 2) by (apply pow_incr; lra). nra.
Qed.
(** Eight samples of size 1, four bins. *)
Lemma c145_bars_ex : forall argsort, exists r g, analyze_error_by_phase argsort gs_lstsq flat_record (Some (1 / 4)) 4 true true 0 (1 / 10 ^ 9) = Ok (r, Some g) /\
  hf_bars g = [(45, Fin 1); (135, Fin 1); (225, Fin 1); (315, Fin 1)] /\ hf_width g = 72 /\ hf_bar_ylim g = (0, 3 / 2).
Proof.
  intros argsort. destruct (flat_record_result true) as (r & E & PE & PH). exists r. destruct (c145_accepts argsort _ _ _ _ _ _ _ _ E) as (_ & G & _). destruct (G ltac:(discriminate)) as (g & G1). clear G. exists g. split; [exact G1 |].
  destruct c92_phase_bins_ex as (r' & E' & BI & CN). rewrite E in E'. apply Ok_inj in E'. subst r'.
  destruct (c145_bars _ _ _ _ _ _ _ _ _ _ G1) as (LB & W & BB & _ & top & (TI & TM) & T0 & YL). change (Z.to_nat 4) with 4%nat in *.
  assert (RM : forall b, (b < 4)%nat -> nth b (p_bin_rms r) NaN = Fin 1).
  { intros b B. destruct (phase_lengths _ _ _ _ _ _ _ _ E) as (_ & _ & _ & _ & _ & _ & LR). destruct (c92_phase_bins _ _ _ _ _ _ _ _ E) as (_ & _ & _ & ST & _). destruct (ST b ltac:(cbn; lia)) as (_ & _ & _ & S3). rewrite (nth_indep (p_bin_rms r) PInf NaN) in S3 by (rewrite LR; cbn; lia). rewrite BI, CN, PE in S3. change (length flat_record) with 8%nat in S3. unfold flat_record in S3.
    destruct b as [| [| [| [| b]]]]; [| | | | lia]; (destruct (S3 ltac:(cbn; lia)) as (m & x & _ & -> & _ & X0 & X2 & _); f_equal; unfold total_in in X2; cbn [rsum nth Nat.eqb] in X2; change (INR 2) with 2 in X2; assert (X3 : x * x = 1) by lra; clear - X0 X3; nra). }
  assert (BE : hf_bars g = [(45, Fin 1); (135, Fin 1); (225, Fin 1); (315, Fin 1)]).
  { apply (nth_ext _ _ (0, NaN) (0, NaN)); [rewrite LB; reflexivity |]. rewrite LB. intros b B. rewrite (proj1 (BB b B)), RM by exact B. destruct b as [| [| [| [| b]]]]; [| | | | lia]; cbn [nth]; f_equal; cbn; field. }
  split; [exact BE |]. split; [rewrite W; lra |]. rewrite YL. f_equal. rewrite BE in TI. cbn [map snd In] in TI. destruct TI as [Q | [Q | [Q | [Q | []]]]]; injection Q as <-; lra.
Qed.
(* ---------- C146: polar spectrum ---------- *)
Lemma tiny_pos : 0 < tiny. Proof. unfold tiny. apply Rinv_0_lt_compat, pow_lt. lra. Qed.
Lemma ln10_pos : 0 < ln 10. Proof. rewrite <- ln_1. apply ln_increasing; lra. Qed.
Lemma ln_le a b : 0 < a -> a <= b -> ln a <= ln b.
Proof. intros A [H | ->]; [left; apply ln_increasing; assumption | right; reflexivity]. Qed.
Lemma level_floor z : -400 <= shown_level z /\ shown_level C0 = -400.
Proof.
  pose proof ln10_pos as L. pose proof tiny_pos as T. pose proof (Cmod_nonneg z) as M. assert (Q : ln tiny / ln 10 = -20).
  { unfold tiny. rewrite ln_Rinv by (apply pow_lt; lra). rewrite ln_pow by lra. rewrite INR_IZR_INZ. cbn [Z.of_nat Pos.of_succ_nat Pos.succ]. field. lra. }
  split.
  - unfold shown_level. assert (ln tiny <= ln (Cmod z + / 10 ^ 20)) by (apply ln_le; [exact T |]; unfold tiny; lra). assert (ln tiny / ln 10 <= ln (Cmod z + / 10 ^ 20) / ln 10) by (apply Rmult_le_compat_r; [apply Rlt_le, Rinv_0_lt_compat, L | assumption]). lra.
  - unfold shown_level. rewrite Cmod_0, Rplus_0_l. fold tiny. lra.
Qed.
Lemma polar_inv sp spec h fr g : plot_spectrum_polar sp spec h fr = Ok g -> spec <> [] /\
  (fr = None -> is_percentile (length spec) (fun b => shown_level (nth b spec C0)) 1 (- pp_max g)) /\ (forall x, fr = Some x -> pp_max g = x) /\
  pp_points g = map (polar_point (- pp_max g)) spec /\ pp_ticks g = radial_ticks (IZR (round_he (- pp_max g / 10)) * 10) (pp_max g) /\
  pp_fund g = (if (sp_fund sp <? length spec)%nat then Some (nth (sp_fund sp) (pp_points g) (0, 0)) else None) /\
  pp_marks g = polar_marks (pp_points g) (sp_harm_bins sp) (sp_collided sp) h (pp_max g) /\
  pp_snr g = fmt2 (sp_snr sp) /\ pp_thd g = fmt2 (sp_thd sp) /\ pp_hd g = map (hd_line spec (sp_harm_bins sp) (sp_collided sp) (sp_harm_dbc sp)) [2; 3]%nat /\ pp_collided g = sp_collided sp.
Proof.
  unfold plot_spectrum_polar. destruct (Nat.eqb_spec (length spec) 0) as [L | L]; [discriminate |]. cbn [raise_if]. assert (NE : spec <> []) by (intros ->; apply L; reflexivity).
  assert (NL : map polar_level spec <> []) by (intros Q; apply map_eq_nil in Q; contradiction). destruct (percentile_is (map polar_level spec) 1 NL ltac:(lra)) as (v & PV & IS). rewrite PV. cbn [bind]. intros G. apply Ok_inj in G. subst g.
  cbn [pp_points pp_ticks pp_max pp_fund pp_marks pp_snr pp_thd pp_hd pp_collided]. rewrite map_length in *. split; [exact NE |]. destruct fr as [x |].
  - split; [discriminate |]. split; [intros y Y; injection Y as <-; reflexivity |]. repeat split; reflexivity.
  - rewrite Ropp_involutive. split. { intros _. destruct IS as (u & i & e & P1 & P2). exists u, i, e. split; [| exact P2]. rewrite (map_ext_in _ (fun b => shown_level (nth b spec C0))) in P1; [exact P1 |]. intros b B. apply in_seq in B. rewrite (nth_map_in _ _ _ C0) by lia. reflexivity. }
    split; [discriminate |]. repeat split; reflexivity.
Qed.
Lemma polar_point_spec ref z : let d := Rmax (shown_level z - ref) 0 * (Cmod z / (Cmod z + / 10 ^ 20)) in
  snd (polar_point ref z) = d /\ (z <> C0 -> ref < shown_level z -> fst (polar_point ref z) = Carg z /\ 0 < d) /\ 0 <= d <= Rmax (shown_level z - ref) 0.
Proof.
  cbv zeta. pose proof tiny_pos as T. pose proof (Cmod_nonneg z) as M. fold tiny. assert (PL : polar_level z = shown_level z) by reflexivity. unfold polar_point. rewrite PL. cbv zeta. cbn [fst snd].
  assert (RM : Rmax (shown_level z) ref - ref = Rmax (shown_level z - ref) 0) by (unfold Rmax; destruct (Rle_dec (shown_level z) ref), (Rle_dec (shown_level z - ref) 0); lra). rewrite RM. set (q := Rmax (shown_level z - ref) 0). assert (Q0 : 0 <= q) by apply Rmax_r.
  assert (R0 : 0 <= Cmod z / (Cmod z + tiny) <= 1). { split; [apply Rdiv_le_0_compat; lra | apply Rdiv_le_upper; lra]. }
  split; [| split].
  - rewrite !Cmod_scale, (Rabs_pos_eq q) by exact Q0. rewrite Rabs_pos_eq by (apply Rlt_le, Rinv_0_lt_compat; lra). unfold Rdiv. rewrite (Rmult_comm (Cmod z)). reflexivity.
  - intros NZ L. assert (Q1 : 0 < q) by (unfold q; rewrite Rmax_left; lra). rewrite !Carg_scale by (first [exact Q1 | apply Rinv_0_lt_compat; lra]). split; [reflexivity |]. apply Rmult_lt_0_compat; [exact Q1 |]. apply Rdiv_lt_0_compat; [| lra]. destruct M as [M | M]; [exact M |]. exfalso. apply NZ, Cmod_eq_0. symmetry. exact M.
  - split; [apply Rmult_le_pos; lra |]. rewrite <- (Rmult_1_r q) at 2. apply Rmult_le_compat_l; lra.
Qed.
(** A plot is made of any non-empty spectrum. *)
Lemma c146_accepts sp spec h fr : (spec <> [] -> exists g, plot_spectrum_polar sp spec h fr = Ok g) /\ (spec = [] -> plot_spectrum_polar sp spec h fr = Err IndexError).
Proof.
  split; [| intros ->; reflexivity]. intros NE. unfold plot_spectrum_polar. destruct (Nat.eqb_spec (length spec) 0) as [L | L]; [destruct spec; [contradiction | discriminate L] |]. cbn [raise_if].
  assert (NL : map polar_level spec <> []) by (intros Q; apply map_eq_nil in Q; contradiction). destruct (percentile_is (map polar_level spec) 1 NL ltac:(lra)) as (v & PV & _). rewrite PV. cbn [bind]. eexists. reflexivity.
Qed.
(** One point per bin.  Its angle is the phase of the bin; its distance from the centre is the level above
    the centre's (-pp_max), short of a factor |z| / (|z| + 1e-20); weaker bins are in the centre.  Every bin
    of at most 0 dB is inside the axes. *)
Lemma c146_points sp spec h fr g : plot_spectrum_polar sp spec h fr = Ok g ->
  length (pp_points g) = length spec /\ (forall x, fr = Some x -> pp_max g = x) /\ ((sp_fund sp < length spec)%nat -> pp_fund g = Some (nth (sp_fund sp) (pp_points g) (0, 0))) /\
  forall b, (b < length spec)%nat -> let z := nth b spec C0 in let p := nth b (pp_points g) (0, 0) in let level := shown_level z in
    (- pp_max g < level -> snd p = (level + pp_max g) * (Cmod z / (Cmod z + / 10 ^ 20)) /\ (z <> C0 -> fst p = Carg z)) /\
    (level <= - pp_max g -> snd p = 0) /\ 0 <= snd p /\ (level <= 0 -> 0 <= pp_max g -> snd p <= pp_max g).
Proof.
  intros G. destruct (polar_inv _ _ _ _ _ G) as (_ & _ & FX & PP & _ & PF & _). split; [rewrite PP, map_length; reflexivity |]. split; [exact FX |]. split; [intros F; apply Nat.ltb_lt in F; rewrite F in PF; exact PF |]. rewrite PP. intros b B. cbv zeta. rewrite (nth_map_in _ _ _ C0) by exact B. set (z := nth b spec C0).
  destruct (polar_point_spec (- pp_max g) z) as (D & A & D0 & D1). rewrite D in *. split; [| split; [| split]].
  - intros L. rewrite Rmax_left by lra. split; [f_equal; lra |]. intros NZ. apply A; assumption.
  - intros L. rewrite Rmax_right by lra. ring.
  - exact D0.
  - intros L M. eapply Rle_trans; [exact D1 |]. apply Rmax_lub; lra.
Qed.
(** Without a fixed range the level in the centre is the 1st percentile of the levels: fewer than
    0.01 (n - 1) + 1 of the n bins are weaker. *)
Lemma c146_centre sp spec h g : plot_spectrum_polar sp spec h None = Ok g ->
  is_percentile (length spec) (fun b => shown_level (nth b spec C0)) 1 (- pp_max g) /\
  INR (count_of (length spec) (fun b => Rltb (shown_level (nth b spec C0)) (- pp_max g))) < 1 / 100 * (INR (length spec) - 1) + 1.
Proof. intros G. destruct (polar_inv _ _ _ _ _ G) as (_ & IS & _). specialize (IS eq_refl). split; [exact IS |]. apply (percentile_at_most _ _ _ _ IS). Qed.
(** Short records: with one empty bin (compute_spectrum always empties bin 0) among n <= 100, none of them above 0 dB, the
    centre is at most -4 (101 - n) dB, however high the noise floor. *)
Lemma c146_short sp spec h g : plot_spectrum_polar sp spec h None = Ok g -> In C0 spec -> (length spec <= 100)%nat -> (forall z, In z spec -> shown_level z <= 0) ->
  4 * (101 - INR (length spec)) <= pp_max g <= 400.
Proof.
  intros G I0 L UP. destruct (polar_inv _ _ _ _ _ G) as (NE & IS & _). specialize (IS eq_refl). assert (N1 : (0 < length spec)%nat) by (destruct spec; [contradiction | cbn; lia]).
  split.
  - destruct IS as (u & i & e & P1 & P2 & P3 & P4 & P5 & P6). assert (LR : INR (length spec) <= 100) by (rewrite INR_IZR_INZ; apply (IZR_le _ 100); lia). assert (L1 : 1 <= INR (length spec)) by (change 1 with (INR 1); apply le_INR; lia).
    assert (i = 0%nat). { destruct i as [| i]; [reflexivity |]. exfalso. rewrite S_INR in P5. pose proof (pos_INR i). lra. } subst i. change (INR 0) with 0 in P5. change (0 + 1)%nat with 1%nat in P6.
    assert (LU : length u = length spec) by (rewrite (Permutation_length P1), map_length, seq_length; reflexivity).
    assert (IN : forall x, In x u <-> exists z, In z spec /\ x = shown_level z).
    { intros x. split; intros H. - apply (Permutation_in _ P1), in_map_iff in H. destruct H as (b & <- & B). apply in_seq in B. exists (nth b spec C0). split; [apply nth_In; lia | reflexivity].
      - destruct H as (z & Z0 & ->). apply (Permutation_in _ (Permutation_sym P1)). apply (In_nth _ _ C0) in Z0. destruct Z0 as (b & B & <-). apply in_map_iff. exists b. split; [reflexivity | apply in_seq; lia]. }
    assert (U0 : nth 0 u 0 <= -400). { destruct u as [| a u]; [cbn in LU; lia |]. cbn [nth]. apply StronglySorted_inv in P2. destruct P2 as (_ & F). rewrite Forall_forall in F. assert (X : In (-400) (a :: u)) by (apply IN; exists C0; split; [exact I0 | symmetry; apply (level_floor C0)]). destruct X as [-> | X]; [lra | apply F, X]. }
    assert (U1 : nth 1 u (nth 0 u 0) <= 0). { destruct (Nat.lt_ge_cases 1 (length u)) as [X | X]; [| rewrite nth_overflow by lia; lra]. destruct (proj1 (IN _) (nth_In u (nth 0 u 0) X)) as (z & Z0 & ->). apply UP, Z0. }
    assert (e * nth 1 u (nth 0 u 0) <= 0) by nra. assert ((1 - e) * nth 0 u 0 <= (1 - e) * -400) by nra. lra.
  - destruct (percentile_range _ _ _ _ IS) as (i & j & _ & _ & H & _). pose proof (proj1 (level_floor (nth i spec C0))). lra.
Qed.
(** The circles are labelled with levels that are at most 5 dB off, and right when the centre is at a
    multiple of 10 dB. *)
Lemma c146_ticks sp spec h fr g : plot_spectrum_polar sp spec h fr = Ok g -> forall rad label, In (rad, label) (pp_ticks g) ->
  0 <= rad < pp_max g + 1 /\ (exists i : nat, rad = 10 * INR i) /\ Rabs (IZR label - (rad - pp_max g)) <= 5 /\ (forall k, pp_max g = 10 * IZR k -> IZR label = rad - pp_max g).
Proof.
  intros G rad label I. destruct (polar_inv _ _ _ _ _ G) as (_ & _ & _ & _ & PT & _). rewrite PT in I. unfold radial_ticks in I. apply in_map_iff in I. destruct I as (i & Q & I). injection Q as <- <-. apply in_seq in I. pose proof (pos_INR i) as I0.
  set (k := round_he (- pp_max g / 10)). assert (LB : Ztrunc (IZR k * 10 + 10 * INR i) = (k * 10 + 10 * Z.of_nat i)%Z). { rewrite <- (Ztrunc_IZR (k * 10 + 10 * Z.of_nat i)). f_equal. rewrite INR_IZR_INZ, plus_IZR, !mult_IZR. reflexivity. }
  rewrite LB, plus_IZR, !mult_IZR, <- INR_IZR_INZ. split; [split; [lra |] |].
  - pose proof (Zceil_lb ((pp_max g + 1) / 10)) as C. assert (IC : INR i + 1 <= IZR (Zceil ((pp_max g + 1) / 10))) by (rewrite INR_IZR_INZ, <- plus_IZR; apply IZR_le; lia). lra.
  - split; [exists i; reflexivity |]. pose proof (round_he_half (- pp_max g / 10)) as H. fold k in H. split.
    + apply Rabs_le_inv in H. apply Rabs_le. lra.
    + intros j J. assert (KJ : k = (- j)%Z). { unfold k. rewrite J. replace (- (10 * IZR j) / 10) with (IZR (- j)) by (rewrite opp_IZR; field). apply round_he_IZR. } rewrite KJ, opp_IZR. lra.
Qed.
(** With the range 105 every label is 5 dB off. *)
Lemma c146_ticks_refuted : exists fr, forall sp spec h, spec <> [] -> exists g, plot_spectrum_polar sp spec h (Some fr) = Ok g /\ pp_ticks g <> [] /\
  forall rad label, In (rad, label) (pp_ticks g) -> IZR label = (rad - pp_max g) + 5.
Proof.
  exists 105. intros sp spec h NE. destruct (proj1 (c146_accepts sp spec h (Some 105)) NE) as (g & G). exists g. split; [exact G |]. destruct (polar_inv _ _ _ _ _ G) as (_ & _ & FX & _ & PT & _). rewrite (FX 105 eq_refl) in *.
  assert (K : round_he (- (105) / 10) = (-10)%Z). { unfold round_he. replace (- (105) / 10) with (-10 + - / 2) by lra. unfold Znearest. assert (F : Zfloor (-10 + - / 2) = (-11)%Z) by (apply Zfloor_imp; cbn; lra). rewrite F. rewrite Rcompare_Eq by lra. assert (C : Zceil (-10 + - / 2) = (-10)%Z) by (apply Zceil_imp; cbn; lra). rewrite C. reflexivity. }
  rewrite PT, K. unfold radial_ticks. split.
  - intros Q. apply map_eq_nil in Q. assert (C : (1 <= Zceil ((105 + 1) / 10))%Z). { assert (0 < Zceil ((105 + 1) / 10))%Z; [| lia]. apply lt_IZR. pose proof (Zceil_ub ((105 + 1) / 10)). lra. } destruct (Z.to_nat (Zceil ((105 + 1) / 10))) eqn:Z0; [lia | discriminate].
  - intros rad label I. apply in_map_iff in I. destruct I as (i & Q & _). injection Q as <- <-. replace (IZR (-10) * 10 + 10 * INR i) with (IZR (-100 + 10 * Z.of_nat i)) by (rewrite INR_IZR_INZ, plus_IZR, mult_IZR; lra). rewrite Ztrunc_IZR, plus_IZR, mult_IZR, <- INR_IZR_INZ. lra.
Qed.
(** A bin above 0 dB is outside the axes: here a single bin of magnitude 10 with the range 100. *)
Lemma c146_points_refuted : exists spec, forall sp h, exists g, plot_spectrum_polar sp spec h (Some 100) = Ok g /\ exists p, In p (pp_points g) /\ pp_max g < snd p.
Proof.
  exists [RtoC 10]. intros sp h. destruct (proj1 (c146_accepts sp [RtoC 10] h (Some 100)) ltac:(discriminate)) as (g & G). exists g. split; [exact G |]. destruct (c146_points _ _ _ _ _ G) as (LP & FX & _ & PT). rewrite (FX 100 eq_refl) in *. exists (nth 0 (pp_points g) (0, 0)). split; [apply nth_In; rewrite LP; cbn; lia |].
  destruct (PT 0%nat ltac:(cbn; lia)) as (P1 & _). cbn [nth] in P1. assert (M : Cmod (RtoC 10) = 10) by (rewrite Cmod_RtoC, Rabs_pos_eq; lra). assert (SL : 20 <= shown_level (RtoC 10)).
  { unfold shown_level. rewrite M. pose proof ln10_pos. pose proof tiny_pos as T. unfold tiny in T. assert (ln 10 <= ln (10 + / 10 ^ 20)) by (apply ln_le; lra). assert (1 <= ln (10 + / 10 ^ 20) / ln 10); [| lra]. apply (Rmult_le_reg_r (ln 10)); [assumption |]. unfold Rdiv. rewrite Rmult_assoc, Rinv_l by lra. lra. }
  destruct (P1 ltac:(lra)) as (-> & _). rewrite M. pose proof tiny_pos as T. unfold tiny in T. assert (T1 : / 10 ^ 20 <= 1) by (rewrite <- Rinv_1; apply Rinv_le_contravar; [lra | apply pow_R1_Rle; lra]).
  assert (10 / 11 <= 10 / (10 + / 10 ^ 20)) by (unfold Rdiv; apply Rmult_le_compat_l; [lra |]; apply Rinv_le_contravar; lra). nra.
Qed.
(** The marked harmonics: those asked for that have a bin of their own, neither the fundamental's nor bin 0,
    inside the spectrum; each mark is on the point of its bin and its label inside the axes. *)
Lemma c146_marks sp spec harmonic fr g : plot_spectrum_polar sp spec harmonic fr = Ok g -> forall h p lab,
  In (h, p, lab) (pp_marks g) <-> (2 <= h)%nat /\ (Z.of_nat h <= harmonic)%Z /\ exists b, nth_error (sp_harm_bins sp) (h - 2) = Some b /\ ~ In h (sp_collided sp) /\ b <> 0%Z /\ (b < Z.of_nat (length spec))%Z /\
    p = nth (Z.to_nat b) (pp_points g) (0, 0) /\ lab = Rmin (snd p * (108 / 100)) (pp_max g * (98 / 100)).
Proof.
  intros G h p lab. destruct (polar_inv _ _ _ _ _ G) as (_ & _ & _ & PP & _ & _ & PM & _). assert (LP : length (pp_points g) = length spec) by (rewrite PP; apply map_length). rewrite PM. unfold polar_marks. rewrite in_flat_map, LP. split.
  - intros (h' & I & J). apply in_seq in I. cbv zeta in J. destruct (existsb (Nat.eqb h') (sp_collided sp)) eqn:EX; [destruct J |]. destruct (Z.eqb_spec (nth (h' - 2) (sp_harm_bins sp) 0%Z) 0) as [B0 | B0]; [destruct J |]. destruct (Z.ltb_spec (nth (h' - 2) (sp_harm_bins sp) 0%Z) (Z.of_nat (length spec))) as [BL | BL]; [| destruct J].
    destruct J as [J | []]. injection J as <- <- <-. split; [lia |]. split; [lia |]. exists (nth (h' - 2) (sp_harm_bins sp) 0%Z). split; [apply nth_error_nth'; lia |]. split. { intros C. rewrite <- not_true_iff_false in EX. apply EX. apply existsb_exists. exists h'. split; [exact C | apply Nat.eqb_refl]. } repeat split; assumption.
  - intros (H1 & H2 & b & NB & NC & B0 & BL & -> & ->). exists h. assert (HL : (h - 2 < length (sp_harm_bins sp))%nat) by (apply nth_error_Some; rewrite NB; discriminate). split; [apply in_seq; lia |]. cbv zeta.
    assert (EX : existsb (Nat.eqb h) (sp_collided sp) = false). { apply not_true_iff_false. intros C. apply existsb_exists in C. destruct C as (x & X & Q). apply Nat.eqb_eq in Q. subst x. contradiction. }
    rewrite EX, (nth_error_nth _ _ 0%Z NB). destruct (Z.eqb_spec b 0); [contradiction |]. destruct (Z.ltb_spec b (Z.of_nat (length spec))); [left; reflexivity | lia].
Qed.
(** The figures written into the plot: SNR and THD with two decimals, and for the orders 2 and 3 the level and
    the phase in degrees with one decimal; the phase is given as 0 for a harmonic without a bin of its own. *)
Lemma c146_texts sp spec harmonic fr g : plot_spectrum_polar sp spec harmonic fr = Ok g ->
  pp_snr g = fmt2 (sp_snr sp) /\ pp_thd g = fmt2 (sp_thd sp) /\ pp_collided g = sp_collided sp /\ length (pp_hd g) = 2%nat /\
  forall h b v, (2 <= h <= 3)%nat -> nth_error (sp_harm_bins sp) (h - 2) = Some b -> nth_error (sp_harm_dbc sp) (h - 2) = Some (Fin v) -> exists t d, nth (h - 2) (pp_hd g) (NA, NA) = (t, d) /\ names 2 t 1 v /\
    ((In h (sp_collided sp) \/ (b <= 0)%Z \/ (Z.of_nat (length spec) <= b)%Z \/ v <= -149) -> d = Num 1 0) /\
    (~ In h (sp_collided sp) -> (0 < b < Z.of_nat (length spec))%Z -> -149 < v -> names 1 d 1 (Carg (nth (Z.to_nat b) spec C0) * 180 / PI)).
Proof.
  intros G. destruct (polar_inv _ _ _ _ _ G) as (_ & _ & _ & _ & _ & _ & _ & S1 & S2 & S3 & S4). rewrite S1, S2, S3, S4. split; [reflexivity |]. split; [reflexivity |]. split; [reflexivity |]. split; [reflexivity |].
  intros h b v H NB NV. assert (HN : nth (h - 2) (map (hd_line spec (sp_harm_bins sp) (sp_collided sp) (sp_harm_dbc sp)) [2; 3]%nat) (NA, NA) = hd_line spec (sp_harm_bins sp) (sp_collided sp) (sp_harm_dbc sp) h) by (assert (HH : h = 2%nat \/ h = 3%nat) by lia; destruct HH as [-> | ->]; reflexivity).
  rewrite HN. unfold hd_line. cbv zeta. rewrite (nth_error_nth _ _ (Fin (-150)) NV), (nth_error_nth _ _ 0%Z NB). do 2 eexists. split; [reflexivity |].
  assert (HL : (h - 2 < length (sp_harm_bins sp))%nat) by (apply nth_error_Some; rewrite NB; discriminate). apply Nat.ltb_lt in HL. rewrite HL.
  assert (EX : existsb (Nat.eqb h) (sp_collided sp) = true <-> In h (sp_collided sp)). { rewrite existsb_exists. split; [intros (x & X & Q); apply Nat.eqb_eq in Q; subst x; exact X | intros C; exists h; split; [exact C | apply Nat.eqb_refl]]. }
  split; [unfold fmt2; replace v with (v / 1) at 1 by field; apply fixed_names; lra |]. split.
  - intros C. assert (Z1 : fixed 1 0 = Num 1 0) by (apply fixed_exact; ring). destruct C as [C | [C | [C | C]]].
    + apply EX in C. rewrite C, andb_false_r. exact Z1.
    + assert (C' : (0 <? b)%Z = false) by (apply Z.ltb_ge; exact C). rewrite C', !andb_false_r. exact Z1.
    + assert (C' : (b <? Z.of_nat (length spec))%Z = false) by (apply Z.ltb_ge; exact C). rewrite C', !andb_false_r. exact Z1.
    + destruct (Rltb_spec (-149) v); [lra | exact Z1].
  - intros NC (B1 & B2) V. apply Z.ltb_lt in B1, B2. apply Rltb_true in V. rewrite B1, B2, V. destruct (existsb (Nat.eqb h) (sp_collided sp)); [exfalso; apply NC, EX; reflexivity |]. cbn [negb andb]. replace (Carg (nth (Z.to_nat b) spec C0) * 180 / PI) with (Carg (nth (Z.to_nat b) spec C0) * 180 / PI / 1) at 1 by (field; pose proof PI_RGT_0; lra). apply fixed_names. lra.
Qed.
(** The whole chain without cutoff: when every run has its strongest bin in k, that bin is drawn at angle 0. *)
Lemma c146_fundamental kaiser38 cheb100 data sc harmonic osr cutoff fs wt fr sp spec g rows k : analyze_polar_plot kaiser38 cheb100 data sc harmonic osr cutoff fs wt fr = Ok (sp, spec, g) -> cutoff <= 0 ->
  prepare_fft_input data sc = Ok rows -> (exists nb, inband_count (Z.of_nat (ncols rows)) osr = Ok nb /\ windowed rows (create_window kaiser38 cheb100 wt (ncols rows)) <> [] /\
    Forall (fun r => length r = ncols rows /\ heard r /\ strongest_bin (ncols rows) (Z.to_nat nb) r k) (windowed rows (create_window kaiser38 cheb100 wt (ncols rows)))) -> (2 * k < ncols rows)%nat ->
  fst (nth k (pp_points g) (0, 0)) = 0.
Proof.
  unfold analyze_polar_plot. destruct (analyze_spectrum_polar kaiser38 cheb100 data sc harmonic osr cutoff fs wt) as [[sp' spec'] |] eqn:A; [| discriminate]. cbn [bind]. destruct (plot_spectrum_polar sp' spec' harmonic fr) as [g' |] eqn:G; [| discriminate]. cbn [bind]. intros Q CO PR (nb & NB & NE & F) K. apply Ok_inj in Q. injection Q as -> -> ->.
  unfold analyze_spectrum_polar, compute_spectrum_coherent in A. rewrite PR in A. cbn [bind] in A. cbv zeta in A. rewrite NB in A. cbn [bind] in A. destruct (apply_cutoff _ _ _ _) in A; [| discriminate]. cbn [bind] in A. destruct (analyse_power _ _ _ _ _ _ _ _ _ _ _ _) in A; [| discriminate]. cbn [bind] in A. apply Ok_inj in A. injection A as _ <-.
  destruct (polar_inv _ _ _ _ _ G) as (_ & _ & _ & PP & _). rewrite PP. set (w := create_window kaiser38 cheb100 wt (ncols rows)) in *. set (N := ncols rows) in *. unfold cut_complex. destruct (Rltb_spec 0 cutoff); [lra |]. set (av := coherent_average N (Z.to_nat nb) (windowed rows w)).
  assert (LA : length (snd av) = (N / 2 + 1)%nat) by (unfold av, coherent_average; cbn [snd]; rewrite map_length, seq_length; reflexivity).
  assert (KL : (k < length (snd av))%nat) by (rewrite LA; pose proof (Nat.div_le_lower_bound N 2 k ltac:(lia) ltac:(lia)); lia). rewrite (nth_map_in _ _ _ C0) by (rewrite map_length; exact KL). rewrite (nth_map_in _ _ _ C0) by exact KL.
  match goal with |- context [nth k ?l C0] => change l with (snd (coherent_average N (Z.to_nat nb) (windowed rows w))) end. rewrite (c106_fundamental _ _ _ _ NE K F). set (x := _ / INR N).
  assert (X0 : 0 <= x).
  { unfold x. apply Rdiv_le_0_compat; [| apply lt_0_INR; lia]. unfold lmean. apply Rdiv_le_0_compat; [| apply lt_0_INR; rewrite map_length; destruct (windowed rows w); [contradiction | cbn; lia]]. apply lsum_nonneg, Forall_forall. intros y Y. apply in_map_iff in Y. destruct Y as (r & <- & _). cbv zeta. pose proof tiny_pos as T. unfold tiny in T. pose proof (Cmod_nonneg (rdft N (fun i => nth i r 0) k)). apply Rdiv_le_0_compat; [apply Cmod2_nonneg | lra]. }
  unfold polar_point. cbv zeta. cbn [fst]. set (z := Cscale (sqrt _) (RtoC x)). assert (RZ : exists y, 0 <= y /\ z = (y, 0)). { unfold z, Cscale, RtoC. cbn [fst snd]. eexists. split; [| rewrite Rmult_0_r; reflexivity]. apply Rmult_le_pos; [apply sqrt_pos | exact X0]. }
  destruct RZ as (y & Y0 & ->). set (s1 := Rmax _ _ - _). set (s2 := / _). assert (S1 : 0 <= s1) by (unfold s1; pose proof (Rmax_r (polar_level (y, 0)) (- pp_max g)); lra). assert (S2 : 0 <= s2) by (unfold s2; pose proof tiny_pos; pose proof (Cmod_nonneg (y, 0)); apply Rlt_le, Rinv_0_lt_compat; lra).
  unfold Cscale. cbn [fst snd]. rewrite !Rmult_0_r. assert (Q0 : 0 <= s1 * (s2 * y)) by (apply Rmult_le_pos; [exact S1 | apply Rmult_le_pos; assumption]). revert Q0. generalize (s1 * (s2 * y)). intros q Q0. destruct Q0 as [Q0 | <-]; [| exact Carg00].
  unfold Carg, Re, Im. cbn [fst snd]. destruct (Rltb_spec 0 q); [| lra]. unfold Rdiv. rewrite Rmult_0_l. apply atan_0.
Qed.
(** An empty bin and a bin with phase -90 degrees, range 100 dB. *)
Lemma c146_points_ex sp h : exists g, plot_spectrum_polar sp [C0; (0, -1)] h (Some 100) = Ok g /\ snd (nth 0 (pp_points g) (1, 1)) = 0 /\ fst (nth 1 (pp_points g) (1, 1)) = - (PI / 2) /\ 99 <= snd (nth 1 (pp_points g) (1, 1)).
Proof.
  destruct (proj1 (c146_accepts sp [C0; (0, -1)] h (Some 100)) ltac:(discriminate)) as (g & G). exists g. split; [exact G |]. destruct (c146_points _ _ _ _ _ G) as (LP & FX & _ & PT). rewrite (FX 100 eq_refl) in PT.
  assert (NI : forall b, (b < 2)%nat -> nth b (pp_points g) (1, 1) = nth b (pp_points g) (0, 0)) by (intros b B; apply nth_indep; rewrite LP; exact B). rewrite !NI by lia.
  destruct (PT 0%nat ltac:(cbn; lia)) as (_ & P0 & _). destruct (PT 1%nat ltac:(cbn; lia)) as (P1 & _). cbn [nth] in P0, P1. pose proof (proj2 (level_floor C0)) as L0. assert (M : Cmod (0, -1) = 1) by (unfold Cmod, Cmod2; cbn [fst snd]; replace (0 * 0 + -1 * -1) with 1 by ring; apply sqrt_1).
  pose proof tiny_pos as T. unfold tiny in T. assert (T1 : / 10 ^ 20 <= / 100) by (apply Rinv_le_contravar; [lra |]; change 20%nat with (2 + 18)%nat; rewrite pow_add; assert (1 <= 10 ^ 18) by (apply pow_R1_Rle; lra); lra).
  assert (L1 : 0 <= shown_level (0, -1)). { unfold shown_level. rewrite M. assert (0 <= ln (1 + / 10 ^ 20)) by (rewrite <- ln_1; apply ln_le; lra). pose proof ln10_pos. apply Rmult_le_pos; [lra |]. apply Rdiv_le_0_compat; assumption. }
  split; [apply P0; lra |]. destruct (P1 ltac:(lra)) as (P2 & P3). split.
  - rewrite P3 by (unfold C0; intros Q; injection Q; lra). unfold Carg, Re, Im. cbn [fst snd]. destruct (Rltb_spec 0 0); [lra |]. destruct (Rltb_spec 0 (-1)); [lra |]. destruct (Rltb_spec (-1) 0); [reflexivity | lra].
  - rewrite P2, M. assert (99 / 100 <= 1 / (1 + / 10 ^ 20)); [| nra]. apply (Rmult_le_reg_r (1 + / 10 ^ 20)); [lra |]. unfold Rdiv. rewrite Rmult_1_l, Rinv_l by lra. lra.
Qed.
(** Orders 2 and 3 in bins 2 and 3 of four, order 3 in collision with the fundamental, order 4 asked for but not located. *)
Lemma c146_marks_ex sp spec : length spec = 4%nat -> sp_harm_bins sp = [2; 3]%Z -> sp_collided sp = [3%nat] -> exists g, plot_spectrum_polar sp spec 4 (Some 100) = Ok g /\ map (fun m => fst (fst m)) (pp_marks g) = [2%nat].
Proof.
  intros L HB HC. destruct (proj1 (c146_accepts sp spec 4 (Some 100)) ltac:(intros ->; discriminate)) as (g & G). exists g. split; [exact G |]. destruct (polar_inv _ _ _ _ _ G) as (_ & _ & _ & PP & _ & _ & PM & _). rewrite PM, HB, HC. unfold polar_marks. rewrite PP, map_length, L. reflexivity.
Qed.
