(** * Binned error statistics and AM/PM split: the final lemmas are named c34_, c35_, c88_ - c91_. *)
From Verif Require Import Base BaseLemmas Cplx SpecLemmas DoutProofs FreqProofs CalModel CalSpec CalProofs CalExLemmas CalExProofs TiModel TiToneProofs FitModel FitSpec FitProofs AcfProofs RearModel RearSpec.
From Coq Require Import Psatz.
Local Open Scope R_scope.

Lemma filt_count (P : nat * R -> bool) ps b : INR (bin_count (map fst (filter P ps)) b) = lsum (map (fun p => if P p && (fst p =? b)%nat then 1 else 0) ps).
Proof.
  induction ps as [| p r IH]; [reflexivity |]. cbn [filter map lsum]. destruct (P p); cbn [andb].
  - unfold bin_count in *. cbn [map filter]. destruct (fst p =? b)%nat; [cbn [length]; rewrite S_INR |]; cbn [lsum]; lra.
  - rewrite IH. cbn [lsum]. lra.
Qed.
Lemma filt_sum (P : nat * R -> bool) (g : nat * R -> R) ps b : bin_sum (map fst (filter P ps)) (map g (filter P ps)) b = lsum (map (fun p => if P p && (fst p =? b)%nat then g p else 0) ps).
Proof.
  induction ps as [| p r IH]; [reflexivity |]. cbn [filter map lsum]. destruct (P p); cbn [andb].
  - unfold bin_sum in *. cbn [map map2 lsum]. destruct (fst p =? b)%nat; cbn [lsum]; lra.
  - rewrite IH. cbn [lsum]. lra.
Qed.
Lemma lsum_combine (h : nat * R -> R) a e : length a = length e -> lsum (map h (combine a e)) = rsum (length a) (fun i => h (nth i a 0%nat, nth i e 0)).
Proof.
  intros L. rewrite lsum_rsum, map_length, combine_length, <- L, Nat.min_id. apply rsum_ext. intros i I.
  rewrite (nth_map_in _ _ _ (0%nat, 0)) by (rewrite combine_length; lia). rewrite combine_nth by exact L. reflexivity.
Qed.
Lemma mean_rms_bound N member e c m r : 0 < c -> c = total_in N member (fun _ => 1) -> c * m = total_in N member e -> 0 <= r -> c * r ^ 2 = total_in N member (fun i => e i ^ 2) -> Rabs m <= r.
Proof.
  intros C E1 E2 R E3.
  assert (V : 0 <= rsum N (fun i => if member i then (e i - m) ^ 2 else 0)) by (apply rsum_nonneg; intros i _; destruct (member i); [apply pow2_ge_0 | lra]).
  assert (X : rsum N (fun i => if member i then (e i - m) ^ 2 else 0) = c * r ^ 2 - c * m ^ 2).
  { rewrite E3. replace (c * m ^ 2) with (2 * m * (c * m) - m ^ 2 * c) by ring. rewrite E2, E1. unfold total_in. rewrite <- !rsum_scale, <- !rsum_minus. apply rsum_ext. intros i _. destruct (member i); ring. }
  assert (Q : m ^ 2 <= r ^ 2) by nra. apply Rabs_le. split; nra.
Qed.
(** statistics of the filtered pairs, bin b *)
Lemma filtered_statistics (P : nat * R -> bool) idx err b : length idx = length err ->
  let ps := filter P (combine idx err) in
  bin_statistics (length idx) (fun i => P (nth i idx 0%nat, nth i err 0) && (nth i idx 0 =? b)%nat) (fun i => nth i err 0) (bin_count (map fst ps) b) (bin_mean (map fst ps) (map snd ps) b) (bin_rms (map fst ps) (map snd ps) b).
Proof.
  intros L ps. set (member := fun i => _). set (c := bin_count (map fst ps) b).
  assert (C : INR c = total_in (length idx) member (fun _ => 1)).
  { unfold c, ps. rewrite filt_count, lsum_combine by exact L. reflexivity. }
  assert (S1 : bin_sum (map fst ps) (map snd ps) b = total_in (length idx) member (fun i => nth i err 0)).
  { unfold ps. rewrite filt_sum, lsum_combine by exact L. reflexivity. }
  assert (S2 : bin_sum (map fst ps) (map (fun e => e ^ 2) (map snd ps)) b = total_in (length idx) member (fun i => nth i err 0 ^ 2)).
  { unfold ps. rewrite map_map, filt_sum, lsum_combine by exact L. reflexivity. }
  split; [exact C |]. unfold bin_mean, bin_rms. fold c. split.
  - intros Z. rewrite Z. split; reflexivity.
  - intros CP. apply Nat.ltb_lt in CP as CB. rewrite CB. assert (CR : 0 < INR c) by (apply lt_0_INR; exact CP). rewrite S1, S2.
    set (Q := total_in (length idx) member (fun i => nth i err 0 ^ 2)).
    assert (QN : 0 <= Q) by (apply rsum_nonneg; intros i _; destruct (member i); [apply pow2_ge_0 | lra]).
    assert (RR : INR c * sqrt (Q / INR c) ^ 2 = Q) by (rewrite pow2_sqrt by (apply Rdiv_le_0_compat; assumption); field; lra).
    assert (MM : INR c * (total_in (length idx) member (fun i => nth i err 0) / INR c) = total_in (length idx) member (fun i => nth i err 0)) by (field; lra).
    do 2 eexists. split; [reflexivity |]. split; [reflexivity |]. split; [exact MM |]. split; [apply sqrt_pos |]. split; [exact RR |].
    apply (mean_rms_bound (length idx) member (fun i => nth i err 0) (INR c)); [exact CR | exact C | exact MM | apply sqrt_pos | exact RR].
Qed.
Lemma clip_bin_lt n k : (0 < n)%Z -> (clip_bin n k < Z.to_nat n)%nat. Proof. unfold clip_bin. lia. Qed.
Lemma nearest_clip n u : (0 < n)%Z -> forall j, (0 <= j < n)%Z -> Rabs (u - INR (clip_bin n (round_he u))) <= Rabs (u - IZR j).
Proof.
  intros N j J. pose proof (round_he_half u) as H. apply Rabs_le_inv in H. unfold clip_bin. rewrite INR_IZR_INZ, Z2Nat.id by lia.
  destruct (Z_lt_le_dec (round_he u) 0) as [A | A]; [| destruct (Z_lt_le_dec (n - 1) (round_he u)) as [B | B]].
  - replace (Z.min (Z.max (round_he u) 0) (n - 1)) with 0%Z by lia. assert (IZR (round_he u) <= -1) by (apply (IZR_le _ (-1)); lia). assert (0 <= IZR j) by (apply (IZR_le 0); lia).
    rewrite !Rabs_left1 by lra. lra.
  - replace (Z.min (Z.max (round_he u) 0) (n - 1)) with (n - 1)%Z by lia. assert (IZR (n - 1) + 1 <= IZR (round_he u)) by (rewrite <- plus_IZR; apply IZR_le; lia). assert (IZR j <= IZR (n - 1)) by (apply IZR_le; lia).
    rewrite !Rabs_pos_eq by lra. lra.
  - replace (Z.min (Z.max (round_he u) 0) (n - 1)) with (round_he u) by lia. apply round_he_dist.
Qed.
Lemma value_center_spread n lo hi k : (0 < n)%Z -> (k < Z.to_nat n)%nat -> value_center n lo hi k = spread n lo hi k.
Proof.
  intros N K. unfold value_center, spread. destruct (Z.eqb_spec n 1) as [-> |]; [| reflexivity]. assert (k = 0%nat) by lia. subst k. cbn [INR]. ring.
Qed.
Lemma value_bin_nearest n lo hi x : (0 < n)%Z -> lo < hi -> (value_bin n lo hi x < Z.to_nat n)%nat /\ forall j, (j < Z.to_nat n)%nat -> Rabs (x - spread n lo hi (value_bin n lo hi x)) <= Rabs (x - spread n lo hi j).
Proof.
  intros N H. split; [apply clip_bin_lt; exact N |]. intros j J. unfold value_bin. destruct (Reqb_spec (hi - lo) 0); [lra |].
  destruct (Z.eq_dec n 1) as [-> | N1].
  - assert (j = 0%nat) by lia. subst j. unfold clip_bin. replace (Z.to_nat _) with 0%nat by lia. lra.
  - set (s := IZR (n - 1) / (hi - lo)). assert (SP : 0 < s) by (apply Rdiv_lt_0_compat; [apply (IZR_lt 0); lia | lra]). set (u := (x - lo) * s).
    assert (NZ : IZR (n - 1) <> 0) by (apply not_0_IZR; lia).
    assert (D : forall k, x - spread n lo hi k = (u - INR k) / s) by (intros k; unfold spread, u, s; field; split; [lra | exact NZ]).
    rewrite !D. unfold Rdiv. rewrite !Rabs_mult. apply Rmult_le_compat_r; [apply Rabs_pos |]. rewrite (INR_IZR_INZ j). apply nearest_clip; [exact N | lia].
Qed.
Lemma valid_inner n clip k : (0 < n)%Z -> 0 <= clip -> (k < Z.to_nat n)%nat -> value_valid n clip k = inner n clip k.
Proof.
  intros N C K. unfold value_valid, inner. destruct (Rltb_spec 0 clip) as [H | H]; [reflexivity |]. assert (clip = 0) as -> by lra. rewrite Rmult_0_r. rewrite Zfloor_IZR.
  symmetry. apply andb_true_intro. split; apply Z.leb_le; lia.
Qed.
Definition bins_of (n : option Z) : Z := match n with Some k => k | None => 100%Z end.
Lemma fitted_length lstsq y f mi tol r : fit_core lstsq y f mi tol = Ok r -> length (f_fitted r) = length y.
Proof. unfold fit_core. destruct (match f with Some f0 => Ok f0 | None => estimate_frequency_fft y end) as [fr |]; [| discriminate]. cbn [bind]. intros E. apply Ok_inj in E. subst r. cbn [f_fitted]. rewrite map_length, seq_length. reflexivity. Qed.
(** Conditions under which the analysis succeeds. *)
Definition value_inputs_ok (signal : list R) (f : option R) (n : Z) (clip : R) (range : option (R * R)) : Prop :=
  signal <> [] /\ (0 < n)%Z /\ 0 <= clip /\ fst (infer_signal_range signal range) < snd (infer_signal_range signal range) /\
  (f = None -> (2 <= length signal)%nat) /\ (2 * Zfloor (IZR n * clip) < n)%Z /\
  exists x, In x signal /\ inner n clip (value_bin n (fst (infer_signal_range signal range)) (snd (infer_signal_range signal range)) x) = true.
(** It succeeds exactly on those and raises ValueError on all others. *)
Lemma c34_accepts lstsq signal f n clip range mi tol :
  (value_inputs_ok signal f (bins_of n) clip range -> exists r, rearrange_error_by_value lstsq signal f n clip range mi tol = Ok r) /\
  (~ value_inputs_ok signal f (bins_of n) clip range -> rearrange_error_by_value lstsq signal f n clip range mi tol = Err ValueError).
Proof.
  unfold value_inputs_ok, rearrange_error_by_value. fold (bins_of n). set (m := bins_of n).
  destruct (Nat.eqb_spec (length signal) 0) as [L | L]; cbn [raise_if].
  { split; [intros (H & _); apply length_zero_iff_nil in L; contradiction | reflexivity]. }
  assert (NE : signal <> []) by (intros ->; apply L; reflexivity).
  destruct (Z.leb_spec m 0) as [M | M]; cbn [raise_if]; [split; [intros (_ & H & _); lia | reflexivity] |].
  destruct (Rltb_spec clip 0) as [C | C]; cbn [raise_if]; [split; [intros (_ & _ & H & _); lra | reflexivity] |].
  destruct (match range with Some (a, b) => Rleb b a | None => false end) eqn:RG; cbn [raise_if].
  { split; [| reflexivity]. intros (_ & _ & _ & H & _). destruct range as [[a b] |]; [| discriminate]. apply Rleb_true in RG. cbn in H. lra. }
  destruct (infer_signal_range signal range) as [lo hi]. cbn [fst snd].
  destruct (Rleb_spec hi lo) as [V | V]; cbn [raise_if]; [split; [intros (_ & _ & _ & H & _); lra | reflexivity] |].
  destruct (c52_failure lstsq signal f mi tol) as [(r & E) | (E & F & S)]; rewrite E; cbn [bind].
  2:{ split; [intros (_ & _ & _ & _ & H & _); specialize (H F); lia | reflexivity]. }
  assert (FN : f = None -> (2 <= length signal)%nat).
  { intros ->. destruct (le_lt_dec 2 (length signal)) as [| B]; [assumption | exfalso]. unfold fit_core, estimate_frequency_fft in E. rewrite (Nat.div_small _ 2 B) in E. cbn in E. discriminate. }
  destruct (Rltb 0 clip && (m <=? Zfloor (IZR m * clip) * 2)%Z) eqn:MG; cbn [raise_if].
  { split; [| reflexivity]. intros (_ & _ & _ & _ & _ & H & _). apply andb_prop in MG. destruct MG as [_ MG]. apply Z.leb_le in MG. lia. }
  assert (MG' : (2 * Zfloor (IZR m * clip) < m)%Z).
  { apply Bool.andb_false_iff in MG. destruct MG as [MG | MG]; [| apply Z.leb_gt in MG; lia]. apply Rltb_false in MG. assert (clip = 0) as -> by lra. rewrite Rmult_0_r, Zfloor_IZR. lia. }
  assert (EX : existsb (value_valid m clip) (map (value_bin m lo hi) signal) = true <-> exists x, In x signal /\ inner m clip (value_bin m lo hi x) = true).
  { rewrite existsb_exists. split.
    - intros (k & K & P). apply in_map_iff in K. destruct K as (x & <- & X). exists x. split; [exact X |]. rewrite <- valid_inner; [exact P | exact M | exact C | apply clip_bin_lt; exact M].
    - intros (x & X & P). exists (value_bin m lo hi x). split; [apply in_map; exact X |]. rewrite valid_inner; [exact P | exact M | exact C | apply clip_bin_lt; exact M]. }
  destruct (existsb (value_valid m clip) (map (value_bin m lo hi) signal)); cbn [negb raise_if].
  - split; [intros _; eexists; reflexivity |]. intros H. exfalso. apply H. repeat (split; [assumption || lra || lia |]). apply EX. reflexivity.
  - split; [| reflexivity]. intros (_ & _ & _ & _ & _ & _ & H). apply EX in H. discriminate.
Qed.
(** Every sample goes to the nearest of the n evenly spread centres, the statistics of each bin are the
    count, mean and rms of the errors of its samples, and the error is signal minus fitted sine. *)
Lemma c34_statistics lstsq signal f n clip range mi tol r : rearrange_error_by_value lstsq signal f n clip range mi tol = Ok r ->
  exists fit lo hi, fit_core lstsq signal f mi tol = Ok fit /\ (lo, hi) = infer_signal_range signal range /\ lo < hi /\
  length (v_bins r) = length signal /\ length (v_error r) = length signal /\
  (forall i, (i < length signal)%nat -> nth i (v_error r) 0 = nth i signal 0 - nth i (f_fitted fit) 0 /\
     (nth i (v_bins r) 0 < Z.to_nat (bins_of n))%nat /\
     forall j, (j < Z.to_nat (bins_of n))%nat -> Rabs (nth i signal 0 - spread (bins_of n) lo hi (nth i (v_bins r) 0%nat)) <= Rabs (nth i signal 0 - spread (bins_of n) lo hi j)) /\
  forall b, (b < Z.to_nat (bins_of n))%nat -> nth b (v_centers r) 0 = spread (bins_of n) lo hi b /\
    bin_statistics (length signal) (fun i => inner (bins_of n) clip (nth i (v_bins r) 0%nat) && (nth i (v_bins r) 0 =? b)%nat) (fun i => nth i (v_error r) 0)
      (nth b (v_counts r) 0%nat) (nth b (v_mean r) PInf) (nth b (v_rms r) PInf).
Proof.
  unfold rearrange_error_by_value. fold (bins_of n). set (m := bins_of n).
  destruct (Nat.eqb_spec (length signal) 0) as [L | L]; [discriminate |]. cbn [raise_if].
  destruct (Z.leb_spec m 0) as [M | M]; [discriminate |]. cbn [raise_if].
  destruct (Rltb_spec clip 0) as [C | C]; [discriminate |]. cbn [raise_if].
  destruct (match range with Some (a, b) => Rleb b a | None => false end); [discriminate |]. cbn [raise_if].
  destruct (infer_signal_range signal range) as [lo hi]. destruct (Rleb_spec hi lo) as [V | V]; [discriminate |]. cbn [raise_if].
  destruct (fit_core lstsq signal f mi tol) as [fit |] eqn:E; [| discriminate]. cbn [bind]. pose proof (fitted_length _ _ _ _ _ _ E) as FL.
  destruct (Rltb 0 clip && (m <=? Zfloor (IZR m * clip) * 2)%Z); [discriminate |]. cbn [raise_if].
  destruct (negb (existsb (value_valid m clip) (map (value_bin m lo hi) signal))); [discriminate |]. cbn [raise_if]. cbv zeta.
  intros H. apply Ok_inj in H. subst r. cbn [v_bins v_error v_centers v_counts v_mean v_rms].
  set (bins := map (value_bin m lo hi) signal). set (error := map2 Rminus signal (f_fitted fit)).
  assert (LB : length bins = length signal) by apply map_length. assert (LE : length error = length signal) by (unfold error; rewrite map2_length; congruence).
  assert (BN : forall i, (i < length signal)%nat -> nth i bins 0%nat = value_bin m lo hi (nth i signal 0)) by (intros i I; unfold bins; rewrite (nth_map_in _ _ _ 0) by exact I; reflexivity).
  exists fit, lo, hi. split; [reflexivity |]. split; [reflexivity |]. split; [exact V |]. split; [exact LB |]. split; [exact LE |]. split.
  - intros i I. split; [unfold error; rewrite (map2_nth Rminus _ _ i 0 0 0) by lia; reflexivity |]. rewrite BN by exact I. apply value_bin_nearest; assumption.
  - intros b B. rewrite !(nth_map_in _ _ _ 0%nat) by (rewrite seq_length; exact B). rewrite seq_nth by exact B. cbn [Nat.add]. split; [apply value_center_spread; assumption |].
    pose proof (filtered_statistics (fun p => value_valid m clip (fst p)) bins error b ltac:(congruence)) as S. cbv zeta in S. cbn [fst] in S. rewrite LB in S.
    assert (EQ : forall q, total_in (length signal) (fun i => value_valid m clip (nth i bins 0%nat) && (nth i bins 0 =? b)%nat) q = total_in (length signal) (fun i => inner m clip (nth i bins 0%nat) && (nth i bins 0 =? b)%nat) q).
    { intros q. apply rsum_ext. intros i I. rewrite valid_inner; [reflexivity | exact M | exact C |]. rewrite BN by exact I. apply clip_bin_lt; exact M. }
    destruct S as (S1 & S2 & S3). split; [rewrite <- EQ; exact S1 |]. split; [exact S2 |]. intros P. destruct (S3 P) as (mm & rr & Q1 & Q2 & Q3 & Q4 & Q5 & Q6). exists mm, rr. rewrite <- !EQ. repeat split; assumption.
Qed.
(** Adding up over the bins gives the totals over all samples that were not clipped away. *)
Lemma c34_totals lstsq signal f n clip range mi tol r : rearrange_error_by_value lstsq signal f n clip range mi tol = Ok r ->
  let kept := fun i => inner (bins_of n) clip (nth i (v_bins r) 0%nat) in
  let stat (l : list xr) (g : R -> R) b := match nth b l PInf with Fin x => INR (nth b (v_counts r) 0%nat) * g x | _ => 0 end in
  rsum (Z.to_nat (bins_of n)) (fun b => INR (nth b (v_counts r) 0%nat)) = total_in (length signal) kept (fun _ => 1) /\
  rsum (Z.to_nat (bins_of n)) (stat (v_mean r) (fun x => x)) = total_in (length signal) kept (fun i => nth i (v_error r) 0) /\
  rsum (Z.to_nat (bins_of n)) (stat (v_rms r) (fun x => x ^ 2)) = total_in (length signal) kept (fun i => nth i (v_error r) 0 ^ 2).
Proof.
  intros E kept stat. destruct (c34_statistics _ _ _ _ _ _ _ _ _ E) as (fit & lo & hi & _ & _ & _ & _ & _ & B & S). set (m := Z.to_nat (bins_of n)) in *.
  assert (SW : forall q, rsum m (fun b => total_in (length signal) (fun i => kept i && (nth i (v_bins r) 0 =? b)%nat) q) = total_in (length signal) kept q).
  { intros q. unfold total_in. rewrite rsum_swap. apply rsum_ext. intros i I. destruct (B i I) as (_ & BI & _).
    rewrite (rsum_single m (nth i (v_bins r) 0%nat)); [rewrite Nat.eqb_refl, Bool.andb_true_r; reflexivity | exact BI |]. intros b _ D. apply Nat.neq_sym, Nat.eqb_neq in D. rewrite D, Bool.andb_false_r. reflexivity. }
  assert (EMPTY : forall b q, (b < m)%nat -> nth b (v_counts r) 0%nat = 0%nat -> total_in (length signal) (fun i => kept i && (nth i (v_bins r) 0 =? b)%nat) q = 0).
  { intros b q Bb Z. destruct (S b Bb) as (_ & S1 & _ & _). rewrite Z in S1. cbn [INR] in S1. symmetry in S1. apply rsum_zero. intros i I.
    assert (X : (if kept i && (nth i (v_bins r) 0 =? b)%nat then 1 else 0) = 0).
    { apply (rsum_nonneg_zero (length signal) (fun i => if kept i && (nth i (v_bins r) 0 =? b)%nat then 1 else 0)); [intros; destruct (_ && _); lra | unfold total_in in S1; apply Req_le; exact S1 | exact I]. }
    destruct (kept i && (nth i (v_bins r) 0 =? b)%nat); [lra | reflexivity]. }
  split; [| split].
  - rewrite <- SW. apply rsum_ext. intros b Bb. destruct (S b Bb) as (_ & S1 & _). exact S1.
  - rewrite <- SW. apply rsum_ext. intros b Bb. unfold stat. destruct (S b Bb) as (_ & _ & S2 & S3). destruct (Nat.eq_dec (nth b (v_counts r) 0%nat) 0) as [Z | Z].
    + rewrite (proj1 (S2 Z)). symmetry. apply EMPTY; assumption.
    + destruct S3 as (mm & rr & -> & _ & Q & _); [lia |]. exact Q.
  - rewrite <- SW. apply rsum_ext. intros b Bb. unfold stat. destruct (S b Bb) as (_ & _ & S2 & S3). destruct (Nat.eq_dec (nth b (v_counts r) 0%nat) 0) as [Z | Z].
    + rewrite (proj2 (S2 Z)). symmetry. apply EMPTY; assumption.
    + destruct S3 as (mm & rr & _ & -> & _ & _ & Q & _); [lia |]. exact Q.
Qed.

(* ---------- C88: the inferred value range ---------- *)
Definition covers (range : R * R) (signal : list R) : Prop := forall x, In x signal -> fst range <= x <= snd range.
Lemma extreme_abs signal x : In x signal -> Rabs x <= Rmax (Rabs (lmin1 (hd 0 signal) signal)) (Rabs (lmax1 (hd 0 signal) signal)).
Proof.
  intros I. pose proof (lmin1_le (hd 0 signal) signal x I) as A. pose proof (lmax1_ge (hd 0 signal) signal x I) as B.
  destruct (Rle_dec 0 x).
  - eapply Rle_trans; [| apply Rmax_r]. rewrite !Rabs_pos_eq by lra. exact B.
  - eapply Rle_trans; [| apply Rmax_l]. rewrite !Rabs_left1 by lra. lra.
Qed.
Lemma extreme_in signal : signal <> [] -> exists x, In x signal /\ Rabs x = Rmax (Rabs (lmin1 (hd 0 signal) signal)) (Rabs (lmax1 (hd 0 signal) signal)).
Proof.
  destruct signal as [| y r]; [congruence |]. intros _. cbn [hd].
  assert (A : In (lmin1 y (y :: r)) (y :: r)) by (pose proof (lmin1_in y (y :: r)) as [<- | H]; [left; reflexivity | exact H]).
  assert (B : In (lmax1 y (y :: r)) (y :: r)) by (pose proof (lmax1_in y (y :: r)) as [<- | H]; [left; reflexivity | exact H]).
  unfold Rmax. destruct (Rle_dec (Rabs (lmin1 y (y :: r))) (Rabs (lmax1 y (y :: r)))); [exists (lmax1 y (y :: r)) | exists (lmin1 y (y :: r))]; (split; [assumption | reflexivity]).
Qed.
(** A given range is used as it is.  Otherwise: some sample beyond 2 in magnitude gives exactly the
    extreme values, which cover the signal; smaller signals get [0,1], [-1/2,1/2] or [-1,1] from their mean and
    largest magnitude, and the last two cover it when no magnitude exceeds 1/2 respectively 1. *)
Lemma c88_inferred signal : signal <> [] -> (forall r, infer_signal_range signal (Some r) = r) /\
  let r := infer_signal_range signal None in
  ((exists x, In x signal /\ 2 < Rabs x) -> covers r signal /\ In (fst r) signal /\ In (snd r) signal) /\
  ((forall x, In x signal -> Rabs x <= 2) ->
     (1 / 10 < lmean signal -> r = (0, 1)) /\
     (lmean signal <= 1 / 10 -> (forall x, In x signal -> Rabs x <= 6 / 10) -> r = (- (1 / 2), 1 / 2)) /\
     (lmean signal <= 1 / 10 -> (exists x, In x signal /\ 6 / 10 < Rabs x) -> r = (- 1, 1))) /\
  (lmean signal <= 1 / 10 -> (forall x, In x signal -> Rabs x <= 1 / 2) -> covers r signal) /\
  (lmean signal <= 1 / 10 -> (exists x, In x signal /\ 6 / 10 < Rabs x) -> (forall x, In x signal -> Rabs x <= 1) -> covers r signal).
Proof.
  intros NE. split; [reflexivity |]. cbv zeta. unfold infer_signal_range. set (x0 := hd 0 signal). set (am := Rmax (Rabs (lmin1 x0 signal)) (Rabs (lmax1 x0 signal))).
  assert (UP : forall x, In x signal -> Rabs x <= am) by (intros x I; apply extreme_abs; exact I).
  destruct (extreme_in signal NE) as (xm & IM & EM). fold x0 in EM. fold am in EM.
  assert (HI : In x0 signal) by (unfold x0; destruct signal; [congruence | left; reflexivity]).
  assert (BIG : (exists x, In x signal /\ 2 < Rabs x) -> 2 < am) by (intros (x & I & H); specialize (UP x I); lra).
  assert (SMALL : forall c, (forall x, In x signal -> Rabs x <= c) -> am <= c) by (intros c H; rewrite <- EM; apply H; exact IM).
  split; [| split; [| split]].
  - intros H. destruct (Rltb_spec 2 am) as [A | A]; [| specialize (BIG H); lra]. cbn [fst snd]. split; [intros x I; split; [apply lmin1_le; exact I | apply lmax1_ge; exact I] |].
    split; [pose proof (lmin1_in x0 signal) as [<- | Q]; assumption | pose proof (lmax1_in x0 signal) as [<- | Q]; assumption].
  - intros H. pose proof (SMALL 2 H). destruct (Rltb_spec 2 am); [lra |]. split; [| split].
    + intros M. destruct (Rltb_spec (1 / 10) (lmean signal)); [reflexivity | lra].
    + intros M Q. destruct (Rltb_spec (1 / 10) (lmean signal)); [lra |]. pose proof (SMALL (6 / 10) Q). destruct (Rleb_spec am (6 / 10)); [reflexivity | lra].
    + intros M (x & I & Q). destruct (Rltb_spec (1 / 10) (lmean signal)); [lra |]. specialize (UP x I). destruct (Rleb_spec am (6 / 10)); [lra | reflexivity].
  - intros M Q. pose proof (SMALL (1 / 2) Q). destruct (Rltb_spec 2 am); [lra |]. destruct (Rltb_spec (1 / 10) (lmean signal)); [lra |]. destruct (Rleb_spec am (6 / 10)); [| lra].
    intros x I. cbn [fst snd]. specialize (Q x I). apply Rabs_le_inv in Q. lra.
  - intros M (x & I & Q) Q1. pose proof (SMALL 1 Q1). specialize (UP x I). destruct (Rltb_spec 2 am); [lra |]. destruct (Rltb_spec (1 / 10) (lmean signal)); [lra |]. destruct (Rleb_spec am (6 / 10)); [lra |].
    intros z J. cbn [fst snd]. specialize (Q1 z J). apply Rabs_le_inv in Q1. lra.
Qed.
(** The inferred range need not contain the signal: a 1.8 V single-supply signal is binned over [0, 1], and a
    +-0.55 signal over [-0.5, 0.5]. *)
Lemma c88_covers_refuted : (exists signal, signal <> [] /\ (1 / 10 < lmean signal) /\ ~ covers (infer_signal_range signal None) signal) /\
  (exists signal, signal <> [] /\ lmean signal <= 1 / 10 /\ ~ covers (infer_signal_range signal None) signal).
Proof.
  split.
  - exists [18 / 10; 0]. split; [congruence |]. assert (M : 1 / 10 < lmean [18 / 10; 0]) by (unfold lmean; cbn; lra). split; [exact M |].
    destruct (c88_inferred [18 / 10; 0]) as (_ & _ & H & _); [congruence |]. destruct H as (H & _); [intros x [<- | [<- | []]]; rewrite Rabs_pos_eq; lra |].
    rewrite (H M). intros C. specialize (C (18 / 10) (or_introl eq_refl)). cbn in C. lra.
  - exists [11 / 20; - (11 / 20)]. split; [congruence |]. assert (M : lmean [11 / 20; - (11 / 20)] <= 1 / 10) by (unfold lmean; cbn; lra). split; [exact M |].
    assert (AB : forall x, In x [11 / 20; - (11 / 20)] -> Rabs x <= 6 / 10) by (intros x [<- | [<- | []]]; apply Rabs_le; lra).
    destruct (c88_inferred [11 / 20; - (11 / 20)]) as (_ & _ & H & _); [congruence |]. destruct H as (_ & H & _); [intros x X; specialize (AB x X); lra |].
    rewrite (H M AB). intros C. specialize (C (11 / 20) (or_introl eq_refl)). cbn in C. lra.
Qed.
(** Raw codes: the extreme codes become the range. *)
Lemma c88_inferred_ex : covers (infer_signal_range [3; 7; 5] None) [3; 7; 5] /\ In (fst (infer_signal_range [3; 7; 5] None)) [3; 7; 5] /\ In (snd (infer_signal_range [3; 7; 5] None)) [3; 7; 5].
Proof. destruct (c88_inferred [3; 7; 5]) as (_ & H & _); [congruence |]. apply H. exists 7. split; [right; left; reflexivity | rewrite Rabs_pos_eq; lra]. Qed.

(* ---------- C35: the split ---------- *)
Lemma cos_double phi : cos (2 * phi) = cos phi ^ 2 - sin phi ^ 2. Proof. rewrite cos_2a. ring. Qed.
Lemma cs1 phi : sin phi ^ 2 = 1 - cos phi ^ 2. Proof. pose proof (sin2_cos2 phi) as H. unfold Rsqr in H. lra. Qed.
(** For any fitted A and B the three variances are non-negative, at most one of AM and PM is non-zero, and
    at every phase they reproduce the fitted power raised by what is missing to make it non-negative
    everywhere - by nothing when B >= |A|, which is when the fitted power is non-negative at every phase. *)
Lemma c35_split A B : let v := am_pm_split A B in
  0 <= am_of v /\ 0 <= pm_of v /\ 0 <= base_of v /\ (am_of v = 0 \/ pm_of v = 0) /\
  (0 < A -> am_of v = 2 * A /\ pm_of v = 0) /\ (A < 0 -> pm_of v = - 2 * A /\ am_of v = 0) /\
  (forall phi, am_pm_power v phi = A * cos (2 * phi) + B + Rmax 0 (Rabs A - B)) /\
  ((forall phi, 0 <= A * cos (2 * phi) + B) <-> Rabs A <= B) /\
  (Rabs A <= B -> forall phi, am_pm_power v phi = A * cos (2 * phi) + B).
Proof.
  cbv zeta. assert (POW : forall phi, am_pm_power (am_pm_split A B) phi = A * cos (2 * phi) + B + Rmax 0 (Rabs A - B)).
  { intros phi. rewrite cos_double. unfold am_pm_power, am_pm_split. destruct (Rltb_spec 0 A) as [P | P]; [| destruct (Rltb_spec A 0) as [Q | Q]].
    - rewrite (Rabs_pos_eq A) by lra. rewrite (cs1 phi). unfold Rmax. repeat destruct Rle_dec; lra.
    - rewrite (Rabs_left A) by lra. rewrite (cs1 phi). unfold Rmax. repeat destruct Rle_dec; lra.
    - assert (A = 0) as -> by lra. rewrite Rabs_R0. unfold Rmax. repeat destruct Rle_dec; lra. }
  assert (IFF : (forall phi, 0 <= A * cos (2 * phi) + B) <-> Rabs A <= B).
  { split.
    - intros H. pose proof (H 0) as H0. pose proof (H (PI / 2)) as H1. rewrite Rmult_0_r, cos_0 in H0. replace (2 * (PI / 2)) with PI in H1 by field. rewrite cos_PI in H1. apply Rabs_le. lra.
    - intros H phi. apply Rabs_le_inv in H. pose proof (COS_bound (2 * phi)). nra. }
  unfold am_of, pm_of, base_of in *.
  assert (CASES : 0 <= fst (fst (am_pm_split A B)) /\ 0 <= snd (fst (am_pm_split A B)) /\ 0 <= snd (am_pm_split A B) /\ (fst (fst (am_pm_split A B)) = 0 \/ snd (fst (am_pm_split A B)) = 0) /\
    (0 < A -> fst (fst (am_pm_split A B)) = 2 * A /\ snd (fst (am_pm_split A B)) = 0) /\ (A < 0 -> snd (fst (am_pm_split A B)) = - 2 * A /\ fst (fst (am_pm_split A B)) = 0)).
  { unfold am_pm_split. destruct (Rltb_spec 0 A) as [P | P]; [| destruct (Rltb_spec A 0) as [Q | Q]]; cbn [fst snd].
    - rewrite (Rmax_right 0 (2 * A)) by lra. pose proof (Rmax_l 0 (B - A)). repeat split; try lra.
    - rewrite (Rmax_right 0 (-2 * A)) by lra. pose proof (Rmax_l 0 (B + A)). repeat split; try lra.
    - pose proof (Rmax_l 0 B). repeat split; try lra. }
  destruct CASES as (C1 & C2 & C3 & C4 & C5 & C6). repeat (split; [assumption |]).
  intros H phi. rewrite POW. rewrite Rmax_left by lra. ring.
Qed.
Lemma wrap2pi_range x : 0 <= wrap2pi x < 2 * PI.
Proof.
  unfold wrap2pi. pose proof PI_RGT_0. pose proof (Zfloor_lb (x / (2 * PI))) as L. pose proof (Zfloor_ub (x / (2 * PI))) as U.
  assert (E : x = 2 * PI * (x / (2 * PI))) by (field; lra). split.
  - rewrite E at 1. nra.
  - rewrite E at 1. nra.
Qed.
Lemma wrap2pi_cos x : cos (wrap2pi x) = cos x /\ sin (wrap2pi x) = sin x.
Proof.
  unfold wrap2pi. set (k := Zfloor (x / (2 * PI))). clearbody k.
  assert (C : forall y n, cos (y + 2 * PI * INR n) = cos y) by (intros y n; replace (y + 2 * PI * INR n) with (y + 2 * INR n * PI) by ring; apply cos_period).
  assert (S : forall y n, sin (y + 2 * PI * INR n) = sin y) by (intros y n; replace (y + 2 * PI * INR n) with (y + 2 * INR n * PI) by ring; apply sin_period).
  destruct (Z_le_dec 0 k) as [P | P].
  - rewrite <- (Z2Nat.id k) by exact P. rewrite <- INR_IZR_INZ. split; [rewrite <- (C _ (Z.to_nat k)) | rewrite <- (S _ (Z.to_nat k))]; f_equal; ring.
  - replace (x - 2 * PI * IZR k) with (x + 2 * PI * INR (Z.to_nat (- k))); [split; [apply C | apply S] |]. rewrite INR_IZR_INZ, Z2Nat.id by lia. rewrite opp_IZR. ring.
Qed.
Lemma power_wrap v x : am_pm_power v (wrap2pi x) = am_pm_power v x.
Proof. destruct v as [[a p] b]. unfold am_pm_power. destruct (wrap2pi_cos x) as (-> & ->). reflexivity. Qed.
Lemma lsum_map_rsum {A} (g : A -> R) l d : lsum (map g l) = rsum (length l) (fun i => g (nth i l d)).
Proof. rewrite lsum_rsum, map_length. apply rsum_ext. intros i I. apply nth_map_in. exact I. Qed.
(** The fields of a successful result. *)
Lemma by_phase_inv lstsq signal f n base mi tol r : rearrange_error_by_phase lstsq signal f n base mi tol = Ok r ->
  exists fit, fit_core lstsq signal f mi tol = Ok fit /\ (0 < n)%Z /\
  p_error r = map2 Rminus signal (f_fitted fit) /\ p_phase r = map (fun t => 2 * PI * f_frequency fit * INR t + f_phase fit) (seq 0 (length signal)) /\
  p_variances r = phase_variances lstsq (map (fun e => e ^ 2) (p_error r)) (map wrap2pi (p_phase r)) base /\
  p_bins r = map (phase_bin n) (map wrap2pi (p_phase r)) /\
  p_am_v r = sqrt (am_of (p_variances r)) /\ p_pm_v r = sqrt (pm_of (p_variances r)) /\ p_base_v r = sqrt (base_of (p_variances r)) /\
  p_amplitude r = f_amplitude fit /\
  p_am_relative r = (if Rltb (1 / 10 ^ 10) (p_amplitude r) then p_am_v r / p_amplitude r else 0) /\ p_pm_rad r = (if Rltb (1 / 10 ^ 10) (p_amplitude r) then p_pm_v r / p_amplitude r else 0) /\
  p_total_v r = match map (fun e => e ^ 2) (p_error r) with [] => NaN | l => Fin (sqrt (lmean l)) end /\
  p_r2_raw r = snd (fit_error_phase lstsq (map (fun e => e ^ 2) (p_error r)) (map wrap2pi (p_phase r)) base) /\
  p_r2_binned r = r_squared_binned n (p_bins r) (p_error r) (p_variances r) /\
  p_bin_rms r = map (bin_rms (p_bins r) (p_error r)) (seq 0 (Z.to_nat n)) /\ p_bin_mean r = map (bin_mean (p_bins r) (p_error r)) (seq 0 (Z.to_nat n)) /\
  p_centers r = map (phase_center n) (seq 0 (Z.to_nat n)) /\ p_counts r = map (bin_count (p_bins r)) (seq 0 (Z.to_nat n)).
Proof.
  unfold rearrange_error_by_phase. destruct (fit_core lstsq signal f mi tol) as [fit |]; [| discriminate]. cbn [bind]. cbv zeta.
  set (v := phase_variances _ _ _ _). destruct v as [[am pm] b0] eqn:EV. unfold v in EV.
  destruct (Z.eqb_spec n 0); [discriminate |]. cbn [raise_if]. destruct (Z.ltb_spec n 0); [discriminate |]. cbn [raise_if].
  intros HR. apply Ok_inj in HR. subst r. exists fit. cbn [p_error p_phase p_variances p_bins p_am_v p_pm_v p_base_v p_amplitude p_am_relative p_pm_rad p_total_v p_r2_raw p_r2_binned p_bin_rms p_bin_mean p_centers p_counts].
  split; [reflexivity |]. split; [lia |]. rewrite EV. unfold am_of, pm_of, base_of. cbn [fst snd]. repeat split; try reflexivity. destruct (map (fun e => e ^ 2) (map2 Rminus signal (f_fitted fit))); reflexivity.
Qed.
(** Variances are never negative, and base-noise mode never reports both AM and PM. *)
Lemma c35_variances lstsq signal f n base mi tol r : rearrange_error_by_phase lstsq signal f n base mi tol = Ok r ->
  0 <= am_of (p_variances r) /\ 0 <= pm_of (p_variances r) /\ 0 <= base_of (p_variances r) /\
  p_am_v r ^ 2 = am_of (p_variances r) /\ p_pm_v r ^ 2 = pm_of (p_variances r) /\ p_base_v r ^ 2 = base_of (p_variances r) /\
  (base = true -> p_am_v r = 0 \/ p_pm_v r = 0) /\ (base = false -> p_base_v r = 0) /\
  (1 / 10 ^ 10 < p_amplitude r -> p_am_relative r * p_amplitude r = p_am_v r /\ p_pm_rad r * p_amplitude r = p_pm_v r).
Proof.
  intros E. destruct (by_phase_inv _ _ _ _ _ _ _ _ E) as (fit & _ & _ & _ & _ & V & _ & A & P & B & _ & AR & PR & _). set (v := p_variances r) in *.
  assert (NN : 0 <= am_of v /\ 0 <= pm_of v /\ 0 <= base_of v /\ (base = true -> am_of v = 0 \/ pm_of v = 0) /\ (base = false -> base_of v = 0)).
  { rewrite V. unfold phase_variances. destruct base.
    - set (co := lstsq _ _). destruct (c35_split (co 0%nat) (co 1%nat)) as (X1 & X2 & X3 & X4 & _). repeat split; try assumption; [intros _; exact X4 | discriminate].
    - unfold fit_error_phase. destruct (_ <? 2)%nat; unfold am_of, pm_of, base_of; cbn [fst snd]; repeat split; try lra; try apply Rmax_l; discriminate. }
  destruct NN as (N1 & N2 & N3 & N4 & N5). repeat (split; [assumption |]). rewrite A, P, B, !pow2_sqrt by assumption. split; [reflexivity |]. split; [reflexivity |]. split; [reflexivity |].
  split; [intros T; destruct (N4 T) as [-> | ->]; [left | right]; apply sqrt_0 |]. split; [intros T; rewrite (N5 T); apply sqrt_0 |].
  intros T. apply Rltb_true in T as TB. rewrite AR, PR, TB, A, P. assert (0 < p_amplitude r). { eapply Rlt_trans; [| exact T]. apply Rdiv_lt_0_compat; [lra | apply pow_lt; lra]. }
  split; field; lra.
Qed.
(** Coefficients in base-noise mode, with the defining property of least squares. *)
Lemma c35_reproduces lstsq signal f n mi tol r : least_squares lstsq -> rearrange_error_by_phase lstsq signal f n true mi tol = Ok r ->
  exists A B, (forall A' B', rsum (length signal) (fun t => (A * cos (2 * nth t (p_phase r) 0) + B - nth t (p_error r) 0 ^ 2) ^ 2) <= rsum (length signal) (fun t => (A' * cos (2 * nth t (p_phase r) 0) + B' - nth t (p_error r) 0 ^ 2) ^ 2)) /\
   (forall phi, am_pm_power (p_variances r) phi = A * cos (2 * phi) + B + Rmax 0 (Rabs A - B)) /\ p_variances r = am_pm_split A B.
Proof.
  intros L E. destruct (by_phase_inv _ _ _ _ _ _ _ _ E) as (fit & FE & _ & PE & PP & V & _). unfold phase_variances in V.
  set (X := cos2_design (map wrap2pi (p_phase r))) in V. set (b := fun i => nth i (map (fun e => e ^ 2) (p_error r)) 0) in V. exists (lstsq X b 0%nat), (lstsq X b 1%nat).
  assert (LP : length (p_phase r) = length signal) by (rewrite PP, map_length, seq_length; reflexivity).
  assert (LE : length (p_error r) = length signal) by (rewrite PE, map2_length; [reflexivity | symmetry; apply (fitted_length _ _ _ _ _ _ FE)]).
  split; [| split].
  - intros A' B'. assert (EV : forall x : vec, rsum (m_n X) (fun i => (rsum (m_m X) (fun j => m_at X i j * x j) - b i) ^ 2) = rsum (length signal) (fun t => (x 0%nat * cos (2 * nth t (p_phase r) 0) + x 1%nat - nth t (p_error r) 0 ^ 2) ^ 2)).
    { intros x. unfold X, cos2_design, of_cols. cbn [m_n m_m m_at length]. rewrite map_length, LP. apply rsum_ext. intros t T. cbn [rsum nth].
      rewrite (nth_map_in _ _ _ 0) by (rewrite LP; exact T). unfold b. rewrite (nth_map_in _ _ _ 0) by (rewrite LE; exact T).
      rewrite !cos_double. destruct (wrap2pi_cos (nth t (p_phase r) 0)) as (-> & ->). ring. }
    pose proof (L X b (fun j => if (j =? 0)%nat then A' else B')) as M. rewrite !EV in M. cbv beta in M. cbn [Nat.eqb] in M. exact M.
  - intros phi. rewrite V. apply c35_split.
  - exact V.
Qed.

(* ---------- C89: power balance ---------- *)
Lemma ls_constant A b x (k : vec) : minimises A b x -> (forall i, (i < m_n A)%nat -> rsum (m_m A) (fun j => m_at A i j * k j) = 1) ->
  rsum (m_n A) (fun i => rsum (m_m A) (fun j => m_at A i j * x j)) = rsum (m_n A) b.
Proof.
  intros M K. assert (Z : rsum (m_n A) (fun i => b i - rsum (m_m A) (fun j => m_at A i j * x j)) = 0).
  { rewrite (rsum_ext _ _ (fun i => rsum (m_m A) (fun j => k j * ((b i - rsum (m_m A) (fun l => m_at A i l * x l)) * m_at A i j)))).
    2:{ intros i I. set (d := b i - _). transitivity (d * rsum (m_m A) (fun j => m_at A i j * k j)); [rewrite (K i I); ring |]. rewrite <- rsum_scale. apply rsum_ext. intros j _. ring. }
    rewrite rsum_swap. apply rsum_zero. intros j J. rewrite rsum_scale, (normal_equations A b x j M J). ring. }
  rewrite rsum_minus in Z. lra.
Qed.
(** Averaged over the samples, the modelled power is at least the mean squared error, and equal to it
    unless a variance had to be clamped. *)
Lemma c89_power_balance lstsq signal f n base mi tol r : least_squares lstsq -> (2 <= length signal)%nat -> rearrange_error_by_phase lstsq signal f n base mi tol = Ok r ->
  exists total, p_total_v r = Fin total /\ 0 <= total /\ INR (length signal) * total ^ 2 = rsum (length signal) (fun t => nth t (p_error r) 0 ^ 2) /\
  INR (length signal) * total ^ 2 <= rsum (length signal) (fun t => am_pm_power (p_variances r) (nth t (p_phase r) 0)) /\
  exists a b, p_variances r = (if base then am_pm_split a b else (Rmax 0 a, Rmax 0 b, 0)) /\
    ((if base then Rabs a <= b else 0 <= a /\ 0 <= b) -> rsum (length signal) (fun t => am_pm_power (p_variances r) (nth t (p_phase r) 0)) = INR (length signal) * total ^ 2).
Proof.
  intros L N E. destruct (by_phase_inv _ _ _ _ _ _ _ _ E) as (fit & FE & _ & PE & PP & V & _ & _ & _ & _ & _ & _ & _ & T & _).
  assert (LP : length (p_phase r) = length signal) by (rewrite PP, map_length, seq_length; reflexivity).
  assert (LE : length (p_error r) = length signal) by (rewrite PE, map2_length; [reflexivity | symmetry; apply (fitted_length _ _ _ _ _ _ FE)]).
  set (sq := map (fun e => e ^ 2) (p_error r)) in *. assert (LS : length sq = length signal) by (unfold sq; rewrite map_length; exact LE).
  assert (SQ : forall t, (t < length signal)%nat -> nth t sq 0 = nth t (p_error r) 0 ^ 2) by (intros t Ht; unfold sq; rewrite (nth_map_in _ _ _ 0) by lia; reflexivity).
  assert (NP : 0 < INR (length signal)) by (apply lt_0_INR; lia).
  exists (sqrt (lmean sq)). split; [rewrite T; destruct sq; [cbn in LS; lia | reflexivity] |]. split; [apply sqrt_pos |].
  assert (QN : 0 <= rsum (length signal) (fun t => nth t (p_error r) 0 ^ 2)) by (apply rsum_nonneg; intros; apply pow2_ge_0).
  assert (LM : lmean sq = rsum (length signal) (fun t => nth t (p_error r) 0 ^ 2) / INR (length signal)) by (rewrite lmean_rsum, LS; f_equal; apply rsum_ext; exact SQ).
  assert (TT : INR (length signal) * sqrt (lmean sq) ^ 2 = rsum (length signal) (fun t => nth t (p_error r) 0 ^ 2)) by (rewrite LM, pow2_sqrt by (apply Rdiv_le_0_compat; assumption); field; lra).
  split; [exact TT |]. rewrite TT.
  assert (BAL : exists a b, p_variances r = (if base then am_pm_split a b else (Rmax 0 a, Rmax 0 b, 0)) /\
    rsum (length signal) (fun t => nth t (p_error r) 0 ^ 2) = rsum (length signal) (fun t => if base then a * cos (2 * nth t (p_phase r) 0) + b else a * cos (nth t (p_phase r) 0) ^ 2 + b * sin (nth t (p_phase r) 0) ^ 2)).
  { unfold phase_variances in V. destruct base.
    - set (X := cos2_design (map wrap2pi (p_phase r))) in V. set (co := lstsq X (fun i => nth i sq 0)) in V. exists (co 0%nat), (co 1%nat). split; [exact V |].
      assert (MIN : minimises X (fun i => nth i sq 0) co) by (intros z; apply L).
      assert (MN : m_n X = length signal) by (unfold X, cos2_design, of_cols; cbn [m_n]; rewrite map_length; exact LP).
      pose proof (ls_constant X _ co (fun j => if (j =? 1)%nat then 1 else 0) MIN) as Q. rewrite MN in Q.
      rewrite (rsum_ext _ (fun t => nth t (p_error r) 0 ^ 2) (fun i => nth i sq 0)) by (intros t Ht; symmetry; apply SQ; exact Ht). rewrite <- Q.
      + apply rsum_ext. intros t Ht. unfold X, cos2_design, of_cols. cbn [m_m m_at length rsum nth]. rewrite (nth_map_in _ _ _ 0) by lia. rewrite !cos_double. destruct (wrap2pi_cos (nth t (p_phase r) 0)) as (-> & ->). ring.
      + intros t Ht. unfold X, cos2_design, of_cols. cbn [m_m m_at length rsum nth Nat.eqb]. ring.
    - unfold fit_error_phase in V. rewrite LS in V. assert (N2 : (length signal <? 2)%nat = false) by (apply Nat.ltb_ge; exact N). rewrite N2 in V.
      set (X := phase_design false (map wrap2pi (p_phase r))) in V. set (co := lstsq X (fun i => nth i sq 0)) in V. exists (co 0%nat), (co 1%nat). split; [exact V |].
      assert (MIN : minimises X (fun i => nth i sq 0) co) by (intros z; apply L).
      assert (MN : m_n X = length signal) by (unfold X, phase_design, of_cols; cbn [m_n]; rewrite map_length; exact LP).
      pose proof (ls_constant X _ co (fun _ => 1) MIN) as Q. rewrite MN in Q.
      rewrite (rsum_ext _ (fun t => nth t (p_error r) 0 ^ 2) (fun i => nth i sq 0)) by (intros t Ht; symmetry; apply SQ; exact Ht). rewrite <- Q.
      + apply rsum_ext. intros t Ht. unfold X, phase_design, of_cols. cbn [m_m m_at length rsum nth app]. rewrite (nth_map_in _ _ _ 0) by lia. destruct (wrap2pi_cos (nth t (p_phase r) 0)) as (-> & ->). ring.
      + intros t Ht. unfold X, phase_design, of_cols. cbn [m_m m_at length rsum nth app]. rewrite cs1. ring. }
  destruct BAL as (a & b & EV & EB). split; [| exists a, b; split; [exact EV |]].
  - rewrite EB. apply rsum_le. intros t Ht. rewrite EV. destruct base.
    + destruct (c35_split a b) as (_ & _ & _ & _ & _ & _ & P & _). rewrite P. pose proof (Rmax_l 0 (Rabs a - b)). lra.
    + unfold am_pm_power. pose proof (Rmax_r 0 a). pose proof (Rmax_r 0 b). pose proof (pow2_ge_0 (cos (nth t (p_phase r) 0))). pose proof (pow2_ge_0 (sin (nth t (p_phase r) 0))). nra.
  - intros C. rewrite EB. apply rsum_ext. intros t Ht. rewrite EV. destruct base.
    + apply c35_split. exact C.
    + unfold am_pm_power. destruct C as (C1 & C2). rewrite !Rmax_right by assumption. ring.
Qed.
(* ---------- C90: what is recovered ---------- *)
Lemma two_point a b a' b' x y : x <> y -> a * x + b = a' * x + b' -> a * y + b = a' * y + b' -> a = a' /\ b = b'.
Proof. intros D H1 H2. assert (Q : (a - a') * (x - y) = 0) by lra. apply Rmult_integral in Q. destruct Q as [Q | Q]; [| exfalso; apply D; lra]. assert (a = a') by lra. subst a'. split; [reflexivity | lra]. Qed.
(** If the squared error follows the noise model exactly, with samples at two different sensitivities, then
    without base noise both variances are recovered; with base noise the common part of AM and PM is
    reported as base noise and only the difference as AM or PM. *)
Lemma c90_recovery lstsq signal f n base mi tol r am pm b0 : least_squares lstsq -> (2 <= length signal)%nat -> rearrange_error_by_phase lstsq signal f n base mi tol = Ok r ->
  0 <= am -> 0 <= pm -> 0 <= b0 -> (forall t, (t < length signal)%nat -> nth t (p_error r) 0 ^ 2 = am_pm_power (am, pm, b0) (nth t (p_phase r) 0)) ->
  (exists s t, (s < length signal)%nat /\ (t < length signal)%nat /\ cos (nth s (p_phase r) 0) ^ 2 <> cos (nth t (p_phase r) 0) ^ 2) ->
  (base = false -> b0 = 0 -> p_variances r = (am, pm, 0)) /\
  (base = true -> p_variances r = (Rmax (am - pm) 0, Rmax (pm - am) 0, b0 + Rmin am pm)).
Proof.
  intros L N E A P B H (s & t & S & T & D). destruct (by_phase_inv _ _ _ _ _ _ _ _ E) as (fit & FE & _ & PE & PP & V & _).
  assert (LP : length (p_phase r) = length signal) by (rewrite PP, map_length, seq_length; reflexivity).
  assert (LE : length (p_error r) = length signal) by (rewrite PE, map2_length; [reflexivity | symmetry; apply (fitted_length _ _ _ _ _ _ FE)]).
  set (sq := map (fun e => e ^ 2) (p_error r)) in *. assert (LS : length sq = length signal) by (unfold sq; rewrite map_length; exact LE).
  assert (SQ : forall i, (i < length signal)%nat -> nth i sq 0 = am * cos (nth i (p_phase r) 0) ^ 2 + pm * sin (nth i (p_phase r) 0) ^ 2 + b0) by (intros i Hi; unfold sq; rewrite (nth_map_in _ _ _ 0) by lia; apply H; exact Hi).
  unfold phase_variances in V. split.
  - intros -> ->. unfold fit_error_phase in V. rewrite LS in V. assert (N2 : (length signal <? 2)%nat = false) by (apply Nat.ltb_ge; exact N). rewrite N2 in V.
    set (X := phase_design false (map wrap2pi (p_phase r))) in V. set (co := lstsq X (fun i => nth i sq 0)) in V.
    assert (MN : m_n X = length signal) by (unfold X, phase_design, of_cols; cbn [m_n]; rewrite map_length; exact LP).
    assert (MV : forall (x : vec) i, (i < length signal)%nat -> mv X x i = cos (nth i (p_phase r) 0) ^ 2 * x 0%nat + sin (nth i (p_phase r) 0) ^ 2 * x 1%nat).
    { intros x i Hi. unfold mv, X, phase_design, of_cols. cbn [m_m m_at length rsum nth app]. rewrite (nth_map_in _ _ _ 0) by lia. destruct (wrap2pi_cos (nth i (p_phase r) 0)) as (-> & ->). ring. }
    assert (EX : forall i, (i < length signal)%nat -> mv X co i = nth i sq 0).
    { rewrite <- MN. apply (least_squares_exact lstsq X (fun i => nth i sq 0) (fun j => if (j =? 0)%nat then am else pm) L). rewrite MN. intros i Hi. rewrite MV, SQ by exact Hi. cbn [Nat.eqb]. ring. }
    pose proof (EX s S) as E1. pose proof (EX t T) as E2. rewrite MV, SQ, cs1 in E1 by exact S. rewrite MV, SQ, cs1 in E2 by exact T.
    destruct (two_point (co 0%nat - co 1%nat) (co 1%nat) (am - pm) pm _ _ D) as (Q1 & Q2); [lra | lra |]. cbn [fst snd] in V. rewrite V. assert (co 0%nat = am) as -> by lra. rewrite Q2. rewrite !Rmax_right by assumption. reflexivity.
  - intros ->. set (X := cos2_design (map wrap2pi (p_phase r))) in V. set (co := lstsq X (fun i => nth i sq 0)) in V.
    assert (MN : m_n X = length signal) by (unfold X, cos2_design, of_cols; cbn [m_n]; rewrite map_length; exact LP).
    assert (MV : forall (x : vec) i, (i < length signal)%nat -> mv X x i = cos (2 * nth i (p_phase r) 0) * x 0%nat + x 1%nat).
    { intros x i Hi. unfold mv, X, cos2_design, of_cols. cbn [m_m m_at length rsum nth]. rewrite (nth_map_in _ _ _ 0) by lia. rewrite !cos_double. destruct (wrap2pi_cos (nth i (p_phase r) 0)) as (-> & ->). ring. }
    assert (EX : forall i, (i < length signal)%nat -> mv X co i = nth i sq 0).
    { rewrite <- MN. apply (least_squares_exact lstsq X (fun i => nth i sq 0) (fun j => if (j =? 0)%nat then (am - pm) / 2 else (am + pm) / 2 + b0) L). rewrite MN. intros i Hi. rewrite MV, SQ, cos_double, cs1 by exact Hi. cbn [Nat.eqb]. field. }
    pose proof (EX s S) as E1. pose proof (EX t T) as E2. rewrite MV, SQ, cos_double, cs1 in E1 by exact S. rewrite MV, SQ, cos_double, cs1 in E2 by exact T.
    destruct (two_point (2 * co 0%nat) (co 1%nat - co 0%nat) (am - pm) (pm + b0) _ _ D) as (Q1 & Q2); [lra | lra |].
    rewrite V. unfold am_pm_split. destruct (Rltb_spec 0 (co 0%nat)) as [G | G]; [| destruct (Rltb_spec (co 0%nat) 0) as [G' | G']].
    + rewrite (Rmax_left (am - pm) 0), (Rmax_right (pm - am) 0), Rmin_right, !Rmax_right by lra. apply f_equal2; [apply f_equal2 |]; lra.
    + rewrite (Rmax_right (am - pm) 0), (Rmax_left (pm - am) 0), Rmin_left, !Rmax_right by lra. apply f_equal2; [apply f_equal2 |]; lra.
    + assert (am = pm) by lra. subst am. rewrite (Rmax_right (pm - pm) 0), Rmin_left, Rmax_right by lra. apply f_equal2; [apply f_equal2 |]; lra.
Qed.

(* ---------- C91: coefficient of determination ---------- *)
Lemma lsum_map2_rsum g y p : length y = length p -> lsum (map2 g y p) = rsum (length y) (fun i => g (nth i y 0) (nth i p 0)).
Proof. intros L. rewrite lsum_rsum, map2_length by exact L. apply rsum_ext. intros i I. apply map2_nth; lia. Qed.
(** r_squared_raw lies between 0 and 1. *)
Lemma c91_r2_raw lstsq signal f n base mi tol r : least_squares lstsq -> rearrange_error_by_phase lstsq signal f n base mi tol = Ok r -> 0 <= p_r2_raw r <= 1.
Proof.
  intros L E. destruct (by_phase_inv _ _ _ _ _ _ _ _ E) as (fit & FE & _ & PE & PP & _ & _ & _ & _ & _ & _ & _ & _ & _ & R & _). rewrite R. clear R.
  assert (LP : length (p_phase r) = length signal) by (rewrite PP, map_length, seq_length; reflexivity).
  assert (LE : length (p_error r) = length signal) by (rewrite PE, map2_length; [reflexivity | symmetry; apply (fitted_length _ _ _ _ _ _ FE)]).
  set (phi := map wrap2pi (p_phase r)). set (y := map (fun e => e ^ 2) (p_error r)).
  assert (LEN : length phi = length y) by (unfold phi, y; rewrite !map_length; congruence). clearbody phi y. clear - L LEN.
  unfold fit_error_phase. destruct (Nat.ltb_spec (length y) 2); [cbn [snd]; lra |]. cbn [snd]. set (X := phase_design base phi). set (co := lstsq X (fun i => nth i y 0)).
  unfold r_squared. destruct (Rltb_spec (1 / 10 ^ 20) (lsum (map (fun a => (a - lmean y) ^ 2) y))) as [G | G]; [| lra].
  set (tot := lsum (map (fun a => (a - lmean y) ^ 2) y)) in *. assert (TP : 0 < tot) by (eapply Rlt_trans; [| exact G]; apply Rdiv_lt_0_compat; [lra | apply pow_lt; lra]).
  set (res := lsum (map2 _ _ _)).
  assert (MN : m_n X = length y) by (unfold X, phase_design, of_cols; cbn [m_n]; exact LEN).
  assert (RE : res = rsum (m_n X) (fun i => (rsum (m_m X) (fun j => m_at X i j * co j) - nth i y 0) ^ 2)).
  { unfold res. rewrite lsum_map2_rsum by (rewrite map_length, seq_length; reflexivity). rewrite MN. apply rsum_ext. intros i I. rewrite (nth_map_in _ _ _ 0%nat) by (rewrite seq_length; exact I). rewrite seq_nth by exact I. cbn [Nat.add]. unfold mv. ring. }
  assert (R0 : 0 <= res) by (rewrite RE; apply rsum_nonneg; intros; apply pow2_ge_0).
  assert (R1 : res <= tot).
  { rewrite RE. eapply Rle_trans; [apply (L X (fun i => nth i y 0) (fun j => if base then (if (j =? 2)%nat then lmean y else 0) else lmean y)) |]. apply Req_le. unfold tot. rewrite (lsum_map_rsum _ _ 0), MN. apply rsum_ext. intros i I.
    unfold X, phase_design, of_cols. destruct base; cbn [m_m m_at length rsum nth app Nat.eqb]; [ring |]. rewrite cs1. ring. }
  assert (Q0 : 0 <= res / tot) by (apply Rdiv_le_0_compat; assumption). assert (Q1 : res / tot <= 1) by (apply Rdiv_le_upper; lra). lra.
Qed.
(** r_squared_binned never exceeds 1. *)
Lemma c91_r2_binned lstsq signal f n base mi tol r : rearrange_error_by_phase lstsq signal f n base mi tol = Ok r -> p_r2_binned r <= 1.
Proof.
  intros E. destruct (by_phase_inv _ _ _ _ _ _ _ _ E) as (fit & _ & _ & _ & _ & _ & _ & _ & _ & _ & _ & _ & _ & _ & _ & R & _). rewrite R. unfold r_squared_binned. destruct (p_variances r) as [[am pm] b0]. cbv zeta.
  destruct (_ <? _)%nat; [| lra]. set (actual := map (fun b => match bin_rms (p_bins r) (p_error r) b with Fin x => x ^ 2 | _ => 0 end) _). set (pred := map (fun b => am * _ + _ + b0) _). set (res := lsum (map2 _ actual pred)). set (tot := lsum (map (fun a => (a - lmean actual) ^ 2) actual)).
  assert (R0 : 0 <= res) by (unfold res; apply lsum_nonneg; clearbody actual pred; clear; revert pred; induction actual as [| a l IH]; intros [| b p]; cbn [map2]; constructor; [apply pow2_ge_0 | apply IH]).
  destruct (Rltb_spec (1 / 10 ^ 20) tot) as [G | G]; cbn [andb].
  - assert (TP : 0 < tot) by (eapply Rlt_trans; [| exact G]; apply Rdiv_lt_0_compat; [lra | apply pow_lt; lra]). destruct (Rltb (1 / 100 * lmean actual ^ 2 * INR (length actual)) tot).
    + assert (0 <= res / tot) by (apply Rdiv_le_0_compat; assumption). lra.
    + apply Rmax_lub; [lra |]. match goal with |- 1 - ?x ^ 2 <= 1 => pose proof (pow2_ge_0 x) end. lra.
  - apply Rmax_lub; [lra |]. match goal with |- 1 - ?x ^ 2 <= 1 => pose proof (pow2_ge_0 x) end. lra.
Qed.

(* ---------- C92: phase bins ---------- *)
Lemma map_combine {A B} (l : list A) (q : list B) : length l = length q -> map fst (combine l q) = l /\ map snd (combine l q) = q.
Proof. revert q. induction l as [| x l IH]; intros [| z q] Q; cbn in *; try lia; [split; reflexivity |]. destruct (IH q) as (-> & ->); [lia |]. split; reflexivity. Qed.
(** Every sample lies in the bin of its phase, at most half a bin width from the bin centre, and the
    statistics of each bin are those of its samples; the counts add up to the number of samples.  n_bins must be positive. *)
Lemma c92_phase_bins lstsq signal f n base mi tol r : rearrange_error_by_phase lstsq signal f n base mi tol = Ok r ->
  (0 < n)%Z /\ length (p_bins r) = length signal /\
  (forall t, (t < length signal)%nat -> exists turns : Z, (nth t (p_bins r) 0 < Z.to_nat n)%nat /\
     let d := nth t (p_phase r) 0 - 2 * PI * IZR turns - nth (nth t (p_bins r) 0%nat) (p_centers r) 0 in - (PI / IZR n) <= d < PI / IZR n) /\
  (forall b, (b < Z.to_nat n)%nat -> nth b (p_centers r) 0 = 2 * PI * (INR b + 1 / 2) / IZR n /\
     bin_statistics (length signal) (fun i => (nth i (p_bins r) 0 =? b)%nat) (fun i => nth i (p_error r) 0) (nth b (p_counts r) 0%nat) (nth b (p_bin_mean r) PInf) (nth b (p_bin_rms r) PInf)) /\
  rsum (Z.to_nat n) (fun b => INR (nth b (p_counts r) 0%nat)) = INR (length signal).
Proof.
  intros E. destruct (by_phase_inv _ _ _ _ _ _ _ _ E) as (fit & FE & NP & PE & PP & _ & PB & _ & _ & _ & _ & _ & _ & _ & _ & _ & BR & BM & PC & CN).
  assert (LP : length (p_phase r) = length signal) by (rewrite PP, map_length, seq_length; reflexivity).
  assert (LE : length (p_error r) = length signal) by (rewrite PE, map2_length; [reflexivity | symmetry; apply (fitted_length _ _ _ _ _ _ FE)]).
  assert (LB : length (p_bins r) = length signal) by (rewrite PB, !map_length; exact LP).
  assert (NR : 0 < IZR n) by (apply (IZR_lt 0); exact NP). pose proof PI_RGT_0 as PI0.
  assert (BT : forall t, (t < length signal)%nat -> nth t (p_bins r) 0%nat = phase_bin n (wrap2pi (nth t (p_phase r) 0))).
  { intros t T. rewrite PB, (nth_map_in _ _ _ 0) by (rewrite map_length; lia). rewrite (nth_map_in _ _ _ 0) by lia. reflexivity. }
  assert (CT : forall b, (b < Z.to_nat n)%nat -> nth b (p_centers r) 0 = 2 * PI * (INR b + 1 / 2) / IZR n).
  { intros b B. rewrite PC, (nth_map_in _ _ _ 0%nat) by (rewrite seq_length; exact B). rewrite seq_nth by exact B. cbn [Nat.add]. unfold phase_center. field. lra. }
  assert (BL : forall t, (t < length signal)%nat -> (nth t (p_bins r) 0 < Z.to_nat n)%nat) by (intros t T; rewrite BT by exact T; apply clip_bin_lt; exact NP).
  assert (ST : forall b, (b < Z.to_nat n)%nat -> bin_statistics (length signal) (fun i => (nth i (p_bins r) 0 =? b)%nat) (fun i => nth i (p_error r) 0) (nth b (p_counts r) 0%nat) (nth b (p_bin_mean r) PInf) (nth b (p_bin_rms r) PInf)).
  { intros b B. rewrite CN, BM, BR, !(nth_map_in _ _ _ 0%nat) by (rewrite seq_length; exact B). rewrite seq_nth by exact B. cbn [Nat.add].
    pose proof (filtered_statistics (fun _ => true) (p_bins r) (p_error r) b ltac:(congruence)) as S. cbv zeta in S.
    assert (FT : forall l : list (nat * R), filter (fun _ => true) l = l) by (induction l as [| x l IH]; cbn; congruence).
    rewrite FT in S. destruct (map_combine (p_bins r) (p_error r) ltac:(congruence)) as (F1 & F2).
    rewrite F1, F2, LB in S. cbn [andb] in S. exact S. }
  split; [exact NP |]. split; [exact LB |]. split; [| split].
  - intros t T. exists (Zfloor (nth t (p_phase r) 0 / (2 * PI))). split; [apply BL; exact T |]. cbv zeta. rewrite CT by (apply BL; exact T). rewrite BT by exact T.
    fold (wrap2pi (nth t (p_phase r) 0)). set (w := wrap2pi (nth t (p_phase r) 0)). pose proof (wrap2pi_range (nth t (p_phase r) 0)) as W. fold w in W.
    unfold phase_bin, clip_bin. set (k := Zfloor (w / (2 * PI / IZR n))). pose proof (Zfloor_lb (w / (2 * PI / IZR n))) as K1. pose proof (Zfloor_ub (w / (2 * PI / IZR n))) as K2. fold k in K1, K2.
    replace (w / (2 * PI / IZR n)) with (w * IZR n / (2 * PI)) in K1, K2 by (field; lra).
    assert (X : w * IZR n / (2 * PI) * (2 * PI) = w * IZR n) by (field; lra). set (u := w * IZR n / (2 * PI)) in *.
    assert (U0 : 0 <= u) by (unfold u; apply Rdiv_le_0_compat; [apply Rmult_le_pos; lra | lra]). assert (U1 : u < IZR n) by (apply (Rmult_lt_reg_r (2 * PI)); [lra |]; rewrite X, Rmult_comm; apply Rmult_lt_compat_l; lra).
    assert (KR : (0 <= k < n)%Z). { split; [apply Zlt_succ_le; apply lt_IZR; rewrite succ_IZR; change (IZR 0) with 0; lra | apply lt_IZR; lra]. }
    rewrite INR_IZR_INZ, Z2Nat.id by lia. replace (Z.min (Z.max k 0) (n - 1)) with k by lia.
    replace (w - 2 * PI * (IZR k + 1 / 2) / IZR n) with (2 * PI * (u - IZR k - 1 / 2) / IZR n) by (unfold u; field; lra).
    split.
    + replace (- (PI / IZR n)) with (2 * PI * (- (1 / 2)) / IZR n) by (field; lra). unfold Rdiv. apply Rmult_le_compat_r; [left; apply Rinv_0_lt_compat; exact NR |]. apply Rmult_le_compat_l; lra.
    + replace (PI / IZR n) with (2 * PI * (1 / 2) / IZR n) by (field; lra). unfold Rdiv. apply Rmult_lt_compat_r; [apply Rinv_0_lt_compat; exact NR |]. apply Rmult_lt_compat_l; lra.
  - intros b B. split; [apply CT; exact B | apply ST; exact B].
  - rewrite (rsum_ext _ _ (fun b => total_in (length signal) (fun i => (nth i (p_bins r) 0 =? b)%nat) (fun _ => 1))) by (intros b B; exact (proj1 (ST b B))).
    unfold total_in. rewrite rsum_swap. rewrite (rsum_ext _ _ (fun _ => 1)); [rewrite rsum_const; ring |]. intros i I.
    rewrite (rsum_single _ (nth i (p_bins r) 0%nat)); [rewrite Nat.eqb_refl; reflexivity | apply BL; exact I |]. intros b _ D. apply Nat.neq_sym, Nat.eqb_neq in D. rewrite D. reflexivity.
Qed.
(** A bin count that is not positive is refused: 0 with ZeroDivisionError, negative with ValueError. *)
Lemma c92_bin_count lstsq signal x n base mi tol : ((0 < n)%Z -> exists r, rearrange_error_by_phase lstsq signal (Some x) n base mi tol = Ok r) /\
  rearrange_error_by_phase lstsq signal (Some x) 0 base mi tol = Err ZeroDivisionError /\ ((n < 0)%Z -> rearrange_error_by_phase lstsq signal (Some x) n base mi tol = Err ValueError).
Proof.
  unfold rearrange_error_by_phase. destruct (c52_failure lstsq signal (Some x) mi tol) as [(r & ->) | (_ & H & _)]; [| discriminate]. cbn [bind]. cbv zeta.
  destruct (phase_variances _ _ _ _) as [[am pm] b0]. split; [| split; [reflexivity |]]; intros N; destruct (Z.eqb_spec n 0); try lia; destruct (Z.ltb_spec n 0); try lia; cbn [raise_if]; [eexists |]; reflexivity.
Qed.

(* ---------- examples and counterexamples ---------- *)
Lemma round_he_IZR k : round_he (IZR k) = k.
Proof. apply Znearest_imp. replace (IZR k - IZR k) with 0 by ring. rewrite Rabs_R0. lra. Qed.
(** Eight samples at -1, 0 and 1 sorted into three bins; the error is the signal itself. *)
Lemma c34_statistics_ex : exists r, rearrange_error_by_value gs_lstsq acf_record (Some (1 / 4)) (Some 3%Z) 0 (Some (-1, 1)) 0 (1 / 10 ^ 9) = Ok r /\
  v_bins r = [2; 1; 1; 0; 0; 1; 1; 2]%nat /\ v_counts r = [2; 4; 2]%nat /\ v_mean r = [Fin (-1); Fin 0; Fin 1] /\ v_centers r = [-1; 0; 1].
Proof.
  destruct acf_record_fit as (fit & E & Q). unfold rearrange_error_by_value. change (length acf_record =? 0)%nat with false. cbn [raise_if]. cbv zeta. change (3 <=? 0)%Z with false. cbn [raise_if].
  destruct (Rltb_spec 0 0) as [H | _]; [lra |]. cbn [raise_if]. destruct (Rleb_spec 1 (-1)) as [H | _]; [lra |]. cbn [raise_if infer_signal_range]. destruct (Rleb_spec 1 (-1)) as [H | _]; [lra |]. cbn [raise_if].
  rewrite E. cbn [bind andb raise_if]. rewrite Q.
  assert (VB : forall k : Z, value_bin 3 (-1) 1 (IZR k) = clip_bin 3 (k + 1)).
  { intros k. unfold value_bin. destruct (Reqb_spec (1 - -1) 0); [lra |]. f_equal. change (IZR (3 - 1)) with 2. replace ((IZR k - -1) * (2 / (1 - -1))) with (IZR (k + 1)) by (rewrite plus_IZR; field). apply round_he_IZR. }
  assert (VV : forall k, value_valid 3 0 k = true) by (intros k; unfold value_valid; destruct (Rltb_spec 0 0); [lra | reflexivity]).
  assert (B : map (value_bin 3 (-1) 1) acf_record = [2; 1; 1; 0; 0; 1; 1; 2]%nat).
  { unfold acf_record. cbn [map]. rewrite (VB 1%Z), (VB 0%Z), (VB (-1)%Z). reflexivity. }
  rewrite B. cbn [existsb]. rewrite !VV. cbn [orb negb raise_if]. unfold acf_record at 1 2 3 4 5. cbn [combine]. cbn [filter fst]. rewrite !VV. cbn [map fst snd].
  eexists. split; [reflexivity |]. cbn [v_bins v_counts v_mean v_centers]. split; [reflexivity |]. change (Z.to_nat 3) with 3%nat. cbn [seq map]. split; [reflexivity |]. split.
  - unfold bin_mean, bin_count, bin_sum. cbn. repeat (apply f_equal2; [f_equal; lra |]). reflexivity.
  - unfold value_center. change (3 =? 1)%Z with false. cbv iota. change (IZR (3 - 1)) with 2. cbn [INR]. repeat (apply f_equal2; [lra |]). reflexivity.
Qed.
(** A clip setting that removes every bin is refused, as is a constant large signal. *)
Lemma c34_accepts_ex : rearrange_error_by_value gs_lstsq acf_record (Some (1 / 4)) (Some 4%Z) (1 / 2) None 0 1 = Err ValueError /\ rearrange_error_by_value gs_lstsq [5; 5; 5] (Some (1 / 4)) None 0 None 0 1 = Err ValueError.
Proof.
  split; apply c34_accepts; unfold value_inputs_ok, bins_of.
  - intros (_ & _ & _ & _ & _ & H & _). replace (IZR 4 * (1 / 2)) with (IZR 2) in H by field. rewrite Zfloor_IZR in H. lia.
  - intros (_ & _ & _ & H & _). destruct (c88_inferred [5; 5; 5]) as (_ & (_ & A & B) & _); [congruence | exists 5; split; [left; reflexivity | rewrite Rabs_pos_eq; lra] |].
    set (q := infer_signal_range [5; 5; 5] None) in *. clearbody q. cbn in A, B. lra.
Qed.
Lemma c35_split_ex : am_pm_split (1 / 4) (1 / 2) = (1 / 2, 0, 1 / 4) /\ am_pm_split (- (1 / 4)) (1 / 8) = (0, 1 / 2, 0).
Proof.
  unfold am_pm_split. split.
  - destruct (Rltb_spec 0 (1 / 4)); [| lra]. rewrite !Rmax_right by lra. apply f_equal2; [apply f_equal2 |]; lra.
  - destruct (Rltb_spec 0 (- (1 / 4))); [lra |]. destruct (Rltb_spec (- (1 / 4)) 0); [| lra]. rewrite (Rmax_right 0 (-2 * _)), Rmax_left by lra. apply f_equal2; [apply f_equal2 |]; lra.
Qed.
Lemma Carg00 : Carg (0, 0) = 0.
Proof. unfold Carg. cbn [Re Im fst snd]. destruct (Rltb_spec 0 0); [lra | reflexivity]. Qed.
(** When the fit leaves the signal alone, phases are multiples of the step. *)
Lemma unfitted_phase lstsq signal f n base tol r : least_squares lstsq -> 0 < f < 1 / 2 -> (3 <= length signal)%nat ->
  rsum (length signal) (fun t => nth t signal 0 * cos (2 * PI * f * INR t)) = 0 -> rsum (length signal) (fun t => nth t signal 0 * sin (2 * PI * f * INR t)) = 0 -> rsum (length signal) (fun t => nth t signal 0) = 0 ->
  rearrange_error_by_phase lstsq signal (Some f) n base 0 tol = Ok r -> p_error r = signal /\ forall t, (t < length signal)%nat -> nth t (p_phase r) 0 = 2 * PI * f * INR t.
Proof.
  intros L F N C S D E. destruct (orth_zero_fit lstsq signal f tol L F N C S D) as (fit & EF & _ & PH & _ & FR & _ & Q). destruct (by_phase_inv _ _ _ _ _ _ _ _ E) as (fit' & EF' & _ & PE & PP & _). assert (fit' = fit) by congruence. subst fit'.
  split; [congruence |]. intros t T. rewrite PP, (nth_map_in _ _ _ 0%nat) by (rewrite seq_length; exact T). rewrite seq_nth by exact T. cbn [Nat.add]. rewrite FR, PH, Carg00. ring.
Qed.
(** Two opposite impulses, 16 samples, tone at an eighth of the sampling rate: the reported AM power is
    twice the measured error power (the fitted power is negative at some phases). *)
Definition pulses : list R := [1; 0; 0; 0; 0; 0; 0; 0; -1; 0; 0; 0; 0; 0; 0; 0].
Lemma eighth_cos t : cos (2 * (2 * PI * (1 / 8) * INR t)) = cos (INR t * (PI / 2)). Proof. f_equal. field. Qed.
Lemma c89_balance_refuted : exists signal f n r, rearrange_error_by_phase gs_lstsq signal (Some f) n true 0 (1 / 10 ^ 9) = Ok r /\
  rsum (length signal) (fun t => nth t (p_error r) 0 ^ 2) = 2 /\ rsum (length signal) (fun t => am_pm_power (p_variances r) (nth t (p_phase r) 0)) = 4.
Proof.
  exists pulses, (1 / 8), 4%Z. destruct (proj1 (c92_bin_count gs_lstsq pulses (1 / 8) 4 true 0 (1 / 10 ^ 9)) ltac:(lia)) as (r & E). exists r. split; [exact E |].
  assert (PI16 : cos (2 * PI * (1 / 8) * INR 8) = 1 /\ sin (2 * PI * (1 / 8) * INR 8) = 0).
  { replace (2 * PI * (1 / 8) * INR 8) with (2 * PI) by (cbn; field). split; [apply cos_2PI | apply sin_2PI]. }
  destruct (unfitted_phase gs_lstsq pulses (1 / 8) 4 true (1 / 10 ^ 9) r gs_least_squares) as (PE & PH); [lra | cbn; lia | | | | exact E |].
  { change (length pulses) with 16%nat. unfold pulses. cbn [rsum nth]. rewrite (proj1 PI16). change (INR 0) with 0. rewrite Rmult_0_r, cos_0. lra. }
  { change (length pulses) with 16%nat. unfold pulses. cbn [rsum nth]. rewrite (proj2 PI16). change (INR 0) with 0. rewrite Rmult_0_r, sin_0. lra. }
  { cbn. lra. }
  rewrite PE. split; [cbn; lra |].
  destruct (c35_reproduces _ _ _ _ _ _ _ gs_least_squares E) as (A & B & MIN & POW & _). rewrite PE in MIN.
  assert (SUM : forall a b, rsum (length pulses) (fun t => (a * cos (2 * nth t (p_phase r) 0) + b - nth t pulses 0 ^ 2) ^ 2) = 8 * (a - 1 / 4) ^ 2 + 16 * (b - 1 / 8) ^ 2 + 5 / 4).
  { intros a b. rewrite (rsum_ext _ _ (fun t => (a * qcos t + b - nth t pulses 0 ^ 2) ^ 2)).
    2:{ intros t T. rewrite PH by exact T. rewrite eighth_cos, (proj1 (quarter_trig t)). reflexivity. }
    change (length pulses) with 16%nat. unfold pulses. cbn [rsum nth]. unfold qcos. cbn -[pow]. field. }
  pose proof (MIN (1 / 4) (1 / 8)) as M. rewrite !SUM in M.
  assert (A = 1 / 4). { apply Rminus_diag_uniq, sq_zero. pose proof (pow2_ge_0 (A - 1 / 4)). pose proof (pow2_ge_0 (B - 1 / 8)). lra. }
  assert (B = 1 / 8). { apply Rminus_diag_uniq, sq_zero. pose proof (pow2_ge_0 (A - 1 / 4)). pose proof (pow2_ge_0 (B - 1 / 8)). lra. }
  subst A B. rewrite (rsum_ext _ _ (fun t => 1 / 4 * qcos t + 1 / 4)).
  - change (length pulses) with 16%nat. cbn [rsum]. unfold qcos. cbn. lra.
  - intros t T. rewrite POW, PH by exact T. rewrite eighth_cos, (proj1 (quarter_trig t)). rewrite (Rabs_pos_eq (1 / 4)), Rmax_right by lra. lra.
Qed.
(** Amplitude noise and phase noise of equal power: reported as pure base noise. *)
Definition flat_record : list R := [1; 1; 1; 1; -1; -1; -1; -1].
Lemma flat_record_result base : exists r, rearrange_error_by_phase gs_lstsq flat_record (Some (1 / 4)) 4 base 0 (1 / 10 ^ 9) = Ok r /\ p_error r = flat_record /\ (forall t, (t < 8)%nat -> nth t (p_phase r) 0 = 2 * PI * (1 / 4) * INR t).
Proof.
  destruct (proj1 (c92_bin_count gs_lstsq flat_record (1 / 4) 4 base 0 (1 / 10 ^ 9)) ltac:(lia)) as (r & E). exists r. split; [exact E |].
  apply (unfitted_phase gs_lstsq flat_record (1 / 4) 4 base (1 / 10 ^ 9) r gs_least_squares); [lra | cbn; lia | | | | exact E].
  - cbn [length flat_record]. cbn [rsum nth]. rewrite !(fun t => proj1 (quarter_cs t)), !(fun t => proj1 (quarter_trig t)). unfold qcos. cbn. lra.
  - cbn [length flat_record]. cbn [rsum nth]. rewrite !(fun t => proj2 (quarter_cs t)), !(fun t => proj2 (quarter_trig t)). unfold qsin. cbn. lra.
  - cbn. lra.
Qed.
Lemma flat_record_facts r : p_error r = flat_record -> (forall t, (t < 8)%nat -> nth t (p_phase r) 0 = 2 * PI * (1 / 4) * INR t) ->
  (forall t, (t < length flat_record)%nat -> nth t (p_error r) 0 ^ 2 = am_pm_power (1, 1, 0) (nth t (p_phase r) 0)) /\
  (exists s t, (s < length flat_record)%nat /\ (t < length flat_record)%nat /\ cos (nth s (p_phase r) 0) ^ 2 <> cos (nth t (p_phase r) 0) ^ 2).
Proof.
  intros PE PH. split.
  - intros t T. rewrite PE. unfold am_pm_power. rewrite cs1. replace (nth t flat_record 0 ^ 2) with 1; [ring |]. cbn in T. do 8 (destruct t as [| t]; [cbn; ring |]). lia.
  - exists 0%nat, 1%nat. split; [cbn; lia |]. split; [cbn; lia |]. rewrite !PH by lia. rewrite !(fun t => proj1 (quarter_cs t)), !(fun t => proj1 (quarter_trig t)). unfold qcos. cbn. lra.
Qed.
(** With base noise in the model, AM and PM power that are both present are not reported. *)
Lemma c90_both_refuted : exists signal f n r am pm, rearrange_error_by_phase gs_lstsq signal (Some f) n true 0 (1 / 10 ^ 9) = Ok r /\ 0 < am /\ 0 < pm /\
  (forall t, (t < length signal)%nat -> nth t (p_error r) 0 ^ 2 = am_pm_power (am, pm, 0) (nth t (p_phase r) 0)) /\ p_variances r = (0, 0, 1).
Proof.
  destruct (flat_record_result true) as (r & E & PE & PH). destruct (flat_record_facts r PE PH) as (F1 & F2).
  exists flat_record, (1 / 4), 4%Z, r, 1, 1. split; [exact E |]. split; [lra |]. split; [lra |]. split; [exact F1 |].
  destruct (c90_recovery _ flat_record _ _ _ _ _ _ 1 1 0 gs_least_squares ltac:(cbn; lia) E ltac:(lra) ltac:(lra) ltac:(lra) F1 F2) as (_ & R). rewrite (R eq_refl). rewrite !Rmax_right, Rmin_left by lra. apply f_equal2; [reflexivity | lra].
Qed.
(** Without base noise the same record yields both. *)
Lemma c90_recovery_ex : exists r, rearrange_error_by_phase gs_lstsq flat_record (Some (1 / 4)) 4 false 0 (1 / 10 ^ 9) = Ok r /\ p_variances r = (1, 1, 0) /\ p_am_v r = 1 /\ p_pm_v r = 1.
Proof.
  destruct (flat_record_result false) as (r & E & PE & PH). destruct (flat_record_facts r PE PH) as (F1 & F2). exists r. split; [exact E |].
  destruct (c90_recovery _ flat_record _ _ _ _ _ _ 1 1 0 gs_least_squares ltac:(cbn; lia) E ltac:(lra) ltac:(lra) ltac:(lra) F1 F2) as (R & _). specialize (R eq_refl eq_refl). split; [exact R |].
  destruct (by_phase_inv _ _ _ _ _ _ _ _ E) as (fit & _ & _ & _ & _ & _ & _ & A & P & _). rewrite A, P, R. unfold am_of, pm_of. cbn [fst snd]. split; apply sqrt_1.
Qed.
(** Balanced case of the same record: the modelled and measured power agree. *)
Lemma c89_power_balance_ex : exists r, rearrange_error_by_phase gs_lstsq flat_record (Some (1 / 4)) 4 true 0 (1 / 10 ^ 9) = Ok r /\ p_total_v r = Fin 1 /\
  rsum 8 (fun t => am_pm_power (p_variances r) (nth t (p_phase r) 0)) = 8.
Proof.
  destruct (flat_record_result true) as (r & E & PE & PH). destruct (flat_record_facts r PE PH) as (F1 & F2). exists r. split; [exact E |].
  destruct (c90_recovery _ flat_record _ _ _ _ _ _ 1 1 0 gs_least_squares ltac:(cbn; lia) E ltac:(lra) ltac:(lra) ltac:(lra) F1 F2) as (_ & R).
  destruct (c89_power_balance _ flat_record _ _ _ _ _ _ gs_least_squares ltac:(cbn; lia) E) as (tot & T & TN & TE & _). change (length flat_record) with 8%nat in TE. rewrite PE in TE. unfold flat_record in TE. cbn [rsum nth] in TE.
  assert (tot = 1). { replace (INR 8) with 8 in TE by (cbn; lra). assert (8 * tot ^ 2 = 8) by (etransitivity; [exact TE | ring]). nra. } subst tot. split; [exact T |].
  rewrite (R eq_refl). unfold am_pm_power. rewrite !Rmax_right, Rmin_left by lra. cbn [rsum]. ring.
Qed.
Lemma floor_quarters k r : (0 <= r < 1) -> Zfloor (IZR k + r) = k.
Proof. intros H. apply Zfloor_imp. rewrite plus_IZR. lra. Qed.
(** Four bins, tone at a quarter of the sampling rate: two samples in each bin. *)
Lemma c92_phase_bins_ex : exists r, rearrange_error_by_phase gs_lstsq flat_record (Some (1 / 4)) 4 true 0 (1 / 10 ^ 9) = Ok r /\ p_bins r = [0; 1; 2; 3; 0; 1; 2; 3]%nat /\ p_counts r = [2; 2; 2; 2]%nat.
Proof.
  destruct (flat_record_result true) as (r & E & PE & PH). exists r. split; [exact E |]. destruct (by_phase_inv _ _ _ _ _ _ _ _ E) as (fit & _ & _ & _ & PP & _ & PB & _ & _ & _ & _ & _ & _ & _ & _ & _ & _ & _ & _ & CN).
  assert (B : p_bins r = [0; 1; 2; 3; 0; 1; 2; 3]%nat).
  { assert (LP : length (p_phase r) = 8%nat) by (rewrite PP, map_length, seq_length; reflexivity).
    assert (BT : forall t q k, (t < 8)%nat -> (Z.of_nat t = 4 * q + k)%Z -> (0 <= k < 4)%Z -> nth t (p_bins r) 0%nat = Z.to_nat k).
    { intros t q k T D K. rewrite PB, (nth_map_in _ _ _ 0) by (rewrite map_length; lia). rewrite (nth_map_in _ _ _ 0) by lia. rewrite PH by exact T. unfold wrap2pi, phase_bin. pose proof PI_RGT_0.
      assert (IT : INR t = 4 * IZR q + IZR k) by (rewrite INR_IZR_INZ, D, plus_IZR, mult_IZR; reflexivity).
      assert (K0 : 0 <= IZR k) by (apply (IZR_le 0); lia). assert (K1 : IZR k <= 3) by (apply (IZR_le _ 3); lia).
      replace (2 * PI * (1 / 4) * INR t / (2 * PI)) with (IZR q + IZR k / 4) by (rewrite IT; field; lra). rewrite floor_quarters by lra.
      replace ((2 * PI * (1 / 4) * INR t - 2 * PI * IZR q) / (2 * PI / IZR 4)) with (IZR k) by (rewrite IT; field; lra). rewrite Zfloor_IZR. unfold clip_bin. f_equal. lia. }
    apply (nth_ext_eq 0%nat); [rewrite PB, !map_length; exact LP |]. rewrite PB, !map_length, LP, <- PB. intros i I.
    destruct i as [| i]; [apply (BT _ 0%Z 0%Z); lia |]. destruct i as [| i]; [apply (BT _ 0%Z 1%Z); lia |]. destruct i as [| i]; [apply (BT _ 0%Z 2%Z); lia |]. destruct i as [| i]; [apply (BT _ 0%Z 3%Z); lia |].
    destruct i as [| i]; [apply (BT _ 1%Z 0%Z); lia |]. destruct i as [| i]; [apply (BT _ 1%Z 1%Z); lia |]. destruct i as [| i]; [apply (BT _ 1%Z 2%Z); lia |]. destruct i as [| i]; [apply (BT _ 1%Z 3%Z); lia |]. lia. }
  split; [exact B |]. rewrite CN, B. reflexivity.
Qed.
(** Perfect prediction scores 1. *)
Lemma c91_r2_ex : r_squared [1; 0; 3] [1; 0; 3] = 1.
Proof.
  unfold r_squared. replace (lsum (map (fun a => (a - lmean [1; 0; 3]) ^ 2) [1; 0; 3])) with (14 / 3) by (unfold lmean; cbn; field).
  destruct (Rltb_spec (1 / 10 ^ 20) (14 / 3)) as [H | H]; [cbn; field |]. exfalso. assert (1 / 10 ^ 20 <= 1); [| lra]. apply Rdiv_le_upper; [apply pow_lt; lra |]. rewrite Rmult_1_l. apply pow_R1_Rle. lra.
Qed.
