(** * Proofs about the MATLAB spectrum analysis and its agreement with the Python one. *)
From Coq Require Import Lia Lra Psatz Permutation.
From Verif Require Import Base BaseLemmas Cplx FreqModel FreqSpec FreqProofs UnitsModel UnitsSpec UnitsProofs TiModel TiSpec TiProofs TiToneProofs SpecModel SpecSpec SpecLemmas SpecProofs SpecMetricProofs SpecPrepProofs SpecToneSpec SpecToneProofs CohModel CohSpec CohLemmas MatModel MatProofs MspecModel MspecSpec.
Local Open Scope R_scope.

(** ** C180: the averaged spectrum *)
Lemma hann_same N : (1 <= N)%nat -> m_window MHann N = cos_window [0.5; 0.5] N.
Proof.
  intros H. unfold m_window, cos_window. destruct (Nat.eqb_spec N 1) as [->|N1]; [reflexivity|]. destruct (Nat.leb_spec N 1) as [L|L]; [lia|].
  apply map_ext_in. intros n Hn. apply in_seq in Hn. cbn [length rsum nth]. replace (INR 0 * (2 * PI * INR n / INR N - PI)) with 0 by (simpl; ring).
  rewrite cos_0. replace (INR 1 * (2 * PI * INR n / INR N - PI)) with (- (PI - 2 * PI * INR n / INR N)) by (simpl; ring). rewrite cos_neg.
  rewrite Rtrigo_facts.cos_pi_minus. lra.
Qed.
(** The two built-in windows are the Python ones. *)
Lemma c180_windows kz cz N : (1 <= N)%nat -> m_window MHann N = create_window kz cz Hann N /\ m_window MRect N = create_window kz cz Boxcar N.
Proof. intros H. split; [apply (hann_same N H)|reflexivity]. Qed.

(** The signal band has the same number of bins whenever the band edge does not fall within the Python code's rounding tolerance of a bin. *)
Lemma c180_band N osr c : (0 < N)%nat -> inband_count (Z.of_nat N) osr = Ok c ->
  (forall k : Z, IZR k = INR N / (2 * osr) \/ / 10 ^ 12 * (1 + Rabs (IZR k)) < Rabs (INR N / (2 * osr) - IZR k)) ->
  m_inband N osr = Z.to_nat c.
Proof.
  intros HN H E. destruct (inband_ok_pos _ _ _ H) as [_ Ho]. rewrite (c23_exact _ _ _ H).
  - unfold m_inband. f_equal. rewrite <- INR_IZR_INZ. replace (INR N / 2 / osr) with (INR N / (2 * osr)) by (field; lra).
    f_equal. rewrite Nat2Z.inj_add, Nat2Z.inj_div. reflexivity.
  - intros k. rewrite <- INR_IZR_INZ. apply E.
Qed.
(** Inside the tolerance the Python band can have one bin more. *)
Lemma c180_band_refuted : exists N osr, 0 < osr /\ inband_count (Z.of_nat N) osr = Ok 3%Z /\ m_inband N osr = 2%nat.
Proof.
  exists 8%nat, (2 + / 10 ^ 12). assert (T : 0 < / 10 ^ 12 <= / 10 ^ 6) by (split; [apply Rinv_0_lt_compat; lra|apply Rinv_le_contravar; lra]).
  split; [lra|]. assert (E : 2 - 2 / 10 ^ 12 <= 8 / (2 * (2 + / 10 ^ 12)) < 2).
  { set (e := / 10 ^ 12) in *. replace (2 / 10 ^ 12) with (2 * e) by (unfold e; field). assert (D : 0 < 2 * (2 + e)) by lra. split.
    - apply (Rmult_le_reg_r (2 * (2 + e))); [exact D|]. unfold Rdiv. rewrite Rmult_assoc, Rinv_l by lra. nra.
    - apply (Rmult_lt_reg_r (2 * (2 + e))); [exact D|]. unfold Rdiv. rewrite Rmult_assoc, Rinv_l by lra. nra. }
  set (x := 8 / (2 * (2 + / 10 ^ 12))) in *. assert (F : Zfloor x = 1%Z) by (apply floor_is; lra). split.
  - rewrite inband_eq by (lia || lra). change (IZR (Z.of_nat 8)) with 8. fold x. f_equal. unfold snapped.
    assert (R2 : round_he x = 2%Z) by (apply Znearest_imp; apply Rabs_def1; lra). rewrite R2. unfold isclose12.
    destruct (Rleb_spec (Rabs (x - 2)) (/ 10 ^ 12 + / 10 ^ 12 * Rabs 2)) as [L|L].
    + rewrite Zfloor_IZR. reflexivity.
    + exfalso. apply (Rlt_not_le _ _ L). rewrite (Rabs_pos_eq 2) by lra. unfold Rabs. destruct (Rcase_abs _); lra.
  - unfold m_inband. replace (INR 8 / 2 / (2 + / 10 ^ 12)) with x by (unfold x; simpl; field; lra). rewrite F. reflexivity.
Qed.

Lemma m_silent_iff r : m_silent r = true <-> Forall (fun x => x = 0) r.
Proof.
  unfold m_silent. rewrite forallb_forall, Forall_forall. split; intros H x Hx; specialize (H x Hx).
  - apply Reqb_true. exact H.
  - rewrite H. apply Reqb_true. reflexivity.
Qed.

Lemma filter_all {A} (f : A -> bool) l : (forall x, In x l -> f x = true) -> filter f l = l.
Proof. induction l as [|a t IH]; intros H; [reflexivity|]. cbn [filter]. rewrite (H a (or_introl eq_refl)), IH by (intros; apply H; right; assumption). reflexivity. Qed.
Lemma mean_square_pos w : lsum w <> 0 -> 0 < lmean (map (fun x => x ^ 2) w).
Proof.
  intros H. assert (L : (0 < length w)%nat) by (destruct w; [exfalso; apply H; reflexivity|simpl; lia]). unfold lmean. rewrite map_length.
  apply Rdiv_lt_0_compat; [|apply INR_pos, L].
  assert (N : 0 <= lsum (map (fun x => x ^ 2) w)) by (apply lsum_nonneg, Forall_forall; intros z Hz; apply in_map_iff in Hz; destruct Hz as (u & <- & _); apply pow2_ge_0).
  destruct N as [N|N]; [exact N|]. exfalso. apply H. assert (Z : forall x, In x w -> x = 0).
  { clear H L. induction w as [|y t IH]; [intros x []|]. cbn [map lsum] in N. assert (0 <= lsum (map (fun x => x ^ 2) t)).
    { apply lsum_nonneg, Forall_forall. intros z Hz. apply in_map_iff in Hz. destruct Hz as (u & <- & _). apply pow2_ge_0. }
    pose proof (pow2_ge_0 y). intros x [<-|Hx]; [nra|apply IH; [lra|exact Hx]]. }
  rewrite <- (map_id w), (lsum_map_ext (fun x => x) (fun _ => 0)) by exact Z. rewrite lsum_const. ring.
Qed.
Lemma map2_fun_ext {A B C} (f g : A -> B -> C) a b : (forall x y, f x y = g x y) -> map2 f a b = map2 g a b.
Proof. intros H. revert b. induction a as [|x a IH]; intros [|y b]; simpl; try reflexivity. rewrite H, IH. reflexivity. Qed.
(** One run of MATLAB is the Python run times a constant. *)
Lemma run_scaled fsc w r : fsc <> 0 -> length r = length w -> r <> [] -> 0 < lmean (map (fun x => x ^ 2) w) ->
  m_run fsc w r = map (fun v => / (2 * sqrt (lmean (map (fun y => y ^ 2) w))) * v)
                    (map2 Rmult (map (fun x => (x - lmean r) / (fsc / 2)) r) w).
Proof.
  intros F L Hr S. unfold m_run. cbv zeta. rewrite lmean_scale_inv. pose proof (sqrt_lt_R0 _ S) as Q. set (s := sqrt _) in *.
  rewrite map_map2, !map2_map_l. apply map2_fun_ext. intros x v. field. split; lra.
Qed.
Lemma lsum_scale_map {A} c (f : A -> R) l : lsum (map (fun x => c * f x) l) = c * lsum (map f l).
Proof. induction l as [|a t IH]; cbn [map lsum]; [ring|rewrite IH; ring]. Qed.
Lemma lmean_map {A} (f : A -> R) l : lmean (map f l) = lsum (map f l) / INR (length l).
Proof. unfold lmean. rewrite map_length. reflexivity. Qed.
(** For a capture without an all-zero run, every bin of the averaged spectrum except DC is exactly the corrected power of the Python
    analysis with the same full-scale range; the DC bin is zero. *)
Lemma c180_spectrum fsc w N nb d : fsc <> 0 -> (0 < N)%nat -> length w = N -> lsum w <> 0 -> runs_of N d ->
  exists P, m_spectrum false fsc w N nb d = Some P /\ length P = (N / 2 + 1)%nat /\ nth 0 P 0 = 0 /\
    (forall b, (1 <= b <= N / 2)%nat -> nth b P 0 = nth b (corrected_power (centred fsc d) w N) 0).
Proof.
  intros F HN Lw Sw [Hd Hr]. unfold m_spectrum. cbv zeta.
  assert (E : m_heard fsc w d = map (m_run fsc w) d).
  { unfold m_heard. rewrite filter_all; [reflexivity|]. intros r Hi. destruct (Hr r Hi) as [_ Z]. destruct (m_silent r) eqn:Q; [|reflexivity].
    exfalso. apply Z, m_silent_iff, Q. }
  rewrite E. rewrite !map_length. destruct (Nat.eqb_spec (length d) 0) as [Z|_]; [destruct d; [contradiction|discriminate]|].
  eexists. split; [reflexivity|]. split; [rewrite map_length, seq_length; reflexivity|]. split.
  - rewrite nth_map_seq by lia. unfold m_power_bin, m_nyquist. change (0 =? 0)%nat with true. cbv iota. destruct (Nat.even N && (0 =? N / 2)%nat); lra.
  - intros b Hb. rewrite nth_map_seq by lia. unfold corrected_power, power_average. rewrite map_map, nth_map_seq by lia.
    unfold m_power_bin, power_bin, m_nyquist. cbv zeta. destruct (Nat.eqb_spec b 0); [lia|].
    rewrite correction_general by exact Sw. pose proof (mean_square_pos w Sw) as MS. pose proof (sqrt_lt_R0 _ MS) as Q. set (S2 := lmean (map (fun x => x ^ 2) w)) in *.
    assert (M : lsum (map (fun r => Cmod (rfft r b) ^ 2) (map (m_run fsc w) d)) / INR N ^ 2 * 16 / INR (length (map (m_run fsc w) d)) =
                lmean (map (fun r => Cmod (rfft r b) ^ 2) (windowed (centred fsc d) w)) / INR N ^ 2 * (4 / S2)).
    { unfold windowed, centred. rewrite !map_map, lmean_map, !map_length.
      rewrite (map_ext_in _ (fun r => / (4 * S2) * Cmod (rfft (map2 Rmult (map (fun x => (x - lmean r) / (fsc / 2)) r) w) b) ^ 2)).
      - rewrite lsum_scale_map. assert (INR (length d) <> 0) by (apply not_0_INR; destruct d; [contradiction|discriminate]).
        pose proof (INR_pos N HN). unfold Rdiv. field. repeat split; lra.
      - intros r Hi. destruct (Hr r Hi) as [Lr _]. rewrite run_scaled; [|exact F|lia|destruct r; [simpl in Lr; lia|discriminate]|exact MS]. fold S2.
        rewrite BandProofs.rfft_scale, Cmod_scale. rewrite Rpow_mult_distr, pow2_abs. rewrite Rinv_mult, Rpow_mult_distr, !pow_inv. f_equal.
        rewrite <- (sqrt_sqrt S2) at 2 by lra. field. lra. }
    rewrite M. destruct (Nat.even N && (b =? N / 2)%nat); lra.
Qed.

(** The runs of the Python analysis are those runs when the range is given, and the two defaults for the range agree. *)
Lemma c180_prepared d fsc : orient d = d -> fsc <> 0 -> prepare_fft_input d (ScalePeak (fsc / 2)) = Ok (centred fsc d).
Proof.
  intros O F. unfold prepare_fft_input. rewrite O. cbn [peak_of bind]. f_equal. unfold centred. apply map_ext. intros r. apply map_ext. intros x.
  destruct (Reqb_spec (fsc / 2) 0) as [Z|Z]; [exfalso; apply F; lra|reflexivity].
Qed.
Lemma c180_auto d : orient d = d -> concat d <> [] -> m_full_scale d <> 0 -> prepare_fft_input d ScaleAuto = Ok (centred (m_full_scale d) d).
Proof.
  intros O C F. unfold prepare_fft_input. rewrite O. unfold m_full_scale in *. cbn [peak_of]. destruct (concat d) as [|x l]; [contradiction|]. cbn [bind]. f_equal.
  unfold centred. apply map_ext. intros r. apply map_ext. intros y. destruct (Reqb_spec ((lmax1 x l - lmin1 x l) / 2) 0) as [Z|Z]; [exfalso; apply F; lra|reflexivity].
Qed.
(** The matrix is oriented alike unless it has more than one column and more than twice as many rows as columns. *)
Lemma c180_orientation d : (ncols d <= 1 \/ length d <= 2 * ncols d)%nat -> m_orient d = orient d.
Proof.
  intros H. unfold m_orient, orient. destruct (Nat.eqb_spec (ncols d) 1), (Nat.ltb_spec 1 (length d)); cbn [andb]; try reflexivity;
  destruct (Nat.ltb_spec 1 (ncols d)), (Nat.ltb_spec (ncols d * 2) (length d)); cbn [andb]; try reflexivity; lia.
Qed.
(** Five runs of two samples: the Python code turns them into two runs of five samples, the MATLAB code does not. *)
Lemma c180_orientation_refuted : exists d, length (m_orient d) = 5%nat /\ length (orient d) = 2%nat.
Proof. exists [[1; 2]; [3; 4]; [5; 6]; [7; 8]; [9; 10]]. split; reflexivity. Qed.

Lemma rfft_zeros x k : Forall (fun v => v = 0) x -> rfft x k = C0.
Proof.
  intros H. unfold rfft, rdft, dft. rewrite (csum_ext _ _ (fun _ => C0)); [apply csum_zero; reflexivity|]. intros n Hn.
  rewrite Forall_forall in H. rewrite (H (nth n x 0)) by (apply nth_In; exact Hn). unfold RtoC, Cmult, C0. cbn [fst snd Re Im]. f_equal; ring.
Qed.
Lemma silent_centred fsc w r b : m_silent r = true -> rfft (map2 Rmult (map (fun x => (x - lmean r) / (fsc / 2)) r) w) b = C0.
Proof.
  intros S. apply m_silent_iff in S. apply rfft_zeros. apply Forall_forall. intros v Hv. rewrite map2_map_l in Hv.
  assert (M : lmean r = 0).
  { destruct r as [|y t]; [unfold lmean; simpl; unfold Rdiv; ring|]. apply lmean_const; [discriminate|]. apply Forall_forall. exact S. }
  rewrite M in Hv. clear M. revert w Hv. induction S as [|y t Hy _ IH]; intros [|u w]; cbn [map2]; intros Hv; try contradiction.
  destruct Hv as [<-|Hv]; [rewrite Hy; unfold Rdiv; ring|]. apply (IH w Hv).
Qed.
(** Runs that are zero throughout are ignored by the MATLAB code and averaged in by the Python code: with them, the MATLAB spectrum is
    the Python one times all runs over the runs that are not zero. *)
Lemma c180_silent_runs fsc w N nb d : fsc <> 0 -> (0 < N)%nat -> length w = N -> lsum w <> 0 -> (forall r, In r d -> length r = N) ->
  let kept := filter (fun r => negb (m_silent r)) d in
  kept <> [] ->
  exists P, m_spectrum false fsc w N nb d = Some P /\
    (forall b, (1 <= b <= N / 2)%nat -> nth b P 0 * INR (length kept) = nth b (corrected_power (centred fsc d) w N) 0 * INR (length d)).
Proof.
  intros F HN Lw Sw Hl kept Hk.
  assert (RO : runs_of N kept).
  { split; [exact Hk|]. intros r Hr. apply filter_In in Hr. destruct Hr as [Hr Hs]. split; [apply Hl, Hr|]. intros Z. apply m_silent_iff in Z. rewrite Z in Hs. discriminate. }
  destruct (c180_spectrum fsc w N nb kept F HN Lw Sw RO) as (P & E & _ & _ & Q). exists P. split.
  - rewrite <- E. unfold m_spectrum. assert (A : m_heard fsc w d = m_heard fsc w kept).
    { unfold m_heard. f_equal. unfold kept. symmetry. apply filter_all. intros r Hr. apply filter_In in Hr. apply Hr. }
    rewrite A. reflexivity.
  - intros b Hb. rewrite (Q b Hb). unfold corrected_power, power_average. rewrite !map_map, !nth_map_seq by lia.
    unfold power_bin. cbv zeta. destruct (Nat.eqb_spec b 0); [lia|]. unfold windowed, centred. rewrite !map_map, !lmean_map.
    assert (S : lsum (map (fun x => Cmod (rfft (map2 Rmult (map (fun x0 => (x0 - lmean x) / (fsc / 2)) x) w) b) ^ 2) d) =
                lsum (map (fun x => Cmod (rfft (map2 Rmult (map (fun x0 => (x0 - lmean x) / (fsc / 2)) x) w) b) ^ 2) kept)).
    { unfold kept. clear. induction d as [|r t IH]; [reflexivity|]. cbn [map filter lsum]. destruct (m_silent r) eqn:Z; cbn [negb map lsum].
      - rewrite (silent_centred fsc w r b Z), IH. rewrite Cmod_0. ring.
      - rewrite IH. reflexivity. }
    rewrite S. assert (K1 : INR (length kept) <> 0) by (apply not_0_INR; destruct kept; [contradiction|discriminate]).
    assert (K2 : INR (length d) <> 0) by (apply not_0_INR; intros Z; apply Hk; unfold kept; destruct d; [reflexivity|discriminate]).
    pose proof (INR_pos N HN). destruct (Nat.even N && (b =? N / 2)%nat); field; repeat split; lra.
Qed.

Lemma rfft_quarter a b c d k : (k <= 2)%nat -> rfft [a; b; c; d] k =
  match k with O => (a + b + c + d, 0) | 1%nat => (a - c, d - b) | _ => (a - b + c - d, 0) end.
Proof.
  intros Hk. unfold rfft, rdft, dft. cbn [length csum nth]. unfold RtoC, Cmult, Cplus, cis, C0. cbn [fst snd].
  destruct k as [|[|[|k]]]; [| | |lia]; cbn [INR].
  - replace (- (2 * PI * 0 * 0 / (1 + 1 + 1 + 1))) with 0 by field. replace (- (2 * PI * 0 * 1 / (1 + 1 + 1 + 1))) with 0 by field.
    replace (- (2 * PI * 0 * (1 + 1) / (1 + 1 + 1 + 1))) with 0 by field. replace (- (2 * PI * 0 * (1 + 1 + 1) / (1 + 1 + 1 + 1))) with 0 by field.
    rewrite cos_0, sin_0. unfold Re, Im. cbn [fst snd]. f_equal; ring.
  - replace (- (2 * PI * 1 * 0 / (1 + 1 + 1 + 1))) with 0 by field. replace (- (2 * PI * 1 * 1 / (1 + 1 + 1 + 1))) with (- (PI / 2)) by field.
    replace (- (2 * PI * 1 * (1 + 1) / (1 + 1 + 1 + 1))) with (- PI) by field. replace (- (2 * PI * 1 * (1 + 1 + 1) / (1 + 1 + 1 + 1))) with (- (3 * (PI / 2))) by field.
    rewrite !cos_neg, !sin_neg, cos_0, sin_0, cos_PI, sin_PI, cos_PI2, sin_PI2, cos_3PI2, sin_3PI2. unfold Re, Im. cbn [fst snd]. f_equal; ring.
  - replace (- (2 * PI * (1 + 1) * 0 / (1 + 1 + 1 + 1))) with 0 by field. replace (- (2 * PI * (1 + 1) * 1 / (1 + 1 + 1 + 1))) with (- PI) by field.
    replace (- (2 * PI * (1 + 1) * (1 + 1) / (1 + 1 + 1 + 1))) with (- (2 * PI)) by field. replace (- (2 * PI * (1 + 1) * (1 + 1 + 1) / (1 + 1 + 1 + 1))) with (- (PI + 2 * PI)) by field.
    rewrite !cos_neg, !sin_neg, neg_cos, neg_sin || idtac.
    rewrite ?cos_neg, ?sin_neg, cos_0, sin_0, cos_PI, sin_PI, cos_2PI, sin_2PI, cos_plus, sin_plus, cos_PI, sin_PI, cos_2PI, sin_2PI. unfold Re, Im. cbn [fst snd]. f_equal; ring.
Qed.
(** Two runs of a cosine at a quarter of the sample rate, full scale 4, beside a silent run: power one quarter (-6 dBFS) in bin 1. *)
Example c180_spectrum_ex : m_spectrum false 4 (m_window MRect 4) 4 3 [[2; 1; 0; 1]; [0; 0; 0; 0]; [1; 2; 1; 0]] = Some [0; 1 / 4; 0].
Proof.
  unfold m_spectrum, m_heard. cbv zeta.
  assert (S1 : m_silent [2; 1; 0; 1] = false) by (unfold m_silent; cbn [forallb]; destruct (Reqb_spec 2 0); [lra|reflexivity]).
  assert (S2 : m_silent [0; 0; 0; 0] = true) by (apply m_silent_iff; repeat constructor).
  assert (S3 : m_silent [1; 2; 1; 0] = false) by (unfold m_silent; cbn [forallb]; destruct (Reqb_spec 1 0); [lra|reflexivity]).
  cbn [filter]. rewrite S1, S2, S3. cbn [negb filter map].
  assert (W : sqrt (lmean (map (fun y => y ^ 2) (m_window MRect 4))) = 1).
  { cbn [m_window repeat map]. unfold lmean. cbn [lsum length INR]. replace ((1 ^ 2 + (1 ^ 2 + (1 ^ 2 + (1 ^ 2 + 0)))) / (1 + 1 + 1 + 1)) with 1 by field. apply sqrt_1. }
  assert (R1 : m_run 4 (m_window MRect 4) [2; 1; 0; 1] = [1 / 4; 0; - (1 / 4); 0]).
  { unfold m_run. rewrite W. cbn [m_window repeat map map2]. unfold lmean. cbn [lsum length INR]. repeat (apply (f_equal2 (@cons R)); [field|]); reflexivity. }
  assert (R3 : m_run 4 (m_window MRect 4) [1; 2; 1; 0] = [0; 1 / 4; 0; - (1 / 4)]).
  { unfold m_run. rewrite W. cbn [m_window repeat map map2]. unfold lmean. cbn [lsum length INR]. repeat (apply (f_equal2 (@cons R)); [field|]); reflexivity. }
  rewrite R1, R3. cbn [length Nat.eqb]. f_equal. change (4 / 2 + 1)%nat with 3%nat. cbn [seq map]. unfold m_power_bin, m_nyquist.
  change (Nat.even 4) with true. change (4 / 2)%nat with 2%nat. cbn [Nat.eqb andb map lsum length INR]. rewrite !rfft_quarter by lia. unfold Cmod, Cmod2. cbn [fst snd Re Im].
  unfold Re, Im. cbn [fst snd]. rewrite !pow2_sqrt by nra. repeat (apply (f_equal2 (@cons R)); [field|]). reflexivity.
Qed.

(** ** C181: what is measured *)
Lemma sum_over_seq n f : lsum (map f (seq 0 n)) = rsum n f.
Proof. rewrite lsum_rsum, map_length, seq_length. apply rsum_ext. intros i Hi. apply nth_map_seq, Hi. Qed.
Lemma blank_length hi sb P b : length (m_blank hi sb P b) = length P.
Proof. apply zero_range_length. Qed.
Lemma blanks_length hi sb gone : forall P, length (fold_left (m_blank hi sb) gone P) = length P.
Proof. induction gone as [|g t IH]; intros P; [reflexivity|]. cbn [fold_left]. rewrite IH. apply blank_length. Qed.
Lemma blanks_nth hi sb gone i : (i < hi)%nat -> forall P,
  nth i (fold_left (m_blank hi sb) gone P) 0 = if forallb (fun h => negb (near h sb i)) gone then nth i P 0 else 0.
Proof.
  intros Hi. induction gone as [|g t IH]; intros P; [reflexivity|]. cbn [fold_left forallb]. rewrite IH. unfold m_blank. rewrite zero_range_nth, near_range by exact Hi.
  destruct (near g sb i); cbn [negb andb]; [destruct (forallb _ t); reflexivity|reflexivity].
Qed.
Definition residue (hi sb f : nat) (gone : list nat) (P : list R) : list R := zero_range 0 sb (m_blank hi sb (fold_left (m_blank hi sb) gone P) f).
Lemma residue_length hi sb f gone P : length (residue hi sb f gone P) = length P.
Proof. unfold residue. rewrite zero_range_length, blank_length. apply blanks_length. Qed.
Lemma residue_nth hi sb f gone P i : (i < hi)%nat -> nth i (residue hi sb f gone P) 0 = if unwanted_bin f sb gone i then nth i P 0 else 0.
Proof.
  intros Hi. unfold residue, unwanted_bin. rewrite zero_range_nth. unfold m_blank at 1. rewrite zero_range_nth, near_range by exact Hi. rewrite blanks_nth by exact Hi.
  destruct (Nat.leb_spec 0 i); [|lia]. rewrite Nat.ltb_antisym. destruct (sb <=? i)%nat, (near f sb i), (forallb (fun h => negb (near h sb i)) gone); reflexivity.
Qed.

Lemma measure_fields P0 w N nb runs fs osr side harmonic nthd nf assumed cutoff r : (1 <= nb <= N / 2 + 1)%nat -> length P0 = (N / 2 + 1)%nat ->
  m_measure P0 w N nb runs fs osr side harmonic nthd nf assumed cutoff = Ok r ->
  exists gone, let P := m_cut cutoff fs N P0 in let f := ms_bin r in let sb := ms_side r in
  m_harmonics (ms_frac r) (Z.to_nat (- harmonic)) N = Ok gone /\
  ms_power r = P /\ ms_inband r = nb /\ f = argmax (firstn nb P0) /\ ms_frac r = m_position P N f /\
  sb = match side with Some s => s | None => m_side_auto P w N nb f (ms_frac r) end /\
  ms_sig r = (match assumed with Some a => pow10 (a / 10) | None => selected_power nb (near f sb) P end) /\
  ms_sigpwr r = (match assumed with Some a => Fin a | None => db (ms_sig r) end) /\
  ms_noi r = selected_power nb (unwanted_bin f sb gone) P /\
  ms_spur_bin r = argmax (map (fun i => if unwanted_bin f sb gone i then nth i P 0 else 0) (seq 0 nb)) /\
  ms_spur r = selected_power nb (fun i => near (ms_spur_bin r) sb i && unwanted_bin f sb gone i) P /\
  m_harmonics (ms_frac r) nthd N = Ok (ms_harmonics r) /\
  ms_thd_power r = selected_power nb (fun i => in_harmonic sb (ms_harmonics r) i && unwanted_bin f sb gone i) P /\
  ms_noise_power r = m_noise nf nb runs (ms_harmonics r) (residue (N / 2 + 1) sb f gone P) /\
  ms_sndr r = m_db (ms_sig r) (ms_noi r) /\ ms_enob r = enob_of (ms_sndr r) /\ ms_sfdr r = m_db (ms_sig r) (ms_spur r) /\
  ms_snr r = m_db (ms_sig r) (ms_noise_power r) /\ ms_thd r = m_db (ms_thd_power r) (ms_sig r) /\
  ms_floor r = xsub (ms_sigpwr r) (ms_snr r) /\ ms_nsd r = xsub (ms_floor r) (db (fs / 2 / osr)).
Proof.
  intros Hnb LP H. unfold m_measure in H. set (P := m_cut cutoff fs N P0) in *. set (f := argmax (firstn nb P0)) in *. set (frac := m_position P N f) in *.
  set (sb := match side with Some s => s | None => m_side_auto P w N nb f frac end) in *. cbv zeta in H.
  destruct (m_harmonics frac (Z.to_nat (- harmonic)) N) as [gone|] eqn:G; cbn [bind] in H; [|discriminate].
  destruct (m_harmonics frac nthd N) as [hs|] eqn:HS; cbn [bind] in H; [|discriminate].
  fold (residue (N / 2 + 1) sb f gone P) in H. set (Q := residue (N / 2 + 1) sb f gone P) in *.
  assert (LQ : length Q = (N / 2 + 1)%nat). { unfold Q. rewrite residue_length. unfold P, m_cut. destruct (Rltb 0 cutoff); rewrite ?zero_range_length; exact LP. }
  assert (QN : forall i, (i < nb)%nat -> nth i Q 0 = if unwanted_bin f sb gone i then nth i P 0 else 0) by (intros i Hi; apply residue_nth; lia).
  apply Ok_inj in H. subst r. exists gone. cbn [ms_power ms_inband ms_bin ms_frac ms_side ms_sig ms_sigpwr ms_noi ms_spur_bin ms_spur ms_harmonics ms_thd_power ms_noise_power ms_enob ms_sndr ms_sfdr ms_snr ms_thd ms_floor ms_nsd].
  assert (B : map (fun i => if unwanted_bin f sb gone i then nth i P 0 else 0) (seq 0 nb) = firstn nb Q).
  { apply (nth_ext_eq 0); [rewrite map_length, seq_length, firstn_length; lia|]. intros i Hi. rewrite map_length, seq_length in Hi. rewrite nth_map_seq by exact Hi.
    rewrite SpecLemmas.nth_firstn_lt by exact Hi. symmetry. apply QN, Hi. }
  repeat split; try assumption.
  - destruct assumed; [reflexivity|]. apply sig_power_eq.
  - destruct assumed; reflexivity.
  - rewrite lsum_firstn. apply rsum_ext. intros i Hi. apply QN, Hi.
  - rewrite B. reflexivity.
  - rewrite sig_power_eq. apply rsum_ext. intros i Hi. rewrite SpecLemmas.nth_firstn_lt by exact Hi. rewrite QN by exact Hi.
    destruct (near _ sb i); [|reflexivity]. destruct (unwanted_bin f sb gone i); reflexivity.
  - unfold m_thd_power. rewrite LQ, sum_over_seq. unfold selected_power.
    replace (N / 2 + 1)%nat with (nb + (N / 2 + 1 - nb))%nat by lia. rewrite rsum_app. rewrite (rsum_zero (N / 2 + 1 - nb)).
    + rewrite Rplus_0_r. apply rsum_ext. intros i Hi. unfold in_harmonic. rewrite QN by exact Hi.
      replace (existsb (fun b => ((b - sb <=? i) && (i <? Nat.min (b + sb + 1) nb))%nat) hs) with (existsb (fun h => near h sb i) hs).
      * destruct (existsb _ hs), (unwanted_bin f sb gone i); reflexivity.
      * clear -Hi. induction hs as [|h t IH]; [reflexivity|]. cbn [existsb]. rewrite IH, near_range by exact Hi. reflexivity.
    + intros i Hi. replace (existsb (fun b => ((b - sb <=? nb + i) && (nb + i <? Nat.min (b + sb + 1) nb))%nat) hs) with false; [reflexivity|].
      symmetry. clear. induction hs as [|h t IH]; [reflexivity|]. cbn [existsb]. rewrite IH, orb_false_r. apply andb_false_iff. right. apply Nat.ltb_ge. lia.
Qed.

Lemma lg_mono x y : 0 < x -> x <= y -> lg x <= lg y.
Proof. intros H [L| ->]; [left; apply lg_lt; assumption|lra]. Qed.
Lemma m_inband_range N osr : (0 < N)%nat -> 0 < osr -> (1 <= m_inband N osr <= N / 2 + 1)%nat.
Proof.
  intros HN Ho. unfold m_inband. assert (0 <= INR N / 2 / osr). { apply Rdiv_le_0_compat; [|exact Ho]. pose proof (pos_INR N). lra. }
  assert (0 <= Zfloor (INR N / 2 / osr))%Z by (apply Zfloor_lub; assumption). lia.
Qed.
Lemma m_spectrum_props coh fsc w N nb d P : m_spectrum coh fsc w N nb d = Some P -> length P = (N / 2 + 1)%nat /\ (forall x, In x P -> 0 <= x).
Proof.
  unfold m_spectrum. cbv zeta. destruct (_ =? 0)%nat eqn:Z; [discriminate|]. apply Nat.eqb_neq in Z. intros E. injection E as <-. split; [rewrite map_length, seq_length; reflexivity|].
  intros x Hx. apply in_map_iff in Hx. destruct Hx as (b & <- & Hb). apply in_seq in Hb.
  assert (N2 : 0 <= / (INR N ^ 2)) by (apply inv_nonneg, pow2_ge_0).
  assert (NQ : forall p, 0 <= p -> 0 <= m_nyquist N b p) by (intros p Hp; unfold m_nyquist; destruct (_ && _); lra).
  destruct coh.
  - unfold m_coherent_bin. apply NQ. unfold Rdiv. pose proof (pow2_ge_0 (Cmod (fold_left (fun acc a => Cplus acc (a b)) (m_aligned_runs N nb (m_heard fsc w d)) C0))).
    assert (0 <= / INR (length (m_aligned_runs N nb (m_heard fsc w d))) ^ 2) by (apply inv_nonneg, pow2_ge_0).
    apply Rmult_le_pos; [|assumption]. apply Rmult_le_pos; [|lra]. apply Rmult_le_pos; assumption.
  - unfold m_power_bin. apply NQ. destruct (b =? 0)%nat; [lra|]. unfold Rdiv.
    assert (0 <= lsum (map (fun r => Cmod (rfft r b) ^ 2) (m_heard fsc w d))) by (apply lsum_nonneg, Forall_forall; intros z Hz; apply in_map_iff in Hz; destruct Hz as (u & <- & _); apply pow2_ge_0).
    assert (0 <= / INR (length (m_heard fsc w d))) by (apply inv_nonneg, pos_INR).
    apply Rmult_le_pos; [|assumption]. apply Rmult_le_pos; [|lra]. apply Rmult_le_pos; assumption.
Qed.
Lemma m_cut_nonneg cutoff fs N P : (forall x, In x P -> 0 <= x) -> forall x, In x (m_cut cutoff fs N P) -> 0 <= x.
Proof.
  intros H x Hx. unfold m_cut in Hx. destruct (Rltb 0 cutoff); [|apply H, Hx]. apply (In_nth _ _ 0) in Hx. destruct Hx as (i & Hi & <-).
  rewrite zero_range_length in Hi. rewrite zero_range_nth. destruct (_ && _); [lra|]. apply H, nth_In, Hi.
Qed.
Lemma plotspec_inv data fs fsc coh wt side osr harmonic nthd nf assumed cutoff r :
  m_plotspec data fs fsc coh wt side osr harmonic nthd nf assumed cutoff = Ok (Some r) -> 
  let d := m_orient data in let N := ncols d in let nb := m_inband N osr in let w := m_window wt N in
  exists P0, m_spectrum coh (match fsc with Some v => v | None => m_full_scale d end) w N nb d = Some P0 /\
    m_measure P0 w N nb (length d) fs osr side harmonic nthd nf assumed cutoff = Ok r.
Proof.
  unfold m_plotspec. cbv zeta. destruct (m_spectrum _ _ _ _ _ _) as [P0|]; [|discriminate].
  destruct (m_measure _ _ _ _ _ _ _ _ _ _ _ _ _) as [q|] eqn:E; cbn [bind]; [|discriminate]. intros H. apply Ok_inj in H. injection H as <-. exists P0. split; [reflexivity|exact E].
Qed.
Lemma no_harmonics frac m N gone : (m <= 1)%nat -> m_harmonics frac m N = Ok gone -> gone = [].
Proof. intros H. unfold m_harmonics. destruct (Nat.leb_spec m 1); [|lia]. intros E. apply Ok_inj in E. symmetry. exact E. Qed.
Lemma unwanted_no_gone f sb i : unwanted_bin f sb [] i = ((sb <=? i)%nat && negb (near f sb i)).
Proof. unfold unwanted_bin. cbn [forallb]. apply andb_true_r. Qed.
(** With no harmonics removed, the in-band power of the measured spectrum is the tone's window, the first sideBin bins outside that window,
    and the noise-and-distortion power, each bin counted once. *)
Lemma c181_partition data fs fsc coh wt side osr harmonic nthd nf cutoff r : (0 < ncols (m_orient data))%nat -> 0 < osr -> (-1 <= harmonic)%Z ->
  m_plotspec data fs fsc coh wt side osr harmonic nthd nf None cutoff = Ok (Some r) ->
  let f := ms_bin r in let sb := ms_side r in let n := ms_inband r in let P := ms_power r in
  ms_sig r = selected_power n (near f sb) P /\
  ms_noi r = selected_power n (fun i => (sb <=? i)%nat && negb (near f sb i)) P /\
  selected_power n (fun _ => true) P = ms_sig r + selected_power n (fun i => (i <? sb)%nat && negb (near f sb i)) P + ms_noi r.
Proof.
  intros HN Ho Hh H. apply plotspec_inv in H. cbv zeta in H. destruct H as (P0 & ES & EM). pose proof (m_inband_range _ osr HN Ho) as Hnb.
  destruct (m_spectrum_props _ _ _ _ _ _ _ ES) as [LP Pn]. apply (measure_fields _ _ _ _ _ _ _ _ _ _ _ _ _ _ Hnb LP) in EM. destruct EM as (gone & G & EP & EN & _ & _ & _ & Esig & _ & Enoi & _).
  apply no_harmonics in G; [|lia]. subst gone. cbv zeta. rewrite EP, EN, Esig, Enoi.
  assert (N1 : selected_power (m_inband (ncols (m_orient data)) osr) (unwanted_bin (ms_bin r) (ms_side r) []) (m_cut cutoff fs (ncols (m_orient data)) P0) =
    selected_power (m_inband (ncols (m_orient data)) osr) (fun i => (ms_side r <=? i)%nat && negb (near (ms_bin r) (ms_side r) i)) (m_cut cutoff fs (ncols (m_orient data)) P0))
    by (apply rsum_ext; intros i _; rewrite unwanted_no_gone; reflexivity).
  rewrite N1. split; [reflexivity|]. split; [reflexivity|]. unfold selected_power. rewrite <- !rsum_plus. apply rsum_ext. intros i _.
  rewrite Nat.ltb_antisym. destruct (ms_side r <=? i)%nat, (near (ms_bin r) (ms_side r) i); cbn [negb andb]; lra.
Qed.
(** In every case the spur and the harmonics are part of the noise-and-distortion power, so SFDR is at least SNDR. *)
Lemma c181_order data fs fsc coh wt side osr harmonic nthd nf assumed cutoff r : (0 < ncols (m_orient data))%nat -> 0 < osr ->
  m_plotspec data fs fsc coh wt side osr harmonic nthd nf assumed cutoff = Ok (Some r) ->
  0 <= ms_spur r <= ms_noi r /\ 0 <= ms_thd_power r <= ms_noi r /\ 0 <= ms_sig r /\
  (0 < ms_sig r -> xle (ms_sndr r) (ms_sfdr r) \/ (ms_sndr r = PInf /\ ms_sfdr r = PInf)).
Proof.
  intros HN Ho H. apply plotspec_inv in H. cbv zeta in H. destruct H as (P0 & ES & EM). pose proof (m_inband_range _ osr HN Ho) as Hnb.
  destruct (m_spectrum_props _ _ _ _ _ _ _ ES) as [LP Pn]. apply (measure_fields _ _ _ _ _ _ _ _ _ _ _ _ _ _ Hnb LP) in EM.
  destruct EM as (gone & _ & EP & EN & _ & _ & _ & Esig & _ & Enoi & _ & Espur & _ & Ethd & _ & Esn & _ & Esf & _).
  pose proof (m_cut_nonneg cutoff fs (ncols (m_orient data)) P0 Pn) as Cn. set (P := m_cut cutoff fs (ncols (m_orient data)) P0) in *. set (nb := m_inband (ncols (m_orient data)) osr) in *.
  assert (A1 : 0 <= ms_spur r <= ms_noi r).
  { rewrite Espur, Enoi. split; [apply selected_nonneg, Cn|apply selected_le; [exact Cn|]]. intros i _ E. apply andb_true_iff in E. apply E. }
  assert (A2 : 0 <= ms_thd_power r <= ms_noi r).
  { rewrite Ethd, Enoi. split; [apply selected_nonneg, Cn|apply selected_le; [exact Cn|]]. intros i _ E. apply andb_true_iff in E. apply E. }
  assert (A3 : 0 <= ms_sig r). { rewrite Esig. destruct assumed; [unfold pow10, Rpower; left; apply exp_pos|apply selected_nonneg, Cn]. }
  split; [exact A1|]. split; [exact A2|]. split; [exact A3|]. intros S. rewrite Esn, Esf. unfold m_db.
  destruct (Reqb_spec (ms_noi r) 0) as [Z|Z].
  - right. destruct (Reqb_spec (ms_spur r) 0) as [Z2|Z2]; [|exfalso; apply Z2; lra]. destruct (Reqb_spec (ms_sig r) 0); [lra|]. split; reflexivity.
  - left. rewrite (db_pos (ms_sig r / ms_noi r)) by (apply Rdiv_lt_0_compat; lra). destruct (Reqb_spec (ms_spur r) 0) as [Z2|Z2].
    + destruct (Reqb_spec (ms_sig r) 0); [lra|exact I].
    + rewrite db_pos by (apply Rdiv_lt_0_compat; lra). cbn [xle]. apply Rmult_le_compat_l; [lra|]. apply lg_mono; [apply Rdiv_lt_0_compat; lra|].
      unfold Rdiv. apply Rmult_le_compat_l; [lra|]. apply Rinv_le_contravar; lra.
Qed.

(** ** C182: agreement of the measurements *)
Lemma without_dc_nonneg P Q : without_dc P Q -> (forall x, In x P -> 0 <= x) -> forall x, In x Q -> 0 <= x.
Proof.
  intros (L & D & E) H x Hx. apply (In_nth _ _ 0) in Hx. destruct Hx as (i & Hi & <-). destruct i as [|i]; [rewrite D; lra|]. rewrite E by lia. apply H, nth_In. lia.
Qed.
Lemma same_bin P Q nb : without_dc P Q -> (nb <= length P)%nat -> (exists i, (1 <= i < nb)%nat /\ 0 < nth i P 0) -> argmax (firstn nb Q) = fundamental_bin P nb.
Proof.
  intros (L & D & E) Hnb (i & Hi & Pi). destruct (c54_fundamental_is_peak P nb ltac:(lia)) as (F1 & F2 & F3). set (f := fundamental_bin P nb) in *.
  rewrite Nat.min_l in * by lia. pose proof (F2 i Hi) as Pf. 
  apply argmax_unique; rewrite ?firstn_length; try lia.
  - intros j Hj. rewrite !SpecLemmas.nth_firstn_lt by lia. rewrite (E f) by lia. destruct j as [|j]; [rewrite D; lra|]. rewrite E by lia. apply F2. lia.
  - intros j Hj. rewrite !SpecLemmas.nth_firstn_lt by lia. rewrite (E f) by lia. destruct j as [|j]; [rewrite D; lra|]. rewrite E by lia. apply F3. lia.
Qed.
Lemma no_cut fs N P : m_cut 0 fs N P = P.
Proof. unfold m_cut. destruct (Rltb_spec 0 0); [lra|reflexivity]. Qed.
(** The same half-width given to both: same tone bin, and the same signal power unless the tone's window reaches DC; the MATLAB code counts one
    bin more as noise and distortion than the Python code, bin number sideBin, when it lies in the band and outside the tone's window. *)
Lemma c182_tone_and_noise P Q M N nb fs osr wt w w' sb mh harmonic nthd nf nf' s r : without_dc P Q -> (forall x, In x P -> 0 <= x) ->
  (1 <= nb <= N / 2 + 1)%nat -> length P = (N / 2 + 1)%nat -> (exists i, (1 <= i < nb)%nat /\ 0 < nth i P 0) -> (-1 <= harmonic)%Z ->
  analyse_power P M N nb fs osr wt w (Some sb) mh nf None = Ok s ->
  m_measure Q w' N nb M fs osr (Some sb) harmonic nthd nf' None 0 = Ok r ->
  ms_bin r = sp_fund s /\
  ((sb < sp_fund s)%nat -> ms_sig r = sp_sig s) /\
  ms_noi r = sp_noise_dist s + (if (1 <=? sb)%nat && (sb <? nb)%nat && negb (near (sp_fund s) sb sb) then nth sb P 0 else 0).
Proof.
  intros W Pn Hnb LP Hpos Hh HA HM. pose proof (same_bin P Q nb W ltac:(lia) Hpos) as SB. destruct W as (LQ & D & E).
  rewrite LP in LQ. apply (measure_fields _ _ _ _ _ _ _ _ _ _ _ _ _ _ Hnb LQ) in HM. destruct HM as (gone & G & _ & _ & Eb & _ & Es & Esig & _ & Enoi & _). apply no_harmonics in G; [|lia]. subst gone.
  rewrite no_cut in *. rewrite SB in Eb. apply analyse_fields in HA. destruct HA as (_ & _ & Ef & _ & Es' & _ & _ & Esig' & _ & _ & _ & _ & End & _).
  rewrite Es, Es', Eb, Ef in *. set (f := fundamental_bin P nb) in *. split; [reflexivity|]. split.
  - intros Hf. rewrite Esig, Esig'. apply rsum_ext. intros i Hi. destruct (near f sb i) eqn:Nr; [|reflexivity]. apply E. unfold near in Nr. apply andb_true_iff in Nr. rewrite !Nat.leb_le in Nr. lia.
  - rewrite Enoi, End. unfold selected_power.
    rewrite (rsum_ext nb _ (fun i => (if outside f sb i then nth i P 0 else 0) + (if (i =? sb)%nat then (if (1 <=? sb)%nat && negb (near f sb sb) then nth sb P 0 else 0) else 0))).
    + rewrite rsum_plus. f_equal. destruct (Nat.ltb_spec sb nb) as [L|L].
      * rewrite (rsum_single nb sb); [rewrite Nat.eqb_refl, andb_true_r; reflexivity|exact L|]. intros j Hj Hne. destruct (Nat.eqb_spec j sb); [contradiction|reflexivity].
      * rewrite andb_false_r. cbn [andb]. apply rsum_zero. intros j Hj. destruct (Nat.eqb_spec j sb); [lia|reflexivity].
    + intros i Hi. rewrite unwanted_no_gone. unfold outside, near_dc. destruct (Nat.eqb_spec i sb) as [->|Hne].
      * rewrite !Nat.leb_refl. cbn [negb andb]. destruct (near f sb sb); cbn [negb]; [rewrite andb_false_r; lra|]. rewrite andb_true_r. destruct sb as [|sb']; [rewrite D; cbn; lra|].
        rewrite E by lia. cbn [Nat.leb]. lra.
      * destruct (near f sb i); cbn [negb]; [rewrite !andb_false_r; lra|]. rewrite !andb_true_r. destruct (Nat.leb_spec sb i), (Nat.leb_spec i sb); cbn [negb]; try lia; try lra.
        rewrite E by lia. lra.
Qed.

(** Bin number sb makes no difference: it is DC, out of the band, in the tone's window, or empty. *)
Lemma residue_zeroed P Q N nb f sb : without_dc P Q -> length P = (N / 2 + 1)%nat -> (nb <= N / 2 + 1)%nat -> no_extra P nb f sb ->
  firstn nb (residue (N / 2 + 1) sb f [] Q) = zeroed P nb f sb.
Proof.
  intros (LQ & D & E) LP Hnb NE. apply (nth_ext_eq 0); [rewrite zeroed_length, firstn_length, residue_length; lia|]. intros i Hi. rewrite firstn_length, residue_length in Hi.
  rewrite SpecLemmas.nth_firstn_lt by lia. rewrite residue_nth, zeroed_nth by lia. rewrite unwanted_no_gone. unfold outside, near_dc.
  destruct (near f sb i) eqn:Nr; cbn [negb]; [rewrite !andb_false_r; reflexivity|]. rewrite !andb_true_r.
  destruct (Nat.leb_spec sb i), (Nat.leb_spec i sb); cbn [negb]; try lia; try reflexivity.
  - assert (i = sb) by lia. subst i. destruct sb as [|sb']; [exact D|]. rewrite E by lia. destruct NE as [Z|[Z|[Z|Z]]]; [discriminate|lia|congruence|exact Z].
  - apply E. lia.
Qed.
Lemma floor_bins_same nb Q : m_floor_bins nb Q = floor_bins (firstn nb Q).
Proof. reflexivity. Qed.
Lemma floor_bins_length l : (length (floor_bins l) = 0 -> l = [])%nat.
Proof. unfold floor_bins. destruct (filter _ l) eqn:F; [intros H; destruct l; [reflexivity|discriminate]|discriminate]. Qed.
Lemma noise_mean_same nb Q : (1 <= nb)%nat -> Q <> [] -> m_noise_mean nb Q = trimmed_noise (firstn nb Q) nb.
Proof.
  intros Hnb HQ. unfold m_noise_mean, trimmed_noise. rewrite floor_bins_same. cbv zeta. set (l := floor_bins (firstn nb Q)).
  assert (L : (1 <= length l)%nat). { destruct (Nat.eq_dec (length l) 0) as [Z|]; [|lia]. apply floor_bins_length in Z. destruct nb; [lia|]. destruct Q; [contradiction|discriminate]. }
  unfold trimmed_indices. cbn [fst snd]. set (n := length l) in *. f_equal. f_equal. assert (PN : 1 <= INR n) by (apply (le_INR 1); exact L).
  assert (Q5 : (Zfloor (INR n * 0.05) <= Zfloor (INR n * 0.95))%Z). { apply Zfloor_lub. eapply Rle_trans; [apply Zfloor_lb|]. lra. }
  assert (Q9 : (Zfloor (INR n * 0.95) <= Z.of_nat n)%Z). { apply le_IZR. rewrite <- INR_IZR_INZ. eapply Rle_trans; [apply Zfloor_lb|]. lra. }
  f_equal; [lia|]. f_equal. lia.
Qed.
Lemma exclude_same nb hs Q : (forall h, In h hs -> (0 <= h)%Z) -> (nb <= length Q)%nat ->
  m_noise_exclude nb (map Z.to_nat hs) Q = exclude_noise (firstn nb Q) hs nb.
Proof.
  intros Hh L. unfold m_noise_exclude, exclude_noise. f_equal. revert Q L. induction hs as [|h t IH]; intros Q L; [reflexivity|]. cbn [map fold_left].
  rewrite IH; [|intros; apply Hh; right; assumption|rewrite zero_range_length; exact L]. f_equal. specialize (Hh h (or_introl eq_refl)).
  apply (nth_ext_eq 0); [rewrite firstn_length, zero_range_length; destruct (_ && _)%Z; rewrite ?zero_range_length, firstn_length; reflexivity|].
  intros i Hi. rewrite firstn_length, zero_range_length in Hi. rewrite SpecLemmas.nth_firstn_lt, zero_range_nth by lia.
  destruct (Z.leb_spec 0 h); [|lia]. destruct (Z.ltb_spec h (Z.of_nat nb)); cbn [andb].
  - rewrite zero_range_nth. rewrite SpecLemmas.nth_firstn_lt by lia. reflexivity.
  - rewrite SpecLemmas.nth_firstn_lt by lia. destruct (Nat.leb_spec (Z.to_nat h) i); [lia|]. reflexivity.
Qed.
(** When that bin makes no difference, everything else agrees too: the spur and, for the same harmonic bins, the noise power of each of the four
    methods (up to the Python code's 1e-15 floor). *)
Lemma c182_spur_and_noise P Q M N nb fs osr wt w w' sb mh harmonic nthd nf s r : without_dc P Q -> (forall x, In x P -> 0 <= x) ->
  (1 <= nb <= N / 2 + 1)%nat -> length P = (N / 2 + 1)%nat -> (exists i, (1 <= i < nb)%nat /\ 0 < nth i P 0) -> (-1 <= harmonic)%Z ->
  analyse_power P M N nb fs osr wt w (Some sb) mh nf None = Ok s ->
  m_measure Q w' N nb M fs osr (Some sb) harmonic nthd nf None 0 = Ok r ->
  no_extra P nb (sp_fund s) sb ->
  ms_noi r = sp_noise_dist s /\ ms_spur_bin r = sp_spur_bin s /\ ms_spur r = sp_spur_power s /\
  ((0 <= nf <= 3)%Z -> (forall h, In h (sp_harm_bins s) -> (0 <= h)%Z) -> ms_harmonics r = map Z.to_nat (sp_harm_bins s) ->
   sp_noise s = Some (Rmax (ms_noise_power r) (/ 10 ^ 15))).
Proof.
  intros W Pn Hnb LP Hpos Hh HA HM NE. destruct (c182_tone_and_noise P Q M N nb fs osr wt w w' sb mh harmonic nthd nf nf s r W Pn Hnb LP Hpos Hh HA HM) as (EB & _ & EN).
  assert (LQ : length Q = (N / 2 + 1)%nat) by (destruct W; lia).
  apply (measure_fields _ _ _ _ _ _ _ _ _ _ _ _ _ _ Hnb LQ) in HM. destruct HM as (gone & G & _ & _ & _ & _ & Es & _ & _ & Enoi & Esb & Esp & _ & _ & Eno & _). apply no_harmonics in G; [|lia]. subst gone.
  rewrite no_cut in *. apply analyse_fields in HA. destruct HA as (_ & _ & _ & _ & Es' & _ & _ & _ & _ & _ & Esb' & Esp' & End & Enz & _).
  rewrite Es, Es', EB in *. set (f := sp_fund s) in *. pose proof (residue_zeroed P Q N nb f sb W LP ltac:(lia) NE) as RZ. split; [|split; [|split]].
  - rewrite EN. destruct ((1 <=? sb)%nat && (sb <? nb)%nat && negb (near f sb sb)) eqn:B; [|lra]. apply andb_true_iff in B. destruct B as [B B3]. apply andb_true_iff in B. destruct B as [B1 B2].
    apply Nat.leb_le in B1. apply Nat.ltb_lt in B2. apply negb_true_iff in B3. destruct NE as [Z|[Z|[Z|Z]]]; [lia|lia|congruence|lra].
  - rewrite Esb, Esb', <- RZ. f_equal. apply (nth_ext_eq 0); [rewrite map_length, seq_length, firstn_length, residue_length; lia|]. intros i Hi. rewrite map_length, seq_length in Hi.
    rewrite nth_map_seq, SpecLemmas.nth_firstn_lt, residue_nth by lia. reflexivity.
  - assert (Eb : ms_spur_bin r = sp_spur_bin s).
    { rewrite Esb, Esb', <- RZ. f_equal. apply (nth_ext_eq 0); [rewrite map_length, seq_length, firstn_length, residue_length; lia|]. intros i Hi. rewrite map_length, seq_length in Hi.
      rewrite nth_map_seq, SpecLemmas.nth_firstn_lt, residue_nth by lia. reflexivity. }
    rewrite Esp, Esp', Eb. apply rsum_ext. intros i Hi. destruct (near (sp_spur_bin s) sb i); [|reflexivity]. cbn [andb].
    rewrite <- (residue_nth (N / 2 + 1) sb f [] Q i) by lia. rewrite <- (SpecLemmas.nth_firstn_lt 0 nb) by exact Hi. rewrite RZ. apply zeroed_nth, Hi.
  - intros Hnf Hz Hhs. rewrite Hhs in Eno. unfold estimate_noise in Enz. destruct (Z.eqb_spec nf 4); [lia|]. rewrite <- RZ in Enz. cbv zeta in Enz.
    set (Rz := residue (N / 2 + 1) sb f [] Q) in *. assert (LR : length Rz = (N / 2 + 1)%nat) by (unfold Rz; rewrite residue_length; exact LQ).
    assert (RN : Rz <> []) by (intros Z; rewrite Z in LR; simpl in LR; lia).
    rewrite <- (exclude_same nb (sp_harm_bins s) Rz Hz ltac:(lia)), <- (noise_mean_same nb Rz ltac:(lia) RN) in Enz. unfold median_noise in Enz. rewrite <- floor_bins_same in Enz. fold (m_noise_median nb M Rz) in Enz.
    rewrite Eno. unfold m_noise. cbv zeta. destruct (Z.eqb_spec nf 0); [apply Ok_inj in Enz; symmetry; exact Enz|]. destruct (Z.eqb_spec nf 1); [apply Ok_inj in Enz; symmetry; exact Enz|].
    destruct (Z.eqb_spec nf 2); [apply Ok_inj in Enz; symmetry; exact Enz|]. destruct (Z.eqb_spec nf 3); [apply Ok_inj in Enz; symmetry; exact Enz|lia].
Qed.

(** THD: for the same harmonic bins, each clear of the tone's window and of the DC region and wholly in the band, the two distortion powers agree
    (up to the Python code's 1e-15 floor). *)
Lemma c182_thd P Q M N nb fs osr wt w w' sb mh harmonic nthd nf nf' s r : without_dc P Q -> (forall x, In x P -> 0 <= x) ->
  (1 <= nb <= N / 2 + 1)%nat -> length P = (N / 2 + 1)%nat -> (exists i, (1 <= i < nb)%nat /\ 0 < nth i P 0) -> (-1 <= harmonic)%Z ->
  analyse_power P M N nb fs osr wt w (Some sb) mh nf None = Ok s ->
  m_measure Q w' N nb M fs osr (Some sb) harmonic nthd nf' None 0 = Ok r ->
  ms_harmonics r = map Z.to_nat (sp_harm_bins s) ->
  (forall h, In h (sp_harm_bins s) -> (2 * Z.of_nat sb < h)%Z /\ (2 * Z.of_nat sb < Z.abs (h - Z.of_nat (sp_fund s)))%Z /\ (h + Z.of_nat sb < Z.of_nat nb)%Z) ->
  sp_thd_power s = Rmax (ms_thd_power r) (/ 10 ^ 15).
Proof.
  intros W Pn Hnb LP Hpos Hh HA HM EH Hc. destruct (c182_tone_and_noise P Q M N nb fs osr wt w w' sb mh harmonic nthd nf nf' s r W Pn Hnb LP Hpos Hh HA HM) as (EB & _ & _).
  destruct W as (LQ & D & E). rewrite LP in LQ.
  apply (measure_fields _ _ _ _ _ _ _ _ _ _ _ _ _ _ Hnb LQ) in HM. destruct HM as (gone & G & _ & _ & _ & _ & Es & _ & _ & _ & _ & _ & _ & Eth & _). apply no_harmonics in G; [|lia]. subst gone.
  rewrite no_cut in *. apply analyse_fields in HA. destruct HA as (_ & _ & _ & _ & Es' & _ & _ & _ & _ & Eth' & _).
  rewrite Es, Es', EB in *. set (f := sp_fund s) in *. rewrite Eth', Eth, c25_thd_is_union_power. f_equal. rewrite EH. set (hs := sp_harm_bins s) in *. rewrite LP. unfold selected_power.
  replace (N / 2 + 1)%nat with (nb + (N / 2 + 1 - nb))%nat by lia. rewrite rsum_app. rewrite (rsum_zero (N / 2 + 1 - nb)).
  - rewrite Rplus_0_r. apply rsum_ext. intros i Hi. rewrite unwanted_no_gone.
    assert (X : existsb (fun h => clear_of f sb h && nearZ h sb i) hs = in_harmonic sb (map Z.to_nat hs) i).
    { clear -Hc. unfold in_harmonic. induction hs as [|h t IH]; [reflexivity|]. cbn [existsb map]. rewrite IH by (intros; apply Hc; right; assumption). f_equal.
      destruct (Hc h (or_introl eq_refl)) as (C1 & C2 & C3). unfold clear_of, nearZ, near. destruct (Z.ltb_spec (2 * Z.of_nat sb) (Z.abs (h - Z.of_nat f))); [|lia].
      destruct (Z.ltb_spec (Z.of_nat sb) h); [|lia]. cbn [andb]. destruct (Z.leb_spec (Z.abs (Z.of_nat i - h)) (Z.of_nat sb)), (Nat.leb_spec (Z.to_nat h) (i + sb)), (Nat.leb_spec i (Z.to_nat h + sb)); cbn [andb]; try reflexivity; lia. }
    destruct (existsb (fun h => clear_of f sb h && nearZ h sb i) hs) eqn:B.
    + rewrite <- X. apply existsb_exists in B. destruct B as (h & Ih & B). apply andb_true_iff in B. destruct B as [_ B]. destruct (Hc h Ih) as (C1 & C2 & C3). unfold nearZ in B. apply Z.leb_le in B.
      assert (U : ((sb <=? i)%nat && negb (near f sb i)) = true).
      { apply andb_true_iff. split; [apply Nat.leb_le; lia|]. apply negb_true_iff. unfold near. apply andb_false_iff. rewrite !Nat.leb_gt. lia. }
      rewrite U. cbn [andb]. symmetry. apply E. lia.
    + rewrite <- X. reflexivity.
  - intros i Hi. destruct (existsb (fun h => clear_of f sb h && nearZ h sb (nb + i)) hs) eqn:B; [|reflexivity]. exfalso.
    apply existsb_exists in B. destruct B as (h & Ih & B). apply andb_true_iff in B. destruct B as [_ B]. destruct (Hc h Ih) as (C1 & C2 & C3). unfold nearZ in B. apply Z.leb_le in B. lia.
Qed.
(** A second harmonic landing on the tone's own window: the MATLAB code counts what is left of its window, the Python code does not count it. *)
Lemma c182_thd_refuted : exists P Q, without_dc P Q /\ thd_power P 4 1 [6%Z] = / 10 ^ 15 /\ m_thd_power 9 1 [6%nat] (residue 9 1 4 [] Q) = 7.
Proof.
  exists [0; 0; 0; 0; 100; 0; 5; 2; 0], [0; 0; 0; 0; 100; 0; 5; 2; 0]. split; [repeat split|]. split.
  - rewrite c25_thd_is_union_power. unfold selected_power. cbn [length rsum existsb nth].
    repeat match goal with |- context [clear_of ?a ?b ?c] => let r := eval compute in (clear_of a b c) in change (clear_of a b c) with r end. cbn [andb orb].
    pose proof (SpecMetricProofs.eps_pos 15). rewrite Rmax_right; lra.
  - unfold m_thd_power. rewrite residue_length. cbn [length]. rewrite sum_over_seq. cbn [rsum]. rewrite !residue_nth by lia.
    repeat match goal with |- context [unwanted_bin ?a ?b ?c ?d] => let r := eval compute in (unwanted_bin a b c d) in change (unwanted_bin a b c d) with r end.
    cbn [existsb Nat.sub Nat.add Nat.min Nat.leb Nat.ltb andb orb nth]. lra.
Qed.

(** Not half way between two integers. *)
Lemma m_round_near x : off_half x -> Rabs (x - IZR (m_round x)) < / 2.
Proof.
  intros H. unfold m_round. destruct (Rleb_spec 0 x) as [L|L].
  - pose proof (Zfloor_lb (x + 1 / 2)). pose proof (Zfloor_ub (x + 1 / 2)). specialize (H (Zfloor (x + 1 / 2) - 1)%Z). rewrite minus_IZR in H. apply Rabs_def1; lra.
  - pose proof (Zceil_ub (x - 1 / 2)). pose proof (Zceil_lb (x - 1 / 2)). specialize (H (Zceil (x - 1 / 2))%Z). apply Rabs_def1; lra.
Qed.
Lemma alias_bin (n : Z) N b : (0 < N)%nat -> nearest_multiple_distance (IZR n) (INR N) (IZR b) -> m_alias (IZR n) (INR N) = Ok (IZR b).
Proof.
  intros HN H. pose proof (INR_pos N HN) as PN. rewrite (proj1 (c163_alias (IZR n) (INR N)) PN). f_equal. apply (nmd_unique (IZR n) (INR N)); [apply fold_nearest, PN|exact H].
Qed.
Lemma nmd_signed (z q : Z) m : 0 < m -> Rabs (IZR z) <= m / 2 -> nearest_multiple_distance (IZR z + IZR q * m) m (IZR (Z.abs z)).
Proof.
  intros Hm H. rewrite abs_IZR. apply nmd_shift. unfold Rabs in *. destruct (Rcase_abs (IZR z)).
  - rewrite <- (Ropp_involutive (IZR z)) at 1. apply nmd_neg. apply nmd_fixed; [exact Hm|lra].
  - apply nmd_fixed; [exact Hm|lra].
Qed.
Lemma bin_same_even x N : (0 < N)%nat -> Nat.Even N -> off_half x ->
  exists b, (0 <= b <= Z.of_nat (N / 2))%Z /\ round_he (fold_bin x (Z.of_nat N)) = b /\ m_alias (IZR (m_round x)) (INR N) = Ok (IZR b).
Proof.
  intros HN HE Ho. pose proof (INR_pos N HN) as PN. destruct (c12_even_length x (Z.of_nat N) ltac:(lia)) as [[[q Hq] Hmin] [L U]].
  { destruct HE as [h ->]. exists (Z.of_nat h). lia. }
  set (d := fold_bin x (Z.of_nat N)) in *. rewrite <- INR_IZR_INZ in *. pose proof (m_round_near x Ho) as Nr. set (n := m_round x) in *.
  set (z := (n - q * Z.of_nat N)%Z). assert (Ez : IZR z = IZR n - IZR q * INR N) by (unfold z; rewrite minus_IZR, mult_IZR, <- INR_IZR_INZ; reflexivity).
  assert (EH : INR N / 2 = INR (N / 2)). { destruct HE as [h ->]. rewrite (Nat.mul_comm 2 h), Nat.div_mul by lia. rewrite mult_INR. change (INR 2) with 2. lra. }
  assert (Dz : Rabs (IZR z - (x - IZR q * INR N)) < / 2). { rewrite Ez. replace (IZR n - IZR q * INR N - (x - IZR q * INR N)) with (- (x - IZR n)) by ring. rewrite Rabs_Ropp. exact Nr. }
  assert (Ed : d = Rabs (x - IZR q * INR N)) by (first [exact Hq | (rewrite Hq; f_equal; ring)]).
  assert (Az : (Z.abs z <= Z.of_nat (N / 2))%Z).
  { apply Z.lt_succ_r. apply lt_IZR. rewrite succ_IZR, abs_IZR, <- INR_IZR_INZ, <- EH. rewrite Ed in U.
    pose proof (Rabs_triang (IZR z - (x - IZR q * INR N)) (x - IZR q * INR N)) as T. replace (IZR z - (x - IZR q * INR N) + (x - IZR q * INR N)) with (IZR z) in T by ring. lra. }
  exists (Z.abs z). split; [lia|]. split.
  - apply Znearest_imp. rewrite Ed, abs_IZR. eapply Rle_lt_trans; [apply Rabs_triang_inv2|]. rewrite Rabs_minus_sym. exact Dz.
  - apply alias_bin; [exact HN|]. replace (IZR n) with (IZR z + IZR q * INR N) by (rewrite Ez; ring). apply nmd_signed; [exact PN|]. rewrite EH, <- abs_IZR, INR_IZR_INZ. apply IZR_le, Az.
Qed.
(** The harmonics are looked for in the same bins when the record length is even and no multiple of the tone's position is half way between
    two bins, and for every record length when the tone sits exactly on a bin. *)
Lemma c182_harmonics x m N : (0 < N)%nat -> (exists k : nat, x = INR k) \/ (Nat.Even N /\ forall i, (2 <= i <= m)%nat -> off_half (x * INR i)) ->
  m_harmonics (Some x) m N = Ok (map Z.to_nat (harmonic_bins x m N)) /\ (forall h, In h (harmonic_bins x m N) -> (0 <= h <= Z.of_nat (N / 2))%Z).
Proof.
  intros HN H. assert (B : forall i, (i < m - 1)%nat -> exists b, (0 <= b <= Z.of_nat (N / 2))%Z /\ round_he (fold_bin (x * INR (i + 2)) (Z.of_nat N)) = b /\ m_alias (IZR (m_round (x * INR (i + 2)))) (INR N) = Ok (IZR b)).
  { intros i Hi. destruct H as [[k ->]|[HE Ho]]; [|apply bin_same_even; [exact HN|exact HE|apply Ho; lia]].
    destruct (c12_integer_bin (Z.of_nat (k * (i + 2))) (Z.of_nat N) ltac:(lia)) as (Nm & [L U] & b & E). rewrite <- mult_INR, INR_IZR_INZ. exists b. rewrite E in *.
    split; [|split].
    - apply le_IZR in L. split; [exact L|]. assert (2 * b <= Z.of_nat N)%Z by (apply le_IZR; rewrite mult_IZR; lra). rewrite Nat2Z.inj_div. apply Z.div_le_lower_bound; lia.
    - apply round_he_IZR.
    - replace (m_round (IZR (Z.of_nat (k * (i + 2))))) with (Z.of_nat (k * (i + 2))).
      + apply alias_bin; [exact HN|]. rewrite (INR_IZR_INZ N). exact Nm.
      + unfold m_round. destruct (Rleb_spec 0 (IZR (Z.of_nat (k * (i + 2))))) as [G|G]; [symmetry; apply floor_is; lra|]. rewrite <- INR_IZR_INZ in G. pose proof (pos_INR (k * (i + 2))). lra. }
  split.
  - unfold m_harmonics, harmonic_bins. destruct (Nat.leb_spec m 1) as [L|L]; [replace (m - 1)%nat with O by lia; reflexivity|]. f_equal. rewrite map_map. apply map_ext_in. intros i Hi. apply in_seq in Hi.
    destruct (B i ltac:(lia)) as (b & _ & E1 & E2). rewrite E1, E2, Zfloor_IZR. reflexivity.
  - intros h Hh. unfold harmonic_bins in Hh. apply in_map_iff in Hh. destruct Hh as (i & <- & Hi). apply in_seq in Hi. destruct (B i ltac:(lia)) as (b & R1 & -> & _). exact R1.
Qed.
(** A record of five samples, the tone at position 1.2: the MATLAB code looks for the second harmonic in bin 2, the Python code in bin 3, past
    the end of the spectrum. *)
Lemma c182_harmonics_refuted : m_harmonics (Some 1.2) 2 5 = Ok [2%nat] /\ harmonic_bins 1.2 2 5 = [3%Z].
Proof.
  split.
  - unfold m_harmonics. cbn [Nat.leb Nat.sub seq map Nat.add]. assert (E : m_round (1.2 * INR 2) = 2%Z). { unfold m_round. change (INR 2) with 2. destruct (Rleb_spec 0 (1.2 * 2)); [apply floor_is; lra|lra]. }
    rewrite E. rewrite (alias_bin 2 5 2); [rewrite Zfloor_IZR; reflexivity|lia|]. apply nmd_fixed; simpl; lra.
  - destruct c24_odd_length_refuted as (frac & N & b & _). unfold harmonic_bins. cbn [Nat.sub seq map Nat.add]. f_equal. unfold fold_bin. change (IZR (Z.of_nat 5)) with 5. change (INR 2) with 2.
    replace (Zfloor (1.2 * 2 / 5)) with 0%Z by (symmetry; apply floor_is; lra). change (Z.of_nat 5 / 2)%Z with 2%Z. destruct (Rltb_spec 2 (1.2 * 2 - 5 * 0)) as [L|L]; [|lra].
    apply Znearest_imp. apply Rabs_def1; lra.
Qed.

Lemma log_floor_lg x : / 10 ^ 20 <= x -> log_floor x = lg x.
Proof. intros H. unfold log_floor. rewrite Rmax_left by exact H. reflexivity. Qed.
Lemma lg_scale4 x : 0 < x -> lg (x / 10 ^ 4) = lg x - 4.
Proof.
  intros H. replace (x / 10 ^ 4) with (x * / (10 ^ 2) ^ 2) by field. rewrite lg_mult; [|exact H|apply Rinv_0_lt_compat; lra]. rewrite lg_inv by lra. rewrite lg_sqr by lra. replace (10 ^ 2) with (10 ^ 2) by reflexivity.
  rewrite lg_sqr by lra. rewrite lg_10. ring.
Qed.
(** Where the tone lies between the bins: the same position when both neighbours are inside the band, away from DC and within the factor 10^4 the
    Python code insists on, or when a neighbour is exactly empty and the tone is above 1e-16. *)
Lemma c182_position P Q N nb : without_dc P Q -> length P = (N / 2 + 1)%nat -> (nb <= N / 2 + 1)%nat ->
  let f := fundamental_bin P nb in (2 <= f)%nat -> (f + 1 < nb)%nat ->
  let e := nth f P 0 in let l := nth (f - 1) P 0 in let r := nth (f + 1) P 0 in
  (/ 10 ^ 20 <= l /\ / 10 ^ 20 <= r /\ e / 10 ^ 4 <= l /\ e / 10 ^ 4 <= r) \/ (/ 10 ^ 16 < e /\ 0 <= l /\ 0 <= r /\ (l = 0 \/ r = 0)) ->
  m_position Q N f = Some (fundamental_frac P nb).
Proof.
  intros (LQ & D & E) LP Hnb f F2 F1 e l r H. destruct (c54_fundamental_is_peak P nb ltac:(lia)) as (_ & PK & _). fold f in PK. rewrite Nat.min_l in PK by lia.
  assert (Lel : l <= e) by (apply PK; lia). assert (Ler : r <= e) by (apply PK; lia).
  unfold m_position, fundamental_frac. cbv zeta. fold f. rewrite firstn_length, LP, (Nat.min_l nb (N / 2 + 1)), (Nat.min_l (f + 1) (N / 2)) by lia. rewrite !E by lia. fold e l r.
  rewrite !SpecLemmas.nth_firstn_lt by lia. fold e l r. destruct (Nat.ltb_spec 0 f) as [_|?]; [|lia]. destruct (Nat.ltb_spec f (nb - 1)) as [_|?]; [|lia]. cbn [andb].
  pose proof (SpecMetricProofs.eps_pos 20) as E20. destruct H as [(H1 & H2 & H3 & H4)|(H1 & H2 & H3 & H4)].
  - assert (e0 : 0 < e) by lra. destruct (Rltb_spec 0 e); [|lra]. destruct (Rltb_spec 0 l); [|lra]. destruct (Rltb_spec 0 r); [|lra]. cbn [andb].
    rewrite !log_floor_lg by lra. fold (lg e) (lg l) (lg r).
    assert (G1 : lg e - 4 <= lg l) by (rewrite <- lg_scale4 by exact e0; apply lg_mono; [apply Rdiv_lt_0_compat; lra|exact H3]).
    assert (G2 : lg e - 4 <= lg r) by (rewrite <- lg_scale4 by exact e0; apply lg_mono; [apply Rdiv_lt_0_compat; lra|exact H4]).
    assert (M1 : lg l <= lg e) by (apply lg_mono; lra). assert (M2 : lg r <= lg e) by (apply lg_mono; lra).
    destruct (Rleb_spec (lg e - 4) (Rmin (lg l) (lg r))) as [Z|Z]; [|exfalso; apply (Rlt_not_le _ _ Z); apply Rmin_glb; assumption].
    destruct (Reqb_spec (2 * lg e - lg l - lg r) 0) as [Z1|Z1], (Reqb_spec (2 * (2 * lg e - lg l - lg r)) 0) as [Z2|Z2]; try (exfalso; lra).
    + destruct (Reqb_spec (lg r - lg l) 0); [reflexivity|lra].
    + f_equal. field. lra.
  - assert (Z : (Rltb 0 e && Rltb 0 l && Rltb 0 r) = false).
    { destruct H4 as [-> | ->]; destruct (Rltb_spec 0 0); try lra; rewrite ?andb_false_r; reflexivity. }
    rewrite Z. f_equal. assert (E16 : / 10 ^ 20 < / 10 ^ 16) by (apply Rinv_lt_contravar; lra).
    rewrite (log_floor_lg e) by lra. assert (P16 : lg (/ 10 ^ 16) = - 16).
    { replace (/ 10 ^ 16) with (1 / 10 ^ 4 / 10 ^ 4 / 10 ^ 4 / 10 ^ 4) by field. rewrite !lg_scale4 by lra. rewrite lg_1. ring. }
    assert (M : - 16 < lg e) by (rewrite <- P16; apply lg_lt; [apply SpecMetricProofs.eps_pos|exact H1]).
    assert (P20 : log_floor 0 = - 20).
    { unfold log_floor. rewrite Rmax_right by lra. fold (lg (/ 10 ^ 20)). replace (/ 10 ^ 20) with (1 / 10 ^ 4 / 10 ^ 4 / 10 ^ 4 / 10 ^ 4 / 10 ^ 4) by field. rewrite !lg_scale4 by lra. rewrite lg_1. ring. }
    destruct (Rleb_spec (lg e - 4) (Rmin (log_floor l) (log_floor r))) as [G|G]; [|reflexivity]. exfalso.
    pose proof (Rmin_l (log_floor l) (log_floor r)). pose proof (Rmin_r (log_floor l) (log_floor r)). destruct H4 as [Hl|Hl]; rewrite Hl, P20 in *; lra.
Qed.
(** A tone in the last bin of an even record: its right neighbour is taken to be itself, and the position comes out half a bin past the end. *)
Lemma c182_position_refuted : m_position [0; 1; 100] 4 2 = Some 2.5 /\ fundamental_bin [0; 1; 100] 3 = 2%nat /\ fundamental_frac [0; 1; 100] 3 = 2.
Proof.
  assert (F : fundamental_bin [0; 1; 100] 3 = 2%nat).
  { unfold fundamental_bin. cbn [firstn length tl]. change (1 <? 3)%nat with true. cbv iota. apply (f_equal S). apply argmax_unique; cbn [length]; [lia| |]; intros j Hj; (destruct j as [|[|j]]; [| |lia]); cbn [nth]; try lra; lia. }
  split; [|split; [exact F|]].
  - unfold m_position. cbv zeta. change (2 - 1)%nat with 1%nat. change (Nat.min (2 + 1) (4 / 2)) with 2%nat. cbn [nth]. fold (lg 1) (lg 100). destruct (Rltb_spec 0 100); [|lra]. destruct (Rltb_spec 0 1); [|lra]. cbn [andb].
    rewrite lg_1. assert (E : lg 100 = 2) by (replace 100 with (10 ^ 2) by ring; rewrite lg_sqr, lg_10 by lra; ring). rewrite E. destruct (Reqb_spec (2 * 2 - 0 - 2) 0); [lra|]. f_equal. simpl. lra.
  - unfold fundamental_frac. rewrite F. cbn [firstn length]. change ((0 <? 2) && (2 <? 3 - 1))%nat with false. cbv iota. simpl. lra.
Qed.
(** One tone, low-frequency noise in bin 1 and a spur at bins 6 and 7, half-width 1: bin 1 is counted as noise. *)
Example c181_ex : exists r, m_measure [0; 3; 0; 0; 100; 0; 5; 2; 0] [1] 16 9 1 1 1 (Some 1%nat) 1 1 1 None 0 = Ok r /\
  ms_bin r = 4%nat /\ ms_sig r = 100 /\ ms_noi r = 10 /\ ms_spur_bin r = 6%nat /\ ms_spur r = 7.
Proof.
  set (P := [0; 3; 0; 0; 100; 0; 5; 2; 0]).
  assert (E : exists r, m_measure P [1] 16 9 1 1 1 (Some 1%nat) 1 1 1 None 0 = Ok r) by (unfold m_measure; cbv zeta; unfold m_harmonics; change (Z.to_nat (- (1))) with O; cbn [Nat.leb bind]; eexists; reflexivity).
  destruct E as [r E]. exists r. split; [exact E|].
  destruct (measure_fields P [1] 16 9 1 1 1 (Some 1%nat) 1 1 1 None 0 r ltac:(change (16 / 2)%nat with 8%nat; lia) eq_refl E) as (gone & G & _ & _ & Ef & _ & Es & Esig & _ & En & Eb & Er & _).
  apply no_harmonics in G; [|lia]. subst gone. rewrite no_cut in *.
  assert (F : ms_bin r = 4%nat). { rewrite Ef. apply argmax_unique; [cbn; lia| |]; intros j Hj; cbn [firstn length P] in *; do 9 (try (destruct j as [|j]; [try (exfalso; lia); cbn [nth P]; lra|try (exfalso; lia)])). }
  rewrite F, Es in *. split; [reflexivity|].
  assert (B : ms_spur_bin r = 6%nat).
  { rewrite Eb. apply argmax_unique; [rewrite map_length, seq_length; lia| |]; intros j Hj; rewrite ?map_length, ?seq_length in Hj; rewrite !nth_map_seq by lia; do 9 (try (destruct j as [|j]; [try (exfalso; lia); cbn; lra|try (exfalso; lia)])). }
  rewrite B in *. split; [rewrite Esig; unfold selected_power, P; cbn; lra|]. split; [rewrite En; unfold selected_power, P; cbn; lra|]. split; [reflexivity|]. rewrite Er. unfold selected_power, P. cbn. lra.
Qed.
