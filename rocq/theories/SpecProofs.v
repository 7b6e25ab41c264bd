(** * Spectrum analysis: the final lemmas are named c23_ .. c29_, c51_, c54_. *)
From Verif Require Import Base BaseLemmas Cplx FreqModel FreqSpec FreqProofs UnitsModel UnitsSpec UnitsProofs TiModel TiProofs TiToneProofs SpecModel SpecSpec SpecLemmas.
From Coq Require Import Psatz Permutation Sorted.
Local Open Scope R_scope.

(** ** C23 *)
Lemma round_he_mono x y : x <= y -> (round_he x <= round_he y)%Z.
Proof. intros H. unfold round_he. apply (@Zrnd_le _ (valid_rnd_N _)). exact H. Qed.

Definition snapped (e : R) : R := let r := IZR (round_he e) in if isclose12 e r then r else e.
Lemma inband_eq n osr : (0 < n)%Z -> 0 < osr ->
  inband_count n osr = Ok (Z.max 1 (Z.min (Zfloor (snapped (IZR n / (2 * osr))) + 1) (n / 2 + 1))).
Proof.
  intros Hn Ho. unfold inband_count, raise_if. destruct (Z.leb_spec n 0); [lia|].
  destruct (Rleb_spec osr 0); [lra|]. reflexivity.
Qed.
Lemma inband_ok_pos n osr c : inband_count n osr = Ok c -> (0 < n)%Z /\ 0 < osr.
Proof.
  unfold inband_count, raise_if. destruct (Z.leb_spec n 0); [discriminate|].
  destruct (Rleb_spec osr 0); [discriminate|]. intros _. split; [lia|lra].
Qed.
Lemma snapped_floor_ge e : (Zfloor e <= Zfloor (snapped e))%Z.
Proof.
  unfold snapped. destruct (isclose12 e _); [|lia]. rewrite Zfloor_IZR. apply Znearest_ge_floor.
Qed.
Lemma snapped_floor_le e : IZR (Zfloor (snapped e)) <= e + / 10 ^ 12 * (1 + Rabs (IZR (Zfloor (snapped e)))).
Proof.
  unfold snapped. destruct (isclose12 e (IZR (round_he e))) eqn:E.
  - apply Rleb_true in E. rewrite Zfloor_IZR. unfold Rabs in E at 1. destruct (Rcase_abs _); lra.
  - pose proof (Zfloor_lb e). pose proof (Rabs_pos (IZR (Zfloor e))).
    assert (0 < / 10 ^ 12) by (apply Rinv_0_lt_compat; lra). nra.
Qed.
Lemma snapped_floor_mono a b : 0 <= a -> a <= b -> (Zfloor (snapped a) <= Zfloor (snapped b))%Z.
Proof.
  intros Ha H. destruct (Rle_dec (IZR (Zfloor (snapped a))) b) as [L|L].
  - apply Z.le_trans with (Zfloor b); [|apply snapped_floor_ge]. apply Zfloor_lub, L.
  - apply Rnot_le_lt in L. unfold snapped in *. destruct (isclose12 a (IZR (round_he a))) eqn:E.
    + rewrite Zfloor_IZR in *. set (k := round_he a) in *.
      assert (Ek : round_he b = k).
      { apply Z.le_antisymm; [|apply round_he_mono; exact H].
        rewrite <- (round_he_IZR k). apply round_he_mono. lra. }
      rewrite Ek. assert (C : isclose12 b (IZR k) = true).
      { apply Rleb_true. apply Rleb_true in E. eapply Rle_trans; [|exact E].
        rewrite !Rabs_left by lra. lra. }
      rewrite C, Zfloor_IZR. lia.
    + exfalso. pose proof (Zfloor_lb a). lra.
Qed.

Lemma c23_range n osr c : inband_count n osr = Ok c -> (1 <= c <= n / 2 + 1)%Z.
Proof.
  intros H. destruct (inband_ok_pos _ _ _ H) as [Hn Ho]. rewrite (inband_eq n osr Hn Ho) in H. injection H as <-.
  pose proof (Z.div_pos n 2 ltac:(lia) ltac:(lia)). lia.
Qed.
Lemma c23_error_iff n osr : inband_count n osr = Err ValueError <-> (n <= 0)%Z \/ osr <= 0.
Proof.
  split.
  - intros H. destruct (Z_le_dec n 0); [left; assumption|]. destruct (Rle_dec osr 0); [right; assumption|].
    rewrite inband_eq in H by (lia || lra). discriminate.
  - intros [H|H]; unfold inband_count, raise_if.
    + destruct (Z.leb_spec n 0); [reflexivity|lia].
    + destruct (n <=? 0)%Z; [reflexivity|]. destruct (Rleb_spec osr 0); [reflexivity|lra].
Qed.
Lemma c23_antitone n osr1 osr2 c1 c2 : osr1 <= osr2 ->
  inband_count n osr1 = Ok c1 -> inband_count n osr2 = Ok c2 -> (c2 <= c1)%Z.
Proof.
  intros H H1 H2. destruct (inband_ok_pos _ _ _ H1) as [Hn Ho1]. destruct (inband_ok_pos _ _ _ H2) as [_ Ho2].
  rewrite (inband_eq n osr1 Hn Ho1) in H1. rewrite (inband_eq n osr2 Hn Ho2) in H2.
  injection H1 as <-. injection H2 as <-.
  assert (Hn' : 0 < IZR n) by (apply IZR_lt, Hn).
  assert (M : (Zfloor (snapped (IZR n / (2 * osr2))) <= Zfloor (snapped (IZR n / (2 * osr1))))%Z).
  { apply snapped_floor_mono.
    - apply Rdiv_le_0_compat; lra.
    - unfold Rdiv. apply Rmult_le_compat_l; [lra|]. apply Rinv_le_contravar; lra. }
  lia.
Qed.
Lemma c23_full_band n osr : (0 < n)%Z -> 0 < osr <= 1 -> inband_count n osr = Ok (n / 2 + 1)%Z.
Proof.
  intros Hn Ho. rewrite inband_eq by (lia || lra). f_equal.
  assert (n / 2 <= Zfloor (snapped (IZR n / (2 * osr))))%Z.
  { apply Z.le_trans with (Zfloor (IZR n / (2 * osr))); [|apply snapped_floor_ge]. apply Zfloor_lub.
    assert (Hn' : 0 < IZR n) by (apply IZR_lt, Hn).
    assert (D : (2 * (n / 2) <= n)%Z) by (apply Z.mul_div_le; lia). apply IZR_le in D. rewrite mult_IZR in D.
    apply Rdiv_le_lower; [lra|]. pose proof (Z.div_pos n 2 ltac:(lia) ltac:(lia)) as P. apply IZR_le in P. nra. }
  pose proof (Z.div_pos n 2 ltac:(lia) ltac:(lia)). lia.
Qed.
(** Every bin k at or below the edge n/(2*osr) is counted; a counted bin (other than DC)
    exceeds the edge by at most the tolerance. *)
Lemma c23_counts_bins n osr c k : inband_count n osr = Ok c -> (1 <= k <= n / 2)%Z ->
  (IZR k <= IZR n / (2 * osr) -> (k < c)%Z) /\
  ((k < c)%Z -> IZR k <= IZR n / (2 * osr) + / 10 ^ 12 * (1 + IZR n)).
Proof.
  intros H Hk. destruct (inband_ok_pos _ _ _ H) as [Hn Ho]. rewrite (inband_eq n osr Hn Ho) in H. injection H as <-.
  set (e := IZR n / (2 * osr)). split.
  - intros L. assert (k <= Zfloor (snapped e))%Z by (eapply Z.le_trans; [apply Zfloor_lub, L|apply snapped_floor_ge]). lia.
  - intros L. assert (K : (k <= Zfloor (snapped e))%Z) by lia.
    assert (KN : IZR k <= IZR n) by (apply IZR_le; pose proof (Z.div_lt n 2 ltac:(lia) ltac:(lia)); lia).
    assert (T : 0 < / 10 ^ 12 < 1) by (split; [apply Rinv_0_lt_compat; lra|rewrite <- Rinv_1; apply Rinv_lt_contravar; lra]).
    assert (E0 : 0 < e) by (unfold e; apply Rdiv_lt_0_compat; [apply IZR_lt, Hn|lra]).
    destruct (Rle_dec (IZR k) e) as [B|B].
    { apply IZR_lt in Hn. nra. }
    apply Rnot_le_lt in B.
    (* the snapped value is an integer above e, hence the rounded edge *)
    assert (EK : Zfloor (snapped e) = k).
    { apply Z.le_antisymm; [|exact K]. unfold snapped. destruct (isclose12 e _).
      - rewrite Zfloor_IZR. rewrite <- (round_he_IZR k). apply round_he_mono. lra.
      - apply IZR_le in K. unfold snapped in *. pose proof (Zfloor_lb e). assert (IZR (Zfloor e) < IZR k) by lra. apply lt_IZR in H0. lia. }
    pose proof (snapped_floor_le e) as U. rewrite EK in U. rewrite Rabs_pos_eq in U by (apply IZR_le; lia). nra.
Qed.
(** Away from the tolerance the count is exactly floor(edge)+1. *)
Lemma c23_exact n osr c : inband_count n osr = Ok c ->
  (forall k : Z, IZR k = IZR n / (2 * osr) \/ / 10 ^ 12 * (1 + Rabs (IZR k)) < Rabs (IZR n / (2 * osr) - IZR k)) ->
  c = Z.min (Zfloor (IZR n / (2 * osr)) + 1) (n / 2 + 1).
Proof.
  intros H Hk. destruct (inband_ok_pos _ _ _ H) as [Hn Ho]. rewrite (inband_eq n osr Hn Ho) in H. injection H as <-.
  set (e := IZR n / (2 * osr)) in *.
  assert (E0 : 0 < e) by (unfold e; apply Rdiv_lt_0_compat; [apply IZR_lt, Hn|lra]).
  assert (S : snapped e = e).
  { unfold snapped. destruct (isclose12 e (IZR (round_he e))) eqn:C; [|reflexivity].
    apply Rleb_true in C. destruct (Hk (round_he e)) as [<-|L]; [rewrite round_he_IZR; reflexivity|lra]. }
  rewrite S. assert (0 <= Zfloor e)%Z by (apply Zfloor_lub; simpl; lra).
  pose proof (Z.div_pos n 2 ltac:(lia) ltac:(lia)). lia.
Qed.
Lemma c23_count_ex : inband_count 1024 4 = Ok 129%Z /\ inband_count 1000 3 = Ok 167%Z /\ inband_count 7 1 = Ok 4%Z /\ inband_count 8 100 = Ok 1%Z.
Proof.
  assert (T : 0 < / 10 ^ 12 <= / 10 ^ 6) by (split; [apply Rinv_0_lt_compat; lra|apply Rinv_le_contravar; lra]).
  assert (T6 : / 10 ^ 6 = 0.000001) by lra.
  split; [|split; [|split]].
  - rewrite inband_eq by (lia || lra). replace (1024 / (2 * 4)) with (IZR 128) by lra. unfold snapped. rewrite round_he_IZR.
    destruct (isclose12 _ _); rewrite Zfloor_IZR; reflexivity.
  - rewrite inband_eq by (lia || lra). unfold snapped.
    assert (E : round_he (1000 / (2 * 3)) = 167%Z) by (apply Znearest_imp; unfold Rabs; destruct (Rcase_abs _); lra).
    rewrite E. destruct (isclose12 (1000 / (2 * 3)) 167) eqn:C.
    + exfalso. apply Rleb_true in C. rewrite (Rabs_pos_eq 167) in C by lra. unfold Rabs in C. destruct (Rcase_abs _) in C; lra.
    + replace (Zfloor (1000 / (2 * 3))) with 166%Z; [reflexivity|]. symmetry. apply Zfloor_imp. simpl. lra.
  - rewrite c23_full_band by (lia || lra). reflexivity.
  - rewrite inband_eq by (lia || lra). unfold snapped.
    assert (E : round_he (8 / (2 * 100)) = 0%Z) by (apply Znearest_imp; unfold Rabs; destruct (Rcase_abs _); lra).
    rewrite E. replace (Zfloor _) with 0%Z; [reflexivity|]. symmetry. destruct (isclose12 _ _); apply Zfloor_imp; simpl; lra.
Qed.

(** ** C54 *)
Lemma firstn_len_min {A} n (l : list A) : length (firstn n l) = Nat.min n (length l).
Proof. apply firstn_length. Qed.
Lemma nth_tl {A} (d : A) l i : nth i (tl l) d = nth (S i) l d.
Proof. destruct l; [destruct i; reflexivity|reflexivity]. Qed.
Lemma tl_length {A} (l : list A) : length (tl l) = (length l - 1)%nat.
Proof. destruct l; simpl; lia. Qed.
(** The returned bin is the first in-band, non-DC bin of maximal power. *)
Lemma c54_fundamental_is_peak P nb : (2 <= Nat.min nb (length P))%nat ->
  let f := fundamental_bin P nb in
  (1 <= f < Nat.min nb (length P))%nat /\
  (forall i, (1 <= i < Nat.min nb (length P))%nat -> nth i P 0 <= nth f P 0) /\
  (forall i, (1 <= i < f)%nat -> nth i P 0 < nth f P 0).
Proof.
  intros H f. unfold f, fundamental_bin. rewrite firstn_length. destruct (Nat.ltb_spec 1 (Nat.min nb (length P))); [|lia].
  set (s := firstn nb P). assert (Ls : length s = Nat.min nb (length P)) by apply firstn_length.
  assert (Lt : length (tl s) = (Nat.min nb (length P) - 1)%nat) by (rewrite tl_length, Ls; reflexivity).
  destruct (argmax_spec (tl s)) as (A1 & A2 & A3); [intros E; rewrite E in Lt; simpl in Lt; lia|].
  set (m := argmax (tl s)) in *. rewrite Lt in *.
  assert (G : forall i, (i < Nat.min nb (length P) - 1)%nat -> nth i (tl s) 0 = nth (S i) P 0).
  { intros i Hi. rewrite nth_tl. unfold s. apply nth_firstn_lt. lia. }
  split; [lia|]. split; intros i Hi; replace i with (S (i - 1)) by lia; rewrite <- !G by lia.
  - apply A2. lia.
  - apply A3. lia.
Qed.
Lemma c54_single_bin P nb : (Nat.min nb (length P) <= 1)%nat -> fundamental_bin P nb = O /\ fundamental_frac P nb = 0.
Proof.
  intros H. assert (E : fundamental_bin P nb = O).
  { unfold fundamental_bin. rewrite firstn_length. destruct (Nat.ltb_spec 1 (Nat.min nb (length P))); [lia|reflexivity]. }
  split; [exact E|]. unfold fundamental_frac. rewrite E. reflexivity.
Qed.
Lemma log_floor_mono x y : x <= y -> log_floor x <= log_floor y.
Proof.
  intros H. unfold log_floor. assert (0 < / 10 ^ 20) by (apply Rinv_0_lt_compat; lra).
  assert (0 < ln 10) by (rewrite <- ln_1; apply ln_increasing; lra).
  unfold Rdiv. apply Rmult_le_compat_r; [apply Rlt_le, Rinv_0_lt_compat; assumption|].
  assert (M : Rmax x (/ 10 ^ 20) <= Rmax y (/ 10 ^ 20)) by (apply Rle_max_compat_r; exact H).
  pose proof (Rmax_r x (/ 10 ^ 20)). destruct M as [M|M]; [left; apply ln_increasing; lra|rewrite M; lra].
Qed.
(** If the located bin is at least its left neighbour (automatic unless that is DC), the
    interpolated position is within half a bin of it. *)
Lemma c54_within_half_bin P nb :
  let f := fundamental_bin P nb in
  nth (f - 1) P 0 <= nth f P 0 -> Rabs (fundamental_frac P nb - INR f) <= / 2.
Proof.
  intros f Hl. assert (Z0 : Rabs (INR f - INR f) <= / 2) by (rewrite Rminus_diag_eq, Rabs_R0 by reflexivity; lra).
  unfold fundamental_frac. fold f. rewrite firstn_length.
  destruct (Nat.ltb_spec 0 f) as [F0|F0]; [|exact Z0].
  destruct (Nat.ltb_spec f (Nat.min nb (length P) - 1)) as [F1|F1]; [|exact Z0]. cbn [andb].
  rewrite !nth_firstn_lt by lia.
  destruct (c54_fundamental_is_peak P nb ltac:(lia)) as (_ & Mx & _). fold f in Mx.
  set (ym := log_floor (nth (f - 1) P 0)). set (y0 := log_floor (nth f P 0)). set (yp := log_floor (nth (f + 1) P 0)).
  assert (A : ym <= y0) by (apply log_floor_mono, Hl).
  assert (B : yp <= y0) by (apply log_floor_mono, Mx; lia).
  destruct (Rleb (y0 - 4) (Rmin ym yp)); [|exact Z0].
  destruct (Reqb_spec (2 * (2 * y0 - ym - yp)) 0) as [D|D]; [exact Z0|].
  replace (INR f + _ - INR f) with ((yp - ym) / (2 * (2 * y0 - ym - yp))) by ring.
  assert (0 < 2 * (2 * y0 - ym - yp)) by lra. apply Rabs_le. split.
  - apply Rdiv_le_lower; lra.
  - apply Rdiv_le_upper; lra.
Qed.
(** When the DC bin exceeds a peak at bin 1, the interpolated position can leave the half-bin
    range: here it is 3.5 although the peak is at bin 1. *)
Lemma c54_dc_neighbour_refuted : exists P nb,
  fundamental_bin P nb = 1%nat /\ fundamental_frac P nb = 3.5.
Proof.
  exists [1000; 1; / 100; 0], 4%nat.
  assert (E : fundamental_bin [1000; 1; / 100; 0] 4 = 1%nat).
  { unfold fundamental_bin. cbn [firstn length]. change (1 <? 4)%nat with true. cbn [tl argmax argmax_from].
    destruct (Rltb_spec 1 (/ 100)); [lra|]. destruct (Rltb_spec 1 0); [lra|]. reflexivity. }
  split; [exact E|]. unfold fundamental_frac. rewrite E. cbn [firstn length]. change ((0 <? 1)%nat && (1 <? 4 - 1)%nat)%bool with true.
  cbn [nth Nat.sub Nat.add]. assert (T : 0 < / 10 ^ 20 <= / 10 ^ 3) by (split; [apply Rinv_0_lt_compat; lra|apply Rinv_le_contravar; lra]).
  assert (T3 : / 10 ^ 3 = 0.001) by lra.
  assert (L : forall x, / 10 ^ 20 <= x -> log_floor x = lg x) by (intros x Hx; unfold log_floor; rewrite Rmax_left by exact Hx; reflexivity).
  rewrite !L by lra. rewrite lg_1. replace 1000 with (10 * (10 * 10)) by lra. replace (/ 100) with (/ (10 * 10)) by lra.
  rewrite lg_inv by lra. rewrite !lg_mult by lra. rewrite lg_10.
  destruct (Rleb_spec (0 - 4) (Rmin (1 + (1 + 1)) (- (1 + 1)))) as [H|H].
  - destruct (Reqb_spec (2 * (2 * 0 - (1 + (1 + 1)) - - (1 + 1))) 0) as [H0|H0]; [lra|]. replace (2 * (2 * 0 - (1 + (1 + 1)) - - (1 + 1))) with (-2) by lra. change (INR 1) with 1. lra.
  - exfalso. unfold Rmin in H. destruct (Rle_dec _ _) in H; lra.
Qed.
Lemma c54_peak_ex : fundamental_bin [5; 1; 100; 10; 1] 5 = 2%nat /\ fundamental_frac [5; 1; 100; 10; 1] 5 = 2 + 1 / 6.
Proof.
  assert (E : fundamental_bin [5; 1; 100; 10; 1] 5 = 2%nat).
  { unfold fundamental_bin. cbn [firstn length]. change (1 <? 5)%nat with true. cbn [tl argmax argmax_from].
    destruct (Rltb_spec 1 100); [|lra]. destruct (Rltb_spec 100 10); [lra|]. destruct (Rltb_spec 100 1); [lra|]. reflexivity. }
  split; [exact E|]. unfold fundamental_frac. rewrite E. cbn [firstn length]. change ((0 <? 2)%nat && (2 <? 5 - 1)%nat)%bool with true.
  cbn [nth Nat.sub Nat.add]. assert (T : 0 < / 10 ^ 20 <= / 10 ^ 3) by (split; [apply Rinv_0_lt_compat; lra|apply Rinv_le_contravar; lra]).
  assert (T3 : / 10 ^ 3 = 0.001) by lra.
  assert (L : forall x, / 10 ^ 20 <= x -> log_floor x = lg x) by (intros x Hx; unfold log_floor; rewrite Rmax_left by exact Hx; reflexivity).
  rewrite !L by lra. rewrite lg_1. replace 100 with (10 * 10) by lra. rewrite lg_mult by lra. rewrite lg_10.
  destruct (Rleb_spec (1 + 1 - 4) (Rmin 0 1)) as [H|H].
  - replace (2 * (2 * (1 + 1) - 0 - 1)) with 6 by lra. destruct (Reqb_spec 6 0) as [H0|H0]; [lra|]. change (INR 2) with (1 + 1). lra.
  - exfalso. unfold Rmin in H. destruct (Rle_dec _ _) in H; lra.
Qed.

(** ** C24 *)
Lemma harmonic_nth frac mh N i : (i < mh - 1)%nat ->
  nth_error (harmonic_bins frac mh N) i = Some (round_he (fold_bin (frac * INR (i + 2)) (Z.of_nat N))).
Proof.
  intros H. unfold harmonic_bins.
  rewrite (nth_error_nth' _ 0%Z) by (rewrite map_length, seq_length; exact H).
  rewrite (nth_map_in _ _ _ O) by (rewrite seq_length; exact H). rewrite seq_nth by exact H. reflexivity.
Qed.
Lemma half_IZR N : (IZR (Z.of_nat N) / 2 - / 2 <= INR (N / 2) <= IZR (Z.of_nat N) / 2)%R.
Proof.
  rewrite <- INR_IZR_INZ. pose proof (Nat.div_mod N 2 ltac:(lia)). pose proof (Nat.mod_upper_bound N 2 ltac:(lia)).
  assert (A : (N <= 2 * (N / 2) + 1)%nat) by lia. assert (B : (2 * (N / 2) <= N)%nat) by lia.
  apply le_INR in A. apply le_INR in B. rewrite plus_INR, mult_INR in A. rewrite mult_INR in B. change (INR 2) with (1 + 1) in A, B. change (INR 1) with 1 in A. lra.
Qed.
(** Even record length: bin i of the list is the nearest bin to the folded position of
    harmonic i+2 and is a valid index of the one-sided spectrum (length N/2+1). *)
Lemma c24_even_length frac mh N i : (0 < N)%nat -> Nat.Even N -> (i < mh - 1)%nat ->
  exists b d, nth_error (harmonic_bins frac mh N) i = Some b /\
    nearest_multiple_distance (frac * INR (i + 2)) (INR N) d /\
    Rabs (IZR b - d) <= / 2 /\ (0 <= b <= Z.of_nat (N / 2))%Z.
Proof.
  intros HN HE Hi. rewrite harmonic_nth by exact Hi. do 2 eexists. split; [reflexivity|].
  destruct (c12_even_length (frac * INR (i + 2)) (Z.of_nat N) ltac:(lia)) as [Nm [L U]].
  { destruct HE as [h ->]. exists (Z.of_nat h). lia. }
  split; [rewrite (INR_IZR_INZ N); exact Nm|]. split; [apply round_he_half|].
  pose proof (half_IZR N) as Hf. assert (E : IZR (Z.of_nat N) / 2 = INR (N / 2)).
  { destruct HE as [h ->]. rewrite (Nat.mul_comm 2 h), Nat.div_mul by lia. rewrite Nat2Z.inj_mul, mult_IZR, <- INR_IZR_INZ. change (IZR (Z.of_nat 2)) with 2. lra. }
  split.
  - rewrite <- (round_he_IZR 0). apply round_he_mono. exact L.
  - rewrite <- (round_he_IZR (Z.of_nat (N / 2))). apply round_he_mono. rewrite <- INR_IZR_INZ. lra.
Qed.
(** Any record length: an integer fundamental position folds to an exact, valid bin. *)
Lemma c24_integer_fundamental (k : Z) mh N i : (0 < N)%nat -> (i < mh - 1)%nat ->
  exists b, nth_error (harmonic_bins (IZR k) mh N) i = Some b /\
    nearest_multiple_distance (IZR k * INR (i + 2)) (INR N) (IZR b) /\ (0 <= b <= Z.of_nat (N / 2))%Z.
Proof.
  intros HN Hi. rewrite harmonic_nth by exact Hi. eexists. split; [reflexivity|].
  replace (IZR k * INR (i + 2)) with (IZR (k * Z.of_nat (i + 2))) by (rewrite mult_IZR, <- INR_IZR_INZ; reflexivity).
  destruct (c12_integer_bin (k * Z.of_nat (i + 2)) (Z.of_nat N) ltac:(lia)) as (Nm & [L U] & b & E).
  rewrite E in *. rewrite round_he_IZR. split; [rewrite (INR_IZR_INZ N); exact Nm|].
  apply le_IZR in L. split; [exact L|]. assert (2 * b <= Z.of_nat N)%Z by (apply le_IZR; rewrite mult_IZR; lra).
  rewrite Nat2Z.inj_div. apply Z.div_le_lower_bound; lia.
Qed.
(** Odd record length with a fractional fundamental: the index can be one past the end. *)
Lemma c24_odd_length_refuted : exists frac N b, Nat.Odd N /\
  harmonic_bins frac 2 N = [b] /\ (Z.of_nat (N / 2) < b)%Z.
Proof.
  exists 1.2, 5%nat, 3%Z. split; [exists 2%nat; reflexivity|]. split; [|reflexivity].
  unfold harmonic_bins. cbn [Nat.sub seq map Nat.add]. f_equal. unfold fold_bin. change (Z.of_nat 5) with 5%Z. change (INR 2) with (1 + 1).
  replace (Zfloor (1.2 * (1 + 1) / 5)) with 0%Z by (symmetry; apply Zfloor_imp; simpl; lra).
  change (5 / 2)%Z with 2%Z. destruct (Rltb_spec 2 (1.2 * (1 + 1) - 5 * 0)); [|lra].
  apply Znearest_imp. unfold Rabs. destruct (Rcase_abs _); lra.
Qed.
Lemma c24_harmonics_ex : harmonic_bins 10.2 5 64 = [20%Z; 31%Z; 23%Z; 13%Z].
Proof.
  assert (H : forall x (w : R) (q b : Z), (w = x - 64 * IZR q) -> 0 <= w < 64 ->
     (w <= 32 -> Rabs (w - IZR b) < / 2) -> (32 < w -> Rabs (64 - w - IZR b) < / 2) -> round_he (fold_bin x 64) = b).
  { intros x w q b E R A B. unfold fold_bin. replace (Zfloor (x / 64)) with q.
    - rewrite <- E. change (64 / 2)%Z with 32%Z. destruct (Rltb_spec 32 w); apply Znearest_imp; [apply B; lra|apply A; lra].
    - symmetry. apply Zfloor_imp. rewrite plus_IZR. lra. }
  unfold harmonic_bins. cbn [Nat.sub seq map Nat.add]. change (Z.of_nat 64) with 64%Z.
  list_eq;
    [rewrite (H _ 20.4 0%Z 20%Z)|rewrite (H _ 30.6 0%Z 31%Z)|rewrite (H _ 40.8 0%Z 23%Z)|rewrite (H _ 51 0%Z 13%Z)];
    try reflexivity; try (simpl; lra); intros; unfold Rabs; destruct (Rcase_abs _); lra.
Qed.

(** ** C25 *)
Lemma lsum_bins (g : nat -> R) n b : NoDup b -> (forall i, In i b -> (i < n)%nat) ->
  lsum (map g b) = rsum n (fun i => if existsb (Nat.eqb i) b then g i else 0).
Proof.
  intros ND. induction ND as [|a b NI ND IH]; intros H.
  - simpl. symmetry. apply rsum_zero. reflexivity.
  - cbn [map lsum]. rewrite IH by (intros i Hi; apply H; right; exact Hi).
    rewrite (rsum_ext n (fun i => if existsb (Nat.eqb i) (a :: b) then g i else 0)
      (fun i => (if (i =? a)%nat then g i else 0) + (if existsb (Nat.eqb i) b then g i else 0))).
    + rewrite rsum_plus. f_equal. rewrite (rsum_single n a).
      * rewrite Nat.eqb_refl. reflexivity.
      * apply H. left. reflexivity.
      * intros i _ Hi. apply Nat.eqb_neq in Hi. rewrite Hi. reflexivity.
    + intros i _. cbn [existsb]. destruct (Nat.eqb_spec i a) as [->|Ne]; cbn [orb]; [|ring].
      replace (existsb (Nat.eqb a) b) with false; [ring|]. symmetry. apply Bool.not_true_iff_false. intros E.
      apply existsb_exists in E. destruct E as (x & Ix & Ex). apply Nat.eqb_eq in Ex. subst x. contradiction.
Qed.
Lemma counted_clear f sb h : counted f sb h = clear_of f sb h.
Proof.
  unfold counted, clear_of, fund_collision, dc_collision. f_equal; apply Z.leb_antisym || (rewrite <- Z.ltb_antisym; reflexivity).
Qed.
Lemma harm_window_in len sb h i : (0 <= h)%Z ->
  (harm_start sb h <= i < harm_end len sb h)%nat <-> nearZ h sb i = true /\ (i < len)%nat.
Proof.
  intros Hh. unfold harm_start, harm_end, nearZ. rewrite Z.leb_le. lia.
Qed.
Lemma thd_bins_in P f sb hs i : In i (thd_bins P f sb hs) <->
  (i < length P)%nat /\ exists h, In h hs /\ clear_of f sb h = true /\ nearZ h sb i = true.
Proof.
  unfold thd_bins. rewrite nodup_In, in_flat_map. split.
  - intros (h & Ih & Ii). apply filter_In in Ih. destruct Ih as [Ih C]. rewrite counted_clear in C.
    apply in_seq in Ii. assert (0 <= h)%Z by (unfold clear_of in C; apply andb_true_iff in C; lia).
    assert (W : (harm_start sb h <= i < harm_end (length P) sb h)%nat) by lia.
    apply harm_window_in in W; [|assumption]. split; [apply W|]. exists h. tauto.
  - intros (Hi & h & Ih & C & Nr). exists h. split; [apply filter_In; rewrite counted_clear; tauto|].
    assert (0 <= h)%Z by (unfold clear_of in C; apply andb_true_iff in C; lia).
    pose proof (proj2 (harm_window_in (length P) sb h i ltac:(assumption)) (conj Nr Hi)). apply in_seq. lia.
Qed.
(** THD is the power of the union of the counted harmonic windows: each bin once, floored. *)
Lemma c25_thd_is_union_power P f sb hs :
  thd_power P f sb hs =
  Rmax (selected_power (length P) (fun i => existsb (fun h => clear_of f sb h && nearZ h sb i) hs) P) (/ 10 ^ 15).
Proof.
  unfold thd_power. set (b := thd_bins P f sb hs).
  assert (E : lsum (map (fun i => nth i P 0) b) =
    selected_power (length P) (fun i => existsb (fun h => clear_of f sb h && nearZ h sb i) hs) P).
  { rewrite (lsum_bins _ (length P)).
    - apply rsum_ext. intros i Hi. replace (existsb (Nat.eqb i) b) with (existsb (fun h => clear_of f sb h && nearZ h sb i) hs); [reflexivity|].
      apply eq_true_iff_eq. rewrite !existsb_exists. split.
      + intros (h & Ih & C). apply andb_true_iff in C. exists i. split; [|apply Nat.eqb_refl].
        apply thd_bins_in. split; [exact Hi|]. exists h. tauto.
      + intros (j & Ij & Ej). apply Nat.eqb_eq in Ej. subst j. apply thd_bins_in in Ij. destruct Ij as (_ & h & Ih & C & Nr).
        exists h. split; [exact Ih|]. rewrite C, Nr. reflexivity.
    - apply NoDup_nodup.
    - intros i Hi. apply thd_bins_in in Hi. apply Hi. }
  destruct b as [|x t] eqn:Eb; [|rewrite E; reflexivity].
  cbn [map lsum] in E. rewrite <- E. assert (0 < / 10 ^ 15) by (apply Rinv_0_lt_compat; lra).
  rewrite Rmax_left by lra. rewrite Rmax_right by lra. reflexivity.
Qed.
(** A counted bin is never in the fundamental window and never the DC bin. *)
Lemma c25_excludes_fundamental f sb h i :
  clear_of f sb h = true -> nearZ h sb i = true -> near f sb i = false /\ i <> O.
Proof.
  unfold clear_of, nearZ, near. intros C Nr. apply andb_true_iff in C. destruct C as [C1 C2].
  apply Z.ltb_lt in C1. apply Z.ltb_lt in C2. apply Z.leb_le in Nr. split; [|lia].
  apply Bool.not_true_iff_false. intros E. apply andb_true_iff in E. destruct E as [E1 E2].
  apply Nat.leb_le in E1. apply Nat.leb_le in E2. lia.
Qed.
(** Single harmonics: the floored power of its window, or the floor when it does not count;
    THD never exceeds the sum of the individual harmonic powers (overlaps count once). *)
Lemma c25_harmonic_power P f sb h :
  harmonic_power P f sb h =
  if clear_of f sb h then Rmax (selected_power (length P) (nearZ h sb) P) (/ 10 ^ 15) else / 10 ^ 15.
Proof.
  unfold harmonic_power. rewrite counted_clear. destruct (clear_of f sb h) eqn:C; [|reflexivity]. f_equal.
  assert (0 <= h)%Z by (unfold clear_of in C; apply andb_true_iff in C; lia).
  rewrite (lsum_slice _ _ _ (length P)) by (unfold harm_end; lia). apply rsum_ext. intros i Hi.
  replace ((harm_start sb h <=? i)%nat && (i <? harm_end (length P) sb h)%nat)%bool with (nearZ h sb i); [reflexivity|].
  apply eq_true_iff_eq. rewrite andb_true_iff, Nat.leb_le, Nat.ltb_lt. rewrite (harm_window_in (length P) sb h i) by assumption. tauto.
Qed.
Lemma c25_thd_le_sum P f sb hs : (forall x, In x P -> 0 <= x) -> hs <> [] ->
  / 10 ^ 15 <= thd_power P f sb hs <= lsum (map (harmonic_power P f sb) hs).
Proof.
  intros HP Hne. rewrite c25_thd_is_union_power. split; [apply Rmax_r|].
  assert (Pn : forall i, 0 <= nth i P 0).
  { intros i. destruct (Nat.lt_ge_cases i (length P)); [apply HP, nth_In; assumption|rewrite nth_overflow by assumption; lra]. }
  assert (Fl : 0 < / 10 ^ 15) by (apply Rinv_0_lt_compat; lra).
  assert (G : selected_power (length P) (fun i => existsb (fun h => clear_of f sb h && nearZ h sb i) hs) P <= lsum (map (harmonic_power P f sb) hs)).
  { clear Hne. induction hs as [|h t IH].
    - unfold selected_power. simpl. rewrite rsum_zero by reflexivity. lra.
    - cbn [map lsum]. rewrite c25_harmonic_power.
      apply Rle_trans with (selected_power (length P) (fun i => clear_of f sb h && nearZ h sb i) P +
         selected_power (length P) (fun i => existsb (fun h => clear_of f sb h && nearZ h sb i) t) P).
      + unfold selected_power. rewrite <- rsum_plus. apply rsum_le. intros i _. cbn [existsb]. specialize (Pn i).
        destruct (clear_of f sb h && nearZ h sb i), (existsb _ t); simpl; lra.
      + apply Rplus_le_compat; [|exact IH]. destruct (clear_of f sb h); cbn [andb].
        * apply Rmax_l.
        * unfold selected_power. rewrite rsum_zero by reflexivity. lra. }
  apply Rmax_lub; [exact G|]. destruct hs as [|h t]; [contradiction|]. cbn [map lsum].
  assert (A : / 10 ^ 15 <= harmonic_power P f sb h) by (rewrite c25_harmonic_power; destruct (clear_of f sb h); [apply Rmax_r|lra]).
  assert (B : 0 <= lsum (map (harmonic_power P f sb) t)).
  { apply lsum_nonneg. apply Forall_forall. intros x Hx. apply in_map_iff in Hx. destruct Hx as (h' & <- & _).
    rewrite c25_harmonic_power. destruct (clear_of f sb h'); [eapply Rle_trans; [|apply Rmax_r]; lra|lra]. }
  lra.
Qed.
(** A harmonic centred between sb+1 and 2*sb counts although its window reaches into the DC
    window 0..sb, so part of the DC window's power enters the THD. *)
Lemma c25_dc_window_refuted : exists P f sb h i,
  near_dc sb i = true /\ nearZ h sb i = true /\
  thd_power P f sb [h] = 7 /\ nth i P 0 = 7.
Proof.
  exists [0; 0; 7; 0; 0; 0; 0; 0; 0; 0; 0], 10%nat, 2%nat, 3%Z, 2%nat.
  split; [reflexivity|]. split; [reflexivity|]. split; [|reflexivity].
  rewrite c25_thd_is_union_power. unfold selected_power. cbn [length rsum existsb nth].
  repeat match goal with |- context [clear_of ?a ?b ?c] => change (clear_of a b c) with true end.
  repeat match goal with |- context [nearZ ?a ?b ?c] => let r := eval compute in (nearZ a b c) in change (nearZ a b c) with r end.
  cbn [andb orb]. assert (0 < / 10 ^ 15 <= 1) by (split; [apply Rinv_0_lt_compat; lra|rewrite <- Rinv_1; apply Rinv_le_contravar; lra]).
  rewrite Rmax_left; lra.
Qed.
Lemma c25_dedup_ex : thd_power [0; 1; 2; 100; 3; 4; 5; 6; 7] 3 0 [6%Z; 7%Z; 6%Z; 3%Z; 0%Z] = 5 + 6.
Proof.
  rewrite c25_thd_is_union_power. unfold selected_power. cbn [length rsum existsb nth].
  repeat match goal with |- context [clear_of ?a ?b ?c] => let r := eval compute in (clear_of a b c) in change (clear_of a b c) with r end.
  repeat match goal with |- context [nearZ ?a ?b ?c] => let r := eval compute in (nearZ a b c) in change (nearZ a b c) with r end.
  cbn [andb orb]. assert (0 < / 10 ^ 15 <= 1) by (split; [apply Rinv_0_lt_compat; lra|rewrite <- Rinv_1; apply Rinv_le_contravar; lra]).
  rewrite Rmax_left; lra.
Qed.
