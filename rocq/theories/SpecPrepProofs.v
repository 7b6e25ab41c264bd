(** * FFT input preparation: the final lemmas are named c51_. *)
From Verif Require Import Base BaseLemmas Cplx FreqModel TiModel TiSpec TiProofs SpecModel SpecSpec SpecLemmas.
From Coq Require Import Psatz.
Local Open Scope R_scope.

(** Every row of the prepared data has mean zero. *)
Lemma c51_zero_mean data sc rows : prepare_fft_input data sc = Ok rows ->
  forall row, In row rows -> row <> [] -> lmean row = 0.
Proof.
  unfold prepare_fft_input. destruct (peak_of _ sc) as [pk|]; cbn [bind]; [|discriminate]. intros E. apply Ok_inj in E. subst rows.
  intros row Hin Hne. apply in_map_iff in Hin. destruct Hin as (r & <- & _).
  assert (Hr : r <> []) by (intros ->; apply Hne; reflexivity).
  destruct (Reqb pk 0).
  - apply (lmean_centered r Hr).
  - rewrite <- (map_map (fun x => x - lmean r) (fun v => v / pk)), lmean_scale_inv, lmean_centered by exact Hr. unfold Rdiv. apply Rmult_0_l.
Qed.

Definition affine (a b : R) (d : list (list R)) : list (list R) := map (map (fun x => a * x + b)) d.
Lemma rect_row M K d r : rect M K d -> In r d -> length r = K.
Proof. intros [L F] H. destruct (In_nth d r [] H) as (m & Hm & <-). apply F. lia. Qed.
Lemma rect_ncols M K d : rect M K d -> (0 < M)%nat -> ncols d = K.
Proof. intros [L F] H. specialize (F 0%nat H). destruct d as [|r t]; [simpl in L; lia|exact F]. Qed.
Lemma affine_rect a b M K d : rect M K d -> rect M K (affine a b d).
Proof.
  intros [L F]. split; [unfold affine; rewrite map_length; exact L|]. intros m Hm. unfold affine.
  rewrite (nth_map_in _ d m []) by lia. rewrite map_length. apply F, Hm.
Qed.
Lemma transpose_affine a b M K d : rect M K d -> transpose K (affine a b d) = affine a b (transpose K d).
Proof.
  intros Hd. unfold transpose, affine. rewrite map_map. apply map_ext_in. intros j Hj. apply in_seq in Hj. rewrite !map_map.
  apply map_ext_in. intros r Hr. rewrite (nth_map_in _ r j 0) by (rewrite (rect_row M K d r Hd Hr); lia). reflexivity.
Qed.
Lemma orient_affine a b M K d : rect M K d -> (0 < M)%nat -> orient (affine a b d) = affine a b (orient d).
Proof.
  intros Hr HM. unfold orient. rewrite (rect_ncols M K d Hr HM), (rect_ncols M K _ (affine_rect a b M K d Hr) HM).
  unfold affine at 1 3. rewrite map_length. destruct (_ && _)%bool; [apply (transpose_affine a b M K d Hr)|].
  unfold affine at 1. rewrite map_length. destruct (_ && _ && _)%bool; [apply (transpose_affine a b M K d Hr)|reflexivity].
Qed.
Lemma lmean_affine a b r : r <> [] -> lmean (map (fun x => a * x + b) r) = a * lmean r + b.
Proof.
  intros H. assert (INR (length r) <> 0) by (apply not_0_INR; destruct r; [contradiction|discriminate]).
  unfold lmean. rewrite map_length, lsum_map_plus, lsum_map_scale, lsum_const. field. assumption.
Qed.
Lemma lmax1_affine a b x l : 0 < a -> lmax1 (a * x + b) (map (fun x => a * x + b) l) = a * lmax1 x l + b.
Proof.
  intros Ha. induction l as [|y t IH]; [reflexivity|]. unfold lmax1 in *. cbn [map fold_right]. rewrite IH.
  unfold Rmax. destruct (Rle_dec (a * y + b) _), (Rle_dec y _); try reflexivity; exfalso; nra.
Qed.
Lemma lmin1_affine a b x l : 0 < a -> lmin1 (a * x + b) (map (fun x => a * x + b) l) = a * lmin1 x l + b.
Proof.
  intros Ha. induction l as [|y t IH]; [reflexivity|]. unfold lmin1 in *. cbn [map fold_right]. rewrite IH.
  unfold Rmin. destruct (Rle_dec (a * y + b) _), (Rle_dec y _); try reflexivity; exfalso; nra.
Qed.
Lemma peak_affine a b d : 0 < a -> peak_of (affine a b d) ScaleAuto =
  match peak_of d ScaleAuto with Ok p => Ok (a * p) | Err e => Err e end.
Proof.
  intros Ha. unfold peak_of, affine. rewrite <- concat_map. destruct (concat d) as [|x l]; [reflexivity|]. cbn [map].
  rewrite lmax1_affine, lmin1_affine by exact Ha. f_equal. lra.
Qed.
Lemma peak_zero_const d : peak_of d ScaleAuto = Ok 0 -> forall r x y, In r d -> In x r -> In y r -> x = y.
Proof.
  unfold peak_of. destruct (concat d) as [|x0 l] eqn:E; [discriminate|]. intros H. apply Ok_inj in H.
  intros r x y Hr Hx Hy. assert (B : forall z, In z r -> lmin1 x0 l <= z <= lmax1 x0 l).
  { intros z Hz. assert (I : In z (concat d)) by (apply in_concat; exists r; tauto). rewrite E in I. destruct I as [<-|I].
    - split; [apply lmin1_le_init|apply lmax1_ge_init].
    - split; [apply lmin1_le, I|apply lmax1_ge, I]. }
  pose proof (B x Hx). pose proof (B y Hy). lra.
Qed.
Lemma lmean_const r c : r <> [] -> (forall x, In x r -> x = c) -> lmean r = c.
Proof.
  intros H Hc. assert (INR (length r) <> 0) by (apply not_0_INR; destruct r; [contradiction|discriminate]).
  unfold lmean. rewrite <- (map_id r) at 1. rewrite (lsum_map_ext (fun x => x) (fun _ => c)) by (intros x Hx; apply Hc, Hx). rewrite lsum_const. field. assumption.
Qed.
(** With automatic range, a gain a > 0 and an offset b applied to the capture change nothing. *)
Lemma c51_gain_offset_invariant a b M K data : 0 < a -> rect M K data -> (0 < M)%nat ->
  prepare_fft_input (affine a b data) ScaleAuto = prepare_fft_input data ScaleAuto.
Proof.
  intros Ha Hr HM. unfold prepare_fft_input. rewrite (orient_affine a b M K data Hr HM). set (d := orient data).
  rewrite peak_affine by exact Ha. destruct (peak_of d ScaleAuto) as [pk|] eqn:E; cbn [bind]; [|reflexivity]. f_equal.
  unfold affine. rewrite map_map. apply map_ext_in. intros r Hin. rewrite map_map. apply map_ext_in. intros x Hx.
  assert (Hne : r <> []) by (intros ->; contradiction). rewrite lmean_affine by exact Hne.
  destruct (Reqb_spec pk 0) as [Z|Z].
  - subst pk. rewrite Rmult_0_r. destruct (Reqb_spec 0 0); [|lra].
    rewrite (lmean_const r x Hne) by (intros y Hy; eapply peak_zero_const; eauto). ring.
  - destruct (Reqb_spec (a * pk) 0) as [Q|Q]; [exfalso; apply Z; nra|]. field. split; [exact Z|lra].
Qed.
(** With a given range, an offset changes nothing and a gain scales the result. *)
Lemma c51_given_range a b M K data p : rect M K data -> (0 < M)%nat -> p <> 0 ->
  forall rows, prepare_fft_input data (ScalePeak p) = Ok rows ->
  prepare_fft_input (affine a b data) (ScalePeak p) = Ok (affine a 0 rows) /\
  prepare_fft_input data (ScaleRange [b; b + 2 * p]) = Ok rows.
Proof.
  intros Hr HM Hp rows E. unfold prepare_fft_input in *. rewrite (orient_affine a b M K data Hr HM). set (d := orient data) in *.
  cbn [peak_of bind] in *. apply Ok_inj in E. subst rows. replace ((b + 2 * p - b) / 2) with p by lra. split; [|reflexivity]. f_equal.
  unfold affine. rewrite !map_map. apply map_ext_in. intros r Hin. rewrite !map_map. apply map_ext_in. intros x Hx.
  rewrite lmean_affine by (intros ->; contradiction). destruct (Reqb_spec p 0); [contradiction|]. field. exact Hp.
Qed.
(** A column vector is treated as the same 1-D capture; a range that is not a pair and an
    empty capture with automatic range raise ValueError. *)
Lemma c51_column_vector l sc : prepare_fft_input (map (fun x => [x]) l) sc = prepare_fft_input [l] sc \/ l = [].
Proof.
  destruct l as [|x [|y t]]; [right; reflexivity|left; reflexivity|left].
  unfold prepare_fft_input. replace (orient (map (fun x => [x]) (x :: y :: t))) with (orient [x :: y :: t]); [reflexivity|].
  unfold orient. cbn [map length ncols hd]. change (1 <? 1)%nat with false. rewrite andb_false_r. cbn [andb].
  change (1 =? 1)%nat with true. cbn [andb]. replace (1 <? S (S (length (map (fun x => [x]) t))))%nat with true by reflexivity.
  unfold transpose. cbn [seq map nth]. f_equal. f_equal. f_equal. rewrite map_map. symmetry. apply map_id.
Qed.
Lemma c51_errors data sc : prepare_fft_input data sc = Err ValueError <->
  (sc = ScaleAuto /\ concat (orient data) = []) \/ (exists l, sc = ScaleRange l /\ length l <> 2%nat).
Proof.
  unfold prepare_fft_input. destruct sc as [|l|p]; cbn [peak_of].
  - destruct (concat (orient data)); cbn [bind].
    + split; [left; tauto|reflexivity].
    + split; [discriminate|]. intros [[_ H]|(l0 & H & _)]; discriminate.
  - destruct l as [|u [|v [|z t]]]; cbn [bind length]; (split; [intros H; try discriminate|]);
    try (right; eexists; split; [reflexivity|simpl; lia]); intros [[H _]|(l0 & H & H2)]; try discriminate; try reflexivity.
    injection H as <-. simpl in H2. lia.
  - cbn [bind]. split; [discriminate|]. intros [[H _]|(l0 & H & _)]; discriminate.
Qed.
Lemma lmean_bounds r lo hi : r <> [] -> (forall x, In x r -> lo <= x <= hi) -> lo <= lmean r <= hi.
Proof.
  intros H B. assert (P : 0 < INR (length r)) by (apply lt_0_INR; destruct r; [contradiction|simpl; lia]).
  assert (S : INR (length r) * lo <= lsum r <= INR (length r) * hi).
  { clear H P. induction r as [|x t IH]; [simpl; lra|]. specialize (IH (fun y Hy => B y (or_intror Hy))). specialize (B x (or_introl eq_refl)).
    cbn [length lsum]. rewrite S_INR. lra. }
  unfold lmean. split; [apply Rdiv_le_lower|apply Rdiv_le_upper]; lra.
Qed.
(** With automatic range the prepared values stay within +-2 ... *)
Lemma c51_within_two data rows : prepare_fft_input data ScaleAuto = Ok rows ->
  forall r x, In r rows -> In x r -> Rabs x <= 2.
Proof.
  unfold prepare_fft_input. set (d := orient data). destruct (peak_of d ScaleAuto) as [pk|] eqn:E; cbn [bind]; [|discriminate].
  intros H. apply Ok_inj in H. subst rows. intros r x Hr Hx. apply in_map_iff in Hr. destruct Hr as (r0 & <- & Hr0).
  apply in_map_iff in Hx. destruct Hx as (y & <- & Hy). assert (Hne : r0 <> []) by (intros ->; contradiction).
  destruct (Reqb_spec pk 0) as [Z|Z].
  - subst pk. rewrite (lmean_const r0 y Hne) by (intros z Hz; eapply peak_zero_const; eauto). rewrite Rminus_diag_eq by reflexivity. rewrite Rabs_R0. lra.
  - unfold peak_of in E. destruct (concat d) as [|x0 l] eqn:Ec; [discriminate|]. apply Ok_inj in E.
    assert (B : forall z, In z r0 -> lmin1 x0 l <= z <= lmax1 x0 l).
    { intros z Hz. assert (I : In z (concat d)) by (apply in_concat; exists r0; tauto). rewrite Ec in I. destruct I as [<-|I].
      - split; [apply lmin1_le_init|apply lmax1_ge_init].
      - split; [apply lmin1_le, I|apply lmax1_ge, I]. }
    pose proof (lmean_bounds r0 _ _ Hne B) as Bm. pose proof (B y Hy) as By.
    assert (0 < pk) by (pose proof (lmax1_ge_init x0 l); pose proof (lmin1_le_init x0 l); lra).
    apply Rabs_le. split; [apply Rdiv_le_lower|apply Rdiv_le_upper]; lra.
Qed.
(** ... but not within +-1 in general, although the docstring says so: the mean is removed
    after the half-range is measured. *)
Lemma c51_unit_range_refuted : exists data rows r x,
  prepare_fft_input data ScaleAuto = Ok rows /\ In r rows /\ In x r /\ x = 1.5.
Proof.
  exists [[0; 0; 0; 1]], [[-0.5; -0.5; -0.5; 1.5]], [-0.5; -0.5; -0.5; 1.5], 1.5.
  split; [|split; [left; reflexivity|split; [do 3 right; left; reflexivity|reflexivity]]].
  unfold prepare_fft_input, orient. cbn [length ncols hd]. change ((4 =? 1)%nat && (1 <? 1)%nat)%bool with false.
  change ((1 <? 1)%nat && (1 <? 4)%nat && (4 * 2 <? 1)%nat)%bool with false. cbv iota. unfold peak_of. cbn [concat app].
  assert (E : (lmax1 0 [0; 0; 1] - lmin1 0 [0; 0; 1]) / 2 = 0.5).
  { unfold lmax1, lmin1. cbn [fold_right]. unfold Rmax, Rmin. repeat destruct (Rle_dec _ _); lra. }
  rewrite E. cbn [bind map]. destruct (Reqb_spec 0.5 0); [lra|].
  assert (M : lmean [0; 0; 0; 1] = 0.25) by (unfold lmean; simpl; lra). rewrite M. f_equal. f_equal. list_eq; lra.
Qed.
(** The peak-to-peak value of a non-constant 1-D capture becomes exactly 2. *)
Lemma c51_peak_to_peak_two l r lo hi : rowmin l lo -> rowmax l hi -> lo < hi ->
  prepare_fft_input [l] ScaleAuto = Ok [r] ->
  exists lo' hi', rowmin r lo' /\ rowmax r hi' /\ hi' - lo' = 2.
Proof.
  intros [I1 L1] [I2 L2] H. unfold prepare_fft_input.
  replace (orient [l]) with [l].
  2:{ unfold orient. cbn [length]. change (1 <? 1)%nat with false. rewrite andb_false_r. reflexivity. }
  unfold peak_of. cbn [concat]. rewrite app_nil_r. destruct l as [|x0 t] eqn:El; [contradiction|]. rewrite <- El in *. cbn [bind].
  assert (Mx : lmax1 x0 t = hi).
  { apply Rle_antisym; [apply L2; rewrite El; apply lmax1_in|]. rewrite El in I2. destruct I2 as [<-|I2]; [apply lmax1_ge_init|apply lmax1_ge, I2]. }
  assert (Mn : lmin1 x0 t = lo).
  { apply Rle_antisym; [|apply L1; rewrite El; apply lmin1_in]. rewrite El in I1. destruct I1 as [<-|I1]; [apply lmin1_le_init|apply lmin1_le, I1]. }
  rewrite Mx, Mn. cbn [map]. destruct (Reqb_spec ((hi - lo) / 2) 0) as [Z|Z]; [lra|]. intros E.
  apply Ok_inj in E. apply (f_equal (fun d => hd [] d)) in E. cbn [hd] in E. subst r.
  set (m := lmean l). set (pk := (hi - lo) / 2). assert (Pk : 0 < pk) by (unfold pk; lra).
  assert (Mono : forall x y, x <= y -> (x - m) / pk <= (y - m) / pk).
  { intros x y Hxy. unfold Rdiv. apply Rmult_le_compat_r; [apply Rlt_le, Rinv_0_lt_compat, Pk|lra]. }
  exists ((lo - m) / pk), ((hi - m) / pk). split; [|split].
  - split; [apply in_map_iff; exists lo; tauto|]. intros y Hy. apply in_map_iff in Hy. destruct Hy as (x & <- & Hx). apply Mono, L1, Hx.
  - split; [apply in_map_iff; exists hi; tauto|]. intros y Hy. apply in_map_iff in Hy. destruct Hy as (x & <- & Hx). apply Mono, L2, Hx.
  - replace ((hi - m) / pk - (lo - m) / pk) with ((hi - lo) / pk) by (field; lra). unfold pk. field. lra.
Qed.
Lemma c51_prepare_ex : prepare_fft_input [[1; 3]; [2; 6]] (ScaleRange [0; 4]) = Ok [[-1 / 2; 1 / 2]; [-1; 1]].
Proof.
  unfold prepare_fft_input, orient. cbn [length ncols hd]. change ((2 =? 1)%nat && (1 <? 2)%nat)%bool with false.
  change ((1 <? 2)%nat && (1 <? 2)%nat && (2 * 2 <? 2)%nat)%bool with false. cbv iota. cbn [peak_of bind map].
  destruct (Reqb_spec ((4 - 0) / 2) 0); [lra|]. unfold lmean. cbn [lsum length]. change (INR 2) with (1 + 1). f_equal. f_equal; [|f_equal]; list_eq; lra.
Qed.
