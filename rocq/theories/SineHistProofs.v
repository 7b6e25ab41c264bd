(** * Sine-histogram INL/DNL: the final lemmas are named c32_, c65_. *)
From Verif Require Import Base BaseLemmas FreqProofs TiProofs SpecLemmas SpecProofs RampModel RampProofs SineHistModel SineHistSpec.
From Coq Require Import Psatz ZifyBool Permutation.
Local Open Scope R_scope.

Lemma fold_zmin_le d l z : In z l -> (fold_right Z.min d l <= z)%Z.
Proof. induction l as [|a t IH]; intros H; [destruct H|]. cbn [fold_right]. destruct H as [->|H]; [lia|specialize (IH H); lia]. Qed.
Lemma fold_zmin_in d l : In (fold_right Z.min d l) (d :: l).
Proof.
  induction l as [|a t IH]; [left; reflexivity|]. cbn [fold_right]. destruct (Z.min_spec a (fold_right Z.min d t)) as [[_ E]|[_ E]]; rewrite E; [right; left; reflexivity|].
  destruct IH as [H|H]; [left; exact H|right; right; exact H].
Qed.
Lemma fold_zmax_in d l : In (fold_right Z.max d l) (d :: l).
Proof.
  induction l as [|a t IH]; [left; reflexivity|]. cbn [fold_right]. destruct (Z.max_spec a (fold_right Z.max d t)) as [[_ E]|[_ E]]; rewrite E; [|right; left; reflexivity].
  destruct IH as [H|H]; [left; exact H|right; right; exact H].
Qed.
Lemma zmin_list_spec l : l <> [] -> In (zmin_list l) l /\ forall z, In z l -> (zmin_list l <= z)%Z.
Proof.
  intros H. unfold zmin_list. split; [|intros z Hz; apply fold_zmin_le, Hz]. destruct (fold_zmin_in (hd 0%Z l) l) as [E|E]; [|exact E]. rewrite <- E. destruct l; [congruence|left; reflexivity].
Qed.
Lemma zmax_list_spec l : l <> [] -> In (zmax_list l) l /\ forall z, In z l -> (z <= zmax_list l)%Z.
Proof.
  intros H. unfold zmax_list. split; [|intros z Hz; apply fold_max_ge, Hz]. destruct (fold_zmax_in (hd 0%Z l) l) as [E|E]; [|exact E]. rewrite <- E. destruct l; [congruence|left; reflexivity].
Qed.
Lemma hist_range_fun codes clip lo hi : hist_range codes clip lo hi ->
  hi = (zmax_list codes - round_he (clip * IZR (zmax_list codes - zmin_list codes)))%Z /\
  lo = Z.min (zmin_list codes + round_he (clip * IZR (zmax_list codes - zmin_list codes))) hi /\ codes <> [].
Proof.
  intros (a & b & Ha & Hb & Hall & H). cbv zeta in H. assert (Hn : codes <> []) by (intros ->; destruct Ha).
  destruct (zmin_list_spec codes Hn) as [I1 L1]. destruct (zmax_list_spec codes Hn) as [I2 L2].
  assert (a = zmin_list codes) by (apply Z.le_antisymm; [apply Hall, I1|apply L1, Ha]). assert (b = zmax_list codes) by (apply Z.le_antisymm; [apply L2, Hb|apply Hall, I2]). subst a b.
  destruct H as [E1 E2]. repeat split; assumption.
Qed.
Lemma hist_range_exists codes clip : codes <> [] -> exists lo hi, hist_range codes clip lo hi.
Proof.
  intros Hn. destruct (zmin_list_spec codes Hn) as [I1 L1]. destruct (zmax_list_spec codes Hn) as [I2 L2].
  do 2 eexists. exists (zmin_list codes), (zmax_list codes). split; [exact I1|]. split; [exact I2|]. split; [intros z Hz; split; [apply L1, Hz|apply L2, Hz]|]. cbv zeta. split; reflexivity.
Qed.
Lemma hist_range_le codes clip lo hi : hist_range codes clip lo hi -> (lo <= hi)%Z.
Proof. intros H. apply hist_range_fun in H. lia. Qed.

(** Cumulative counts of the clipped codes are the counts of samples at or below the code. *)
Lemma count_at_most l c : at_most c l = (at_most (c - 1) l + count_code l c)%nat.
Proof.
  unfold at_most, count_code. induction l as [|z t IH]; [reflexivity|]. cbn [filter].
  destruct (Z.leb_spec z c), (Z.leb_spec z (c - 1)), (Z.eqb_spec c z); cbn [length]; lia.
Qed.
Lemma at_most_clip l lo hi c : (lo <= c < hi)%Z -> at_most c (map (zclip lo hi) l) = at_most c l.
Proof.
  intros H. unfold at_most. induction l as [|z t IH]; [reflexivity|]. cbn [map filter].
  replace (zclip lo hi z <=? c)%Z with (z <=? c)%Z by (unfold zclip; lia). destruct (z <=? c)%Z; cbn [length]; rewrite IH; reflexivity.
Qed.
Lemma at_most_clip_lo l lo hi : (lo <= hi)%Z -> at_most (lo - 1) (map (zclip lo hi) l) = 0%nat.
Proof. intros H. unfold at_most. induction l as [|z t IH]; [reflexivity|]. cbn [map filter]. replace (zclip lo hi z <=? lo - 1)%Z with false by (unfold zclip; lia). exact IH. Qed.
Lemma at_most_clip_hi l lo hi : at_most hi (map (zclip lo hi) l) = length l.
Proof. unfold at_most. induction l as [|z t IH]; [reflexivity|]. cbn [map filter]. replace (zclip lo hi z <=? hi)%Z with true by (unfold zclip; lia). cbn [length]. rewrite IH. reflexivity. Qed.
Lemma cum_counts l lo hi k : (lo <= hi)%Z ->
  rsum (S k) (fun j => INR (count_code (map (zclip lo hi) l) (lo + Z.of_nat j))) = INR (at_most (lo + Z.of_nat k) (map (zclip lo hi) l)).
Proof.
  intros H. induction k as [|k IH].
  - cbn [rsum]. rewrite (count_at_most (map (zclip lo hi) l) (lo + Z.of_nat 0)). replace (lo + Z.of_nat 0 - 1)%Z with (lo - 1)%Z by lia. rewrite (at_most_clip_lo l lo hi H), Nat.add_0_l. ring.
  - cbn [rsum] in *. rewrite IH. rewrite (count_at_most (map (zclip lo hi) l) (lo + Z.of_nat (S k))), plus_INR. replace (lo + Z.of_nat (S k) - 1)%Z with (lo + Z.of_nat k)%Z by lia. reflexivity.
Qed.

Lemma diffs_length l : length (diffs l) = (length l - 1)%nat.
Proof. induction l as [|x [|y t] IH]; [reflexivity|reflexivity|]. change (diffs (x :: y :: t)) with ((y - x) :: diffs (y :: t)). cbn [length] in *. rewrite IH. lia. Qed.
Lemma diffs_nth l i : (S i < length l)%nat -> nth i (diffs l) 0 = nth (S i) l 0 - nth i l 0.
Proof.
  revert i. induction l as [|x [|y t] IH]; intros i H; [cbn in H; lia|cbn in H; lia|]. change (diffs (x :: y :: t)) with ((y - x) :: diffs (y :: t)). destruct i as [|i]; [reflexivity|].
  cbn [nth]. rewrite IH by (cbn [length] in *; lia). reflexivity.
Qed.
Lemma removelast_length {A} (l : list A) : length (removelast l) = (length l - 1)%nat.
Proof. induction l as [|x [|y t] IH]; [reflexivity|reflexivity|]. change (removelast (x :: y :: t)) with (x :: removelast (y :: t)). cbn [length] in *. rewrite IH. lia. Qed.
Lemma removelast_nth {A} (l : list A) i d : (S i < length l)%nat -> nth i (removelast l) d = nth i l d.
Proof.
  revert i. induction l as [|x [|y t] IH]; intros i H; [cbn in H; lia|cbn in H; lia|]. change (removelast (x :: y :: t)) with (x :: removelast (y :: t)). destruct i as [|i]; [reflexivity|].
  cbn [nth]. rewrite IH by (cbn [length] in *; lia). reflexivity.
Qed.
Lemma rsum_telescope n (f : nat -> R) : rsum n (fun i => f (S i) - f i) = f n - f O.
Proof. induction n as [|n IH]; cbn [rsum]; [ring|]. rewrite IH. ring. Qed.

Lemma at_most_mono l c e : (c <= e)%Z -> (at_most c l <= at_most e l)%nat.
Proof. intros H. unfold at_most. induction l as [|z t IH]; [cbn; lia|]. cbn [filter]. destruct (Z.leb_spec z c), (Z.leb_spec z e); cbn [length]; lia. Qed.
Lemma at_most_len l c : (at_most c l <= length l)%nat.
Proof. unfold at_most. induction l as [|z t IH]; [cbn; lia|]. cbn [filter]. destruct (z <=? c)%Z; cbn [length]; lia. Qed.
Lemma at_most_strict l lo hi z : In z l -> (lo < z < hi)%Z -> (at_most lo l < at_most (hi - 1) l)%nat.
Proof.
  intros Hz Hr. unfold at_most. induction l as [|a t IH]; [destruct Hz|]. cbn [filter].
  pose proof (at_most_mono t lo (hi - 1) ltac:(lia)) as Q. unfold at_most in Q.
  destruct Hz as [->|Hz]; [destruct (Z.leb_spec z lo), (Z.leb_spec z (hi - 1)); cbn [length]; lia|]. specialize (IH Hz). destruct (Z.leb_spec a lo), (Z.leb_spec a (hi - 1)); cbn [length]; lia.
Qed.

(** ** The result in terms of the specification *)
Section Hist.
Context (codes : list Z) (clip : R) (lo hi : Z) (HR : hist_range codes clip lo hi).
Let L := level codes.
Let m := Z.to_nat (hi - lo - 1).
Let r := sine_histogram codes clip.
Let cl := map (zclip lo hi) codes.
Let axis := arange lo (hi + 1).
Let counts := map (fun c => INR (count_code cl c)) axis.
Let cdf := map (fun s => - cos (PI * s / lsum counts)) (cumsum_from 0 counts).
Let d := diffs (removelast cdf).
Let dcase := if Reqb (lsum d) 0 then mkSine (map (fun _ => NaN) d) (map (fun _ => NaN) d) (removelast (removelast axis))
  else
  let n := INR (length axis) in
  let d1 := map (fun x => x / lsum d * n - 1) d in
  let d2 := map (fun x => x - lmean d1) d1 in
  let d3 := map (fun x => Rmax x (-1)) d2 in
  mkSine (map Fin (cumsum_from 0 d3)) (map Fin d3) (removelast (removelast axis)).
Lemma hist_eval : r = dcase.
Proof. unfold r, sine_histogram. destruct (hist_range_fun _ _ _ _ HR) as (E1 & E2 & _). cbv zeta. rewrite <- E1, <- E2. reflexivity. Qed.
Lemma h_le : (lo <= hi)%Z. Proof. exact (hist_range_le _ _ _ _ HR). Qed.
Lemma h_ne : codes <> []. Proof. exact (proj2 (proj2 (hist_range_fun _ _ _ _ HR))). Qed.
Lemma axis_len : length axis = Z.to_nat (hi - lo + 1).
Proof. unfold axis. rewrite arange_length. f_equal. lia. Qed.
Lemma counts_len : length counts = Z.to_nat (hi - lo + 1).
Proof. unfold counts. rewrite map_length. apply axis_len. Qed.
Lemma counts_nth j : (j < Z.to_nat (hi - lo + 1))%nat -> nth j counts 0 = INR (count_code cl (lo + Z.of_nat j)).
Proof.
  intros H. unfold counts. rewrite (nth_map_in _ _ _ 0%Z) by (rewrite axis_len; exact H). unfold axis. rewrite arange_nth by lia. reflexivity.
Qed.
Lemma counts_total : lsum counts = INR (length codes).
Proof.
  rewrite lsum_rsum, counts_len. pose proof h_le as Hl. replace (Z.to_nat (hi - lo + 1)) with (S (Z.to_nat (hi - lo))) by lia.
  rewrite (rsum_ext _ _ (fun j => INR (count_code cl (lo + Z.of_nat j)))) by (intros j Hj; apply counts_nth; lia). unfold cl. rewrite cum_counts by exact Hl.
  replace (lo + Z.of_nat (Z.to_nat (hi - lo)))%Z with hi by lia. rewrite at_most_clip_hi. reflexivity.
Qed.
Lemma cdf_len : length cdf = Z.to_nat (hi - lo + 1).
Proof. unfold cdf. rewrite map_length, cumsum_length. apply counts_len. Qed.
Lemma cdf_nth k : (k < Z.to_nat (hi - lo))%nat -> nth k cdf 0 = L (lo + Z.of_nat k)%Z.
Proof.
  intros H. pose proof h_le. unfold cdf. rewrite (nth_map_in _ _ _ 0) by (rewrite cumsum_length, counts_len; lia). rewrite cumsum_nth by (rewrite counts_len; lia).
  rewrite (rsum_ext _ _ (fun j => INR (count_code cl (lo + Z.of_nat j)))) by (intros j Hj; apply counts_nth; lia). unfold cl. rewrite cum_counts by exact h_le.
  rewrite at_most_clip by lia. rewrite counts_total, Rplus_0_l. unfold L, level. f_equal. f_equal. unfold Rdiv. ring.
Qed.
Lemma d_len : length d = m.
Proof. unfold d. rewrite diffs_length, removelast_length, cdf_len. unfold m. lia. Qed.
Lemma d_nth i : (i < m)%nat -> nth i d 0 = L (lo + Z.of_nat (S i))%Z - L (lo + Z.of_nat i)%Z.
Proof.
  intros H. unfold m in H. unfold d. rewrite diffs_nth by (rewrite removelast_length, cdf_len; lia). rewrite !removelast_nth by (rewrite cdf_len; lia). rewrite !cdf_nth by lia. reflexivity.
Qed.
Lemma d_sum_k k : (k <= m)%nat -> rsum k (fun i => nth i d 0) = L (lo + Z.of_nat k)%Z - L lo.
Proof.
  intros H. rewrite (rsum_ext k _ (fun i => (fun j => L (lo + Z.of_nat j)%Z) (S i) - (fun j => L (lo + Z.of_nat j)%Z) i)) by (intros i Hi; apply d_nth; lia).
  etransitivity; [apply (rsum_telescope k (fun j => L (lo + Z.of_nat j)%Z))|]. cbv beta. replace (lo + Z.of_nat 0)%Z with lo by lia. reflexivity.
Qed.
Lemma d_sum : (0 < m)%nat -> lsum d = L (hi - 1)%Z - L lo.
Proof. intros H. rewrite lsum_rsum, d_len, d_sum_k by lia. replace (lo + Z.of_nat m)%Z with (hi - 1)%Z by (unfold m in *; lia). reflexivity. Qed.
Lemma len_pos : 0 < INR (length codes).
Proof. pose proof h_ne as H. apply lt_0_INR. destruct (length codes) eqn:E; [|lia]. apply length_zero_iff_nil in E. congruence. Qed.
Lemma arg_range c : 0 <= PI * (INR (at_most c codes) / INR (length codes)) <= PI.
Proof.
  pose proof len_pos. pose proof PI_RGT_0. pose proof (pos_INR (at_most c codes)). pose proof (le_INR _ _ (at_most_len codes c)).
  assert (0 <= INR (at_most c codes) / INR (length codes)) by (apply Rdiv_le_0_compat; lra).
  assert (INR (at_most c codes) / INR (length codes) <= 1) by (apply (Rmult_le_reg_r (INR (length codes))); [lra|]; unfold Rdiv; rewrite Rmult_assoc, Rinv_l by lra; lra). split; nra.
Qed.
Lemma level_lt c e : (at_most c codes < at_most e codes)%nat -> L c < L e.
Proof.
  intros H. unfold L, level. apply Ropp_lt_contravar. pose proof (arg_range c). pose proof (arg_range e). apply cos_decreasing_1; try lra.
  apply Rmult_lt_compat_l; [apply PI_RGT_0|]. apply Rmult_lt_compat_r; [apply Rinv_0_lt_compat, len_pos|apply lt_INR, H].
Qed.
Lemma level_eq c e : at_most c codes = at_most e codes -> L c = L e.
Proof. unfold L, level. intros ->. reflexivity. Qed.
Lemma level_le c e : (c <= e)%Z -> L c <= L e.
Proof.
  intros H. destruct (Nat.eq_dec (at_most c codes) (at_most e codes)) as [E|E]; [rewrite (level_eq _ _ E); lra|]. apply Rlt_le, level_lt. pose proof (at_most_mono codes c e H). lia.
Qed.
Lemma interior_strict : interior_hit codes lo hi -> L lo < L (hi - 1)%Z.
Proof.
  intros (z & Hz & Hr). apply level_lt. apply (at_most_strict _ _ _ z); assumption.
Qed.
Lemma no_interior : ~ interior_hit codes lo hi -> (lo < hi)%Z -> L lo = L (hi - 1)%Z.
Proof.
  intros H Hlt. apply level_eq. unfold at_most. assert (G : forall z, In z codes -> (z <=? lo)%Z = (z <=? hi - 1)%Z).
  { intros z Hz. destruct (Z.leb_spec z lo), (Z.leb_spec z (hi - 1)); try reflexivity; [lia|]. exfalso. apply H. exists z. split; [exact Hz|lia]. }
  f_equal. apply filter_ext_in. exact G.
Qed.
Let n := IZR (hi - lo + 1).
Lemma h_dnl : interior_hit codes lo hi ->
  s_codes r = removelast (removelast axis) /\ s_dnl r = map Fin (map (fun x => Rmax (x / (L (hi - 1)%Z - L lo) * n - n / (n - 2)) (-1)) d) /\
  s_inl r = map Fin (cumsum_from 0 (map (fun x => Rmax (x / (L (hi - 1)%Z - L lo) * n - n / (n - 2)) (-1)) d)).
Proof.
  intros H. pose proof (interior_strict H) as S. assert (Hm : (0 < m)%nat) by (destruct H as (z & _ & ?); unfold m; lia).
  assert (Nn : INR (length axis) = n) by (rewrite axis_len; unfold n; rewrite INR_IZR_INZ; f_equal; destruct H as (z & _ & ?); lia).
  assert (Mm : INR m = n - 2) by (unfold m, n; rewrite INR_IZR_INZ, <- minus_IZR; f_equal; destruct H as (z & _ & ?); lia).
  assert (Pm : 0 < INR m) by (apply lt_0_INR, Hm). set (S0 := L (hi - 1)%Z - L lo) in *.
  rewrite hist_eval. unfold dcase. rewrite (d_sum Hm). fold S0. destruct (Reqb_spec S0 0); [unfold S0 in *; lra|]. cbv zeta. rewrite Nn. cbn [s_codes s_dnl s_inl].
  assert (Mean : lmean (map (fun x => x / S0 * n - 1) d) = n / (n - 2) - 1).
  { unfold lmean. rewrite map_length, d_len.
    assert (Q : lsum (map (fun x => x / S0 * n - 1) d) = lsum d / S0 * n - INR (length d)).
    { generalize d. intros l. induction l as [|x t IH]; [unfold lsum; cbn; field; assumption|]. unfold lsum in *. cbn [map fold_right length] in *. rewrite IH. rewrite S_INR. field. assumption. }
    rewrite Q, (d_sum Hm), d_len, Mm. fold S0. rewrite Mm in Pm. field. split; [lra|assumption]. }
  assert (Q : map (fun x => Rmax x (-1)) (map (fun x => x - lmean (map (fun x => x / S0 * n - 1) d)) (map (fun x => x / S0 * n - 1) d)) = map (fun x => Rmax (x / S0 * n - n / (n - 2)) (-1)) d).
  { rewrite Mean, !map_map. apply map_ext. intros x. f_equal. ring. }
  rewrite Q. repeat split.
Qed.
Lemma valid_len : length (removelast (removelast axis)) = m.
Proof. rewrite !removelast_length, axis_len. unfold m. lia. Qed.
Lemma valid_nth i : (i < m)%nat -> nth i (removelast (removelast axis)) 0%Z = (lo + Z.of_nat i)%Z.
Proof. intros H. unfold m in H. rewrite !removelast_nth by (rewrite ?removelast_length, axis_len; lia). unfold axis. apply arange_nth. lia. Qed.
End Hist.

(** ** From samples to codes *)
Lemma fold_rmin_le d l z : In z l -> fold_right Rmin d l <= z.
Proof. induction l as [|a t IH]; intros H; [destruct H|]. cbn [fold_right]. destruct H as [->|H]; [apply Rmin_l|eapply Rle_trans; [apply Rmin_r|apply IH, H]]. Qed.
Lemma fold_rmax_ge d l z : In z l -> z <= fold_right Rmax d l.
Proof. induction l as [|a t IH]; intros H; [destruct H|]. cbn [fold_right]. destruct H as [->|H]; [apply Rmax_l|eapply Rle_trans; [apply IH, H|apply Rmax_r]]. Qed.
Lemma fold_rmin_in d l : In (fold_right Rmin d l) (d :: l).
Proof.
  induction l as [|a t IH]; [left; reflexivity|]. cbn [fold_right]. unfold Rmin at 1. destruct (Rle_dec a (fold_right Rmin d t)); [right; left; reflexivity|]. destruct IH as [H|H]; [left; exact H|right; right; exact H].
Qed.
Lemma fold_rmax_in d l : In (fold_right Rmax d l) (d :: l).
Proof.
  induction l as [|a t IH]; [left; reflexivity|]. cbn [fold_right]. unfold Rmax at 1. destruct (Rle_dec a (fold_right Rmax d t)); [|right; left; reflexivity]. destruct IH as [H|H]; [left; exact H|right; right; exact H].
Qed.
Lemma rmin_list_in l : l <> [] -> In (rmin_list l) l.
Proof. intros H. unfold rmin_list. destruct (fold_rmin_in (hd 0 l) l) as [E|E]; [|exact E]. rewrite <- E. destruct l; [congruence|left; reflexivity]. Qed.
Lemma rmax_list_in l : l <> [] -> In (rmax_list l) l.
Proof. intros H. unfold rmax_list. destruct (fold_rmax_in (hd 0 l) l) as [E|E]; [|exact E]. rewrite <- E. destruct l; [congruence|left; reflexivity]. Qed.
Lemma small_span_iff data : data <> [] -> small_span data <-> rmax_list data - rmin_list data <= 2.
Proof.
  intros Hn. split; intros H; [apply H; [apply rmax_list_in|apply rmin_list_in]; exact Hn|].
  intros x y Hx Hy. pose proof (fold_rmax_ge (hd 0 data) _ _ Hx). pose proof (fold_rmin_le (hd 0 data) _ _ Hy). unfold rmax_list, rmin_list in H. lra.
Qed.
Lemma Forall2_map_eq {A B} (P : A -> B -> Prop) (g : A -> B) l l' : Forall2 P l l' -> (forall x y, In x l -> P x y -> y = g x) -> l' = map g l.
Proof. intros H. induction H as [|x y l l' Hxy H IH]; intros G; [reflexivity|]. cbn [map]. rewrite (G x y (or_introl eq_refl) Hxy), IH by (intros; apply G; [right|]; assumption). reflexivity. Qed.
Lemma Forall2_len {A B} (P : A -> B -> Prop) l l' : Forall2 P l l' -> length l = length l'.
Proof. induction 1; cbn [length]; congruence. Qed.
Lemma zclip_alt b z : (0 <= b)%Z -> zclip 0 b z = Z.max 0 (Z.min z b). Proof. unfold zclip. lia. Qed.
Lemma codes_eq is_float data nb fs codes : data <> [] -> record_codes is_float data nb fs codes -> codes = sine_codes is_float data nb fs.
Proof.
  intros Hn H. unfold sine_codes. cbv zeta. set (b := match nb with Some b => b | None => 10%nat end).
  assert (Pb : (0 <= 2 ^ Z.of_nat b - 1)%Z) by (pose proof (Z.pow_pos_nonneg 2 (Z.of_nat b)); lia).
  destruct (is_float && Rleb (rmax_list data - rmin_list data) 2)%bool eqn:Em.
  - assert (V : is_float = true /\ small_span data) by (apply andb_prop in Em; destruct Em as [E1 E2]; split; [exact E1|apply small_span_iff; [exact Hn|apply Rleb_true, E2]]).
    assert (G : forall g, (forall x t, In x data -> scaled data b fs x t -> t = g x) -> codes = map (zclip 0 (2 ^ Z.of_nat b - 1)) (map (fun x => round_he (g x)) data)).
    { intros g Hg. rewrite map_map. apply (Forall2_map_eq _ _ _ _ H). intros x y Hx [[_ (t & Ht & ->)]|[Hv _]]; [|contradiction]. fold b in Ht |- *. rewrite zclip_alt by exact Pb. rewrite (Hg x t Hx Ht). reflexivity. }
    destruct fs as [f|]; [apply (G (fun x => x / f * 2 ^ b)); intros x t _ Ht; exact Ht|].
    destruct (Rltb (rmin_list data) (-0.1)) eqn:El.
    + apply Rltb_true in El. apply (G (fun x => (x + 1) / 2 * 2 ^ b)). intros x t _ [[_ Ht]|[Hall _]]; [exact Ht|]. specialize (Hall _ (rmin_list_in _ Hn)). lra.
    + apply Rltb_false in El. apply (G (fun x => x * 2 ^ b)). intros x t _ [[(y & Hy & Ly) _]|[_ Ht]]; [|exact Ht]. pose proof (fold_rmin_le (hd 0 data) _ _ Hy). unfold rmin_list in El. lra.
  - assert (V : ~ (is_float = true /\ small_span data)).
    { intros [E1 E2]. apply small_span_iff in E2; [|exact Hn]. apply Rleb_true in E2. rewrite E1, E2 in Em. discriminate. }
    apply (Forall2_map_eq _ _ _ _ H). intros x y _ [[Hv _]|[_ E]]; [contradiction|exact E].
Qed.
Lemma codes_exist is_float data nb fs : data <> [] -> record_codes is_float data nb fs (sine_codes is_float data nb fs).
Proof.
  intros Hn. unfold sine_codes. cbv zeta. set (b := match nb with Some b => b | None => 10%nat end).
  assert (Pb : (0 <= 2 ^ Z.of_nat b - 1)%Z) by (pose proof (Z.pow_pos_nonneg 2 (Z.of_nat b)); lia).
  assert (G : forall g : R -> Z, (forall x, In x data -> code_of is_float data nb fs x (g x)) -> record_codes is_float data nb fs (map g data)).
  { intros g Hg. unfold record_codes. generalize (code_of is_float data nb fs) Hg. intros P. clear. induction data as [|x t IH]; intros HP; cbn [map]; constructor; [apply HP; left; reflexivity|apply IH; intros; apply HP; right; assumption]. }
  destruct (is_float && Rleb (rmax_list data - rmin_list data) 2)%bool eqn:Em.
  - assert (V : is_float = true /\ small_span data) by (apply andb_prop in Em; destruct Em as [E1 E2]; split; [exact E1|apply small_span_iff; [exact Hn|apply Rleb_true, E2]]).
    assert (G2 : forall g : R -> R, (forall x, In x data -> scaled data b fs x (g x)) -> record_codes is_float data nb fs (map (zclip 0 (2 ^ Z.of_nat b - 1)) (map (fun x => round_he (g x)) data))).
    { intros g Hg. rewrite map_map. apply G. intros x Hx. left. split; [exact V|]. exists (g x). fold b. split; [apply Hg, Hx|apply zclip_alt, Pb]. }
    destruct fs as [f|]; [apply (G2 (fun x => x / f * 2 ^ b)); intros; reflexivity|].
    destruct (Rltb (rmin_list data) (-0.1)) eqn:El.
    + apply Rltb_true in El. apply (G2 (fun x => (x + 1) / 2 * 2 ^ b)). intros x _. left. split; [exists (rmin_list data); split; [apply rmin_list_in, Hn|exact El]|reflexivity].
    + apply Rltb_false in El. apply (G2 (fun x => x * 2 ^ b)). intros x _. right. split; [|reflexivity]. intros y Hy. pose proof (fold_rmin_le (hd 0 data) _ _ Hy). unfold rmin_list in El. lra.
  - assert (V : ~ (is_float = true /\ small_span data)).
    { intros [E1 E2]. apply small_span_iff in E2; [|exact Hn]. apply Rleb_true in E2. rewrite E1, E2 in Em. discriminate. }
    apply G. intros x _. right. split; [exact V|reflexivity].
Qed.

(** ** C32 *)
(** It fails exactly on empty input; otherwise the samples have well-defined codes and a range of
    analysed codes. *)
Lemma c32_total is_float data nb fs clip :
  (data = [] -> compute_inl_from_sine is_float data nb fs clip = Err ValueError) /\
  (data <> [] -> exists r codes lo hi, compute_inl_from_sine is_float data nb fs clip = Ok r /\ record_codes is_float data nb fs codes /\ hist_range codes clip lo hi).
Proof.
  split; [intros ->; reflexivity|]. intros Hn. pose proof (codes_exist is_float data nb fs Hn) as C.
  assert (Hc : sine_codes is_float data nb fs <> []) by (intros E; rewrite E in C; apply Forall2_len in C; destruct data; [congruence|discriminate C]).
  destruct (hist_range_exists _ clip Hc) as (lo & hi & HR). exists (sine_histogram (sine_codes is_float data nb fs) clip), (sine_codes is_float data nb fs), lo, hi.
  split; [|split; assumption]. unfold compute_inl_from_sine. destruct data; [congruence|reflexivity].
Qed.
Lemma c32_eval is_float data nb fs clip r codes : compute_inl_from_sine is_float data nb fs clip = Ok r -> record_codes is_float data nb fs codes -> r = sine_histogram codes clip.
Proof.
  intros E C. unfold compute_inl_from_sine in E. destruct data as [|x t]; [discriminate E|]. apply Ok_inj in E. assert (Hn : x :: t <> []) by discriminate. rewrite (codes_eq _ _ _ _ _ Hn C). symmetry. exact E.
Qed.
(** The three arrays have equal length hi-lo-1 (0 if negative) and the labels are lo, lo+1, ... *)
Lemma c32_shape is_float data nb fs clip r codes lo hi :
  compute_inl_from_sine is_float data nb fs clip = Ok r -> record_codes is_float data nb fs codes -> hist_range codes clip lo hi ->
  let m := Z.to_nat (hi - lo - 1) in
  length (s_inl r) = m /\ length (s_dnl r) = m /\ length (s_codes r) = m /\ forall i, (i < m)%nat -> nth i (s_codes r) 0%Z = (lo + Z.of_nat i)%Z.
Proof.
  intros E C HR m. rewrite (c32_eval _ _ _ _ _ _ _ E C). rewrite (hist_eval codes clip lo hi HR). pose proof (valid_len lo hi) as V. pose proof (valid_nth lo hi) as W. pose proof (d_len codes lo hi) as D.
  destruct (Reqb _ _); cbn [s_inl s_dnl s_codes]; rewrite ?map_length, ?cumsum_length, ?map_length, D, V; repeat split; exact W.
Qed.
(** When some sample falls strictly between the end codes: every DNL value is finite and at least
    -1, entry i is the (clamped) DNL of code lo+i+1, and INL is its running sum. *)
Lemma c32_values is_float data nb fs clip r codes lo hi :
  compute_inl_from_sine is_float data nb fs clip = Ok r -> record_codes is_float data nb fs codes -> hist_range codes clip lo hi ->
  interior_hit codes lo hi ->
  exists dn, s_dnl r = map Fin dn /\ (forall x, In x dn -> -1 <= x) /\
    (forall i, (i < length dn)%nat -> nth i dn 0 = Rmax (dnl_of codes lo hi (lo + Z.of_nat i + 1)) (-1)) /\
    (forall i, (i < length dn)%nat -> nth i (s_inl r) NaN = Fin (rsum (S i) (fun j => nth j dn 0))).
Proof.
  intros E C HR I. rewrite (c32_eval _ _ _ _ _ _ _ E C). destruct (h_dnl codes clip lo hi HR I) as (_ & D & N). pose proof (interior_strict codes clip lo hi HR I) as S.
  eexists. split; [exact D|]. split; [|split].
  - intros x Hx. apply in_map_iff in Hx. destruct Hx as (y & <- & _). apply Rmax_r.
  - intros i Hi. rewrite map_length, (d_len codes lo hi) in Hi. rewrite (nth_map_in _ _ _ 0) by (rewrite (d_len codes lo hi); exact Hi). rewrite (d_nth codes clip lo hi HR) by exact Hi.
    f_equal. unfold dnl_of, width. replace (lo + Z.of_nat i + 1 - 1)%Z with (lo + Z.of_nat i)%Z by lia. replace (lo + Z.of_nat (Datatypes.S i))%Z with (lo + Z.of_nat i + 1)%Z by lia.
    replace (IZR (hi - lo - 1)) with (IZR (hi - lo + 1) - 2) by (rewrite <- minus_IZR; f_equal; lia). ring.
  - intros i Hi. rewrite N. rewrite map_length in Hi. rewrite (nth_map_in _ _ _ 0) by (rewrite cumsum_length, map_length; exact Hi). f_equal. rewrite cumsum_nth by (rewrite map_length; exact Hi). rewrite Rplus_0_l. reflexivity.
Qed.
(** When no sample falls strictly between the end codes, every entry is nan. *)
Lemma c32_no_interior is_float data nb fs clip r codes lo hi :
  compute_inl_from_sine is_float data nb fs clip = Ok r -> record_codes is_float data nb fs codes -> hist_range codes clip lo hi ->
  ~ interior_hit codes lo hi -> forall x, In x (s_dnl r) \/ In x (s_inl r) -> x = NaN.
Proof.
  intros E C HR I x Hx. rewrite (c32_eval _ _ _ _ _ _ _ E C) in Hx. rewrite (hist_eval codes clip lo hi HR) in Hx. pose proof (d_len codes lo hi) as D.
  destruct (Nat.eq_dec (Z.to_nat (hi - lo - 1)) 0) as [Z0|Z0].
  - rewrite Z0 in D. apply length_zero_iff_nil in D. rewrite D in Hx. cbn [map s_dnl s_inl] in Hx. destruct (Reqb _ _); cbn in Hx; tauto.
  - match type of Hx with context [Reqb (lsum ?d) 0] => assert (S : lsum d = 0) end.
    { rewrite (d_sum codes clip lo hi HR) by lia. rewrite (no_interior codes lo hi I) by lia. ring. }
    rewrite S in Hx. destruct (Reqb_spec 0 0); [|lra]. cbn [s_dnl s_inl] in Hx. destruct Hx as [Hx|Hx]; apply in_map_iff in Hx; destruct Hx as (? & <- & _); reflexivity.
Qed.
Lemma missing_level codes c : ~ In c codes -> level codes c = level codes (c - 1).
Proof.
  intros H. unfold level. do 5 f_equal. unfold at_most. f_equal. apply filter_ext_in. intros z Hz.
  destruct (Z.leb_spec z c), (Z.leb_spec z (c - 1)); try reflexivity; [|lia]. exfalso. apply H. replace c with z by lia. exact Hz.
Qed.
(** A code strictly inside the range that never occurs is reported with DNL -1, but under the label
    of the code below it. *)
Lemma c32_missing_label is_float data nb fs clip r codes lo hi c :
  compute_inl_from_sine is_float data nb fs clip = Ok r -> record_codes is_float data nb fs codes -> hist_range codes clip lo hi ->
  interior_hit codes lo hi -> (lo < c < hi)%Z -> ~ In c codes ->
  exists i, (i < length (s_codes r))%nat /\ nth i (s_codes r) 0%Z = (c - 1)%Z /\ nth i (s_dnl r) NaN = Fin (-1).
Proof.
  intros E C HR I Hc Nc. destruct (c32_shape _ _ _ _ _ _ _ _ _ E C HR) as (_ & LD & LC & W). destruct (c32_values _ _ _ _ _ _ _ _ _ E C HR I) as (dn & D & _ & V & _).
  assert (Ln : length dn = Z.to_nat (hi - lo - 1)) by (rewrite <- LD, D, map_length; reflexivity).
  exists (Z.to_nat (c - lo - 1)). split; [rewrite LC; lia|]. split; [rewrite W by lia; lia|].
  rewrite D. rewrite (nth_map_in _ _ _ 0) by lia. f_equal. rewrite V by lia. replace (lo + Z.of_nat (Z.to_nat (c - lo - 1)) + 1)%Z with c by lia.
  unfold dnl_of, width. rewrite (missing_level codes c Nc). apply Rmax_right.
  assert (P : 0 < IZR (hi - lo - 1)) by (apply (IZR_lt 0); lia). assert (Q : IZR (hi - lo + 1) = IZR (hi - lo - 1) + 2) by (rewrite <- plus_IZR; f_equal; lia). rewrite Q.
  replace ((IZR (hi - lo - 1) + 2) / IZR (hi - lo - 1)) with (1 + 2 * / IZR (hi - lo - 1)) by (field; lra). pose proof (Rinv_0_lt_compat _ P). unfold Rdiv, Rminus. rewrite Rplus_opp_r, Rmult_0_l, Rmult_0_r. lra.
Qed.
Lemma width_total codes clip lo hi : hist_range codes clip lo hi -> interior_hit codes lo hi ->
  rsum (Z.to_nat (hi - lo - 1)) (fun i => dnl_of codes lo hi (lo + Z.of_nat i + 1)) = 0.
Proof.
  intros HR I. pose proof (interior_strict codes clip lo hi HR I) as S. set (m := Z.to_nat (hi - lo - 1)).
  assert (Pm : 0 < IZR (hi - lo - 1)) by (apply (IZR_lt 0); destruct I as (z & _ & ?); lia).
  set (n := IZR (hi - lo + 1)). set (S0 := level codes (hi - 1) - level codes lo) in *.
  rewrite (rsum_ext m _ (fun i => n / S0 * (level codes (lo + Z.of_nat (Datatypes.S i)) - level codes (lo + Z.of_nat i)) + - (n / IZR (hi - lo - 1)))).
  2:{ intros i Hi. unfold dnl_of, width. fold n S0. replace (lo + Z.of_nat i + 1 - 1)%Z with (lo + Z.of_nat i)%Z by lia. replace (lo + Z.of_nat i + 1)%Z with (lo + Z.of_nat (Datatypes.S i))%Z by lia. unfold Rdiv. ring. }
  rewrite rsum_plus, rsum_scale, rsum_const. rewrite (rsum_telescope m (fun j => level codes (lo + Z.of_nat j))).
  replace (lo + Z.of_nat m)%Z with (hi - 1)%Z by (unfold m; destruct I as (z & _ & ?); lia). replace (lo + Z.of_nat 0)%Z with lo by lia. fold S0.
  replace (INR m) with (IZR (hi - lo - 1)) by (unfold m; rewrite INR_IZR_INZ; f_equal; destruct I as (z & _ & ?); lia). field. split; [lra|]. unfold S0. lra.
Qed.
(** The last INL value is 0 when no DNL value had to be clamped; a missing code pushes it up by at
    least 2/(number of reported codes). *)
Lemma c32_inl_end is_float data nb fs clip r codes lo hi :
  compute_inl_from_sine is_float data nb fs clip = Ok r -> record_codes is_float data nb fs codes -> hist_range codes clip lo hi ->
  interior_hit codes lo hi ->
  exists y, last (s_inl r) NaN = Fin y /\
    ((forall c, (lo < c < hi)%Z -> -1 <= dnl_of codes lo hi c) -> y = 0) /\
    ((exists c, (lo < c < hi)%Z /\ ~ In c codes) -> 2 / IZR (hi - lo - 1) <= y).
Proof.
  intros E C HR I. destruct (c32_shape _ _ _ _ _ _ _ _ _ E C HR) as (LI & LD & LC & W). destruct (c32_values _ _ _ _ _ _ _ _ _ E C HR I) as (dn & D & Dl & V & N).
  pose proof (width_total codes clip lo hi HR I) as Tot. set (m := Z.to_nat (hi - lo - 1)) in *.
  assert (Ln : length dn = m) by (rewrite <- LD, D, map_length; reflexivity).
  assert (Pm : (0 < m)%nat) by (unfold m; destruct I as (z & _ & ?); lia).
  exists (rsum m (fun j => nth j dn 0)). split.
  { destruct (exists_last (l := s_inl r)) as (l' & a & El); [intros K; rewrite K in LI; cbn in LI; lia|]. rewrite El, last_last.
    assert (A : nth (length l') (s_inl r) NaN = a) by (rewrite El, app_nth2, Nat.sub_diag by lia; reflexivity).
    assert (length l' = m - 1)%nat by (rewrite El, app_length in LI; cbn in LI; lia). rewrite <- A, N by lia. do 2 f_equal. lia. }
  split.
  - intros H. etransitivity; [|exact Tot]. apply rsum_ext. intros i Hi. rewrite V by lia. apply Rmax_left. apply H. unfold m in Hi. lia.
  - intros (c & Hc & Nc). assert (P : 0 < IZR (hi - lo - 1)) by (apply (IZR_lt 0); lia).
    assert (Dc : dnl_of codes lo hi c = -1 - 2 / IZR (hi - lo - 1)).
    { unfold dnl_of, width. rewrite (missing_level codes c Nc). replace (IZR (hi - lo + 1)) with (IZR (hi - lo - 1) + 2) by (rewrite <- plus_IZR; f_equal; lia). unfold Rdiv. rewrite Rminus_eq_0, Rmult_0_l, Rmult_0_r. field. lra. }
    set (k := Z.to_nat (c - lo - 1)). assert (Hk : (k < m)%nat) by (unfold k, m; lia).
    assert (G : rsum m (fun i => dnl_of codes lo hi (lo + Z.of_nat i + 1) + (if (i =? k)%nat then 2 / IZR (hi - lo - 1) else 0)) <= rsum m (fun j => nth j dn 0)).
    { apply rsum_le. intros i Hi. rewrite V by lia. destruct (Nat.eqb_spec i k) as [->|Ni]; [|rewrite Rplus_0_r; apply Rmax_l].
      replace (lo + Z.of_nat k + 1)%Z with c by (unfold k; lia). rewrite Dc. eapply Rle_trans; [|apply Rmax_r]. lra. }
    rewrite rsum_plus, Tot, Rplus_0_l in G. rewrite (rsum_single m k) in G; [|exact Hk|intros i Hi Ni; destruct (Nat.eqb_spec i k); [contradiction|reflexivity]]. rewrite Nat.eqb_refl in G. exact G.
Qed.

Lemma hist_range_0134 : hist_range [0;1;3;4]%Z 0 0 4.
Proof.
  exists 0%Z, 4%Z. split; [left; reflexivity|]. split; [do 3 right; left; reflexivity|]. split; [intros z Hz; cbn in Hz; lia|]. cbv zeta. rewrite Rmult_0_l. rewrite (round_he_IZR 0). split; reflexivity.
Qed.
Lemma record_0134 : record_codes false [0;1;3;4] None None [0;1;3;4]%Z.
Proof. unfold record_codes. repeat (apply Forall2_cons; [right; (split; [intros [? _]; discriminate|symmetry; apply round_he_IZR])|]). apply Forall2_nil. Qed.
Lemma level_0134 : level [0;1;3;4]%Z 0 = - cos (PI / 4) /\ level [0;1;3;4]%Z 1 = 0 /\ level [0;1;3;4]%Z 2 = 0 /\ level [0;1;3;4]%Z 3 = cos (PI / 4).
Proof.
  unfold level. change (at_most 0 [0;1;3;4]%Z) with 1%nat. change (at_most 1 [0;1;3;4]%Z) with 2%nat. change (at_most 2 [0;1;3;4]%Z) with 2%nat. change (at_most 3 [0;1;3;4]%Z) with 3%nat. cbn [length].
  replace (INR 4) with 4 by (cbn; lra). replace (INR 1) with 1 by reflexivity. replace (INR 2) with 2 by (cbn; lra). replace (INR 3) with 3 by (cbn; lra).
  split; [do 2 f_equal; field|]. replace (PI * (2 / 4)) with (PI / 2) by field. rewrite cos_PI2. split; [ring|]. split; [ring|].
  replace (PI * (3 / 4)) with (- (PI / 4) + PI) by field. rewrite neg_cos, cos_neg. ring.
Qed.
(** The claim that the missing code itself is labelled is false: codes 0,1,3,4 never contain 2, yet
    the entry labelled 2 is not -1. *)
Lemma c32_missing_refuted : exists r, compute_inl_from_sine false [0;1;3;4] None None 0 = Ok r /\
  record_codes false [0;1;3;4] None None [0;1;3;4]%Z /\ nth 2 (s_codes r) 0%Z = 2%Z /\ (2 < length (s_codes r))%nat /\ ~ In 2%Z [0;1;3;4]%Z /\ nth 2 (s_dnl r) NaN = Fin (5 / 6).
Proof.
  assert (E : compute_inl_from_sine false [0;1;3;4] None None 0 = Ok (sine_histogram (sine_codes false [0;1;3;4] None None) 0)) by reflexivity.
  eexists. split; [exact E|]. split; [exact record_0134|]. pose proof hist_range_0134 as HR. pose proof record_0134 as C.
  assert (I : interior_hit [0;1;3;4]%Z 0 4) by (exists 1%Z; split; [right; left; reflexivity|lia]).
  destruct (c32_shape _ _ _ _ _ _ _ _ _ E C HR) as (_ & LD & LC & W). destruct (c32_values _ _ _ _ _ _ _ _ _ E C HR I) as (dn & D & _ & V & _).
  change (Z.to_nat (4 - 0 - 1)) with 3%nat in *. rewrite W, LC by lia. split; [reflexivity|]. split; [lia|]. split; [cbn; lia|].
  assert (Ln : length dn = 3%nat) by (rewrite <- LD, D, map_length; reflexivity). rewrite D, (nth_map_in _ _ _ 0) by lia. f_equal. rewrite V by lia.
  change (0 + Z.of_nat 2 + 1)%Z with 3%Z. unfold dnl_of, width. change (4 - 1)%Z with 3%Z. change (3 - 1)%Z with 2%Z. destruct level_0134 as (-> & _ & -> & ->).
  change (4 - 0 + 1)%Z with 5%Z. change (4 - 0 - 1)%Z with 3%Z. assert (P : 0 < cos (PI / 4)) by (rewrite cos_PI4; apply Rdiv_lt_0_compat; [lra|apply sqrt_lt_R0; lra]).
  replace ((cos (PI / 4) - 0) / (cos (PI / 4) - - cos (PI / 4))) with (1 / 2) by (field; lra). rewrite Rmax_left; lra.
Qed.
(** The same record: the missing code 2 is reported under label 1. *)
Lemma c32_missing_ex : exists r, compute_inl_from_sine false [0;1;3;4] None None 0 = Ok r /\ nth 1 (s_codes r) 0%Z = 1%Z /\ nth 1 (s_dnl r) NaN = Fin (-1).
Proof.
  assert (E : compute_inl_from_sine false [0;1;3;4] None None 0 = Ok (sine_histogram (sine_codes false [0;1;3;4] None None) 0)) by reflexivity.
  eexists. split; [exact E|]. pose proof hist_range_0134 as HR. pose proof record_0134 as C.
  assert (I : interior_hit [0;1;3;4]%Z 0 4) by (exists 1%Z; split; [right; left; reflexivity|lia]).
  destruct (c32_shape _ _ _ _ _ _ _ _ _ E C HR) as (_ & LD & LC & W). destruct (c32_missing_label _ _ _ _ _ _ _ _ _ 2%Z E C HR I ltac:(lia) ltac:(cbn; lia)) as (i & Hi & L & Dv).
  rewrite W in L by (rewrite <- LC; exact Hi). assert (i = 1%nat) by lia. subst i. split; [rewrite W by lia; reflexivity|exact Dv].
Qed.

(** ** Accuracy on a sampled sine *)
Definition hits (g : Z -> bool) (s : Z) (N : nat) : nat := length (filter (fun j => g (s + Z.of_nat j)%Z) (seq 0 N)).
Lemma hits_S g s N : hits g s (S N) = (hits g s N + (if g (s + Z.of_nat N)%Z then 1 else 0))%nat.
Proof. unfold hits. rewrite seq_S, filter_app, app_length. cbn [filter plus]. destruct (g _); reflexivity. Qed.
Lemma hits_shift g s N : (hits g s (S N) = (if g s then 1 else 0) + hits g (s + 1) N)%nat.
Proof.
  induction N as [|N IH]; [rewrite hits_S; unfold hits; cbn; rewrite Z.add_0_r; destruct (g s); reflexivity|].
  rewrite hits_S, IH, (hits_S g (s + 1) N). replace (s + 1 + Z.of_nat N)%Z with (s + Z.of_nat (S N))%Z by lia. lia.
Qed.
Lemma hits_step g s N : (forall z, g (z + Z.of_nat N)%Z = g z) -> hits g (s + 1) N = hits g s N.
Proof. intros H. pose proof (hits_shift g s N) as A. rewrite hits_S, H in A. lia. Qed.
Lemma hits_const g N s : (forall z, g (z + Z.of_nat N)%Z = g z) -> hits g s N = hits g 0 N.
Proof.
  intros H. destruct (Z.le_gt_cases 0 s) as [L|L].
  - rewrite <- (Z2Nat.id s L). induction (Z.to_nat s) as [|k IH]; [reflexivity|]. rewrite <- IH, <- (hits_step g (Z.of_nat k) N H). f_equal. lia.
  - replace s with (- Z.of_nat (Z.to_nat (- s)))%Z by lia. induction (Z.to_nat (- s)) as [|k IH]; [reflexivity|]. rewrite <- IH, <- (hits_step g (- Z.of_nat (S k)) N H). f_equal. lia.
Qed.
Lemma cos_lipschitz x y : Rabs (cos x - cos y) <= Rabs (x - y).
Proof.
  rewrite form2. replace (Rabs (x - y)) with (2 * Rabs ((x - y) / 2)) by (unfold Rdiv; rewrite Rabs_mult, (Rabs_pos_eq (/ 2)); lra).
  rewrite !Rabs_mult, (Rabs_left (-2)) by lra. pose proof (SIN_bound ((x + y) / 2)). assert (A : Rabs (sin ((x + y) / 2)) <= 1) by (apply Rabs_le; lra).
  assert (B : forall u, Rabs (sin u) <= Rabs u).
  { assert (P : forall u, 0 <= u -> Rabs (sin u) <= u).
    { intros u Hu. destruct (Req_dec u 0) as [->|Nu]; [rewrite sin_0, Rabs_R0; lra|]. pose proof (sin_lt_x u ltac:(lra)). apply Rabs_le. split; [|lra]. destruct (Rle_dec u PI); [pose proof (sin_ge_0 u Hu r); lra|]. pose proof (SIN_bound u). pose proof PI2_1. lra. }
    intros u. destruct (Rle_dec 0 u) as [L|L]; [rewrite (Rabs_pos_eq u L); apply P, L|]. rewrite <- Rabs_Ropp, <- sin_neg, <- (Rabs_Ropp u), (Rabs_pos_eq (- u)) by lra. apply P. lra. }
  pose proof (B ((x - y) / 2)). pose proof (Rabs_pos (sin ((x - y) / 2))). pose proof (Rabs_pos (sin ((x + y) / 2))). nra.
Qed.
(** Of N evenly spaced phases, the number with cosine at least t is within 1 of N acos(t)/pi. *)
Lemma phase_count N phi t : (0 < N)%nat -> -1 <= t <= 1 ->
  Rabs (INR (length (filter (fun i => Rleb t (cos (2 * PI * (INR i + phi) / INR N))) (seq 0 N))) - INR N * acos t / PI) <= 1.
Proof.
  intros HN Ht. pose proof PI_RGT_0 as HP. assert (PN : 0 < INR N) by (apply lt_0_INR, HN). pose proof (acos_bound t) as Ab.
  set (a := INR N * acos t / (2 * PI)).
  assert (Ha : 0 <= a <= INR N / 2).
  { unfold a. split; [apply Rdiv_le_0_compat; [apply Rmult_le_pos; lra|lra]|]. apply (Rmult_le_reg_r (2 * PI)); [lra|]. unfold Rdiv. rewrite Rmult_assoc, Rinv_l by lra. nra. }
  set (g := fun z : Z => Rleb t (cos (2 * PI * (IZR z + phi) / INR N))).
  assert (Gp : forall z, g (z + Z.of_nat N)%Z = g z).
  { intros z. unfold g. do 1 f_equal. rewrite plus_IZR, <- INR_IZR_INZ. replace (2 * PI * (IZR z + INR N + phi) / INR N) with (2 * PI * (IZR z + phi) / INR N + 2 * INR 1 * PI) by (change (INR 1) with 1; field; lra). apply cos_period. }
  assert (E0 : length (filter (fun i => Rleb t (cos (2 * PI * (INR i + phi) / INR N))) (seq 0 N)) = hits g 0 N).
  { unfold hits. f_equal. apply filter_ext. intros i. unfold g. rewrite Z.add_0_l, <- INR_IZR_INZ. reflexivity. }
  set (s := Zceil (- (INR N / 2) - phi)). rewrite E0, <- (hits_const g N s Gp).
  pose proof (Zceil_ub (- (INR N / 2) - phi)) as S1. pose proof (Zceil_lb (- (INR N / 2) - phi)) as S2. fold s in S1, S2.
  (* the predicate on the window *)
  assert (W : forall j, (j < N)%nat -> g (s + Z.of_nat j)%Z = true <-> - a <= IZR (s + Z.of_nat j) + phi <= a).
  { intros j Hj. set (x := IZR (s + Z.of_nat j) + phi). assert (X : - (INR N / 2) <= x <= INR N / 2).
    { unfold x. rewrite plus_IZR, <- INR_IZR_INZ. assert (J : INR j <= INR N - 1) by (replace (INR N - 1) with (INR (N - 1)) by (rewrite minus_INR by lia; reflexivity); apply le_INR; lia). pose proof (pos_INR j). lra. }
    unfold g. fold x. rewrite Rleb_true.
    assert (Y : cos (2 * PI * x / INR N) = cos (2 * PI * Rabs x / INR N)).
    { unfold Rabs. destruct (Rcase_abs x); [|reflexivity]. rewrite <- cos_neg. f_equal. field. lra. }
    rewrite Y. set (u := 2 * PI * Rabs x / INR N). assert (Xa : 0 <= Rabs x <= INR N / 2) by (split; [apply Rabs_pos|apply Rabs_le; lra]).
    assert (U : 0 <= u <= PI).
    { unfold u. split; [apply Rdiv_le_0_compat; [|lra]; apply Rmult_le_pos; lra|]. apply (Rmult_le_reg_r (INR N)); [lra|]. unfold Rdiv. rewrite Rmult_assoc, Rinv_l by lra. nra. }
    assert (K : u <= acos t <-> Rabs x <= a).
    { unfold u, a. split; intros H.
      - apply (Rmult_le_reg_l (2 * PI / INR N)); [apply Rdiv_lt_0_compat; lra|]. replace (2 * PI / INR N * (INR N * acos t / (2 * PI))) with (acos t) by (field; lra). replace (2 * PI / INR N * Rabs x) with (2 * PI * Rabs x / INR N) by (field; lra). exact H.
      - apply (Rmult_le_compat_l (2 * PI / INR N)) in H; [|apply Rlt_le, Rdiv_lt_0_compat; lra]. replace (2 * PI / INR N * (INR N * acos t / (2 * PI))) with (acos t) in H by (field; lra). replace (2 * PI / INR N * Rabs x) with (2 * PI * Rabs x / INR N) in H by (field; lra). exact H. }
    assert (K2 : t <= cos u <-> u <= acos t).
    { split; intros H.
      - apply Rnot_lt_le. intros Q. assert (cos u < cos (acos t)) by (apply cos_decreasing_1; lra). rewrite cos_acos in H0 by lra. lra.
      - rewrite <- (cos_acos t) at 1 by lra. apply cos_decr_1; lra. }
    rewrite K2, K. split; [intros H; apply Rabs_le_inv in H; lra|intros H; apply Rabs_le; lra]. }
  set (l := Zceil (- a - phi)). set (h := Z.min (Zfloor (a - phi) + 1) (s + Z.of_nat N)).
  pose proof (Zceil_ub (- a - phi)) as L1. pose proof (Zceil_lb (- a - phi)) as L2. fold l in L1, L2. pose proof (Zfloor_ub (a - phi)) as F1. pose proof (Zfloor_lb (a - phi)) as F2.
  assert (Sl : (s <= l)%Z) by (apply Zceil_le; lra).
  assert (Hb : IZR h - IZR l <= 2 * a + 1 /\ 2 * a - 1 <= IZR h - IZR l).
  { assert (Hh : IZR h = IZR (Zfloor (a - phi)) + 1 \/ IZR h = IZR s + INR N /\ IZR s + INR N <= IZR (Zfloor (a - phi)) + 1).
    { unfold h. destruct (Z.min_spec (Zfloor (a - phi) + 1) (s + Z.of_nat N)) as [[_ E]|[Q E]]; rewrite E; [left; apply plus_IZR|right]. apply IZR_le in Q. rewrite !plus_IZR, <- INR_IZR_INZ in *. split; [reflexivity|lra]. }
    destruct Hh as [-> | [-> Q]]; split; lra. }
  assert (Eh : INR (hits g s N) = Rmax (IZR h - IZR l) 0).
  { destruct (Z.le_gt_cases l h) as [Lh|Lh].
    - rewrite Rmax_left by (apply IZR_le in Lh; lra). rewrite <- minus_IZR, INR_IZR_INZ. f_equal. replace (h - l)%Z with ((h - s) - (l - s))%Z by lia. rewrite <- (count_interval (l - s) (h - s) N) by (unfold h in *; lia). unfold hits. do 2 f_equal.
      apply filter_ext_in. intros j Hj. apply in_seq in Hj. specialize (W j ltac:(lia)). destruct (g (s + Z.of_nat j)%Z) eqn:Eg.
      + destruct (proj1 W eq_refl) as [W1 W2]. symmetry. apply andb_true_intro. split; [apply Z.leb_le|apply Z.ltb_lt].
        * assert (l <= s + Z.of_nat j)%Z by (apply Zceil_glb; lra). lia.
        * assert (s + Z.of_nat j <= Zfloor (a - phi))%Z by (apply Zfloor_lub; lra). unfold h. lia.
      + symmetry. apply Bool.not_true_is_false. intros Q. apply andb_prop in Q. destruct Q as [Q1 Q2]. apply Z.leb_le in Q1. apply Z.ltb_lt in Q2. assert (false = true) by (apply W; split; [assert (Q3 : (l <= s + Z.of_nat j)%Z) by lia; apply IZR_le in Q3; lra|assert (Q3 : (s + Z.of_nat j <= Zfloor (a - phi))%Z) by (unfold h in Q2; lia); apply IZR_le in Q3; lra]). discriminate.
    - rewrite Rmax_right by (apply IZR_lt in Lh; lra). unfold hits. rewrite (filter_ext_in _ (fun _ => false)).
      + assert (F : forall q : list nat, filter (fun _ => false) q = []) by (induction q; auto). rewrite F. reflexivity.
      + intros j Hj. apply in_seq in Hj. specialize (W j ltac:(lia)). apply Bool.not_true_is_false. intros Q. apply W in Q. destruct Q as [W1 W2].
        assert (l <= s + Z.of_nat j)%Z by (apply Zceil_glb; lra). assert (s + Z.of_nat j <= Zfloor (a - phi))%Z by (apply Zfloor_lub; lra). unfold h in Lh. lia. }
  rewrite Eh. replace (INR N * acos t / PI) with (2 * a) by (unfold a; field; lra). apply Rabs_le. unfold Rmax. destruct (Rle_dec (IZR h - IZR l) 0); lra.
Qed.
Lemma at_most_perm c l l' : Permutation l l' -> at_most c l = at_most c l'.
Proof.
  unfold at_most. induction 1 as [|x l l' P IH|x y l|l l' l'' P1 IH1 P2 IH2]; [reflexivity| | |congruence].
  - cbn [filter]. destruct (x <=? c)%Z; cbn [length]; rewrite IH; reflexivity.
  - cbn [filter]. destruct (x <=? c)%Z, (y <=? c)%Z; reflexivity.
Qed.
Lemma filter_neg_length {A} (p : A -> bool) l : (length (filter p l) + length (filter (fun x => negb (p x)) l) = length l)%nat.
Proof. induction l as [|x t IH]; [reflexivity|]. cbn [filter]. destruct (p x); cbn [negb length]; lia. Qed.
(** For a sine sampled at N evenly spaced phases (in any order) each estimated level is within pi/N
    of the converter's true transition, in units of the sine's amplitude. *)
Lemma c65_levels T A B phi N f lo hi codes c : sine_setup T A B phi N f lo hi -> Permutation codes (map f (seq 0 N)) -> (lo <= c < hi)%Z ->
  Rabs (level codes c - (T (c + 1)%Z - B) / A) <= PI / INR N.
Proof.
  intros (HA & HN & Hr & Hq) P Hc. assert (PN : 0 < INR N) by (apply lt_0_INR, HN). pose proof PI_RGT_0 as HP.
  set (t := (T (c + 1)%Z - B) / A). specialize (Hr c Hc).
  assert (Ht : -1 <= t <= 1).
  { unfold t. split; apply (Rmult_le_reg_r A); try exact HA; unfold Rdiv; rewrite Rmult_assoc, Rinv_l by lra; lra. }
  set (K := length (filter (fun i => Rleb t (cos (2 * PI * (INR i + phi) / INR N))) (seq 0 N))).
  pose proof (phase_count N phi t HN Ht) as PC. fold K in PC.
  assert (EK : (at_most c codes + K = N)%nat).
  { rewrite (at_most_perm c _ _ P). rewrite <- (seq_length N 0) at 2. rewrite <- (filter_neg_length (fun i => (f i <=? c)%Z) (seq 0 N)). f_equal.
    - unfold at_most. assert (G : forall l : list nat, length (filter (fun z => (z <=? c)%Z) (map f l)) = length (filter (fun i => (f i <=? c)%Z) l)).
      { induction l as [|x l IH]; [reflexivity|]. cbn [map filter]. destruct (f x <=? c)%Z; cbn [length]; rewrite IH; reflexivity. }
      apply G.
    - unfold K. f_equal. apply filter_ext_in. intros i Hi. apply in_seq in Hi. specialize (Hq i c ltac:(lia) Hc). unfold sine_sample in Hq. set (v := cos (2 * PI * (INR i + phi) / INR N)) in *.
      assert (Q : t <= v <-> ~ B + A * v < T (c + 1)%Z).
      { assert (E : T (c + 1)%Z = B + A * t) by (unfold t; field; lra). rewrite E. split; intros H; [intros H2; nra|]. apply Rnot_lt_le. intros H2. apply H. nra. }
      destruct (Z.leb_spec (f i) c) as [L|L]; cbn [negb]; [apply Rleb_false|apply Rleb_true].
      + apply Rnot_le_lt. intros H. apply Q in H. apply H, Hq, L.
      + apply Q. intros H. apply Hq in H. lia. }
  assert (EL : length codes = N) by (rewrite (Permutation_length P), map_length, seq_length; reflexivity).
  assert (Lv : level codes c = cos (PI * INR K / INR N)).
  { unfold level. rewrite EL. replace (INR (at_most c codes)) with (INR N - INR K) by (rewrite <- EK at 1; rewrite plus_INR; ring).
    replace (PI * ((INR N - INR K) / INR N)) with (- (PI * INR K / INR N) + PI) by (field; lra). rewrite neg_cos, cos_neg. ring. }
  rewrite Lv. rewrite <- (cos_acos t) at 1 by lra. eapply Rle_trans; [apply cos_lipschitz|].
  replace (PI * INR K / INR N - acos t) with (PI / INR N * (INR K - INR N * acos t / PI)) by (field; lra).
  assert (Q : 0 < PI / INR N) by (apply Rdiv_lt_0_compat; lra). rewrite Rabs_mult, (Rabs_pos_eq (PI / INR N)) by lra. nra.
Qed.
Lemma share_close w S om Om e : 0 < S -> 0 < Om -> 0 <= w <= S -> Rabs (w - om) <= e -> Rabs (S - Om) <= e -> Rabs (w / S - om / Om) <= 2 * e / Om.
Proof.
  intros HS HO Hw H1 H2. replace (w / S - om / Om) with (/ (S * Om) * ((w - om) * S - w * (S - Om))) by (field; lra). replace (2 * e / Om) with (/ (S * Om) * (2 * e * S)) by (field; lra).
  assert (Q : 0 < / (S * Om)) by (apply Rinv_0_lt_compat, Rmult_lt_0_compat; assumption). rewrite Rabs_mult, (Rabs_pos_eq (/ (S * Om))) by lra. apply Rmult_le_compat_l; [lra|].
  apply Rabs_le_inv in H1. apply Rabs_le_inv in H2. apply Rabs_le. split; nra.
Qed.
Lemma Rmax_close x y z e : Rabs (x - y) <= e -> Rabs (Rmax x z - Rmax y z) <= e.
Proof. intros H. apply Rabs_le_inv in H. apply Rabs_le. unfold Rmax. destruct (Rle_dec x z), (Rle_dec y z); lra. Qed.
(** DNL and (when nothing is clamped) INL of such a record are within 4 pi n A / (N * interior
    range) of n/(n-2) times the true values; the INL error does not accumulate. *)
Lemma c65_sine_accuracy is_float data nb fs clip r codes lo hi T A B phi N f :
  compute_inl_from_sine is_float data nb fs clip = Ok r -> record_codes is_float data nb fs codes -> hist_range codes clip lo hi ->
  interior_hit codes lo hi -> Permutation codes (map f (seq 0 N)) -> sine_setup T A B phi N f lo hi -> T (lo + 1)%Z < T hi ->
  let n := IZR (hi - lo + 1) in let range := T hi - T (lo + 1)%Z in
  let true_dnl c := (n - 2) * ((T (c + 1)%Z - T c) / range) - 1 in
  let true_inl c := (n - 2) * ((T (c + 1)%Z - T (lo + 1)%Z) / range) - IZR (c - lo) in
  let bound := 4 * PI * n * A / (INR N * range) in
  forall i, (i < length (s_dnl r))%nat -> let c := (lo + Z.of_nat i + 1)%Z in
  (exists x, nth i (s_dnl r) NaN = Fin x /\ Rabs (x - Rmax (n / (n - 2) * true_dnl c) (-1)) <= bound) /\
  ((forall e, (lo < e < hi)%Z -> -1 <= dnl_of codes lo hi e) ->
   exists y, nth i (s_inl r) NaN = Fin y /\ Rabs (y - n / (n - 2) * true_inl c) <= bound).
Proof.
  intros E C HR I P SS HT n range true_dnl true_inl bound i Hi c. destruct (c32_values _ _ _ _ _ _ _ _ _ E C HR I) as (dn & D & _ & V & Nv).
  destruct (c32_shape _ _ _ _ _ _ _ _ _ E C HR) as (_ & LD & _ & _). assert (Ln : length dn = Z.to_nat (hi - lo - 1)) by (rewrite <- LD, D, map_length; reflexivity). rewrite LD in Hi.
  pose proof (interior_strict codes clip lo hi HR I) as S. pose proof SS as (HA & HN & _ & _). assert (PN : 0 < INR N) by (apply lt_0_INR, HN). pose proof PI_RGT_0 as HP.
  assert (Pn : 0 < IZR (hi - lo - 1)) by (apply (IZR_lt 0); lia). assert (N2 : IZR (hi - lo - 1) = n - 2) by (unfold n; rewrite <- minus_IZR; f_equal; lia).
  assert (Pr : 0 < range) by (unfold range; lra). set (S0 := level codes (hi - 1) - level codes lo).
  assert (Lv : forall e, (lo <= e < hi)%Z -> Rabs (level codes e - (T (e + 1)%Z - B) / A) <= PI / INR N) by (intros e He; apply (c65_levels T A B phi N f lo hi); assumption).
  assert (Cl : forall a b, (lo <= a)%Z -> (a <= b)%Z -> (b < hi)%Z -> Rabs (n * ((level codes b - level codes a) / S0) - n * ((T (b + 1)%Z - T (a + 1)%Z) / range)) <= bound).
  { intros a b Ha Hab Hb. rewrite <- Rmult_minus_distr_l, Rabs_mult, (Rabs_pos_eq n) by lra.
    replace ((T (b + 1)%Z - T (a + 1)%Z) / range) with ((T (b + 1)%Z - T (a + 1)%Z) / A / (range / A)) by (field; lra).
    replace bound with (n * (2 * (2 * (PI / INR N)) / (range / A))) by (unfold bound; field; lra). apply Rmult_le_compat_l; [lra|].
    assert (Tri : forall p q, (lo <= p < hi)%Z -> (lo <= q < hi)%Z -> Rabs (level codes q - level codes p - (T (q + 1)%Z - T (p + 1)%Z) / A) <= 2 * (PI / INR N)).
    { intros p q Hp Hq. pose proof (Rabs_le_inv _ _ (Lv p Hp)). pose proof (Rabs_le_inv _ _ (Lv q Hq)).
      replace ((T (q + 1)%Z - T (p + 1)%Z) / A) with ((T (q + 1)%Z - B) / A - (T (p + 1)%Z - B) / A) by (field; lra). apply Rabs_le. lra. }
    apply share_close; [unfold S0; lra|apply Rdiv_lt_0_compat; lra| |apply Tri; lia|].
    - pose proof (level_le codes clip lo hi HR a b Hab). pose proof (level_le codes clip lo hi HR lo a Ha). pose proof (level_le codes clip lo hi HR b (hi - 1)%Z ltac:(lia)). unfold S0. lra.
    - unfold S0, range. replace (T hi) with (T (hi - 1 + 1)%Z) by (f_equal; lia). apply Tri; lia. }
  split.
  - exists (nth i dn 0). rewrite D, (nth_map_in _ _ _ 0) by lia. split; [reflexivity|]. rewrite V by lia. fold c. apply Rmax_close. specialize (Cl (c - 1)%Z c ltac:(unfold c; lia) ltac:(lia) ltac:(unfold c; lia)).
    replace (c - 1 + 1)%Z with c in Cl by lia. unfold dnl_of, width, true_dnl. fold n S0. rewrite N2.
    match goal with |- Rabs ?a <= _ => match type of Cl with Rabs ?b <= _ => replace a with b by (field; unfold S0; repeat split; lra) end end. exact Cl.
  - intros Hnc. eexists. split; [apply Nv; lia|].
    rewrite (rsum_ext (Datatypes.S i) _ (fun j => n / S0 * (level codes (lo + Z.of_nat (Datatypes.S j)) - level codes (lo + Z.of_nat j)) + - (n / (n - 2)))).
    2:{ intros j Hj. rewrite V by lia. rewrite Rmax_left by (apply Hnc; lia). unfold dnl_of, width. fold n S0. rewrite N2. replace (lo + Z.of_nat j + 1 - 1)%Z with (lo + Z.of_nat j)%Z by lia.
        replace (lo + Z.of_nat j + 1)%Z with (lo + Z.of_nat (Datatypes.S j))%Z by lia. unfold Rdiv. ring. }
    rewrite rsum_plus, rsum_scale, rsum_const. rewrite (rsum_telescope (Datatypes.S i) (fun j => level codes (lo + Z.of_nat j))).
    replace (lo + Z.of_nat (Datatypes.S i))%Z with c by (unfold c; lia). replace (lo + Z.of_nat 0)%Z with lo by lia.
    specialize (Cl lo c ltac:(lia) ltac:(unfold c; lia) ltac:(unfold c; lia)). unfold true_inl. replace (IZR (c - lo)) with (INR (Datatypes.S i)) by (rewrite INR_IZR_INZ; f_equal; unfold c; lia).
    match goal with |- Rabs ?a <= _ => match type of Cl with Rabs ?b <= _ => replace a with b by (field; unfold S0; repeat split; lra) end end. exact Cl.
Qed.
(** The setup is met by an ideal 8-level converter and a 64-sample sine of amplitude 4. *)
Lemma c65_setup_ex : sine_setup IZR 4 0 0 64 (fun i => Zfloor (sine_sample 4 0 0 64 i)) (-4) 4 /\ IZR (-4 + 1) < IZR 4.
Proof.
  split; [|apply IZR_lt; lia]. split; [lra|]. split; [lia|]. split.
  - intros c Hc. split; [apply (Rle_trans _ (IZR (-3))); [lra|]|apply (Rle_trans _ (IZR 4)); [|lra]]; rewrite Rminus_0_r; apply IZR_le; lia.
  - intros i c _ _. rewrite plus_IZR. pose proof (Zfloor_lb (sine_sample 4 0 0 64 i)). pose proof (Zfloor_ub (sine_sample 4 0 0 64 i)). split; intros H1.
    + apply IZR_le in H1. lra.
    + apply Z.lt_succ_r, lt_IZR. rewrite succ_IZR. lra.
Qed.
