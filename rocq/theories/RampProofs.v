(** * Ramp INL/DNL: the final lemmas are named c31_, c64_. *)
From Verif Require Import Base BaseLemmas FreqProofs TiProofs SpecLemmas SpecProofs RampModel RampSpec.
From Coq Require Import Psatz ZifyBool Permutation.
Local Open Scope R_scope.

Lemma arange_length a b : length (arange a b) = Z.to_nat (b - a).
Proof. unfold arange. rewrite map_length, seq_length. reflexivity. Qed.
Lemma arange_nth a b i d : (i < Z.to_nat (b - a))%nat -> nth i (arange a b) d = (a + Z.of_nat i)%Z.
Proof. intros H. unfold arange. rewrite (nth_map_in _ _ _ O) by (rewrite seq_length; exact H). rewrite seq_nth by exact H. reflexivity. Qed.
Lemma arange_in a b z : In z (arange a b) <-> (a <= z < b)%Z.
Proof.
  unfold arange. rewrite in_map_iff. split.
  - intros (i & <- & H). apply in_seq in H. lia.
  - intros H. exists (Z.to_nat (z - a)). split; [lia|]. apply in_seq. lia.
Qed.
Lemma arange_cons a b : (a < b)%Z -> arange a b = a :: arange (a + 1) b.
Proof.
  intros H. unfold arange. replace (Z.to_nat (b - a)) with (S (Z.to_nat (b - (a + 1)))) by lia. cbn [seq map]. f_equal; [lia|].
  rewrite <- seq_shift, map_map. apply map_ext. intros i. lia.
Qed.
Lemma arange_snoc a b : (a <= b)%Z -> arange a (b + 1) = arange a b ++ [b].
Proof.
  intros H. unfold arange. replace (Z.to_nat (b + 1 - a)) with (Z.to_nat (b - a) + 1)%nat by lia. rewrite seq_app, map_app. cbn [seq map]. do 2 f_equal. lia.
Qed.
Lemma arange_trim a b : (a + 1 < b)%Z -> removelast (tl (arange a b)) = arange (a + 1) (b - 1).
Proof.
  intros H. rewrite arange_cons by lia. cbn [tl]. replace b with ((b - 1) + 1)%Z at 1 by lia. rewrite arange_snoc by lia. apply removelast_last.
Qed.
Lemma arange_hd a b : (a < b)%Z -> hd 0%Z (arange a b) = a.
Proof. intros H. rewrite arange_cons by exact H. reflexivity. Qed.
Lemma arange_last a b : (a <= b)%Z -> last (arange a (b + 1)) 0%Z = b.
Proof. intros H. rewrite arange_snoc by exact H. apply last_last. Qed.

(** ** Coercion *)
Lemma coerce_ok codes ci : coerce_integer_codes codes = Ok ci -> codes <> [] /\ codes = map (fun z => Fin (IZR z)) ci.
Proof.
  unfold coerce_integer_codes. destruct codes as [|x0 t0]; [discriminate|]. set (cs := x0 :: t0). unfold raise_if.
  destruct (forallb xfinite cs) eqn:F; [|discriminate]. cbn [negb]. destruct (forallb _ (map _ cs)) eqn:G; [|discriminate]. cbn [negb].
  intros H. apply Ok_inj in H. subst ci. split; [discriminate|]. rewrite forallb_forall in F, G. rewrite !map_map. rewrite <- (map_id cs) at 1. apply map_ext_in.
  intros x Hx. specialize (F x Hx). destruct x as [r| | |]; try discriminate. assert (Hr : In r (map (fun x => match x with Fin r => r | _ => 0 end) cs)) by (apply in_map_iff; exists (Fin r); auto).
  specialize (G r Hr). destruct (Reqb_spec r (IZR (round_he r))) as [E|]; [|discriminate]. rewrite <- E. reflexivity.
Qed.
Lemma coerce_map ci : ci <> [] -> coerce_integer_codes (map (fun z => Fin (IZR z)) ci) = Ok ci.
Proof.
  intros H. unfold coerce_integer_codes. destruct ci as [|z0 t0]; [contradiction|]. set (cs := z0 :: t0). change (map (fun z => Fin (IZR z)) cs) with (Fin (IZR z0) :: map (fun z => Fin (IZR z)) t0).
  cbv iota. change (Fin (IZR z0) :: map (fun z => Fin (IZR z)) t0) with (map (fun z => Fin (IZR z)) cs). unfold raise_if.
  assert (F : forallb xfinite (map (fun z => Fin (IZR z)) cs) = true) by (apply forallb_forall; intros x Hx; apply in_map_iff in Hx; destruct Hx as (z & <- & _); reflexivity).
  rewrite F. cbn [negb]. rewrite !map_map. replace (forallb _ _) with true.
  - cbn [negb]. f_equal. rewrite <- (map_id cs) at 2. apply map_ext. intros z. apply round_he_IZR.
  - symmetry. apply forallb_forall. intros r Hr. apply in_map_iff in Hr. destruct Hr as (z & <- & _). rewrite round_he_IZR. destruct (Reqb_spec (IZR z) (IZR z)); [reflexivity|contradiction].
Qed.
Lemma integer_codes_map codes : integer_codes codes -> exists ci, codes = map (fun z => Fin (IZR z)) ci.
Proof.
  induction codes as [|x t IH]; intros H; [exists []; reflexivity|]. destruct (H x (or_introl eq_refl)) as (z & ->).
  destruct IH as (ci & ->); [intros y Hy; apply H; right; exact Hy|]. exists (z :: ci). reflexivity.
Qed.
Lemma occurrences_map c ci : occurrences c (map (fun z => Fin (IZR z)) ci) = count_code ci c.
Proof.
  unfold occurrences, count_code. induction ci as [|z t IH]; [reflexivity|]. cbn [map filter].
  destruct (Reqb_spec (IZR z) (IZR c)) as [E|N], (Z.eqb_spec c z) as [E'|N']; cbn [length]; try (rewrite IH; reflexivity).
  - exfalso. apply N'. apply eq_IZR in E. congruence.
  - exfalso. apply N. congruence.
Qed.
Lemma fold_max_ge d l z : In z l -> (z <= fold_right Z.max d l)%Z.
Proof. induction l as [|x t IH]; intros []; cbn [fold_right]; [subst; lia|specialize (IH H); lia]. Qed.
Lemma fold_max_in d l : l <> [] -> In d l -> In (fold_right Z.max d l) l.
Proof.
  intros _ Hd. assert (G : fold_right Z.max d l = d \/ In (fold_right Z.max d l) l).
  { clear Hd. induction l as [|x t IH]; [left; reflexivity|]. cbn [fold_right]. destruct (Z.max_spec x (fold_right Z.max d t)) as [[_ ->]|[_ ->]]; [|right; left; reflexivity].
    destruct IH as [->|I]; [left; reflexivity|right; right; exact I]. }
  destruct G as [->|G]; assumption.
Qed.

(** ** Inversion of a successful run *)
Record ramp_ok (codes : list xr) (num_bits : option Z) (cmin : Z) (code_max : option Z) (ep : endpoint_mode) (ex : bool) (r : ramp_result) (ci : list Z) (lo hi : Z) : Prop := {
  ro_codes : codes = map (fun z => Fin (IZR z)) ci;
  ro_ne : ci <> [];
  ro_bits : match num_bits with Some b => (0 < b)%Z | None => True end;
  ro_upper : upper_limit codes num_bits cmin code_max (r_code_max r);
  ro_lim : (cmin <= r_code_max r)%Z;
  ro_range : forall c, In c ci -> (cmin <= c <= r_code_max r)%Z;
  ro_an : analysed ex cmin (r_code_max r) lo hi;
  ro_le : (lo <= hi)%Z;
  ro_code : r_code r = arange lo (hi + 1);
  ro_counts : r_counts r = map (fun c => INR (count_code ci c)) (r_code r);
  ro_total : 0 < lsum (r_counts r);
  ro_ideal : r_ideal r = lmean (r_counts r);
  ro_dnl : r_dnl r = map (fun c => c / r_ideal r - 1) (r_counts r);
  ro_trans : r_trans r = arange lo (hi + 2);
  ro_raw : r_raw r = 0 :: cumsum_from 0 (r_dnl r);
  ro_inl : correct_inl (r_raw r) (r_trans r) ep = Ok (r_inl r);
  ro_missing : r_missing r = map fst (filter (fun p => Reqb (snd p) 0) (combine (r_code r) (r_counts r))) }.
Lemma counts_nonneg ci l : Forall (fun x => 0 <= x) (map (fun c => INR (count_code ci c)) l).
Proof. apply Forall_forall. intros x Hx. apply in_map_iff in Hx. destruct Hx as (c & <- & _). apply pos_INR. Qed.
Lemma code_range cmin cmax (ex : bool) : (cmin <= cmax)%Z ->
  exists lo hi, analysed ex cmin cmax lo hi /\ (lo <= hi)%Z /\
   (if (ex && (2 <? length (arange cmin (cmax + 1)))%nat)%bool then removelast (tl (arange cmin (cmax + 1))) else arange cmin (cmax + 1)) = arange lo (hi + 1).
Proof.
  intros H. rewrite arange_length. unfold analysed. destruct (Z.leb_spec 2 (cmax - cmin)).
  - replace (2 <? Z.to_nat (cmax + 1 - cmin))%nat with true by (symmetry; apply Nat.ltb_lt; lia). destruct ex; cbn [andb].
    + exists (cmin + 1)%Z, (cmax - 1)%Z. split; [auto|]. split; [lia|]. rewrite arange_trim by lia. f_equal. lia.
    + exists cmin, cmax. auto.
  - replace (2 <? Z.to_nat (cmax + 1 - cmin))%nat with false by (symmetry; apply Nat.ltb_ge; lia). rewrite !Bool.andb_false_r. exists cmin, cmax. auto.
Qed.
Lemma limits_ok nb cmin cm o : validate_code_limits nb cmin cm = Ok o ->
  match nb with Some b => (0 < b)%Z | None => True end /\
  match o with
  | Some m => (cmin <= m)%Z /\ (cm = Some m \/ cm = None /\ exists b, nb = Some b /\ m = (cmin + 2 ^ b - 1)%Z)
  | None => cm = None /\ nb = None
  end.
Proof.
  unfold validate_code_limits, raise_if. destruct nb as [b|], cm as [m|].
  - destruct (Z.leb_spec b 0); [discriminate|]. destruct (Z.ltb_spec m cmin); [discriminate|]. intros E. apply Ok_inj in E. subst. split; [lia|]. split; [lia|]. left. reflexivity.
  - destruct (Z.leb_spec b 0); [discriminate|]. destruct (Z.ltb_spec (cmin + 2 ^ b - 1) cmin); [discriminate|]. intros E. apply Ok_inj in E. subst. split; [lia|]. split; [lia|]. right. eauto.
  - destruct (Z.ltb_spec m cmin); [discriminate|]. intros E. apply Ok_inj in E. subst. split; [exact I|]. split; [lia|]. left. reflexivity.
  - intros E. apply Ok_inj in E. subst. auto.
Qed.
Lemma ramp_inv codes nb cmin cm ep ex r : compute_inl_from_ramp codes nb cmin cm ep ex = Ok r -> exists ci lo hi, ramp_ok codes nb cmin cm ep ex r ci lo hi.
Proof.
  unfold compute_inl_from_ramp. destruct (validate_code_limits nb cmin cm) as [o|e] eqn:EV; [|discriminate]. cbn [bind].
  destruct (coerce_integer_codes codes) as [ci|e] eqn:EC; [|discriminate]. cbn [bind]. apply coerce_ok in EC. destruct EC as [Hne Hc].
  assert (Hci : ci <> []) by (intros ->; apply Hne; exact Hc). apply limits_ok in EV. destruct EV as [Hb Ho].
  destruct (match o with Some m => Ok m | None => _ end) as [cmax|e] eqn:EM; [|discriminate]. cbn [bind].
  assert (U : upper_limit codes nb cmin cm cmax /\ (cmin <= cmax)%Z).
  { destruct o as [m|].
    - apply Ok_inj in EM. subst m. destruct Ho as [L [->|(-> & b & -> & ->)]]; split; try exact L; reflexivity.
    - destruct Ho as [-> ->]. cbv zeta in EM. destruct (Z.ltb_spec (fold_right Z.max (hd 0%Z ci) ci) cmin); [discriminate|]. apply Ok_inj in EM. subst cmax. split; [|lia]. cbn [upper_limit].
      assert (Hh : In (hd 0%Z ci) ci) by (destruct ci; [contradiction|left; reflexivity]). split.
      + rewrite Hc. apply in_map_iff. exists (fold_right Z.max (hd 0%Z ci) ci). split; [reflexivity|]. apply fold_max_in; assumption.
      + intros z Hz. rewrite Hc in Hz. apply in_map_iff in Hz. destruct Hz as (z' & E & Hz). assert (IZR z' = IZR z) by congruence. apply eq_IZR in H0. subst z'. apply fold_max_ge, Hz. }
  destruct U as [U L]. unfold raise_if. destruct (existsb (fun c => ((c <? cmin) || (cmax <? c))%Z) ci) eqn:EX; [discriminate|].
  assert (Rg : forall c, In c ci -> (cmin <= c <= cmax)%Z).
  { intros c Hin. apply Bool.not_true_iff_false in EX. destruct (Z.leb_spec cmin c), (Z.leb_spec c cmax); try lia; exfalso; apply EX, existsb_exists; exists c; split; try exact Hin; lia. }
  destruct (code_range cmin cmax ex L) as (lo & hi & An & Le & Ec). cbv zeta. rewrite Ec. set (counts := map (fun c => INR (count_code ci c)) (arange lo (hi + 1))).
  destruct ((length counts =? 0)%nat || Reqb (lsum counts) 0)%bool eqn:E0; [discriminate|]. apply Bool.orb_false_iff in E0. destruct E0 as [E0 E1].
  destruct (Reqb_spec (lsum counts) 0) as [|Nz]; [discriminate|]. assert (P : 0 < lsum counts) by (pose proof (lsum_nonneg counts (counts_nonneg ci _)); lra).
  assert (Pm : 0 < lmean counts). { unfold lmean. apply Rdiv_lt_0_compat; [exact P|]. apply lt_0_INR. apply Nat.eqb_neq in E0. lia. }
  destruct (Rleb_spec (lmean counts) 0); [lra|]. destruct (correct_inl _ _ ep) as [inl|e] eqn:EI; [|discriminate]. cbn [bind]. intros E. apply Ok_inj in E. subst r.
  assert (D : map (fun d => Rmax d (-1)) (map (fun c => c / lmean counts - 1) counts) = map (fun c => c / lmean counts - 1) counts).
  { rewrite map_map. apply map_ext_in. intros c Hin. apply Rmax_left. pose proof (counts_nonneg ci (arange lo (hi + 1))) as F. rewrite Forall_forall in F. specialize (F c Hin).
    assert (0 <= c / lmean counts) by (apply Rdiv_le_0_compat; assumption). lra. }
  rewrite arange_hd, arange_last in * by lia.
  exists ci, lo, hi. constructor; cbn; try assumption; try reflexivity; try exact Hci.
Qed.

(** ** Sums *)
Lemma cumsum_length a l : length (cumsum_from a l) = length l.
Proof. revert a. induction l; intros; cbn [cumsum_from length]; [reflexivity|rewrite IHl; reflexivity]. Qed.
Lemma cumsum_nth a l k : (k < length l)%nat -> nth k (cumsum_from a l) 0 = a + rsum (S k) (fun j => nth j l 0).
Proof.
  revert a k. induction l as [|x t IH]; intros a k H; [simpl in H; lia|]. cbn [cumsum_from]. destruct k as [|k].
  - cbn [nth rsum]. ring.
  - cbn [nth]. rewrite IH by (simpl in H; lia). rewrite (rsum_shift (S k)). cbn [nth]. ring.
Qed.
Lemma raw_nth l k : (k <= length l)%nat -> nth k (0 :: cumsum_from 0 l) 0 = rsum k (fun j => nth j l 0).
Proof. destruct k as [|k]; intros H; [reflexivity|]. cbn [nth]. rewrite cumsum_nth by lia. ring. Qed.
Lemma last_nth_R (l : list R) : l <> [] -> last l 0 = nth (length l - 1) l 0.
Proof.
  intros H. destruct (exists_last H) as (m & x & ->). rewrite last_last, app_length, app_nth2 by (cbn [length]; lia). cbn [length]. replace (length m + 1 - 1 - length m)%nat with O by lia. reflexivity.
Qed.
Lemma lsum_affine_map (a b : R) l : lsum (map (fun c => c / a - b) l) = lsum l / a - INR (length l) * b.
Proof. induction l as [|x t IH]; [cbn; unfold Rdiv; ring|]. cbn [map lsum]. rewrite IH. cbn [length]. rewrite S_INR. unfold Rdiv. ring. Qed.

Section Ramp.
Context (codes : list xr) (nb : option Z) (cmin : Z) (cm : option Z) (ep : endpoint_mode) (ex : bool) (r : ramp_result) (ci : list Z) (lo hi : Z).
Context (H : ramp_ok codes nb cmin cm ep ex r ci lo hi).
Lemma r_code_len : length (r_code r) = Z.to_nat (hi - lo + 1).
Proof. rewrite (ro_code _ _ _ _ _ _ _ _ _ _ H), arange_length. f_equal. lia. Qed.
Lemma r_counts_len : length (r_counts r) = Z.to_nat (hi - lo + 1).
Proof. rewrite (ro_counts _ _ _ _ _ _ _ _ _ _ H), map_length. apply r_code_len. Qed.
Lemma r_dnl_len : length (r_dnl r) = Z.to_nat (hi - lo + 1).
Proof. rewrite (ro_dnl _ _ _ _ _ _ _ _ _ _ H), map_length. apply r_counts_len. Qed.
Lemma r_ideal_pos : 0 < r_ideal r.
Proof.
  rewrite (ro_ideal _ _ _ _ _ _ _ _ _ _ H). unfold lmean. apply Rdiv_lt_0_compat; [apply (ro_total _ _ _ _ _ _ _ _ _ _ H)|]. apply lt_0_INR. rewrite r_counts_len.
  pose proof (ro_le _ _ _ _ _ _ _ _ _ _ H). lia.
Qed.
Lemma r_dnl_sum : lsum (r_dnl r) = 0.
Proof.
  pose proof r_ideal_pos as P. rewrite (ro_dnl _ _ _ _ _ _ _ _ _ _ H), lsum_affine_map. rewrite (ro_ideal _ _ _ _ _ _ _ _ _ _ H) in *. unfold lmean in *.
  assert (0 < INR (length (r_counts r))) by (apply lt_0_INR; rewrite r_counts_len; pose proof (ro_le _ _ _ _ _ _ _ _ _ _ H); lia).
  pose proof (ro_total _ _ _ _ _ _ _ _ _ _ H). field. lra.
Qed.
Lemma r_count_nth i : (i < Z.to_nat (hi - lo + 1))%nat -> nth i (r_counts r) 0 = INR (count_code ci (lo + Z.of_nat i)).
Proof.
  intros Hi. rewrite (ro_counts _ _ _ _ _ _ _ _ _ _ H), (nth_map_in _ _ _ 0%Z) by (rewrite r_code_len; exact Hi).
  rewrite (ro_code _ _ _ _ _ _ _ _ _ _ H), arange_nth by lia. reflexivity.
Qed.
Lemma r_dnl_nth i : (i < Z.to_nat (hi - lo + 1))%nat -> nth i (r_dnl r) 0 = INR (count_code ci (lo + Z.of_nat i)) / r_ideal r - 1.
Proof. intros Hi. rewrite (ro_dnl _ _ _ _ _ _ _ _ _ _ H), (nth_map_in _ _ _ 0) by (rewrite r_counts_len; exact Hi). rewrite r_count_nth by exact Hi. reflexivity. Qed.
Lemma r_raw_nth k : (k <= Z.to_nat (hi - lo + 1))%nat -> nth k (r_raw r) 0 = rsum k (fun j => nth j (r_dnl r) 0).
Proof. intros Hk. rewrite (ro_raw _ _ _ _ _ _ _ _ _ _ H). apply raw_nth. rewrite r_dnl_len. exact Hk. Qed.
Lemma r_raw_len : length (r_raw r) = S (Z.to_nat (hi - lo + 1)).
Proof. rewrite (ro_raw _ _ _ _ _ _ _ _ _ _ H). cbn [length]. rewrite cumsum_length, r_dnl_len. reflexivity. Qed.
Lemma r_raw_last : last (r_raw r) 0 = 0.
Proof.
  rewrite last_nth_R by (intros E; pose proof r_raw_len as L; rewrite E in L; discriminate). rewrite r_raw_len, r_raw_nth by lia.
  replace (S (Z.to_nat (hi - lo + 1)) - 1)%nat with (length (r_dnl r)) by (rewrite r_dnl_len; lia). rewrite <- lsum_rsum. apply r_dnl_sum.
Qed.
Lemma r_endpoints : correct_inl (r_raw r) (r_trans r) EpEndpoints = Ok (r_raw r).
Proof.
  pose proof r_raw_last as L0. pose proof r_raw_len as LL. pose proof (ro_raw _ _ _ _ _ _ _ _ _ _ H) as E. destruct (r_raw r) as [|x [|y t]] eqn:ER; [discriminate LL| |].
  - cbn [length] in LL. pose proof (ro_le _ _ _ _ _ _ _ _ _ _ H). lia.
  - assert (x = 0) by congruence. subst x. unfold correct_inl. f_equal. rewrite L0. apply (nth_ext _ _ 0 0); [rewrite map_length, seq_length; reflexivity|].
    rewrite map_length, seq_length. intros i Hi. rewrite map_seq_nth by exact Hi. unfold linspace_at, Rdiv. ring.
Qed.
End Ramp.

(** Counts are the numbers of samples at each of the consecutive analysed codes. *)
Lemma c31_counts codes nb cmin cm ep ex r : compute_inl_from_ramp codes nb cmin cm ep ex = Ok r ->
  exists lo hi, upper_limit codes nb cmin cm (r_code_max r) /\ analysed ex cmin (r_code_max r) lo hi /\ (lo <= hi)%Z /\
   let m := Z.to_nat (hi - lo + 1) in
   length (r_code r) = m /\ length (r_counts r) = m /\ length (r_trans r) = S m /\
   (forall i, (i < m)%nat -> nth i (r_code r) 0%Z = (lo + Z.of_nat i)%Z /\ nth i (r_counts r) 0 = INR (occurrences (lo + Z.of_nat i) codes)) /\
   (forall i, (i <= m)%nat -> nth i (r_trans r) 0%Z = (lo + Z.of_nat i)%Z) /\
   INR m * r_ideal r = lsum (r_counts r) /\ 0 < r_ideal r.
Proof.
  intros E. destruct (ramp_inv _ _ _ _ _ _ _ E) as (ci & lo & hi & H). pose proof (ro_le _ _ _ _ _ _ _ _ _ _ H) as Le. exists lo, hi.
  split; [apply (ro_upper _ _ _ _ _ _ _ _ _ _ H)|]. split; [apply (ro_an _ _ _ _ _ _ _ _ _ _ H)|]. split; [exact Le|]. cbv zeta.
  split; [apply (r_code_len _ _ _ _ _ _ _ _ _ _ H)|]. split; [apply (r_counts_len _ _ _ _ _ _ _ _ _ _ H)|].
  split; [rewrite (ro_trans _ _ _ _ _ _ _ _ _ _ H), arange_length; lia|]. split; [|split; [|split]].
  - intros i Hi. split; [rewrite (ro_code _ _ _ _ _ _ _ _ _ _ H); apply arange_nth; lia|]. rewrite (r_count_nth _ _ _ _ _ _ _ _ _ _ H) by exact Hi.
    rewrite (ro_codes _ _ _ _ _ _ _ _ _ _ H), occurrences_map. reflexivity.
  - intros i Hi. rewrite (ro_trans _ _ _ _ _ _ _ _ _ _ H). apply arange_nth. lia.
  - rewrite (ro_ideal _ _ _ _ _ _ _ _ _ _ H). unfold lmean. rewrite (r_counts_len _ _ _ _ _ _ _ _ _ _ H). field. apply not_0_INR. lia.
  - apply (r_ideal_pos _ _ _ _ _ _ _ _ _ _ H).
Qed.
(** DNL: count over mean count minus one; never below -1; sums to zero. *)
Lemma c31_dnl codes nb cmin cm ep ex r : compute_inl_from_ramp codes nb cmin cm ep ex = Ok r ->
  length (r_dnl r) = length (r_counts r) /\ lsum (r_dnl r) = 0 /\
  forall i, (i < length (r_dnl r))%nat -> -1 <= nth i (r_dnl r) 0 /\ nth i (r_dnl r) 0 = nth i (r_counts r) 0 / r_ideal r - 1.
Proof.
  intros E. destruct (ramp_inv _ _ _ _ _ _ _ E) as (ci & lo & hi & H). pose proof (r_ideal_pos _ _ _ _ _ _ _ _ _ _ H) as P.
  rewrite (r_dnl_len _ _ _ _ _ _ _ _ _ _ H), (r_counts_len _ _ _ _ _ _ _ _ _ _ H). split; [reflexivity|]. split; [apply (r_dnl_sum _ _ _ _ _ _ _ _ _ _ H)|]. intros i Hi.
  rewrite (r_dnl_nth _ _ _ _ _ _ _ _ _ _ H), (r_count_nth _ _ _ _ _ _ _ _ _ _ H) by exact Hi. split; [|reflexivity].
  assert (0 <= INR (count_code ci (lo + Z.of_nat i)) / r_ideal r) by (apply Rdiv_le_0_compat; [apply pos_INR|exact P]). lra.
Qed.
(** A code is listed as missing exactly when it is analysed and its DNL is -1, that is, when no
    sample has it. *)
Lemma c31_missing codes nb cmin cm ep ex r c : compute_inl_from_ramp codes nb cmin cm ep ex = Ok r ->
  (In c (r_missing r) <-> exists i, (i < length (r_code r))%nat /\ nth i (r_code r) 0%Z = c /\ nth i (r_dnl r) 0 = -1) /\
  (In c (r_missing r) <-> In c (r_code r) /\ ~ In (Fin (IZR c)) codes).
Proof.
  intros E. destruct (ramp_inv _ _ _ _ _ _ _ E) as (ci & lo & hi & H). pose proof (r_ideal_pos _ _ _ _ _ _ _ _ _ _ H) as P.
  assert (A : In c (r_missing r) <-> In c (r_code r) /\ count_code ci c = O).
  { rewrite (ro_missing _ _ _ _ _ _ _ _ _ _ H), (ro_counts _ _ _ _ _ _ _ _ _ _ H). rewrite in_map_iff. split.
    - intros ([c' n] & <- & Hf). apply filter_In in Hf. destruct Hf as [Hi Hz]. cbn [fst snd] in *.
      destruct (In_nth _ _ (0%Z, 0) Hi) as (k & Hk & Ek). rewrite combine_length, map_length in Hk. rewrite combine_nth in Ek by (rewrite map_length; reflexivity).
      assert (E1 : nth k (r_code r) 0%Z = c') by congruence. assert (E2 : nth k (map (fun c => INR (count_code ci c)) (r_code r)) 0 = n) by congruence.
      rewrite (nth_map_in _ _ _ 0%Z) in E2 by lia. rewrite E1 in E2. split; [rewrite <- E1; apply nth_In; lia|]. destruct (Reqb_spec n 0); [|discriminate]. apply INR_eq. rewrite E2. cbn. assumption.
    - intros [Hi Hz]. exists (c, 0). split; [reflexivity|]. apply filter_In. split; [|cbn [snd]; destruct (Reqb_spec 0 0); [reflexivity|contradiction]].
      destruct (In_nth _ _ 0%Z Hi) as (k & Hk & Ek). assert (G : nth k (combine (r_code r) (map (fun c => INR (count_code ci c)) (r_code r))) (0%Z, 0) = (c, 0)).
      { rewrite combine_nth by (rewrite map_length; reflexivity). rewrite Ek, (nth_map_in _ _ _ 0%Z) by exact Hk. rewrite Ek, Hz. reflexivity. }
      rewrite <- G. apply nth_In. rewrite combine_length, map_length. lia. }
  assert (B : count_code ci c = O <-> ~ In (Fin (IZR c)) codes).
  { rewrite (ro_codes _ _ _ _ _ _ _ _ _ _ H). unfold count_code. split.
    - intros Z I. apply in_map_iff in I. destruct I as (z & Ez & I). assert (IZR z = IZR c) by congruence. apply eq_IZR in H0. subst z.
      assert (F : In c (filter (Z.eqb c) ci)) by (apply filter_In; split; [exact I|apply Z.eqb_refl]). destruct (filter (Z.eqb c) ci); [exact F|discriminate Z].
    - intros N. destruct (filter (Z.eqb c) ci) as [|z t] eqn:F; [reflexivity|]. exfalso. apply N. assert (I : In z (filter (Z.eqb c) ci)) by (rewrite F; left; reflexivity).
      apply filter_In in I. destruct I as [I Ez]. apply Z.eqb_eq in Ez. subst z. apply in_map_iff. exists c. auto. }
  split; [|rewrite A, B; reflexivity]. rewrite A. split.
  - intros [Hi Hz]. destruct (In_nth _ _ 0%Z Hi) as (k & Hk & Ek). exists k. split; [exact Hk|]. split; [exact Ek|]. rewrite (r_code_len _ _ _ _ _ _ _ _ _ _ H) in Hk.
    rewrite (r_dnl_nth _ _ _ _ _ _ _ _ _ _ H) by exact Hk. rewrite (ro_code _ _ _ _ _ _ _ _ _ _ H), arange_nth in Ek by lia. rewrite Ek, Hz. cbn [INR]. unfold Rdiv. ring.
  - intros (k & Hk & Ek & Dk). split; [rewrite <- Ek; apply nth_In, Hk|]. rewrite (r_code_len _ _ _ _ _ _ _ _ _ _ H) in Hk.
    rewrite (r_dnl_nth _ _ _ _ _ _ _ _ _ _ H) in Dk by exact Hk. rewrite (ro_code _ _ _ _ _ _ _ _ _ _ H), arange_nth in Ek by lia. rewrite Ek in Dk.
    assert (Q : INR (count_code ci c) / r_ideal r = 0) by lra. unfold Rdiv in Q. apply Rmult_integral in Q. destruct Q as [Q|Q]; [apply INR_eq; exact Q|]. pose proof (Rinv_0_lt_compat _ P). lra.
Qed.
(** INL (raw and endpoint-corrected): one longer than DNL, starts and ends at zero, consecutive
    differences are the DNL; the endpoint correction changes nothing. *)
Lemma c31_inl codes nb cmin cm ep ex r : compute_inl_from_ramp codes nb cmin cm ep ex = Ok r -> ep = EpNone \/ ep = EpEndpoints ->
  r_inl r = r_raw r /\ length (r_inl r) = S (length (r_dnl r)) /\ nth 0 (r_inl r) 0 = 0 /\ nth (length (r_dnl r)) (r_inl r) 0 = 0 /\
  forall i, (i < length (r_dnl r))%nat -> nth (S i) (r_inl r) 0 - nth i (r_inl r) 0 = nth i (r_dnl r) 0.
Proof.
  intros E Hep. destruct (ramp_inv _ _ _ _ _ _ _ E) as (ci & lo & hi & H).
  assert (I : r_inl r = r_raw r).
  { pose proof (ro_inl _ _ _ _ _ _ _ _ _ _ H) as Q. destruct Hep as [-> | ->]; [symmetry; apply Ok_inj; exact Q|]. rewrite (r_endpoints _ _ _ _ _ _ _ _ _ _ H) in Q. symmetry. apply Ok_inj, Q. }
  rewrite I. split; [reflexivity|]. rewrite (r_raw_len _ _ _ _ _ _ _ _ _ _ H), (r_dnl_len _ _ _ _ _ _ _ _ _ _ H). split; [reflexivity|].
  rewrite !(r_raw_nth _ _ _ _ _ _ _ _ _ _ H) by lia. split; [reflexivity|]. split.
  - rewrite <- (r_dnl_len _ _ _ _ _ _ _ _ _ _ H), <- lsum_rsum. apply (r_dnl_sum _ _ _ _ _ _ _ _ _ _ H).
  - intros i Hi. rewrite !(r_raw_nth _ _ _ _ _ _ _ _ _ _ H) by lia. cbn [rsum]. ring.
Qed.

(** ** Best-fit correction *)
Lemma map2_nth_R {A B} (f : A -> B -> R) (a : list A) (b : list B) da db i : (i < length a)%nat -> length a = length b -> nth i (map2 f a b) 0 = f (nth i a da) (nth i b db).
Proof.
  revert b i. induction a as [|x t IH]; intros b i Hi L; [simpl in Hi; lia|]. destruct b as [|y u]; [discriminate|]. destruct i as [|i]; [reflexivity|]. cbn [map2 nth]. apply IH; cbn [length] in *; lia.
Qed.
Lemma map2_len {A B C} (f : A -> B -> C) a b : length a = length b -> length (map2 f a b) = length a.
Proof. revert b. induction a as [|x t IH]; intros [|y u] L; try discriminate; [reflexivity|]. cbn [map2 length]. rewrite IH; [reflexivity|]. cbn [length] in L. lia. Qed.
Section Line.
Context (x y : list R) (n : nat).
Context (Lx : length x = n) (Ly : length y = n) (Hn : (0 < n)%nat).
Let mx := lmean x.
Let my := lmean y.
Let X i := nth i x 0.
Let Y i := nth i y 0.
Context (V : 0 < rsum n (fun i => (nth i x 0 - lmean x) ^ 2)).
Lemma line_mx : rsum n X = INR n * mx.
Proof. unfold mx, lmean, X. rewrite Lx, lsum_rsum, Lx. field. apply not_0_INR. lia. Qed.
Lemma line_my : rsum n Y = INR n * my.
Proof. unfold my, lmean, Y. rewrite Ly, lsum_rsum, Ly. field. apply not_0_INR. lia. Qed.
Let sxy := rsum n (fun i => (X i - mx) * (Y i - my)).
Let sxx := rsum n (fun i => (X i - mx) ^ 2).
Lemma fit_line_eq t : fit_line x y t = my + sxy / sxx * (t - mx).
Proof.
  unfold fit_line. fold mx my. f_equal. f_equal. f_equal.
  - rewrite lsum_rsum, map2_len by congruence. rewrite Lx. apply rsum_ext. intros i Hi. rewrite (map2_nth_R _ x y 0 0) by congruence. reflexivity.
  - rewrite lsum_rsum, map_length, Lx. apply rsum_ext. intros i Hi. rewrite (nth_map_in _ _ _ 0) by congruence. reflexivity.
Qed.
Let e i := Y i - fit_line x y (X i).
Lemma line_sum0 : rsum n e = 0.
Proof.
  unfold e. rewrite (rsum_ext n _ (fun i => (Y i - sxy / sxx * X i) + (- my + sxy / sxx * mx))) by (intros i _; rewrite fit_line_eq; ring).
  rewrite rsum_plus, rsum_const. rewrite (rsum_ext n _ (fun i => Y i + - (sxy / sxx) * X i)) by (intros; ring). rewrite rsum_plus, rsum_scale, line_mx, line_my. ring.
Qed.
Lemma line_orth : rsum n (fun i => e i * X i) = 0.
Proof.
  rewrite (rsum_ext n _ (fun i => ((X i - mx) * (Y i - my) + - (sxy / sxx) * (X i - mx) ^ 2) + mx * e i)).
  2:{ intros i _. unfold e. rewrite fit_line_eq. ring. }
  rewrite rsum_plus, rsum_plus, !rsum_scale, line_sum0. fold sxy sxx. assert (0 < sxx) by exact V. field. lra.
Qed.
(** Least squares among all lines. *)
Lemma line_best a b : rsum n (fun i => e i ^ 2) <= rsum n (fun i => (Y i - (a + b * X i)) ^ 2).
Proof.
  set (k := sxy / sxx). set (da := my - k * mx - a). set (db := k - b).
  rewrite (rsum_ext n (fun i => (Y i - (a + b * X i)) ^ 2) (fun i => (e i ^ 2 + (da + db * X i) ^ 2) + (2 * da * e i + 2 * db * (e i * X i)))).
  2:{ intros i _. unfold e. rewrite fit_line_eq. unfold da, db, k. ring. }
  rewrite rsum_plus, (rsum_plus n (fun i => 2 * da * e i)), !rsum_scale, line_sum0, line_orth, rsum_plus.
  assert (0 <= rsum n (fun i => (da + db * X i) ^ 2)) by (apply rsum_nonneg; intros; apply pow2_ge_0). lra.
Qed.
End Line.
Lemma arange_spread a n : (2 <= n)%nat -> let x := map IZR (arange a (a + Z.of_nat n)) in 0 < rsum n (fun i => (nth i x 0 - lmean x) ^ 2).
Proof.
  intros Hn x. assert (Nx : forall i, (i < n)%nat -> nth i x 0 = IZR a + INR i).
  { intros i Hi. unfold x. rewrite (nth_map_in _ _ _ 0%Z) by (rewrite arange_length; lia). rewrite arange_nth by lia. rewrite plus_IZR, <- INR_IZR_INZ. reflexivity. }
  set (m := lmean x). assert (S : rsum n (fun i => (nth i x 0 - m) ^ 2) >= (nth 0 x 0 - m) ^ 2 + (nth 1 x 0 - m) ^ 2).
  { destruct n as [|[|n]]; try lia. rewrite (rsum_shift (S n)), (rsum_shift n). cbn [rsum]. assert (0 <= rsum n (fun i => (nth (S (S i)) x 0 - m) ^ 2)) by (apply rsum_nonneg; intros; apply pow2_ge_0). lra. }
  rewrite (Nx 0%nat), (Nx 1%nat) in S by lia. cbn [INR] in S. assert (Q : 0 < (IZR a + 0 - m) ^ 2 + (IZR a + 1 - m) ^ 2) by (set (u := IZR a - m); replace (IZR a + 0 - m) with u by (unfold u; ring); replace (IZR a + 1 - m) with (u + 1) by (unfold u; ring); pose proof (pow2_ge_0 (2 * u + 1)); nra). lra.
Qed.
(** 'fit': the residual from the least-squares line through the raw INL: it sums to zero, is
    uncorrelated with the code, and no other line leaves a smaller sum of squares. *)
Lemma c31_fit codes nb cmin cm ex r : compute_inl_from_ramp codes nb cmin cm EpFit ex = Ok r ->
  let n := length (r_raw r) in let x i := IZR (nth i (r_trans r) 0%Z) in
  length (r_inl r) = n /\ (exists a b, forall i, (i < n)%nat -> nth i (r_inl r) 0 = nth i (r_raw r) 0 - (a + b * x i)) /\
  rsum n (fun i => nth i (r_inl r) 0) = 0 /\ rsum n (fun i => nth i (r_inl r) 0 * x i) = 0 /\
  forall a b, rsum n (fun i => nth i (r_inl r) 0 ^ 2) <= rsum n (fun i => (nth i (r_raw r) 0 - (a + b * x i)) ^ 2).
Proof.
  intros E n x. destruct (ramp_inv _ _ _ _ _ _ _ E) as (ci & lo & hi & H). pose proof (ro_le _ _ _ _ _ _ _ _ _ _ H) as Le.
  assert (Ln : n = S (Z.to_nat (hi - lo + 1))) by apply (r_raw_len _ _ _ _ _ _ _ _ _ _ H).
  assert (Tr : r_trans r = arange lo (lo + Z.of_nat n)) by (rewrite (ro_trans _ _ _ _ _ _ _ _ _ _ H); f_equal; lia).
  set (c := map IZR (r_trans r)). assert (Lc : length c = n) by (unfold c; rewrite map_length, Tr, arange_length; lia).
  assert (Xc : forall i, (i < n)%nat -> nth i c 0 = x i) by (intros i Hi; unfold c, x; rewrite (nth_map_in _ _ _ 0%Z) by (rewrite Tr, arange_length; lia); reflexivity).
  assert (I : r_inl r = map2 (fun y t => y - fit_line c (r_raw r) t) (r_raw r) c).
  { pose proof (ro_inl _ _ _ _ _ _ _ _ _ _ H) as Q. unfold correct_inl in Q. fold n in Q. unfold c.
    destruct (r_raw r) as [|u [|v t]] eqn:ER; [exfalso; unfold n in Ln; discriminate Ln|exfalso; unfold n in Ln; cbn [length] in Ln; lia|]. cbv zeta in Q. symmetry. apply Ok_inj, Q. }
  assert (V : 0 < rsum n (fun i => (nth i c 0 - lmean c) ^ 2)).
  { unfold c. rewrite Tr. apply (arange_spread lo n). lia. }
  assert (In : forall i, (i < n)%nat -> nth i (r_inl r) 0 = nth i (r_raw r) 0 - fit_line c (r_raw r) (nth i c 0)).
  { intros i Hi. rewrite I, (map2_nth_R _ (r_raw r) c 0 0) by (try exact Hi; symmetry; exact Lc). reflexivity. }
  split; [rewrite I; apply map2_len; symmetry; exact Lc|]. split; [|split; [|split]].
  - set (k := rsum n (fun i => (nth i c 0 - lmean c) * (nth i (r_raw r) 0 - lmean (r_raw r))) / rsum n (fun i => (nth i c 0 - lmean c) ^ 2)).
    exists (lmean (r_raw r) - k * lmean c), k. intros i Hi. rewrite In by exact Hi. rewrite (fit_line_eq c (r_raw r) n Lc eq_refl). fold k. rewrite Xc by exact Hi. ring.
  - rewrite (rsum_ext n _ (fun i => nth i (r_raw r) 0 - fit_line c (r_raw r) (nth i c 0))) by exact In. apply (line_sum0 c (r_raw r) n Lc eq_refl). lia.
  - rewrite (rsum_ext n _ (fun i => (nth i (r_raw r) 0 - fit_line c (r_raw r) (nth i c 0)) * nth i c 0)) by (intros i Hi; rewrite In, Xc by exact Hi; reflexivity).
    apply (line_orth c (r_raw r) n Lc eq_refl); [lia|exact V].
  - intros a b. rewrite (rsum_ext n _ (fun i => (nth i (r_raw r) 0 - fit_line c (r_raw r) (nth i c 0)) ^ 2)) by (intros i Hi; rewrite In by exact Hi; reflexivity).
    rewrite (rsum_ext n (fun i => (nth i (r_raw r) 0 - (a + b * x i)) ^ 2) (fun i => (nth i (r_raw r) 0 - (a + b * nth i c 0)) ^ 2)) by (intros i Hi; rewrite Xc by exact Hi; reflexivity).
    apply (line_best c (r_raw r) n Lc eq_refl); [lia|exact V].
Qed.

(** ** When it succeeds *)
(** It returns a result exactly for a positive num_bits (if any), a non-empty capture of integer
    codes within the limits, at least one sample on an analysed code and a known endpoint mode;
    otherwise it raises ValueError. *)
Lemma c31_success_iff codes nb cmin cm ep ex :
  ((exists r, compute_inl_from_ramp codes nb cmin cm ep ex = Ok r) <-> ramp_valid codes nb cmin cm ep ex) /\
  (~ ramp_valid codes nb cmin cm ep ex -> compute_inl_from_ramp codes nb cmin cm ep ex = Err ValueError).
Proof.
  assert (F : forall r, compute_inl_from_ramp codes nb cmin cm ep ex = Ok r -> ramp_valid codes nb cmin cm ep ex).
  { intros r E. destruct (ramp_inv _ _ _ _ _ _ _ E) as (ci & lo & hi & H). pose proof (ro_codes _ _ _ _ _ _ _ _ _ _ H) as Hc.
    split; [apply (ro_bits _ _ _ _ _ _ _ _ _ _ H)|]. split; [rewrite Hc; intros Q; apply map_eq_nil in Q; apply (ro_ne _ _ _ _ _ _ _ _ _ _ H), Q|].
    split; [intros x Hx; rewrite Hc in Hx; apply in_map_iff in Hx; destruct Hx as (z & <- & _); eauto|]. split.
    - intros ->. pose proof (ro_inl _ _ _ _ _ _ _ _ _ _ H) as Q. rewrite (ro_raw _ _ _ _ _ _ _ _ _ _ H) in Q. discriminate Q.
    - exists (r_code_max r), lo, hi. split; [apply (ro_upper _ _ _ _ _ _ _ _ _ _ H)|]. split; [apply (ro_lim _ _ _ _ _ _ _ _ _ _ H)|].
      assert (Iz : forall z, In (Fin (IZR z)) codes <-> In z ci).
      { intros z. rewrite Hc, in_map_iff. split; [intros (z' & Q & I); assert (IZR z' = IZR z) by congruence; apply eq_IZR in H0; subst; exact I|intros I; exists z; auto]. }
      split; [intros z Hz; apply (ro_range _ _ _ _ _ _ _ _ _ _ H), Iz, Hz|]. split; [apply (ro_an _ _ _ _ _ _ _ _ _ _ H)|].
      pose proof (ro_total _ _ _ _ _ _ _ _ _ _ H) as T. rewrite (ro_counts _ _ _ _ _ _ _ _ _ _ H), (ro_code _ _ _ _ _ _ _ _ _ _ H) in T.
      assert (Ex : exists c, In c (arange lo (hi + 1)) /\ count_code ci c <> O).
      { clear - T. induction (arange lo (hi + 1)) as [|c t IH]; [cbn in T; lra|]. cbn [map lsum] in T. destruct (Nat.eq_dec (count_code ci c) 0) as [Z|Z].
        - destruct IH as (c' & I & N); [rewrite Z in T; cbn [INR] in T; lra|]. exists c'. split; [right; exact I|exact N].
        - exists c. split; [left; reflexivity|exact Z]. }
      destruct Ex as (c & I & N). exists c. split; [|apply arange_in in I; lia]. apply Iz. unfold count_code in N. destruct (filter (Z.eqb c) ci) as [|z t] eqn:Q; [contradiction N; reflexivity|].
      assert (I2 : In z (filter (Z.eqb c) ci)) by (rewrite Q; left; reflexivity). apply filter_In in I2. destruct I2 as [I2 E2]. apply Z.eqb_eq in E2. subst z. exact I2. }
  assert (B : ramp_valid codes nb cmin cm ep ex -> exists r, compute_inl_from_ramp codes nb cmin cm ep ex = Ok r).
  { intros (Hb & Hne & Hi & Hep & m & lo & hi & U & Lm & Rg & An & z & Iz & Lz). destruct (integer_codes_map _ Hi) as (ci & Hc). subst codes.
    assert (Hci : ci <> []) by (intros ->; apply Hne; reflexivity).
    assert (Ii : forall z, In (Fin (IZR z)) (map (fun z => Fin (IZR z)) ci) <-> In z ci).
    { intros w. rewrite in_map_iff. split; [intros (z' & Q & I); assert (IZR z' = IZR w) by congruence; apply eq_IZR in H; subst; exact I|intros I; exists w; auto]. }
    unfold compute_inl_from_ramp.
    assert (V : exists o, validate_code_limits nb cmin cm = Ok o /\ match o with Some v => Ok v | None => if (fold_right Z.max (hd 0%Z ci) ci <? cmin)%Z then Err ValueError else Ok (fold_right Z.max (hd 0%Z ci) ci) end = Ok m).
    { unfold validate_code_limits, raise_if. destruct nb as [b|], cm as [v|]; cbn [upper_limit] in U.
      - subst v. replace (b <=? 0)%Z with false by lia. replace (m <? cmin)%Z with false by lia. exists (Some m). auto.
      - subst m. replace (b <=? 0)%Z with false by lia. cbv zeta. replace (cmin + 2 ^ b - 1 <? cmin)%Z with false by lia. eexists. split; reflexivity.
      - subst v. replace (m <? cmin)%Z with false by lia. exists (Some m). auto.
      - exists None. split; [reflexivity|]. destruct U as [U1 U2]. cbv zeta.
        assert (fold_right Z.max (hd 0%Z ci) ci = m).
        { apply Z.le_antisymm; [apply U2, Ii, fold_max_in; [exact Hci|destruct ci; [contradiction|left; reflexivity]]|apply fold_max_ge, Ii, U1]. }
        rewrite H. replace (m <? cmin)%Z with false by lia. reflexivity. }
    destruct V as (o & -> & Eo). cbn [bind]. rewrite coerce_map by exact Hci. cbn [bind]. rewrite Eo. cbn [bind]. unfold raise_if.
    assert (X : existsb (fun c => ((c <? cmin) || (m <? c))%Z) ci = false).
    { apply Bool.not_true_iff_false. intros Q. apply existsb_exists in Q. destruct Q as (c & Ic & Q). specialize (Rg c (proj2 (Ii c) Ic)). lia. }
    rewrite X. cbv zeta. destruct (code_range cmin m ex Lm) as (lo' & hi' & An' & Le & ->).
    assert (lo' = lo /\ hi' = hi) by (unfold analysed in An, An'; destruct (ex && _)%bool; destruct An, An'; split; congruence). destruct H as [-> ->].
    set (counts := map (fun c => INR (count_code ci c)) (arange lo (hi + 1))).
    assert (P : 0 < lsum counts).
    { assert (G : In z (arange lo (hi + 1))) by (apply arange_in; lia). assert (Pz : 1 <= INR (count_code ci z)).
      { apply (le_INR 1). unfold count_code. assert (I2 : In z (filter (Z.eqb z) ci)) by (apply filter_In; split; [apply Ii, Iz|apply Z.eqb_refl]). destruct (filter (Z.eqb z) ci); [contradiction|cbn [length]; lia]. }
      unfold counts. clear - G Pz. induction (arange lo (hi + 1)) as [|c t IH]; [contradiction|]. cbn [map lsum]. pose proof (lsum_nonneg _ (counts_nonneg ci t)). pose proof (pos_INR (count_code ci c)).
      destruct G as [->|G]; [lra|specialize (IH G); lra]. }
    assert (L0 : (length counts =? 0)%nat = false) by (apply Nat.eqb_neq; unfold counts; rewrite map_length, arange_length; lia).
    rewrite L0. cbn [orb]. destruct (Reqb_spec (lsum counts) 0); [lra|].
    assert (Pm : 0 < lmean counts). { unfold lmean. apply Rdiv_lt_0_compat; [exact P|]. apply lt_0_INR. apply Nat.eqb_neq in L0. lia. }
    destruct (Rleb_spec (lmean counts) 0); [lra|].
    destruct (correct_inl _ _ ep) as [inl|e] eqn:EI; [cbn [bind]; eexists; reflexivity|]. exfalso. clear - EI Hep. unfold correct_inl in EI.
    destruct ep; try discriminate; try contradiction; destruct (cumsum_from 0 _); discriminate. }
  split; [split; [intros (r & E); exact (F r E)|exact B]|]. intros N.
  destruct (compute_inl_from_ramp codes nb cmin cm ep ex) as [r|e] eqn:E; [exfalso; apply N, (F r), eq_refl|].
  f_equal. clear - E. unfold compute_inl_from_ramp, validate_code_limits, coerce_integer_codes, correct_inl, raise_if in E.
  repeat match type of E with
  | context [match ?x with _ => _ end] => destruct x eqn:?; cbn [bind] in E; try discriminate E; try (inversion E; reflexivity); try (inversion Heqr; subst; inversion E; reflexivity)
  end; try congruence.
Qed.

(** ** The result depends only on how often each code occurs *)
Lemma occurrences_perm c codes codes' : Permutation codes codes' -> occurrences c codes = occurrences c codes'.
Proof.
  unfold occurrences. induction 1 as [|x l l' P IH|x y l|l l' l'' P1 IH1 P2 IH2]; [reflexivity| | |congruence].
  - cbn [filter]. destruct (match x with Fin r => Reqb r (IZR c) | _ => false end); cbn [length]; rewrite IH; reflexivity.
  - cbn [filter]. destruct (match x with Fin r => Reqb r (IZR c) | _ => false end), (match y with Fin r => Reqb r (IZR c) | _ => false end); reflexivity.
Qed.
Lemma upper_perm codes codes' nb cmin cm m : Permutation codes codes' -> upper_limit codes nb cmin cm m -> upper_limit codes' nb cmin cm m.
Proof.
  intros P. destruct cm, nb; cbn [upper_limit]; try tauto. intros [A B]. split; [apply (Permutation_in _ P), A|]. intros z Hz. apply B, (Permutation_in _ (Permutation_sym P)), Hz.
Qed.
Lemma upper_unique codes nb cmin cm m m' : upper_limit codes nb cmin cm m -> upper_limit codes nb cmin cm m' -> m = m'.
Proof. destruct cm, nb; cbn [upper_limit]; try congruence. intros [A B] [C D]. apply Z.le_antisymm; auto. Qed.
Lemma valid_perm codes codes' nb cmin cm ep ex : Permutation codes codes' -> ramp_valid codes nb cmin cm ep ex -> ramp_valid codes' nb cmin cm ep ex.
Proof.
  intros P (A & B & C & D & m & lo & hi & E & F & G & K & z & L & N). pose proof (Permutation_sym P) as P'.
  split; [exact A|]. split; [intros ->; apply B, Permutation_nil, P'|]. split; [intros x Hx; apply C, (Permutation_in _ P'), Hx|]. split; [exact D|].
  exists m, lo, hi. split; [apply (upper_perm _ _ _ _ _ _ P), E|]. split; [exact F|]. split; [intros w Hw; apply G, (Permutation_in _ P'), Hw|]. split; [exact K|].
  exists z. split; [apply (Permutation_in _ P), L|exact N].
Qed.
(** Reordering the samples does not change the result. *)
Lemma c31_order_irrelevant codes codes' nb cmin cm ep ex : Permutation codes codes' ->
  compute_inl_from_ramp codes nb cmin cm ep ex = compute_inl_from_ramp codes' nb cmin cm ep ex.
Proof.
  intros P. destruct (c31_success_iff codes nb cmin cm ep ex) as [I1 N1]. destruct (c31_success_iff codes' nb cmin cm ep ex) as [I2 N2].
  destruct (compute_inl_from_ramp codes nb cmin cm ep ex) as [r|e] eqn:E1, (compute_inl_from_ramp codes' nb cmin cm ep ex) as [r'|e'] eqn:E2.
  - f_equal. destruct (ramp_inv _ _ _ _ _ _ _ E1) as (ci & lo & hi & H). destruct (ramp_inv _ _ _ _ _ _ _ E2) as (ci' & lo' & hi' & H').
    assert (M : r_code_max r = r_code_max r') by (apply (upper_unique codes' nb cmin cm); [apply (upper_perm _ _ _ _ _ _ P), (ro_upper _ _ _ _ _ _ _ _ _ _ H)|apply (ro_upper _ _ _ _ _ _ _ _ _ _ H')]).
    assert (B : lo = lo' /\ hi = hi').
    { pose proof (ro_an _ _ _ _ _ _ _ _ _ _ H) as A1. pose proof (ro_an _ _ _ _ _ _ _ _ _ _ H') as A2. rewrite M in A1. unfold analysed in A1, A2. destruct (ex && _)%bool; destruct A1, A2; split; congruence. }
    destruct B as [<- <-].
    assert (C : r_code r = r_code r') by (rewrite (ro_code _ _ _ _ _ _ _ _ _ _ H), (ro_code _ _ _ _ _ _ _ _ _ _ H'); reflexivity).
    assert (N : r_counts r = r_counts r').
    { rewrite (ro_counts _ _ _ _ _ _ _ _ _ _ H), (ro_counts _ _ _ _ _ _ _ _ _ _ H'), C. apply map_ext. intros c. f_equal. rewrite <- !occurrences_map.
      rewrite <- (ro_codes _ _ _ _ _ _ _ _ _ _ H), <- (ro_codes _ _ _ _ _ _ _ _ _ _ H'). apply occurrences_perm, P. }
    assert (Id : r_ideal r = r_ideal r') by (rewrite (ro_ideal _ _ _ _ _ _ _ _ _ _ H), (ro_ideal _ _ _ _ _ _ _ _ _ _ H'), N; reflexivity).
    assert (D : r_dnl r = r_dnl r') by (rewrite (ro_dnl _ _ _ _ _ _ _ _ _ _ H), (ro_dnl _ _ _ _ _ _ _ _ _ _ H'), N, Id; reflexivity).
    assert (T : r_trans r = r_trans r') by (rewrite (ro_trans _ _ _ _ _ _ _ _ _ _ H), (ro_trans _ _ _ _ _ _ _ _ _ _ H'); reflexivity).
    assert (W : r_raw r = r_raw r') by (rewrite (ro_raw _ _ _ _ _ _ _ _ _ _ H), (ro_raw _ _ _ _ _ _ _ _ _ _ H'), D; reflexivity).
    assert (L : r_inl r = r_inl r') by (apply Ok_inj; rewrite <- (ro_inl _ _ _ _ _ _ _ _ _ _ H), <- (ro_inl _ _ _ _ _ _ _ _ _ _ H'), W, T; reflexivity).
    assert (Ms : r_missing r = r_missing r') by (rewrite (ro_missing _ _ _ _ _ _ _ _ _ _ H), (ro_missing _ _ _ _ _ _ _ _ _ _ H'), C, N; reflexivity).
    destruct r, r'. cbn in *. congruence.
  - exfalso. assert (V : ramp_valid codes' nb cmin cm ep ex) by (apply (valid_perm _ _ _ _ _ _ _ P), I1; eauto). apply I2 in V. destruct V as (r0 & Q). discriminate Q.
  - exfalso. assert (V : ramp_valid codes nb cmin cm ep ex) by (apply (valid_perm _ _ _ _ _ _ _ (Permutation_sym P)), I2; eauto). apply I1 in V. destruct V as (r0 & Q). discriminate Q.
  - assert (A : ~ ramp_valid codes nb cmin cm ep ex) by (intros V; apply I1 in V; destruct V; discriminate).
    assert (B : ~ ramp_valid codes' nb cmin cm ep ex) by (intros V; apply I2 in V; destruct V; discriminate). rewrite N1, N2 by assumption. reflexivity.
Qed.

(** ** How close the histogram is to the converter's transition levels *)
Lemma count_interval a b n : (0 <= a)%Z -> (a <= b)%Z -> (b <= Z.of_nat n)%Z ->
  Z.of_nat (length (filter (fun i => (a <=? Z.of_nat i)%Z && (Z.of_nat i <? b)%Z) (seq 0 n))) = (b - a)%Z.
Proof.
  revert b. induction n as [|n IH]; intros b Ha Hab Hb; [cbn [seq filter length]; lia|]. rewrite seq_S, filter_app, app_length. cbn [plus filter length].
  destruct (Z.leb_spec b (Z.of_nat n)) as [L|L].
  - replace (Z.of_nat n <? b)%Z with false by lia. rewrite Bool.andb_false_r. cbn [length]. rewrite Nat2Z.inj_add, IH by lia. lia.
  - assert (b = Z.of_nat n + 1)%Z by lia. subst b. destruct (Z.leb_spec a (Z.of_nat n)) as [La|La].
    + replace (Z.of_nat n <? Z.of_nat n + 1)%Z with true by lia. cbn [andb length].
      rewrite (filter_ext_in _ (fun i => (a <=? Z.of_nat i)%Z && (Z.of_nat i <? Z.of_nat n)%Z)).
      2:{ intros i Hi. apply in_seq in Hi. f_equal. lia. }
      rewrite Nat2Z.inj_add, IH by lia. lia.
    + cbn [andb length]. rewrite (filter_ext_in _ (fun _ => false)).
      2:{ intros i Hi. apply in_seq in Hi. replace (a <=? Z.of_nat i)%Z with false by lia. reflexivity. }
      assert (E : forall l : list nat, filter (fun _ => false) l = []) by (induction l; auto). rewrite E. cbn [length]. lia.
Qed.
Section Accuracy.
Context (T : Z -> R) (v0 step : R) (n : nat) (f : nat -> Z) (lo hi : Z).
Context (Hs : 0 < step) (Hlo : v0 <= T lo) (Hhi : T (hi + 1)%Z <= v0 + INR n * step) (Hle : (lo <= hi)%Z).
Context (Hm : forall c, (lo <= c <= hi)%Z -> T c <= T (c + 1)%Z).
Context (Hq : forall i c, (i < n)%nat -> (lo <= c <= hi)%Z -> f i = c <-> T c <= ramp_sample v0 step i < T (c + 1)%Z).
Let ci := map f (seq 0 n).
Let idx (c : Z) : Z := Zceil ((T c - v0) / step).
Lemma T_mono k : (k <= Z.to_nat (hi - lo + 1))%nat -> T lo <= T (lo + Z.of_nat k)%Z.
Proof.
  induction k as [|k IH]; intros H; [replace (lo + Z.of_nat 0)%Z with lo by lia; lra|]. specialize (IH ltac:(lia)). pose proof (Hm (lo + Z.of_nat k)%Z ltac:(lia)) as Q.
  replace (lo + Z.of_nat (S k))%Z with (lo + Z.of_nat k + 1)%Z by lia. lra.
Qed.
Lemma T_mono_hi k : (k <= Z.to_nat (hi - lo + 1))%nat -> T (hi + 1 - Z.of_nat k)%Z <= T (hi + 1)%Z.
Proof.
  induction k as [|k IH]; intros H; [replace (hi + 1 - Z.of_nat 0)%Z with (hi + 1)%Z by lia; lra|]. specialize (IH ltac:(lia)). pose proof (Hm (hi + 1 - Z.of_nat (S k))%Z ltac:(lia)) as Q.
  replace (hi + 1 - Z.of_nat (S k) + 1)%Z with (hi + 1 - Z.of_nat k)%Z in Q by lia. lra.
Qed.
Lemma T_between c : (lo <= c <= hi + 1)%Z -> T lo <= T c <= T (hi + 1)%Z.
Proof.
  intros H. split; [replace c with (lo + Z.of_nat (Z.to_nat (c - lo)))%Z by lia; apply T_mono; lia|].
  replace (T c) with (T (hi + 1 - Z.of_nat (Z.to_nat (hi + 1 - c)))%Z) by (f_equal; lia). apply T_mono_hi. lia.
Qed.
Lemma idx_le c i : (idx c <= Z.of_nat i)%Z <-> T c <= ramp_sample v0 step i.
Proof.
  unfold idx, ramp_sample. split; intros H.
  - apply IZR_le in H. pose proof (Zceil_ub ((T c - v0) / step)) as U. rewrite <- INR_IZR_INZ in H. assert (Q : (T c - v0) / step <= INR i) by lra.
    apply (Rmult_le_compat_r step) in Q; [|lra]. unfold Rdiv in Q. rewrite Rmult_assoc, Rinv_l, Rmult_1_r in Q by lra. lra.
  - apply Zceil_glb. rewrite <- INR_IZR_INZ. apply (Rmult_le_reg_r step); [exact Hs|]. unfold Rdiv. rewrite Rmult_assoc, Rinv_l, Rmult_1_r by lra. lra.
Qed.
Lemma idx_bounds c : (lo <= c <= hi + 1)%Z -> (0 <= idx c <= Z.of_nat n)%Z.
Proof.
  intros H. pose proof (T_between c H). split.
  - unfold idx. rewrite <- (Zceil_IZR 0). apply Zceil_le. apply Rdiv_le_0_compat; lra.
  - apply idx_le. unfold ramp_sample. lra.
Qed.
Lemma idx_mono c : (lo <= c <= hi)%Z -> (idx c <= idx (c + 1))%Z.
Proof. intros H. apply Zceil_le. pose proof (Hm c H). apply Rmult_le_compat_r; [apply Rlt_le, Rinv_0_lt_compat, Hs|lra]. Qed.
Lemma count_idx c : (lo <= c <= hi)%Z -> Z.of_nat (count_code ci c) = (idx (c + 1) - idx c)%Z.
Proof.
  intros H. pose proof (idx_bounds c ltac:(lia)). pose proof (idx_bounds (c + 1) ltac:(lia)). pose proof (idx_mono c H).
  rewrite <- (count_interval (idx c) (idx (c + 1)) n) by lia. f_equal. unfold count_code, ci.
  assert (G : forall l, (forall i, In i l -> (i < n)%nat) -> length (filter (Z.eqb c) (map f l)) = length (filter (fun i => (idx c <=? Z.of_nat i)%Z && (Z.of_nat i <? idx (c + 1))%Z) l)).
  { induction l as [|i t IH]; intros Hl; [reflexivity|]. cbn [map filter].
    assert (E : Z.eqb c (f i) = ((idx c <=? Z.of_nat i)%Z && (Z.of_nat i <? idx (c + 1))%Z)%bool).
    { pose proof (Hq i c (Hl i (or_introl eq_refl)) H) as Q. pose proof (idx_le c i) as A. pose proof (idx_le (c + 1) i) as B.
      destruct (Z.eqb_spec c (f i)) as [Ec|Nc].
      - destruct (proj1 Q (eq_sym Ec)) as [Q1 Q2]. apply A in Q1. assert (~ (idx (c + 1) <= Z.of_nat i)%Z) by (intros K; apply B in K; lra). lia.
      - destruct (Z.leb_spec (idx c) (Z.of_nat i)) as [L1|L1], (Z.ltb_spec (Z.of_nat i) (idx (c + 1))) as [L2|L2]; try reflexivity. exfalso. apply Nc. symmetry. apply Q. split; [apply A, L1|].
        apply Rnot_le_lt. intros K. apply B in K. lia. }
    rewrite E. destruct (_ && _)%bool; cbn [length]; rewrite IH by (intros j Hj; apply Hl; right; exact Hj); reflexivity. }
  apply G. intros i Hi. apply in_seq in Hi. lia.
Qed.
Lemma count_partial k : (k <= Z.to_nat (hi - lo + 1))%nat -> rsum k (fun i => INR (count_code ci (lo + Z.of_nat i))) = IZR (idx (lo + Z.of_nat k)) - IZR (idx lo).
Proof.
  induction k as [|k IH]; intros H; [cbn [rsum]; replace (lo + Z.of_nat 0)%Z with lo by lia; ring|]. cbn [rsum]. rewrite IH by lia.
  rewrite (INR_IZR_INZ (count_code ci (lo + Z.of_nat k))), count_idx, minus_IZR by lia. replace (lo + Z.of_nat (S k))%Z with (lo + Z.of_nat k + 1)%Z by lia. ring.
Qed.
Lemma idx_close c d : Rabs ((IZR (idx d) - IZR (idx c)) - (T d - T c) / step) <= 1.
Proof.
  unfold idx. pose proof (Zceil_ub ((T c - v0) / step)). pose proof (Zceil_lb ((T c - v0) / step)). pose proof (Zceil_ub ((T d - v0) / step)). pose proof (Zceil_lb ((T d - v0) / step)).
  replace ((T d - T c) / step) with ((T d - v0) / step - (T c - v0) / step) by (field; lra). apply Rabs_le. lra.
Qed.
End Accuracy.
Lemma ratio_close m x y P p : 0 < m -> 0 < P -> 0 < p -> Rabs (x - y) <= 1 -> Rabs (P - p) <= 1 -> 0 <= y <= p ->
  Rabs (x / (P / m) - y / (p / m)) <= 2 / (P / m).
Proof.
  intros Hm HP Hp H1 H2 Hy. replace (x / (P / m) - y / (p / m)) with (m / (P * p) * ((x - y) * p - y * (P - p))) by (field; lra).
  replace (2 / (P / m)) with (m / (P * p) * (2 * p)) by (field; lra). assert (Q : 0 < m / (P * p)) by (apply Rdiv_lt_0_compat; [exact Hm|apply Rmult_lt_0_compat; assumption]).
  rewrite Rabs_mult, (Rabs_pos_eq (m / (P * p))) by lra. apply Rmult_le_compat_l; [lra|].
  apply Rabs_le_inv in H1. apply Rabs_le_inv in H2. apply Rabs_le. split; nra.
Qed.
(** A uniform ramp through a converter with transition levels T: each DNL value is within two
    samples' worth (2 / mean count) of the true code width over the mean width, minus one;
    the INL error does not accumulate: each INL value is within the same bound of the true
    transition's deviation. *)
Lemma c64_ramp_accuracy T v0 step n f lo hi nb cmin cm ep ex r :
  compute_inl_from_ramp (map (fun i => Fin (IZR (f i))) (seq 0 n)) nb cmin cm ep ex = Ok r ->
  analysed ex cmin (r_code_max r) lo hi -> ideal_setup T v0 step n f lo hi ->
  let m := IZR (hi - lo + 1) in let lsb := (T (hi + 1)%Z - T lo) / m in
  (forall i, (i < length (r_dnl r))%nat ->
     Rabs (nth i (r_dnl r) 0 - ((T (lo + Z.of_nat i + 1)%Z - T (lo + Z.of_nat i)%Z) / lsb - 1)) <= 2 / r_ideal r) /\
  (forall k, (k <= length (r_dnl r))%nat ->
     Rabs (nth k (r_raw r) 0 - ((T (lo + Z.of_nat k)%Z - T lo) / lsb - INR k)) <= 2 / r_ideal r).
Proof.
  intros E An (Hs & Hlo & Hhi & HT & Hm & Hq) m lsb. destruct (ramp_inv _ _ _ _ _ _ _ E) as (ci & lo' & hi' & H).
  assert (B : lo' = lo /\ hi' = hi). { pose proof (ro_an _ _ _ _ _ _ _ _ _ _ H) as A1. unfold analysed in An, A1. destruct (ex && _)%bool; destruct An, A1; split; congruence. }
  destruct B as [-> ->]. pose proof (ro_le _ _ _ _ _ _ _ _ _ _ H) as Le.
  assert (Hci : ci = map f (seq 0 n)).
  { pose proof (ro_codes _ _ _ _ _ _ _ _ _ _ H) as Q. rewrite <- (map_map f (fun z => Fin (IZR z))) in Q. clear - Q. revert Q. generalize (map f (seq 0 n)). intros l. revert l.
    induction ci as [|z t IH]; intros [|w u] Q; try discriminate; [reflexivity|]. cbn [map] in Q. inversion Q as [[Q1 Q2]]. apply eq_IZR in Q1. f_equal; [congruence|apply IH; assumption]. }
  set (M := Z.to_nat (hi - lo + 1)). assert (Mm : INR M = m) by (unfold M, m; rewrite INR_IZR_INZ; f_equal; lia). assert (Pm : 0 < m) by (unfold m; apply (IZR_lt 0); lia).
  set (idx := fun c => Zceil ((T c - v0) / step)).
  assert (CP : forall k, (k <= M)%nat -> rsum k (fun i => INR (count_code ci (lo + Z.of_nat i))) = IZR (idx (lo + Z.of_nat k)%Z) - IZR (idx lo)).
  { intros k Hk. rewrite Hci. apply (count_partial T v0 step n f lo hi); assumption. }
  assert (Id : r_ideal r = (IZR (idx (hi + 1)%Z) - IZR (idx lo)) / m).
  { rewrite (ro_ideal _ _ _ _ _ _ _ _ _ _ H). unfold lmean. rewrite (r_counts_len _ _ _ _ _ _ _ _ _ _ H). fold M. rewrite Mm. f_equal. rewrite lsum_rsum, (r_counts_len _ _ _ _ _ _ _ _ _ _ H). fold M.
    replace (hi + 1)%Z with (lo + Z.of_nat M)%Z by (unfold M; lia). rewrite <- CP by lia. apply rsum_ext. intros i Hi. apply (r_count_nth _ _ _ _ _ _ _ _ _ _ H). exact Hi. }
  pose proof (r_ideal_pos _ _ _ _ _ _ _ _ _ _ H) as Pi. set (P := IZR (idx (hi + 1)%Z) - IZR (idx lo)) in *. set (p := (T (hi + 1)%Z - T lo) / step).
  assert (PP : 0 < P). { rewrite Id in Pi. apply (Rmult_lt_compat_r m) in Pi; [|exact Pm]. unfold Rdiv in Pi. rewrite Rmult_assoc, Rinv_l, Rmult_1_r in Pi by lra. lra. }
  assert (Pp : 0 < p) by (apply Rdiv_lt_0_compat; lra).
  assert (HP : Rabs (P - p) <= 1) by apply (idx_close T v0 step Hs).
  assert (Btw : forall c, (lo <= c <= hi + 1)%Z -> T lo <= T c <= T (hi + 1)%Z) by (intros c Hc; apply (T_between T lo hi); assumption).
  assert (G : forall c d, (lo <= c <= hi + 1)%Z -> (lo <= d <= hi + 1)%Z -> T c <= T d -> Rabs ((IZR (idx d) - IZR (idx c)) / r_ideal r - (T d - T c) / lsb) <= 2 / r_ideal r).
  { intros c d Hc Hd L. rewrite Id. replace ((T d - T c) / lsb) with ((T d - T c) / step / (p / m)) by (unfold lsb, p; field; repeat split; lra).
    apply ratio_close; try assumption; [apply (idx_close T v0 step Hs)|]. pose proof (Btw c Hc). pose proof (Btw d Hd). split; [apply Rdiv_le_0_compat; lra|].
    unfold p. apply Rmult_le_compat_r; [apply Rlt_le, Rinv_0_lt_compat, Hs|lra]. }
  split.
  - intros i Hi. rewrite (r_dnl_len _ _ _ _ _ _ _ _ _ _ H) in Hi. rewrite (r_dnl_nth _ _ _ _ _ _ _ _ _ _ H) by exact Hi.
    rewrite (INR_IZR_INZ (count_code ci _)), Hci, (count_idx T v0 step n f lo hi) by (try assumption; lia). fold (idx (lo + Z.of_nat i)%Z) (idx (lo + Z.of_nat i + 1)%Z). rewrite minus_IZR.
    specialize (G (lo + Z.of_nat i)%Z (lo + Z.of_nat i + 1)%Z ltac:(lia) ltac:(lia) (Hm (lo + Z.of_nat i)%Z ltac:(lia))).
    match goal with |- Rabs ?a <= _ => match type of G with Rabs ?b <= _ => replace a with b by ring end end. exact G.
  - intros k Hk. rewrite (r_dnl_len _ _ _ _ _ _ _ _ _ _ H) in Hk. rewrite (r_raw_nth _ _ _ _ _ _ _ _ _ _ H) by exact Hk.
    rewrite (rsum_ext k _ (fun i => / r_ideal r * INR (count_code ci (lo + Z.of_nat i)) + -1)).
    2:{ intros i Hi. rewrite (r_dnl_nth _ _ _ _ _ _ _ _ _ _ H) by lia. unfold Rdiv. ring. }
    rewrite rsum_plus, rsum_scale, rsum_const, CP by exact Hk.
    specialize (G lo (lo + Z.of_nat k)%Z ltac:(lia) ltac:(lia) (proj1 (Btw (lo + Z.of_nat k)%Z ltac:(lia)))).
    match goal with |- Rabs ?a <= _ => match type of G with Rabs ?b <= _ => replace a with b by (unfold Rdiv; ring) end end. exact G.
Qed.

(** Non-trivial instances. *)
Lemma c31_ramp_ex : exists r, compute_inl_from_ramp (map (fun z => Fin (IZR z)) [0;1;1;3]%Z) (Some 2%Z) 0 None EpEndpoints false = Ok r /\
  r_counts r = [1;2;0;1] /\ r_dnl r = [0;1;-1;0] /\ r_inl r = [0;0;1;0;0] /\ r_missing r = [2%Z].
Proof.
  set (codes := map (fun z => Fin (IZR z)) [0;1;1;3]%Z).
  assert (An : analysed false 0 3 0 3) by (split; reflexivity).
  assert (V : ramp_valid codes (Some 2%Z) 0 None EpEndpoints false).
  { split; [lia|]. split; [discriminate|]. split; [intros x Hx; apply in_map_iff in Hx; destruct Hx as (z & <- & _); exists z; reflexivity|]. split; [discriminate|].
    exists 3%Z, 0%Z, 3%Z. split; [reflexivity|]. split; [lia|]. split; [|split; [exact An|exists 0%Z; split; [left; reflexivity|lia]]].
    intros z Hz. unfold codes in Hz. apply in_map_iff in Hz. destruct Hz as (w & E & Hw). inversion E as [E']. apply eq_IZR in E'. subst w. cbn in Hw. lia. }
  apply (proj1 (c31_success_iff codes (Some 2%Z) 0 None EpEndpoints false)) in V. destruct V as (r & E). exists r. split; [exact E|].
  destruct (ramp_inv _ _ _ _ _ _ _ E) as (ci & lo & hi & H).
  assert (M : r_code_max r = 3%Z) by exact (ro_upper _ _ _ _ _ _ _ _ _ _ H).
  assert (B : lo = 0%Z /\ hi = 3%Z) by (pose proof (ro_an _ _ _ _ _ _ _ _ _ _ H) as A; rewrite M in A; exact A). destruct B as [-> ->].
  assert (Hci : ci = [0;1;1;3]%Z).
  { pose proof (ro_codes _ _ _ _ _ _ _ _ _ _ H) as Q. unfold codes in Q. destruct ci as [|a [|b [|c [|d [|? ?]]]]]; try discriminate Q. cbn [map] in Q.
    assert (J : forall x y, Fin (IZR x) = Fin (IZR y) -> x = y) by (intros x y K; inversion K; apply eq_IZR; assumption).
    injection Q. intros. repeat f_equal; symmetry; apply eq_IZR; assumption. }
  assert (N : r_counts r = [1;2;0;1]).
  { rewrite (ro_counts _ _ _ _ _ _ _ _ _ _ H), (ro_code _ _ _ _ _ _ _ _ _ _ H), Hci. unfold count_code, arange. cbn [map seq filter length Z.eqb Z.sub Z.to_nat]. list_eq; cbn; lra. }
  assert (Id : r_ideal r = 1) by (rewrite (ro_ideal _ _ _ _ _ _ _ _ _ _ H), N; unfold lmean, lsum; cbn; field).
  assert (D : r_dnl r = [0;1;-1;0]) by (rewrite (ro_dnl _ _ _ _ _ _ _ _ _ _ H), N, Id; cbn [map]; list_eq; lra).
  assert (W : r_raw r = [0;0;1;0;0]) by (rewrite (ro_raw _ _ _ _ _ _ _ _ _ _ H), D; cbn [cumsum_from]; list_eq; lra).
  split; [exact N|]. split; [exact D|]. split.
  - pose proof (c31_inl _ _ _ _ _ _ _ E (or_intror eq_refl)) as Q. destruct Q as (Q & _). rewrite Q. exact W.
  - rewrite (ro_missing _ _ _ _ _ _ _ _ _ _ H), (ro_code _ _ _ _ _ _ _ _ _ _ H), N. change (arange 0 (3 + 1)) with [0;1;2;3]%Z. cbn [map filter combine snd fst].
    repeat (match goal with |- context [Reqb ?a ?b] => destruct (Reqb_spec a b); try lra end; cbn [map filter fst snd]). reflexivity.
Qed.
(** A converter with code widths 1, 1.5, 0.5 and 1 and a ramp of 8 samples spaced 0.5. *)
Lemma c64_setup_ex : let T := fun c : Z => if (c <=? 1)%Z then IZR c else if (c =? 2)%Z then 2.5 else IZR c in
  ideal_setup T 0 0.5 8 (fun i => if (i <? 2)%nat then 0 else if (i <? 5)%nat then 1 else if (i <? 6)%nat then 2 else 3)%Z 0 3.
Proof.
  cbv zeta. unfold ideal_setup, ramp_sample. split; [lra|]. split; [cbn; lra|]. split; [cbn; lra|]. split; [cbn; lra|]. split.
  - intros c Hc. assert (D : c = 0%Z \/ c = 1%Z \/ c = 2%Z \/ c = 3%Z) by lia. destruct D as [-> | [-> | [-> | ->]]]; cbn; lra.
  - intros i c Hi Hc. assert (D : c = 0%Z \/ c = 1%Z \/ c = 2%Z \/ c = 3%Z) by lia.
    do 8 (destruct i as [|i]; [destruct D as [-> | [-> | [-> | ->]]]; cbn; (split; [intros K; first [discriminate K | split; lra] | intros [K1 K2]; first [reflexivity | exfalso; lra]])|]). lia.
Qed.
