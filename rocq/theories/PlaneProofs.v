(** * Proofs for the phase plane. *)
From Coq Require Import Sorted Permutation.
From Verif Require Import Base BaseLemmas Cplx SpecModel SpecLemmas SpecToneProofs CohLemmas CohProofs PlaneModel PlaneSpec.
Local Open Scope R_scope.

(* ---------- vectors ---------- *)
Lemma drop_last_nth l k j : (0 < k)%nat -> (j < length l - k)%nat -> nth j (drop_last_k l (Z.of_nat k)) 0 = nth j l 0.
Proof.
  intros Hk Hj. unfold drop_last_k. destruct (Z.eqb_spec (Z.of_nat k) 0); [lia |]. destruct (Z.ltb_spec 0 (Z.of_nat k)); [| lia].
  rewrite Nat2Z.id. apply nth_firstn_lt. exact Hj.
Qed.
Lemma drop_last_length l k : (0 < k)%nat -> length (drop_last_k l (Z.of_nat k)) = (length l - k)%nat.
Proof.
  intros Hk. unfold drop_last_k. destruct (Z.eqb_spec (Z.of_nat k) 0); [lia |]. destruct (Z.ltb_spec 0 (Z.of_nat k)); [| lia].
  rewrite Nat2Z.id, firstn_length. lia.
Qed.
Lemma nth_skipn_shift {A} (l : list A) k i d : nth i (skipn k l) d = nth (i + k) l d.
Proof. revert k; induction l as [| x l IH]; intros [| k]; cbn [skipn]; rewrite ?Nat.add_0_r; try reflexivity.
  - destruct i; reflexivity.
  - rewrite IH, Nat.add_succ_r. reflexivity.
Qed.
Lemma from_k_nth l k j : nth j (from_k l (Z.of_nat k)) 0 = nth (j + k) l 0.
Proof. unfold from_k. destruct (Z.leb_spec 0 (Z.of_nat k)); [| lia]. rewrite Nat2Z.id. apply nth_skipn_shift. Qed.
Lemma from_k_length l k : length (from_k l (Z.of_nat k)) = (length l - k)%nat.
Proof. unfold from_k. destruct (Z.leb_spec 0 (Z.of_nat k)); [| lia]. rewrite Nat2Z.id. apply skipn_length. Qed.
Lemma select_in {A} (f : nat -> A) (b : nat -> bool) n : forall s x,
  In x (select (map f (seq s n)) (map b (seq s n))) <-> exists j, (s <= j < s + n)%nat /\ b j = true /\ f j = x.
Proof.
  induction n as [| n IH]; intros s x; cbn [seq map select].
  - split; [contradiction | intros (j & Hj & _); lia].
  - destruct (b s) eqn:B; cbn [In]; rewrite IH; split.
    + intros [E | (j & Hj & B1 & E)]; [exists s; repeat split; [lia | lia | exact B | exact E] | exists j; repeat split; [lia | lia | exact B1 | exact E]].
    + intros (j & Hj & B1 & E). destruct (Nat.eq_dec j s); [left; subst; reflexivity | right; exists j; repeat split; [lia | lia | exact B1 | exact E]].
    + intros (j & Hj & B1 & E). exists j; repeat split; [lia | lia | exact B1 | exact E].
    + intros (j & Hj & B1 & E). destruct (Nat.eq_dec j s); [subst; congruence |]. exists j; repeat split; [lia | lia | exact B1 | exact E].
Qed.
Lemma select_sorted (f : nat -> Z) (b : nat -> bool) n : (forall i j, (i < j)%nat -> (f i < f j)%Z) -> forall s,
  StronglySorted Z.lt (select (map f (seq s n)) (map b (seq s n))).
Proof.
  intros F. induction n as [| n IH]; intros s; cbn [seq map select]; [constructor |].
  destruct (b s) eqn:B; [| apply IH]. constructor; [apply IH |]. apply Forall_forall. intros x Hx. apply select_in in Hx.
  destruct Hx as (j & Hj & _ & <-). apply F. lia.
Qed.
Lemma select_count (f : nat -> Z) (b : nat -> bool) n : forall s,
  length (select (map f (seq s n)) (map b (seq s n))) = length (filter b (seq s n)).
Proof. induction n as [| n IH]; intros s; cbn [seq map select filter]; [reflexivity |]. destruct (b s); cbn [length]; rewrite IH; reflexivity. Qed.

Lemma list_as_map (l : list R) n : length l = n -> l = map (fun i => nth i l 0) (seq 0 n).
Proof.
  intros <-. apply (nth_ext_eq 0); [rewrite map_length, seq_length; reflexivity |]. intros i Hi. rewrite nth_map_seq by exact Hi. reflexivity.
Qed.
Lemma median_is n g m : (0 < n)%nat -> median_of n g m <-> m = median (map g (seq 0 n)).
Proof.
  intros Hn. assert (L : length (map g (seq 0 n)) = n) by (rewrite map_length, seq_length; reflexivity). split.
  - intros (u & P1 & S1 & ->). unfold median. cbv zeta. rewrite L.
    replace (sortR (map g (seq 0 n))) with u; [reflexivity |].
    apply sorted_unique; [exact S1 | apply sortR_sorted |]. rewrite P1. symmetry. apply sortR_perm.
  - intros ->. exists (sortR (map g (seq 0 n))). split; [apply sortR_perm |]. split; [apply sortR_sorted |]. unfold median. cbv zeta. rewrite L. reflexivity.
Qed.

Lemma radius_list data k : (0 < k < length data)%nat ->
  let n := (length data - k)%nat in let d := fun i => nth i data 0 in
  let x := drop_last_k data (Z.of_nat k) in let y := from_k data (Z.of_nat k) in
  broadcast2 (fun a b => sqrt ((a - lmean x) ^ 2 + (b - lmean y) ^ 2)) x y = Ok (map (ring_radius d n k) (seq 0 n)).
Proof.
  intros Hk n d x y. unfold broadcast2.
  assert (Lx : length x = n) by (apply drop_last_length; lia). assert (Ly : length y = n) by apply from_k_length.
  rewrite Lx, Ly, Nat.eqb_refl. f_equal. apply (nth_ext_eq 0).
  { rewrite map2_length by lia. rewrite map_length, seq_length. exact Lx. }
  intros j Hj. rewrite map2_length in Hj by lia. rewrite Lx in Hj.
  rewrite (map2_nth _ _ _ _ 0 0) by lia. rewrite nth_map_seq by exact Hj. unfold ring_radius. cbv zeta.
  rewrite (from_k_nth data k j : nth j y 0 = _). rewrite (drop_last_nth data k j ltac:(lia) Hj : nth j x 0 = _).
  unfold lmean. rewrite (lsum_rsum x), (lsum_rsum y), Lx, Ly.
  rewrite (rsum_ext n (fun i => nth i x 0) d) by (intros i Hi; apply drop_last_nth; lia).
  rewrite (rsum_ext n (fun i => nth i y 0) (fun i => d (i + k)%nat)) by (intros i Hi; apply from_k_nth). reflexivity.
Qed.
(** the result with detection, in closed form *)
Definition mask_at (data : list R) (k : nat) (thr : R) (j : nat) : bool :=
  let n := (length data - k)%nat in let r := ring_radius (fun i => nth i data 0) n k in
  let mr := median (map r (seq 0 n)) in
  let md := median (map (fun j => Rabs (r j - mr)) (seq 0 n)) in
  Rltb (thr * Rmax (1.4826 * md) (1 / 10 ^ 12)) (Rabs (r j - mr)).
Lemma floor_is_max s : (if Rltb s (1 / 10 ^ 12) then 1 / 10 ^ 12 else s) = Rmax s (1 / 10 ^ 12).
Proof. destruct (Rltb_spec s (1 / 10 ^ 12)); [rewrite Rmax_right; lra | rewrite Rmax_left; lra]. Qed.
Lemma outlier_mask_closed data k thr : (0 < k < length data)%nat ->
  outlier_mask (drop_last_k data (Z.of_nat k)) (from_k data (Z.of_nat k)) thr = Ok (map (mask_at data k thr) (seq 0 (length data - k))).
Proof.
  intros Hk. unfold outlier_mask. cbv zeta. rewrite radius_list by exact Hk. cbv zeta. cbn [bind]. rewrite floor_is_max. f_equal. rewrite !map_map.
  apply map_ext. intros j. unfold mask_at. cbv zeta. f_equal. rewrite (Rmult_comm _ 1.4826). reflexivity.
Qed.
Lemma phase_plane_closed data k thr : (0 < k < length data)%nat ->
  phase_plane data (Some (Z.of_nat k)) true thr =
  Ok (Z.of_nat k, select (map (fun j => (Z.of_nat k + Z.of_nat j)%Z) (seq 0 (length data - k))) (map (mask_at data k thr) (seq 0 (length data - k)))).
Proof.
  intros Hk. unfold phase_plane. cbv zeta. cbn [bind]. unfold raise_if. destruct (Z.leb_spec (Z.of_nat (length data)) (Z.of_nat k)); [lia |].
  rewrite outlier_mask_closed by exact Hk. cbn [bind]. unfold mask_index. replace (Z.to_nat (Z.of_nat (length data) - Z.of_nat k)) with (length data - k)%nat by lia.
  rewrite !map_length, Nat.eqb_refl. reflexivity.
Qed.

(* ---------- C112 ---------- *)
(** With a usable lag the result lists, in increasing order, exactly the samples whose point lies farther from
    the median radius than the threshold times the larger of 1.4826 MAD and 1e-12. *)
Lemma c112_outliers data k thr : (0 < k < length data)%nat ->
  exists out, phase_plane data (Some (Z.of_nat k)) true thr = Ok (Z.of_nat k, out) /\ StronglySorted Z.lt out /\
  forall z, In z out <-> exists i, z = Z.of_nat i /\ is_outlier (fun j => nth j data 0) (length data) k thr i.
Proof.
  intros Hk. eexists. split; [apply phase_plane_closed; exact Hk |]. split; [apply select_sorted; intros; lia |].
  intros z. rewrite select_in. set (n := (length data - k)%nat). split.
  - intros (j & Hj & B & <-). exists (k + j)%nat. split; [lia |]. split; [lia |]. apply Rltb_true in B. fold n in B.
    eexists. eexists. split; [apply median_is; [lia | reflexivity] |]. split; [apply median_is; [lia | reflexivity] |].
    replace (k + j - k)%nat with j by lia. apply Rlt_gt. exact B.
  - intros (i & -> & Hi & mr & md & M1 & M2 & G). exists (i - k)%nat. split; [lia |]. split; [| lia].
    apply Rltb_true. fold n in M1, M2, G |- *. apply median_is in M1; [| lia]. apply median_is in M2; [| lia]. subst mr md. exact G.
Qed.
(** Without detection there are none; a lag not shorter than the record raises ValueError, and so does lag 0
    with detection (unless the record has one sample); every other lag below 1 raises IndexError. *)
Lemma c112_lags data k thr :
  ((0 < k < Z.of_nat (length data))%Z -> phase_plane data (Some k) false thr = Ok (k, [])) /\
  ((Z.of_nat (length data) <= k)%Z -> forall det, phase_plane data (Some k) det thr = Err ValueError) /\
  ((2 <= length data)%nat -> phase_plane data (Some 0%Z) true thr = Err ValueError) /\
  ((1 <= length data)%nat -> phase_plane data (Some 0%Z) false thr = Err IndexError) /\
  ((k < 0)%Z -> forall det, phase_plane data (Some k) det thr = Err IndexError).
Proof.
  repeat split.
  - intros Hk. unfold phase_plane. cbv zeta. cbn [bind]. unfold raise_if. destruct (Z.leb_spec (Z.of_nat (length data)) k); [lia |].
    cbn [bind]. unfold mask_index. rewrite !map_length, seq_length.
    assert (L : length (drop_last_k data k) = Z.to_nat (Z.of_nat (length data) - k)).
    { replace k with (Z.of_nat (Z.to_nat k)) by lia. rewrite drop_last_length by lia. lia. }
    rewrite L, Nat.eqb_refl. cbn [bind]. do 2 f_equal. set (m := Z.to_nat (Z.of_nat (length data) - k)) in *. clearbody m. revert L.
    generalize (drop_last_k data k). intros l <-. generalize 0%nat. induction l as [| a l IH]; intros s; [reflexivity | cbn [length seq map select]; apply IH].
  - intros Hk det. unfold phase_plane. cbv zeta. cbn [bind]. unfold raise_if. destruct (Z.leb_spec (Z.of_nat (length data)) k); [reflexivity | lia].
  - intros Hn. unfold phase_plane. cbv zeta. cbn [bind]. unfold raise_if. destruct (Z.leb_spec (Z.of_nat (length data)) 0); [lia |].
    unfold outlier_mask, broadcast2. cbv zeta. change (drop_last_k data 0) with (@nil R). change (from_k data 0) with data. cbn [length].
    destruct data as [| a [| b l]]; cbn [length] in *; try lia. reflexivity.
  - intros Hn. unfold phase_plane. cbv zeta. cbn [bind]. unfold raise_if. destruct (Z.leb_spec (Z.of_nat (length data)) 0); [lia |].
    change (drop_last_k data 0) with (@nil R). cbn [bind map]. unfold mask_index. rewrite map_length, seq_length. cbn [length].
    destruct (Nat.eqb_spec (Z.to_nat (Z.of_nat (length data) - 0)) 0); [lia | reflexivity].
  - intros Hk det. unfold phase_plane. cbv zeta. cbn [bind]. unfold raise_if. destruct (Z.leb_spec (Z.of_nat (length data)) k); [lia |].
    assert (Lx : length (drop_last_k data k) = Nat.min (Z.to_nat (- k)) (length data)).
    { unfold drop_last_k. destruct (Z.eqb_spec k 0); [lia |]. destruct (Z.ltb_spec 0 k); [lia |]. apply firstn_length. }
    assert (Ly : length (from_k data k) = Nat.min (Z.to_nat (- k)) (length data)).
    { unfold from_k. destruct (Z.leb_spec 0 k); [lia |]. rewrite skipn_length. lia. }
    assert (M : exists mask, (if det then outlier_mask (drop_last_k data k) (from_k data k) thr else Ok (map (fun _ => false) (drop_last_k data k))) = Ok mask
                 /\ length mask = Nat.min (Z.to_nat (- k)) (length data)).
    { destruct det.
      - unfold outlier_mask, broadcast2. cbv zeta. rewrite Lx, Ly, Nat.eqb_refl. cbn [bind]. eexists. split; [reflexivity |]. rewrite !map_length, map2_length by lia. exact Lx.
      - eexists. split; [reflexivity |]. rewrite map_length. exact Lx. }
    destruct M as (mask & -> & LM). cbn [bind]. unfold mask_index. rewrite map_length, seq_length, LM.
    destruct (Nat.eqb_spec (Z.to_nat (Z.of_nat (length data) - k)) (Nat.min (Z.to_nat (- k)) (length data))); [lia | reflexivity].
Qed.

Lemma mask_ext data data' k thr : length data = length data' -> (forall j, (j < length data - k)%nat ->
  ring_radius (fun i => nth i data 0) (length data - k) k j = ring_radius (fun i => nth i data' 0) (length data - k) k j) ->
  forall j, (j < length data - k)%nat -> mask_at data k thr j = mask_at data' k thr j.
Proof.
  intros HL E j Hj. unfold mask_at. cbv zeta. rewrite <- HL. set (n := (length data - k)%nat) in *.
  set (r := ring_radius (fun i => nth i data 0) n k) in *. set (r' := ring_radius (fun i => nth i data' 0) n k) in *.
  rewrite (map_ext_in r r') by (intros i Hi; apply in_seq in Hi; apply E; lia).
  set (mr := median (map r' (seq 0 n))).
  rewrite (map_ext_in (fun i => Rabs (r i - mr)) (fun i => Rabs (r' i - mr))) by (intros i Hi; apply in_seq in Hi; rewrite E by lia; reflexivity).
  rewrite E by exact Hj. reflexivity.
Qed.
Lemma plane_mask_eq data data' k thr thr' : (0 < k < length data)%nat -> length data = length data' ->
  (forall j, (j < length data - k)%nat -> mask_at data k thr j = mask_at data' k thr' j) ->
  phase_plane data (Some (Z.of_nat k)) true thr = phase_plane data' (Some (Z.of_nat k)) true thr'.
Proof.
  intros Hk HL E. rewrite !phase_plane_closed by lia. rewrite <- HL. do 3 f_equal. apply map_ext_in. intros j Hj. apply in_seq in Hj. apply E. lia.
Qed.
Lemma nth_map_affine a c (l : list R) i : (i < length l)%nat -> nth i (map (fun x => a * x + c) l) 0 = a * nth i l 0 + c.
Proof. intros Hi. apply (nth_map_in (fun x => a * x + c) l i 0 0 Hi). Qed.
Lemma radius_affine a c data k j : (0 < k < length data)%nat -> (j < length data - k)%nat ->
  ring_radius (fun i => nth i (map (fun x => a * x + c) data) 0) (length data - k) k j = Rabs a * ring_radius (fun i => nth i data 0) (length data - k) k j.
Proof.
  intros Hk Hj. set (n := (length data - k)%nat) in *. assert (Hn : 0 < INR n) by (apply lt_0_INR; lia). unfold ring_radius. cbv zeta.
  rewrite (rsum_ext n (fun i => nth i (map (fun x => a * x + c) data) 0) (fun i => a * nth i data 0 + c)) by (intros i Hi; apply nth_map_affine; lia).
  rewrite (rsum_ext n (fun i => nth (i + k) (map (fun x => a * x + c) data) 0) (fun i => a * nth (i + k) data 0 + c)) by (intros i Hi; apply nth_map_affine; lia).
  rewrite !rsum_plus, !rsum_scale, !rsum_const, !nth_map_affine by lia.
  rewrite <- sqrt_Rsqr_abs, <- sqrt_mult_alt by apply Rle_0_sqr. f_equal. unfold Rsqr. field. lra.
Qed.
Lemma sortR_scale a l : 0 <= a -> sortR (map (fun x => a * x) l) = map (fun x => a * x) (sortR l).
Proof.
  intros Ha. symmetry. apply sorted_unique; [| apply sortR_sorted |].
  - generalize (sortR_sorted l). generalize (sortR l). intros u U. induction U as [| x u U IH F]; cbn [map]; constructor; [exact IH |].
    apply Forall_forall. intros y Hy. apply in_map_iff in Hy. destruct Hy as (z & <- & Hz). rewrite Forall_forall in F. apply Rmult_le_compat_l; [exact Ha | apply F; exact Hz].
  - rewrite (Permutation_map (fun x => a * x) (sortR_perm l)). symmetry. apply sortR_perm.
Qed.
Lemma median_scale a l : l <> [] -> 0 <= a -> median (map (fun x => a * x) l) = a * median l.
Proof.
  intros HL Ha. assert (0 < length l)%nat by (destruct l; [contradiction | cbn [length]; lia]).
  unfold median. cbv zeta. rewrite map_length, sortR_scale by exact Ha.
  assert (N : forall i, (i < length l)%nat -> nth i (map (fun x => a * x) (sortR l)) 0 = a * nth i (sortR l) 0) by (intros i Hi; apply (nth_map_in (fun x => a * x) (sortR l) i 0 0); rewrite sortR_length; exact Hi).
  assert (length l / 2 < length l)%nat by (apply Nat.div_lt; lia).
  destruct (Nat.even (length l)); rewrite ?N by lia; lra.
Qed.
(** Adding a constant to the record, inverting it, or both changes no outlier; neither does a change of scale as
    long as the spread stays above the floor of 1e-12. *)
Lemma c112_invariant data k thr a c : (0 < k < length data)%nat ->
  (a = 1 \/ a = -1 \/ (a <> 0 /\ exists mr md, let n := (length data - k)%nat in let r := ring_radius (fun i => nth i data 0) n k in
     median_of n r mr /\ median_of n (fun j => Rabs (r j - mr)) md /\ 1 / 10 ^ 12 <= 1.4826 * md /\ 1 / 10 ^ 12 <= 1.4826 * (Rabs a * md))) ->
  phase_plane (map (fun x => a * x + c) data) (Some (Z.of_nat k)) true thr = phase_plane data (Some (Z.of_nat k)) true thr.
Proof.
  intros Hk H. symmetry. apply plane_mask_eq; [exact Hk | rewrite map_length; reflexivity |].
  assert (Unit : a = 1 \/ a = -1 -> forall j, (j < length data - k)%nat -> mask_at data k thr j = mask_at (map (fun x => a * x + c) data) k thr j).
  { intros Ha j Hj. apply mask_ext; [rewrite map_length; reflexivity | | exact Hj]. intros i Hi. rewrite radius_affine by (assumption || lia).
    replace (Rabs a) with 1 by (destruct Ha as [-> | ->]; [rewrite Rabs_right | rewrite Rabs_left]; lra). lra. }
  destruct H as [H | [H | (Ha & mr & md & M1 & M2 & F1 & F2)]]; [apply Unit; left; exact H | apply Unit; right; exact H |].
  intros j Hj. unfold mask_at. cbv zeta. rewrite map_length. set (n := (length data - k)%nat) in *. set (r := ring_radius (fun i => nth i data 0) n k) in *.
  set (r' := ring_radius (fun i => nth i (map (fun x => a * x + c) data) 0) n k). assert (Hn : (0 < n)%nat) by lia.
  apply median_is in M1; [| exact Hn]. apply median_is in M2; [| exact Hn].
  assert (NE : forall g : nat -> R, map g (seq 0 n) <> []) by (intros g E; apply (f_equal (@length R)) in E; rewrite map_length, seq_length in E; cbn [length] in E; lia).
  assert (E : forall i, (i < n)%nat -> r' i = Rabs a * r i) by (intros i Hi; apply radius_affine; assumption).
  assert (Mr : median (map r' (seq 0 n)) = Rabs a * mr).
  { rewrite (map_ext_in r' (fun i => Rabs a * r i)) by (intros i Hi; apply in_seq in Hi; apply E; lia).
    rewrite <- (map_map r (fun x => Rabs a * x)). rewrite median_scale; [rewrite <- M1; reflexivity | apply NE | apply Rabs_pos]. }
  assert (Dv : forall i, (i < n)%nat -> Rabs (r' i - Rabs a * mr) = Rabs a * Rabs (r i - mr)).
  { intros i Hi. rewrite E by exact Hi. rewrite <- Rmult_minus_distr_l, Rabs_mult, Rabs_Rabsolu. reflexivity. }
  rewrite Mr. rewrite (map_ext_in (fun i => Rabs (r' i - Rabs a * mr)) (fun i => Rabs a * Rabs (r i - mr))) by (intros i Hi; apply in_seq in Hi; apply Dv; lia).
  rewrite <- (map_map (fun i => Rabs (r i - mr)) (fun x => Rabs a * x)), median_scale by (first [apply NE | apply Rabs_pos]).
  rewrite <- M1, <- M2. rewrite Dv by exact Hj. rewrite !Rmax_left by assumption.
  assert (Pa : 0 < Rabs a) by (apply Rabs_pos_lt; exact Ha).
  destruct (Rltb_spec (thr * (1.4826 * md)) (Rabs (r j - mr))) as [L | L]; symmetry; [apply Rltb_true | apply Rltb_false]; nra.
Qed.

Lemma filter_perm_length {A} (p : A -> bool) l l' : Permutation l l' -> length (filter p l) = length (filter p l').
Proof.
  induction 1 as [| x l l' P IH | x y l | l l' l'' P1 IH1 P2 IH2]; cbn [filter]; try reflexivity.
  - destruct (p x); cbn [length]; rewrite IH; reflexivity.
  - destruct (p x), (p y); reflexivity.
  - congruence.
Qed.
Lemma filter_map_length {A B} (f : A -> B) (p : B -> bool) l : length (filter p (map f l)) = length (filter (fun x => p (f x)) l).
Proof. induction l as [| a l IH]; cbn [map filter]; [reflexivity |]. destruct (p (f a)); cbn [length]; rewrite IH; reflexivity. Qed.
Lemma filter_none {A} (p : A -> bool) l : (forall x, In x l -> p x = false) -> filter p l = [].
Proof. induction l as [| a l IH]; intros H; cbn [filter]; [reflexivity |]. rewrite (H a (or_introl eq_refl)). apply IH. intros x Hx. apply H. right. exact Hx. Qed.
Lemma filter_le_length {A} (p q : A -> bool) l : (forall x, In x l -> p x = true -> q x = true) -> (length (filter p l) <= length (filter q l))%nat.
Proof.
  induction l as [| a l IH]; intros H; cbn [filter]; [lia |]. assert (I : (length (filter p l) <= length (filter q l))%nat) by (apply IH; intros x Hx; apply H; right; exact Hx).
  pose proof (H a (or_introl eq_refl)) as Ha. destruct (p a); [rewrite Ha by reflexivity; cbn [length]; lia | destruct (q a); cbn [length]; lia].
Qed.
Lemma filter_length_le {A} (p : A -> bool) l : (length (filter p l) <= length l)%nat.
Proof. induction l as [| a l IH]; cbn [filter]; [lia |]. destruct (p a); cbn [length]; lia. Qed.
(** no more than half of the numbers exceed their median *)
Lemma above_median l : l <> [] -> (2 * length (filter (fun x => Rltb (median l) x) l) <= length l)%nat.
Proof.
  intros HL. assert (Hn : (0 < length l)%nat) by (destruct l; [contradiction | cbn [length]; lia]).
  rewrite <- (filter_perm_length _ _ _ (sortR_perm l)). pose proof (sortR_sorted l) as SS. pose proof (sortR_length l) as SL.
  pose proof (Nat.div_mod (length l) 2 ltac:(lia)) as DM. pose proof (Nat.mod_upper_bound (length l) 2 ltac:(lia)) as MB.
  assert (Cut : forall h, (h < length l)%nat -> nth h (sortR l) 0 <= median l ->
     (length (filter (fun x => Rltb (median l) x) (sortR l)) <= length l - S h)%nat).
  { intros h Hh Hm. rewrite <- (firstn_skipn (S h) (sortR l)), filter_app, app_length.
    rewrite filter_none; [cbn [length]; pose proof (filter_length_le (fun x => Rltb (median l) x) (skipn (S h) (sortR l))) as FL; rewrite skipn_length, SL in FL; lia |].
    intros x Hx. apply (In_nth _ _ 0) in Hx. destruct Hx as (i & Hi & <-). rewrite firstn_length in Hi. rewrite nth_firstn_lt by lia. apply Rltb_false.
    eapply Rle_trans; [apply (sorted_nth _ SS i h); lia | exact Hm]. }
  destruct (Nat.even (length l)) eqn:Ev.
  - assert (E2 : (length l mod 2 = 0)%nat) by (apply Nat.even_spec in Ev; destruct Ev as [h Eh]; rewrite Eh, Nat.mul_comm; apply Nat.mod_mul; lia).
    assert (nth (length l / 2 - 1) (sortR l) 0 <= median l).
    { unfold median. cbv zeta. rewrite Ev. pose proof (sorted_nth _ SS (length l / 2 - 1) (length l / 2) ltac:(lia)). lra. }
    pose proof (Cut (length l / 2 - 1)%nat ltac:(lia) H). lia.
  - assert (E2 : (length l mod 2 = 1)%nat).
    { destruct (Nat.eq_dec (length l mod 2) 0) as [E | E]; [| lia]. exfalso. assert (Nat.even (length l) = true) by (apply Nat.even_spec; exists (length l / 2)%nat; lia). congruence. }
    assert (nth (length l / 2) (sortR l) 0 <= median l) by (unfold median; cbv zeta; rewrite Ev; lra).
    pose proof (Cut (length l / 2)%nat ltac:(lia) H). lia.
Qed.
(** With a threshold of at least 1/1.4826 no more than half of the points are ever flagged. *)
Lemma c112_at_most_half data k thr z out : 1 <= 1.4826 * thr -> phase_plane data (Some k) true thr = Ok (z, out) -> (0 < k)%Z ->
  z = k /\ (2 * Z.of_nat (length out) <= Z.of_nat (length data) - k)%Z.
Proof.
  intros Ht H Hk. destruct (Z_lt_le_dec k (Z.of_nat (length data))) as [L | L]; [| unfold phase_plane in H; cbv zeta in H; cbn [bind] in H; unfold raise_if in H; destruct (Z.leb_spec (Z.of_nat (length data)) k); [discriminate | lia]].
  replace k with (Z.of_nat (Z.to_nat k)) in * by lia. set (j := Z.to_nat k) in *. rewrite phase_plane_closed in H by lia. injection H as <- <-. split; [reflexivity |].
  rewrite select_count. set (n := (length data - j)%nat).
  set (r := ring_radius (fun i => nth i data 0) n j). set (mr := median (map r (seq 0 n))). set (dev := map (fun j => Rabs (r j - mr)) (seq 0 n)).
  assert (LD : length dev = n) by (unfold dev; rewrite map_length, seq_length; reflexivity).
  assert (ND : dev <> []) by (intros E; rewrite E in LD; cbn [length] in LD; lia).
  pose proof (above_median dev ND) as A. rewrite LD in A. unfold dev at 2 in A. rewrite filter_map_length in A.
  assert (P0 : 0 <= median dev).
  { destruct (median_bounds dev 0 (lmax1 0 dev) ND) as [Q _]; [| exact Q]. intros x Hx. split; [unfold dev in Hx; apply in_map_iff in Hx; destruct Hx as (i & <- & _); apply Rabs_pos | apply lmax1_ge; exact Hx]. }
  pose proof (filter_le_length (mask_at data j thr) (fun i => Rltb (median dev) (Rabs (r i - mr))) (seq 0 n)) as F.
  assert (F' : (length (filter (mask_at data j thr) (seq 0 n)) <= length (filter (fun i => Rltb (median dev) (Rabs (r i - mr))) (seq 0 n)))%nat).
  { apply F. intros i Hi B. apply Rltb_true in B. apply Rltb_true. fold n r mr dev in B. eapply Rle_lt_trans; [| exact B].
    pose proof (Rmax_l (1.4826 * median dev) (1 / 10 ^ 12)). nra. }
  lia.
Qed.

Lemma below_median l : l <> [] -> (2 * length (filter (fun x => Rltb x (median l)) l) <= length l)%nat.
Proof.
  intros HL. assert (Hn : (0 < length l)%nat) by (destruct l; [contradiction | cbn [length]; lia]).
  rewrite <- (filter_perm_length _ _ _ (sortR_perm l)). pose proof (sortR_sorted l) as SS. pose proof (sortR_length l) as SL.
  pose proof (Nat.div_mod (length l) 2 ltac:(lia)) as DM. pose proof (Nat.mod_upper_bound (length l) 2 ltac:(lia)) as MB.
  assert (Cut : forall h, (h < length l)%nat -> median l <= nth h (sortR l) 0 ->
     (length (filter (fun x => Rltb x (median l)) (sortR l)) <= h)%nat).
  { intros h Hh Hm. rewrite <- (firstn_skipn h (sortR l)), filter_app, app_length.
    rewrite (filter_none _ (skipn h (sortR l))); [cbn [length]; pose proof (filter_length_le (fun x => Rltb x (median l)) (firstn h (sortR l))) as FL; rewrite firstn_length, SL in FL; lia |].
    intros x Hx. apply (In_nth _ _ 0) in Hx. destruct Hx as (i & Hi & <-). rewrite skipn_length in Hi. rewrite nth_skipn_shift. apply Rltb_false.
    eapply Rle_trans; [exact Hm | apply (sorted_nth _ SS h (i + h)); lia]. }
  assert (nth (length l / 2) (sortR l) 0 >= median l).
  { unfold median. cbv zeta. destruct (Nat.even (length l)); [| lra].
    pose proof (sorted_nth _ SS (length l / 2 - 1) (length l / 2) ltac:(lia)). lra. }
  pose proof (Cut (length l / 2)%nat ltac:(lia) ltac:(lra)). lia.
Qed.
Lemma median_majority l v : (length l < 2 * length (filter (fun x => Reqb x v) l))%nat -> median l = v.
Proof.
  intros H. assert (HL : l <> []) by (intros ->; cbn in H; lia).
  pose proof (above_median l HL) as A. pose proof (below_median l HL) as B.
  destruct (Rtotal_order (median l) v) as [L | [L | L]]; [| exact L |]; exfalso.
  - pose proof (filter_le_length (fun x => Reqb x v) (fun x => Rltb (median l) x) l) as F.
    assert (length (filter (fun x => Reqb x v) l) <= length (filter (fun x => Rltb (median l) x) l))%nat by (apply F; intros x _ E; apply Reqb_true in E; apply Rltb_true; lra). lia.
  - pose proof (filter_le_length (fun x => Reqb x v) (fun x => Rltb x (median l)) l) as F.
    assert (length (filter (fun x => Reqb x v) l) <= length (filter (fun x => Rltb x (median l)) l))%nat by (apply F; intros x _ E; apply Reqb_true in E; apply Rltb_true; lra). lia.
Qed.
Lemma mask_majority data k thr rho j : (length data - k < 2 * length (filter (fun j => Reqb (ring_radius (fun i => nth i data 0%R) (length data - k) k j) rho) (seq 0 (length data - k))))%nat ->
  mask_at data k thr j = Rltb (thr / 10 ^ 12) (Rabs (ring_radius (fun i => nth i data 0) (length data - k) k j - rho)).
Proof.
  intros Maj. unfold mask_at. cbv zeta. set (n := (length data - k)%nat) in *. set (r := ring_radius (fun i => nth i data 0) n k) in *.
  rewrite (median_majority (map r (seq 0 n)) rho) by (rewrite filter_map_length, map_length, seq_length; exact Maj).
  rewrite (median_majority (map (fun j => Rabs (r j - rho)) (seq 0 n)) 0).
  - rewrite Rmult_0_r, Rmax_right by lra. f_equal. lra.
  - rewrite filter_map_length, map_length, seq_length. eapply Nat.lt_le_trans; [exact Maj |]. apply Nat.mul_le_mono_l. apply filter_le_length.
    intros x _ E. apply Reqb_true in E. apply Reqb_true. rewrite E. unfold Rminus. rewrite Rplus_opp_r. apply Rabs_R0.
Qed.
(** If more than half of the points have exactly the same radius, the outliers are exactly the points that miss
    that radius by more than 1e-12 times the threshold, however small the deviation is next to the signal. *)
Lemma c112_majority data k thr rho out : (0 < k < length data)%nat ->
  (length data - k < 2 * length (filter (fun j => Reqb (ring_radius (fun i => nth i data 0%R) (length data - k) k j) rho) (seq 0 (length data - k))))%nat ->
  phase_plane data (Some (Z.of_nat k)) true thr = Ok (Z.of_nat k, out) ->
  forall i, (k <= i < length data)%nat ->
    (In (Z.of_nat i) out <-> Rabs (ring_radius (fun i => nth i data 0) (length data - k) k (i - k) - rho) > thr / 10 ^ 12).
Proof.
  intros Hk Maj H i Hi. rewrite phase_plane_closed in H by exact Hk. injection H as <-. rewrite select_in.
  assert (M : forall j, mask_at data k thr j = Rltb (thr / 10 ^ 12) (Rabs (ring_radius (fun i => nth i data 0) (length data - k) k j - rho))).
  { intros j. apply mask_majority. exact Maj. }
  split.
  - intros (j & Hj & B & E). rewrite M in B. apply Rltb_true in B. replace (i - k)%nat with j by lia. apply Rlt_gt. exact B.
  - intros G. exists (i - k)%nat. split; [lia |]. split; [| lia]. rewrite M. apply Rltb_true. exact G.
Qed.

Lemma quarter_square th q : (Z.odd q = true)%Z -> cos (th + IZR q * (PI / 2)) ^ 2 = sin th ^ 2.
Proof.
  intros Hq. apply Z.odd_spec in Hq. destruct Hq as [h ->].
  replace (th + IZR (2 * h + 1) * (PI / 2)) with (PI / 2 + (th + PI * IZR h)) by (rewrite plus_IZR, mult_IZR; field).
  rewrite <- (Rsqr_pow2 (sin th)), <- Rsqr_pow2.
  assert (E : (cos (PI / 2 + (th + PI * IZR h))) ^ 2 = sin (th + PI * IZR h) ^ 2) by (rewrite (sin_cos (th + PI * IZR h)); ring).
  rewrite Rsqr_pow2, E, Rsqr_pow2.
  rewrite sin_plus. replace (sin (PI * IZR h)) with 0 by (symmetry; rewrite Rmult_comm; apply sin_eq_0_1; exists h; reflexivity).
  assert (C : cos (PI * IZR h) ^ 2 = 1).
  { pose proof (sin2_cos2 (PI * IZR h)) as P. replace (sin (PI * IZR h)) with 0 in P by (symmetry; rewrite Rmult_comm; apply sin_eq_0_1; exists h; reflexivity). unfold Rsqr in P. lra. }
  rewrite Rmult_0_r, Rplus_0_r, Rpow_mult_distr, C. ring.
Qed.
(** A tone with c whole periods in the plotted points and a lag of an odd number of quarter periods is a perfect
    circle: nothing is flagged at any non-negative threshold. *)
Lemma c112_circle n k c q A B ph thr : (0 < k)%nat -> (0 < c)%nat -> (2 * c < n)%nat -> 0 <= thr ->
  Z.odd q = true -> (4 * Z.of_nat c * Z.of_nat k = q * Z.of_nat n)%Z ->
  phase_plane (map (fun i => B + A * cos (2 * PI * INR c * INR i / INR n + ph)) (seq 0 (n + k))) (Some (Z.of_nat k)) true thr = Ok (Z.of_nat k, []).
Proof.
  intros Hk Hc Hcn Ht Hq HQ. set (data := map _ _).
  assert (LD : length data = (n + k)%nat) by (unfold data; rewrite map_length, seq_length; reflexivity).
  assert (Hn : INR n <> 0) by (apply not_0_INR; lia).
  assert (Dn : forall i, (i < n + k)%nat -> nth i data 0 = B + A * cos (2 * PI * INR c * INR i / INR n + ph)) by (intros i Hi; unfold data; apply (nth_map_seq (fun i => B + A * cos (2 * PI * INR c * INR i / INR n + ph))); exact Hi).
  assert (QN : INR c * INR k / INR n = IZR q / 4).
  { apply (f_equal IZR) in HQ. rewrite !mult_IZR, <- !INR_IZR_INZ in HQ. apply (Rmult_eq_reg_r (4 * INR n)); [field_simplify; [lra | exact Hn] | lra]. }
  assert (Rad : forall j, (j < n)%nat -> ring_radius (fun i => nth i data 0) n k j = Rabs A).
  { intros j Hj. unfold ring_radius. cbv zeta.
    rewrite (rsum_ext n (fun i => nth i data 0) (fun i => B + A * cos (2 * PI * INR c * INR i / INR n + ph))) by (intros i Hi; apply Dn; lia).
    rewrite (rsum_ext n (fun i => nth (i + k) data 0) (fun i => B + A * cos (2 * PI * INR c * INR i / INR n + (IZR q * (PI / 2) + ph)))).
    2:{ intros i Hi. rewrite Dn by lia. do 3 f_equal. rewrite plus_INR. replace (2 * PI * INR c * (INR i + INR k) / INR n) with (2 * PI * INR c * INR i / INR n + 2 * PI * (INR c * INR k / INR n)) by (field; exact Hn). rewrite QN. lra. }
    rewrite !rsum_plus, !rsum_const, !tone_sum by assumption. rewrite !Dn by lia.
    replace (2 * PI * INR c * INR (j + k) / INR n + ph) with ((2 * PI * INR c * INR j / INR n + ph) + IZR q * (PI / 2)).
    2:{ rewrite plus_INR. replace (2 * PI * INR c * (INR j + INR k) / INR n) with (2 * PI * INR c * INR j / INR n + 2 * PI * (INR c * INR k / INR n)) by (field; exact Hn). rewrite QN. lra. }
    set (th := 2 * PI * INR c * INR j / INR n + ph).
    replace (B + A * cos th - (INR n * B + 0) / INR n) with (A * cos th) by (field; exact Hn).
    replace (B + A * cos (th + IZR q * (PI / 2)) - (INR n * B + 0) / INR n) with (A * cos (th + IZR q * (PI / 2))) by (field; exact Hn).
    rewrite !Rpow_mult_distr, quarter_square by exact Hq. rewrite <- sqrt_Rsqr_abs. f_equal. unfold Rsqr. pose proof (sin2_cos2 th) as P. unfold Rsqr in P.
    transitivity (A * A * (sin th * sin th + cos th * cos th)); [ring | rewrite P; ring]. }
  assert (HD : (0 < k < length data)%nat) by lia.
  destruct (phase_plane data (Some (Z.of_nat k)) true thr) as [[z out] | e] eqn:E; [| rewrite phase_plane_closed in E by exact HD; discriminate].
  pose proof E as E'. rewrite phase_plane_closed in E' by exact HD. injection E' as <- E2. do 2 f_equal. clear E2.
  destruct (c112_outliers data k thr HD) as (out' & E2 & _ & _). rewrite E in E2. injection E2 as <-.
  destruct out as [| z out]; [reflexivity | exfalso].
  assert (Maj : (length data - k < 2 * length (filter (fun j => Reqb (ring_radius (fun i => nth i data 0%R) (length data - k) k j) (Rabs A)) (seq 0 (length data - k))))%nat).
  { rewrite LD, Nat.add_sub. replace (filter _ (seq 0 n)) with (seq 0 n); [rewrite seq_length; lia |].
    symmetry. assert (F : forall l, (forall x, In x l -> (x < n)%nat) -> filter (fun j => Reqb (ring_radius (fun i => nth i data 0) n k j) (Rabs A)) l = l).
    { induction l as [| a l IH]; intros Hl; cbn [filter]; [reflexivity |]. rewrite (proj2 (Reqb_true _ _) (Rad a (Hl a (or_introl eq_refl)))). f_equal. apply IH. intros x Hx. apply Hl. right. exact Hx. }
    apply F. intros x Hx. apply in_seq in Hx. lia. }
  destruct (c112_outliers data k thr HD) as (out' & E2 & _ & Sp). rewrite E in E2. injection E2 as <-.
  destruct (proj1 (Sp z) (or_introl eq_refl)) as (i & -> & Hi & _).
  pose proof (proj1 (c112_majority data k thr (Rabs A) _ HD Maj E i Hi) (or_introl eq_refl)) as G.
  rewrite LD, Nat.add_sub in G. rewrite Rad in G by lia. unfold Rminus in G. rewrite Rplus_opp_r, Rabs_R0 in G.
  assert (0 <= thr / 10 ^ 12) by (apply Rdiv_le_0_compat; [exact Ht | apply pow_lt; lra]). lra.
Qed.

(* ---------- C113: automatic lag ---------- *)
Lemma hanning_spec n i : (2 <= n)%nat -> hanning n i = (1 - cos (2 * PI * INR i / INR (n - 1))) / 2.
Proof. intros Hn. unfold hanning. destruct (Nat.eqb_spec n 1); [lia |]. rewrite minus_INR by lia. change (INR 1) with 1. lra. Qed.
Lemma plane_magnitude data k : (2 <= length data)%nat ->
  Cmod (rdft (length data) (fun i => (nth i data 0 - lmean data) * hanning (length data) i) k) = windowed_magnitude (fun i => nth i data 0) (length data) k.
Proof.
  intros Hn. unfold windowed_magnitude, rdft, dft. f_equal. unfold lmean. rewrite lsum_rsum. apply csum_ext. intros i _.
  rewrite hanning_spec by exact Hn. rewrite <- Cscale_RtoC. reflexivity.
Qed.
Lemma seq_tl_nth (f : nat -> R) m j : (j < m)%nat -> nth j (tl (map f (seq 0 (m + 1)))) 0 = f (S j).
Proof. intros Hj. rewrite Nat.add_1_r. cbn [seq map tl]. rewrite <- seq_shift, map_map. apply (nth_map_seq (fun x => f (S x))). exact Hj. Qed.
Lemma seq_tl_length (f : nat -> R) m : length (tl (map f (seq 0 (m + 1)))) = m.
Proof. rewrite Nat.add_1_r. cbn [seq map tl length]. rewrite map_length, seq_length. reflexivity. Qed.
Lemma plane_peak_iff data p : (2 <= length data)%nat -> plane_peak data = Ok p <-> plane_strongest (fun i => nth i data 0) (length data) p.
Proof.
  intros Hn. unfold plane_peak. unfold raise_if. destruct (Nat.leb_spec (length data) 1); [lia |]. cbv zeta.
  assert (Hh : (1 <= length data / 2)%nat) by (apply Nat.div_le_lower_bound; lia).
  set (f := fun k => Cmod (rdft (length data) (fun i => (nth i data 0 - lmean data) * hanning (length data) i) k)).
  set (l := tl (map f (seq 0 (length data / 2 + 1)))).
  assert (LL : length l = (length data / 2)%nat) by apply seq_tl_length.
  assert (Nn : forall k, (1 <= k <= length data / 2)%nat -> nth (k - 1) l 0 = windowed_magnitude (fun i => nth i data 0) (length data) k).
  { intros k Hk. unfold l. rewrite seq_tl_nth by lia. replace (S (k - 1)) with k by lia. apply plane_magnitude. exact Hn. }
  assert (NE : l <> []) by (intros E; rewrite E in LL; cbn [length] in LL; lia).
  destruct (argmax_spec l NE) as (A1 & A2 & A3). rewrite LL in A1. split.
  - intros E. injection E as <-. set (r := argmax l) in *. split; [lia |].
    rewrite <- (Nn (r + 1)%nat) by lia. rewrite Nat.add_sub. split.
    + intros k Hk. rewrite <- Nn by exact Hk. apply A2. lia.
    + intros k Hk. rewrite <- Nn by lia. apply A3. lia.
  - intros (Hp & B1 & B2). f_equal. rewrite (argmax_unique l (p - 1)%nat); [lia | lia | |].
    + intros j Hj. rewrite LL in Hj. rewrite (Nn p) by exact Hp. replace j with (S j - 1)%nat by lia. rewrite Nn by lia. apply B1. lia.
    + intros j Hj. rewrite (Nn p) by exact Hp. replace j with (S j - 1)%nat by lia. rewrite Nn by lia. apply B2. lia.
Qed.
Lemma lag_loop_spec f : forall n s bk bm,
  let k := lag_loop f (seq s n) bk bm in
  (k = bk /\ forall j, (s <= j < s + n)%nat -> lag_score f j <= bm) \/
  ((s <= k < s + n)%nat /\ bm < lag_score f k /\ forall j, (s <= j < s + n)%nat -> lag_score f j <= lag_score f k /\ ((j < k)%nat -> lag_score f j < lag_score f k)).
Proof.
  induction n as [| n IH]; intros s bk bm; cbv zeta; cbn [seq lag_loop].
  - left. split; [reflexivity | intros j Hj; lia].
  - destruct (Rltb_spec bm (lag_score f s)) as [L | L].
    + right. specialize (IH (S s) s (lag_score f s)). cbv zeta in IH. destruct IH as [[E H] | (H1 & H2 & H3)].
      * rewrite E. split; [lia |]. split; [exact L |]. intros j Hj. destruct (Nat.eq_dec j s) as [-> | D]; [split; [lra | lia] |]. split; [apply H; lia | intros; lia].
      * split; [lia |]. split; [lra |]. intros j Hj. destruct (Nat.eq_dec j s) as [-> | D]; [split; intros; lra |]. apply H3. lia.
    + specialize (IH (S s) bk bm). cbv zeta in IH. destruct IH as [[E H] | (H1 & H2 & H3)].
      * left. split; [exact E |]. intros j Hj. destruct (Nat.eq_dec j s) as [-> | D]; [exact L | apply H; lia].
      * right. split; [lia |]. split; [exact H2 |]. intros j Hj. destruct (Nat.eq_dec j s) as [-> | D]; [split; intros; lra |]. apply H3. lia.
Qed.
Lemma candidate_iff N p j : (0 < p)%nat -> (2 <= N)%nat ->
  lag_candidate N p j <-> (1 <= j < 1 + (Z.to_nat (search_limit N (INR p / INR N)) - 1))%nat.
Proof.
  intros Hp HN. assert (P1 : 0 < INR p) by (apply lt_0_INR; lia). assert (P2 : 0 < INR N) by (apply lt_0_INR; lia).
  unfold lag_candidate, search_limit. replace (1 / (INR p / INR N) * 0.6) with (0.6 * INR N / INR p) by (field; lra).
  set (x := 0.6 * INR N / INR p). assert (Px : 0 < x) by (unfold x; apply Rdiv_lt_0_compat; [lra | exact P1]).
  assert (F0 : (0 <= Zfloor x)%Z) by (apply Zfloor_lub; lra).
  assert (FE : (INR j <= x + 19 <-> (Z.of_nat j - 19 <= Zfloor x)%Z)).
  { rewrite INR_IZR_INZ. split.
    - intros H. apply Zfloor_lub. rewrite minus_IZR. lra.
    - intros H. apply IZR_le in H. rewrite minus_IZR in H. pose proof (Zfloor_lb x). lra. }
  assert (DE : (Z.of_nat N / 2 = Z.of_nat (N / 2))%Z) by (rewrite Nat2Z.inj_div; reflexivity).
  rewrite FE, DE. pose proof (Nat.div_le_lower_bound N 2 1). lia.
Qed.
Lemma score_is N p j : (0 < N)%nat -> lag_score (INR p / INR N) j = openness N p j - 0.0001 * INR j.
Proof.
  intros HN. assert (INR N <> 0) by (apply not_0_INR; lia). unfold lag_score, openness.
  replace (2 * PI * (INR p / INR N) * INR j) with (2 * PI * INR p * INR j / INR N) by (field; assumption). lra.
Qed.
Lemma lag_for_best N p : (2 <= N)%nat -> (0 < p)%nat -> best_lag N p (lag_for N p).
Proof.
  intros HN Hp. assert (P1 : 0 < INR p) by (apply lt_0_INR; lia). assert (P2 : 0 < INR N) by (apply lt_0_INR; lia).
  unfold lag_for. cbv zeta. destruct (Rleb_spec (INR p / INR N) 0) as [L | L]; [exfalso; pose proof (Rdiv_lt_0_compat _ _ P1 P2); lra |].
  pose proof (lag_loop_spec (INR p / INR N) (Z.to_nat (search_limit N (INR p / INR N)) - 1) 1 1 (-1)) as H. cbv zeta in H.
  set (k := lag_loop _ _ _ _) in *. unfold best_lag. destruct H as [[E H] | (H1 & _ & H3)].
  - assert (No : forall j, ~ lag_candidate N p j).
    { intros j Hj. assert (C1 : lag_candidate N p 1).
      { destruct Hj as [[J1 J2] J3]. split; [lia |]. apply le_INR in J1. change (INR 1) with 1. pose proof (Rdiv_lt_0_compat (0.6 * INR N) (INR p)). lra. }
      apply candidate_iff in C1; [| exact Hp | exact HN]. specialize (H 1%nat C1). rewrite score_is in H by lia. unfold openness in H. pose proof (Rabs_pos (sin (2 * PI * INR p * INR 1 / INR N))). change (INR 1) with 1 in *. lra. }
    split; [right; split; [exact E | exact No] |]. intros j Hj. exfalso. exact (No j Hj).
  - split; [left; apply candidate_iff; assumption |]. intros j Hj. apply candidate_iff in Hj; [| exact Hp | exact HN]. rewrite <- !score_is by lia. apply H3. exact Hj.
Qed.
(** The automatic lag is that of the strongest bin of the Hann-windowed record: the first best of the lags below half
    the record and below 0.6 periods plus 20 samples.  It is always usable, and the analysis is that of the explicit lag. *)
Lemma c113_auto data det thr : (2 <= length data)%nat ->
  exists p k, plane_strongest (fun i => nth i data 0) (length data) p /\ best_lag (length data) p k /\ (1 <= k < length data)%nat /\
  phase_plane data None det thr = phase_plane data (Some (Z.of_nat k)) det thr /\
  exists out, phase_plane data None det thr = Ok (Z.of_nat k, out).
Proof.
  intros Hn. destruct (plane_peak data) as [p | e] eqn:E; [| unfold plane_peak, raise_if in E; destruct (Nat.leb_spec (length data) 1); [lia | discriminate]].
  exists p, (lag_for (length data) p). pose proof (proj1 (plane_peak_iff data p Hn) E) as S1. destruct S1 as [Hp S1].
  pose proof (lag_for_best (length data) p Hn ltac:(lia)) as B.
  assert (Kr : (1 <= lag_for (length data) p < length data)%nat).
  { destruct B as [[C | [-> _]] _]; [| lia]. destruct C as [C _]. pose proof (Nat.div_lt (length data) 2). lia. }
  split; [split; assumption |]. split; [exact B |]. split; [exact Kr |].
  assert (Same : phase_plane data None det thr = phase_plane data (Some (Z.of_nat (lag_for (length data) p))) det thr) by (unfold phase_plane; cbv zeta; rewrite E; reflexivity).
  split; [exact Same |]. rewrite Same. destruct det.
  - eexists. apply phase_plane_closed. lia.
  - eexists. apply (proj1 (c112_lags data (Z.of_nat (lag_for (length data) p)) thr)). lia.
Qed.
(** Fewer than two samples raise ValueError. *)
Lemma c113_short data det thr : (length data <= 1)%nat -> phase_plane data None det thr = Err ValueError.
Proof. intros H. unfold phase_plane. cbv zeta. unfold plane_peak, raise_if. destruct (Nat.leb_spec (length data) 1); [reflexivity | lia]. Qed.

Lemma sin_mult_le k x : Rabs (sin (INR k * x)) <= INR k * Rabs (sin x).
Proof.
  induction k as [| k IH]; [change (INR 0) with 0; rewrite !Rmult_0_l, sin_0, Rabs_R0; lra |].
  rewrite S_INR, Rmult_plus_distr_r, Rmult_1_l, sin_plus.
  eapply Rle_trans; [apply Rabs_triang |]. rewrite !Rabs_mult.
  assert (C1 : Rabs (cos x) <= 1) by (apply Rabs_le; apply COS_bound). assert (C2 : Rabs (cos (INR k * x)) <= 1) by (apply Rabs_le; apply COS_bound).
  pose proof (Rabs_pos (sin (INR k * x))). pose proof (Rabs_pos (sin x)). nra.
Qed.
Lemma sin_abs_le x : 0 <= x -> Rabs (sin x) <= x.
Proof.
  intros Hx. destruct (Rle_lt_dec x 1) as [L | L].
  - destruct (Req_dec x 0) as [-> | D]; [rewrite sin_0, Rabs_R0; lra |]. assert (Px : 0 < x) by lra. pose proof (sin_lt_x x Px). assert (0 <= sin x) by (apply sin_ge_0; [lra | pose proof PI_RGT_0; pose proof PI2_1; lra]). rewrite Rabs_right; lra.
  - assert (Rabs (sin x) <= 1) by (apply Rabs_le; apply SIN_bound). lra.
Qed.
(** How good the automatic lag is: it misses an open ellipse by no more than the rounding of a quarter period to whole
    samples and the distance penalty over a quarter period. *)
Lemma c113_quality N p k : (4 <= N)%nat -> (1 <= p)%nat -> (2 * p <= N)%nat -> best_lag N p k ->
  openness N p k >= cos (PI * INR p / INR N) - 0.0001 * (INR N / (4 * INR p)).
Proof.
  intros HN Hp H2 [C H]. pose proof PI_RGT_0 as Pi. assert (P1 : 1 <= INR p) by (apply le_INR in Hp; exact Hp). assert (P2 : 0 < INR N) by (apply lt_0_INR; lia).
  set (k0 := ((N + 2 * p) / (4 * p))%nat).
  pose proof (Nat.div_mod (N + 2 * p) (4 * p) ltac:(lia)) as DM. pose proof (Nat.mod_upper_bound (N + 2 * p) (4 * p) ltac:(lia)) as MB. fold k0 in DM.
  set (r := ((N + 2 * p) mod (4 * p))%nat) in *.
  assert (K1 : (1 <= k0)%nat) by (apply Nat.div_le_lower_bound; lia).
  assert (Up : (4 * p * k0 <= N + 2 * p)%nat) by lia. assert (Lo : (N + 2 * p < 4 * p * k0 + 4 * p)%nat) by lia.
  assert (K2 : (k0 < N / 2)%nat).
  { destruct (Nat.eq_dec k0 1) as [-> | D]; [apply Nat.div_le_lower_bound; lia |].
    apply Nat.div_le_lower_bound; [lia |]. assert (4 * k0 <= N + 2)%nat by nia. lia. }
  apply le_INR in Up. apply lt_INR in Lo. repeat (rewrite plus_INR in Up || rewrite mult_INR in Up). repeat (rewrite plus_INR in Lo || rewrite mult_INR in Lo). change (INR 4) with (1 + 1 + 1 + 1) in *. change (INR 2) with (1 + 1) in *.
  assert (Ck : lag_candidate N p k0).
  { split; [lia |]. apply (Rmult_le_reg_r (INR p)); [lra |]. replace ((0.6 * INR N / INR p + 19) * INR p) with (0.6 * INR N + 19 * INR p) by (field; lra). lra. }
  destruct (H k0 Ck) as [S1 _].
  assert (O0 : openness N p k0 >= cos (PI * INR p / INR N)).
  { unfold openness. set (x := 2 * PI * INR p * INR k0 / INR N). set (e := x - PI / 2).
    assert (Ee : Rabs e <= PI * INR p / INR N).
    { unfold e, x. replace (2 * PI * INR p * INR k0 / INR N - PI / 2) with (PI / INR N * ((4 * INR p * INR k0 - INR N) / 2)) by (field; lra).
      rewrite Rabs_mult, Rabs_right by (apply Rle_ge; apply Rdiv_le_0_compat; lra). replace (PI * INR p / INR N) with (PI / INR N * INR p) by (field; lra).
      apply Rmult_le_compat_l; [apply Rdiv_le_0_compat; lra |]. apply Rabs_le. lra. }
    assert (HB : PI * INR p / INR N <= PI / 2).
    { apply (Rmult_le_reg_r (INR N)); [exact P2 |]. replace (PI * INR p / INR N * INR N) with (PI * INR p) by (field; lra).
      apply le_INR in H2. rewrite mult_INR in H2. change (INR 2) with (1 + 1) in H2. nra. }
    replace (sin x) with (cos e) by (unfold e; rewrite cos_minus, cos_PI2, sin_PI2; ring).
    assert (cos (PI * INR p / INR N) <= cos e).
    { assert (Ev : cos e = cos (Rabs e)) by (unfold Rabs; destruct (Rcase_abs e); [rewrite cos_neg |]; reflexivity). rewrite Ev.
      apply cos_decr_1; [apply Rabs_pos | | | | exact Ee]; try lra. apply Rdiv_le_0_compat; nra. }
    pose proof (Rle_abs (cos e)). lra. }
  assert (K4 : INR k0 <= INR N / (4 * INR p) + 1).
  { apply (Rmult_le_reg_r (4 * INR p)); [lra |]. replace ((INR N / (4 * INR p) + 1) * (4 * INR p)) with (INR N + 4 * INR p) by (field; lra). lra. }
  assert (K5 : 1 <= INR k).
  { destruct C as [[[C _] _] | [-> _]]; [apply le_INR in C; exact C | change (INR 1) with 1; lra]. }
  lra.
Qed.
(** A tone so slow that the penalty of 1e-4 per sample outweighs the gain (a period of more than 62832 samples) gets lag 1,
    where the ellipse is closed to a line. *)
Lemma c113_slow N p k : (2 <= N)%nat -> (1 <= p)%nat -> 2 * PI * INR p / INR N < 0.0001 -> best_lag N p k ->
  k = 1%nat /\ openness N p k < 0.0001.
Proof.
  intros HN Hp Hs [C H]. pose proof PI_RGT_0 as Pi. assert (P1 : 0 < INR p) by (apply lt_0_INR; lia). assert (P2 : 0 < INR N) by (apply lt_0_INR; lia).
  set (x := 2 * PI * INR p / INR N) in *. assert (X0 : 0 < x) by (unfold x; apply Rdiv_lt_0_compat; nra).
  assert (O : forall j, openness N p j = Rabs (sin (INR j * x))) by (intros j; unfold openness, x; f_equal; f_equal; field; lra).
  pose proof (sin_abs_le x ltac:(lra)) as Sx.
  assert (K : k = 1%nat).
  { destruct C as [C | [E _]]; [| exact E]. destruct (Nat.eq_dec k 1) as [E | D]; [exact E | exfalso].
    assert (C1 : lag_candidate N p 1) by (destruct C as [[J1 J2] J3]; split; [lia |]; apply le_INR in J1; change (INR 1) with 1 in *; pose proof (Rdiv_lt_0_compat (0.6 * INR N) (INR p)); lra).
    destruct C as [[J1 J2] J3]. destruct (H 1%nat C1) as [_ S1]. specialize (S1 ltac:(lia)). rewrite !O in S1. pose proof (sin_mult_le k x) as SM.
    rewrite (INR_IZR_INZ 1) in S1. simpl (IZR (Z.of_nat 1)) in S1. rewrite Rmult_1_l in S1.
    assert (1 <= INR k) by (apply le_INR in J1; exact J1). nra. }
  split; [exact K |]. subst k. rewrite O. change (INR 1) with 1. rewrite Rmult_1_l. lra.
Qed.
(** Near half the sampling rate, d = N - 2p bins of N below it: the lag is at most 20 (plus 0.6 periods), and so the ellipse
    opens by no more than pi d k / N. *)
Lemma c113_near_nyquist N p k d : (4 <= N)%nat -> (1 <= p)%nat -> (2 * p + d = N)%nat -> best_lag N p k ->
  INR k <= 0.6 * INR N / INR p + 19 /\ openness N p k <= PI * INR d * INR k / INR N.
Proof.
  intros HN Hp HD [C H]. pose proof PI_RGT_0 as Pi. assert (P1 : 0 < INR p) by (apply lt_0_INR; lia). assert (P2 : 0 < INR N) by (apply lt_0_INR; lia).
  split.
  - destruct C as [[_ C] | [-> _]]; [exact C |]. change (INR 1) with 1. pose proof (Rdiv_lt_0_compat (0.6 * INR N) (INR p)). lra.
  - unfold openness. assert (E : 2 * PI * INR p * INR k / INR N = INR k * PI - PI * INR d * INR k / INR N).
    { apply (f_equal INR) in HD. rewrite plus_INR, mult_INR in HD. change (INR 2) with 2 in HD. replace (INR d) with (INR N - 2 * INR p) by lra. field. lra. }
    rewrite E, sin_minus. rewrite (sin_eq_0_1 (INR k * PI)) by (exists (Z.of_nat k); rewrite <- INR_IZR_INZ; reflexivity).
    rewrite Rmult_0_l, Rminus_0_l, Rabs_Ropp, Rabs_mult.
    assert (C1 : Rabs (cos (INR k * PI)) <= 1) by (apply Rabs_le; apply COS_bound).
    pose proof (sin_abs_le (PI * INR d * INR k / INR N)) as S1.
    assert (0 <= PI * INR d * INR k / INR N) by (apply Rdiv_le_0_compat; [apply Rmult_le_pos; [apply Rmult_le_pos; [lra | apply pos_INR] | apply pos_INR] | exact P2]).
    specialize (S1 ltac:(lra)). pose proof (Rabs_pos (sin (PI * INR d * INR k / INR N))). nra.
Qed.

(* a record whose strongest bin is p *)
Lemma Cmod_plus_le a b : Cmod (Cplus a b) <= Cmod a + Cmod b.
Proof.
  pose proof (Cmod_nonneg a) as A. pose proof (Cmod_nonneg b) as B. unfold Cmod at 1. rewrite <- (sqrt_Rsqr (Cmod a + Cmod b)) by lra. apply sqrt_le_1_alt. unfold Rsqr.
  replace ((Cmod a + Cmod b) * (Cmod a + Cmod b)) with (Cmod a * Cmod a + Cmod b * Cmod b + 2 * (Cmod a * Cmod b)) by ring. rewrite !Cmod_sqr.
  assert (I : fst a * fst b + snd a * snd b <= Cmod a * Cmod b).
  { apply Rsqr_incr_0_var; [| apply Rmult_le_pos; assumption]. unfold Rsqr. replace (Cmod a * Cmod b * (Cmod a * Cmod b)) with ((Cmod a * Cmod a) * (Cmod b * Cmod b)) by ring.
    rewrite !Cmod_sqr. unfold Cmod2. pose proof (Rle_0_sqr (fst a * snd b - snd a * fst b)) as Q. unfold Rsqr in Q. lra. }
  unfold Cmod2, Cplus. cbn [fst snd]. lra.
Qed.
Lemma Cmod_csum_le n f : Cmod (csum n f) <= rsum n (fun i => Cmod (f i)).
Proof. induction n as [| n IH]; cbn [csum rsum]; [rewrite Cmod_0; lra |]. eapply Rle_trans; [apply Cmod_plus_le |]. lra. Qed.
Lemma hanning_inside n i : (0 < i)%nat -> (i < n - 1)%nat -> 0 < hanning n i.
Proof.
  intros H1 H2. rewrite hanning_spec by lia. assert (P : 0 < INR (n - 1)) by (apply lt_0_INR; lia). assert (P1 : 0 < INR i) by (apply lt_0_INR; lia). apply lt_INR in H2. pose proof PI_RGT_0.
  set (y := PI * INR i / INR (n - 1)). replace (2 * PI * INR i / INR (n - 1)) with (2 * y) by (unfold y; field; lra). rewrite cos_2a_sin.
  assert (0 < sin y).
  { apply sin_gt_0; unfold y; [apply Rdiv_lt_0_compat; nra |]. apply (Rmult_lt_reg_r (INR (n - 1))); [exact P |]. replace (PI * INR i / INR (n - 1) * INR (n - 1)) with (PI * INR i) by (field; lra). nra. }
  nra.
Qed.
Lemma hanning_ends n : (2 <= n)%nat -> hanning n 0 = 0 /\ hanning n (n - 1) = 0.
Proof.
  intros Hn. rewrite !hanning_spec by exact Hn. assert (INR (n - 1) <> 0) by (apply not_0_INR; lia). split.
  - change (INR 0) with 0. replace (2 * PI * 0 / INR (n - 1)) with 0 by (field; assumption). rewrite cos_0. lra.
  - replace (2 * PI * INR (n - 1) / INR (n - 1)) with (2 * PI) by (field; assumption). rewrite cos_2PI. lra.
Qed.
Definition tone_at (N p i : nat) : R := cos (2 * PI * INR p * INR i / INR N).
(** un-windowed: dividing by the window inside, balancing the mean with the first sample *)
Definition peak_sample (N p i : nat) : R :=
  if (i =? 0)%nat then - rsum (N - 2) (fun j => tone_at N p (S j) / hanning N (S j))
  else if (i =? N - 1)%nat then 0 else tone_at N p i / hanning N i.
Definition peak_record (N p : nat) : list R := map (peak_sample N p) (seq 0 N).
Lemma peak_record_peak N p : (10 <= N)%nat -> (0 < p)%nat -> (2 * p < N)%nat -> plane_peak (peak_record N p) = Ok p.
Proof.
  intros HN Hp H2. assert (LN : length (peak_record N p) = N) by (unfold peak_record; rewrite map_length, seq_length; reflexivity).
  assert (Nn : forall i, (i < N)%nat -> nth i (peak_record N p) 0 = peak_sample N p i) by (intros i Hi; apply nth_map_seq; exact Hi).
  assert (M0 : lmean (peak_record N p) = 0).
  { unfold lmean. rewrite lsum_rsum, LN. rewrite (rsum_ext N _ (peak_sample N p)) by (intros i Hi; apply Nn; exact Hi).
    destruct N as [| [| M]]; [lia | lia |]. rewrite rsum_shift. cbn [rsum].
    rewrite (rsum_ext M (fun i => peak_sample (S (S M)) p (S i)) (fun j => tone_at (S (S M)) p (S j) / hanning (S (S M)) (S j))).
    2:{ intros i Hi. unfold peak_sample. destruct (Nat.eqb_spec (S i) 0); [lia |]. destruct (Nat.eqb_spec (S i) (S (S M) - 1)); [lia | reflexivity]. }
    unfold peak_sample. cbn [Nat.eqb]. replace (S (S M) - 2)%nat with M by lia. replace (S (S M) - 1)%nat with (S M) by lia. rewrite Nat.eqb_refl. field. apply not_0_INR. lia. }
  set (e := fun i => if (i =? 0)%nat then - tone_at N p i else if (i =? N - 1)%nat then - tone_at N p i else 0).
  assert (W : forall i, (i < N)%nat -> (nth i (peak_record N p) 0 - lmean (peak_record N p)) * hanning N i = 1 * cos (2 * PI * INR p * INR i / INR N + 0) + e i).
  { intros i Hi. rewrite Nn, M0 by exact Hi. rewrite Rplus_0_r, Rmult_1_l. fold (tone_at N p i). unfold e, peak_sample. destruct (hanning_ends N ltac:(lia)) as [E0 E1].
    destruct (Nat.eqb_spec i 0) as [-> | D0]; [rewrite E0; lra |]. destruct (Nat.eqb_spec i (N - 1)) as [-> | D1]; [rewrite E1; lra |].
    pose proof (hanning_inside N i ltac:(lia) ltac:(lia)). field. lra. }
  assert (Eb : forall k, Cmod (rdft N e k) <= 2).
  { intros k. unfold rdft, dft. eapply Rle_trans; [apply Cmod_csum_le |].
    rewrite (rsum_ext N _ (fun i => Rabs (e i))) by (intros i _; rewrite Cmod_mult, Cmod_cis, Cmod_RtoC; ring).
    destruct N as [| [| M]]; [lia | lia |]. rewrite rsum_shift. cbn [rsum]. rewrite rsum_zero.
    2:{ intros i Hi. unfold e. destruct (Nat.eqb_spec (S i) 0); [lia |]. destruct (Nat.eqb_spec (S i) (S (S M) - 1)); [lia |]. apply Rabs_R0. }
    unfold e. replace (S (S M) - 1)%nat with (S M) by lia. rewrite (Nat.eqb_refl (S M)). cbn [Nat.eqb]. rewrite !Rabs_Ropp.
    assert (B : forall i, Rabs (tone_at (S (S M)) p i) <= 1) by (intros i; apply Rabs_le; apply COS_bound). pose proof (B 0%nat). pose proof (B (S M)). lra. }
  assert (Mg : forall k, Cmod (rdft N (fun i => (nth i (peak_record N p) 0 - lmean (peak_record N p)) * hanning N i) k) =
       Cmod (Cplus (rdft N (fun i => 1 * cos (2 * PI * INR p * INR i / INR N + 0)) k) (rdft N e k))).
  { intros k. rewrite <- rdft_plus. f_equal. unfold rdft. apply dft_ext. intros i Hi. f_equal. apply W. exact Hi. }
  assert (Peak : INR N / 2 - 2 <= windowed_magnitude (fun i => nth i (peak_record N p) 0) N p).
  { pose proof (plane_magnitude (peak_record N p) p ltac:(lia)) as PM. rewrite LN in PM. rewrite <- PM, Mg. rewrite cosine_dft by lia.
    replace (Z.of_nat p - Z.of_nat p)%Z with 0%Z by lia. rewrite Z.mod_0_l by lia. cbn [Z.eqb].
    destruct (Z.eqb_spec ((- Z.of_nat p - Z.of_nat p) mod Z.of_nat N) 0) as [E | E].
    { exfalso. apply Zmod_mirror in E; [| lia]. destruct E as [q Hq]. destruct q as [| q]; nia. }
    replace (Cplus (Cscale (1 * INR N / 2) (cis 0)) C0) with (RtoC (INR N / 2)) by (unfold Cplus, Cscale, cis, C0, RtoC; rewrite cos_0, sin_0; cbn [fst snd]; f_equal; lra).
    pose proof (Eb p) as E2. set (z := rdft N e p) in *.
    pose proof (Cmod_plus_le (Cplus (RtoC (INR N / 2)) z) (Copp z)) as T. rewrite Cmod_opp in T.
    replace (Cplus (Cplus (RtoC (INR N / 2)) z) (Copp z)) with (RtoC (INR N / 2)) in T by (destruct z; unfold Cplus, Copp, RtoC; cbn [fst snd]; f_equal; ring).
    rewrite Cmod_RtoC, Rabs_right in T by (apply Rle_ge; apply Rdiv_le_0_compat; [apply pos_INR | lra]). lra. }
  assert (Other : forall k, (1 <= k <= N / 2)%nat -> k <> p -> windowed_magnitude (fun i => nth i (peak_record N p) 0) N k <= 2).
  { intros k Hk D. assert (K2 : (2 * k <= N)%nat) by (pose proof (Nat.div_mod N 2 ltac:(lia)); lia).
    pose proof (plane_magnitude (peak_record N p) k ltac:(lia)) as PM. rewrite LN in PM. rewrite <- PM, Mg. rewrite cosine_dft by lia.
    destruct (Z.eqb_spec ((Z.of_nat p - Z.of_nat k) mod Z.of_nat N) 0) as [E | E].
    { exfalso. apply Zmod_direct in E; [| lia | lia]. destruct E as [[| q] Hq]; nia. }
    destruct (Z.eqb_spec ((- Z.of_nat p - Z.of_nat k) mod Z.of_nat N) 0) as [E1 | E1].
    { exfalso. apply Zmod_mirror in E1; [| lia]. destruct E1 as [[| q] Hq]; nia. }
    replace (Cplus (Cplus C0 C0) (rdft N e k)) with (rdft N e k) by (destruct (rdft N e k); unfold Cplus, C0; cbn [fst snd]; f_equal; ring). apply Eb. }
  assert (Big : 2 < INR N / 2 - 2) by (apply le_INR in HN; rewrite (INR_IZR_INZ 10) in HN; simpl (IZR (Z.of_nat 10)) in HN; lra).
  apply plane_peak_iff; [lia |]. rewrite LN. split; [split; [exact Hp |]; apply Nat.div_le_lower_bound; lia |]. split.
  - intros k Hk. destruct (Nat.eq_dec k p) as [-> | D]; [lra |]. pose proof (Other k Hk D). lra.
  - intros k Hk. assert (p <= N / 2)%nat by (apply Nat.div_le_lower_bound; lia). pose proof (Other k ltac:(lia) ltac:(lia)). lra.
Qed.
(** The automatic lag is described as giving a phase shift of about 90 degrees, and the search as covering signals near
    half the sampling rate.  It does not: for a record of 4096 samples whose strongest bin is 2047 the lag chosen opens the
    ellipse by less than 4 percent of what it could be, although a lag of 1024 samples is exactly a quarter period. *)
Lemma c114_ninety_degrees_refuted : exists data p k out, plane_strongest (fun i => nth i data 0) (length data) p /\
  phase_plane data None true 4 = Ok (Z.of_nat k, out) /\ openness (length data) p k < 0.04 /\
  openness (length data) p 1024 = 1 /\ length data = (4 * 1024)%nat.
Proof.
  set (N := (4 * 1024)%nat). set (q := 2047%nat). set (data := peak_record N q).
  assert (LN : length data = N) by (unfold data, peak_record; rewrite map_length, seq_length; reflexivity).
  assert (BN : (2 <= length data)%nat) by (rewrite LN; apply Nat.leb_le; reflexivity).
  assert (Pk : plane_peak data = Ok q) by (apply peak_record_peak; [apply Nat.leb_le; reflexivity | apply Nat.leb_le; reflexivity | apply Nat.ltb_lt; reflexivity]).
  assert (IN : INR N = 4096) by (rewrite INR_IZR_INZ; reflexivity). assert (IQ : INR q = 2047) by (rewrite INR_IZR_INZ; reflexivity). assert (I1 : INR 1024 = 1024) by (rewrite INR_IZR_INZ; reflexivity).
  destruct (c113_auto data true 4 BN) as (p & k & S1 & B & Kr & _ & out & E).
  assert (p = q) by (apply (plane_peak_iff data p BN) in S1; congruence). subst p.
  exists data, q, k, out. rewrite LN in *. split; [exact S1 |]. split; [exact E |]. split; [| split; [| reflexivity]].
  - destruct (c113_near_nyquist N q k 2 ltac:(apply Nat.leb_le; reflexivity) ltac:(apply Nat.leb_le; reflexivity) ltac:(reflexivity) B) as [K1 K2].
    rewrite IN, IQ in *. change (INR 2) with 2 in K2.
    assert (K3 : (k <= 20)%nat). { apply INR_le. rewrite (INR_IZR_INZ 20). simpl (IZR (Z.of_nat 20)). assert (INR k < 20.3) by lra. apply le_INR with (n := k) (m := 20%nat) || idtac. destruct (le_lt_dec k 20) as [L | L]; [apply le_INR in L; rewrite (INR_IZR_INZ 20) in L; exact L | exfalso; apply le_INR in L; rewrite (INR_IZR_INZ 21) in L; simpl (IZR (Z.of_nat 21)) in L; lra]. }
    apply le_INR in K3. rewrite (INR_IZR_INZ 20) in K3. simpl (IZR (Z.of_nat 20)) in K3. pose proof PI_4. pose proof PI_RGT_0. pose proof (pos_INR k). eapply Rle_lt_trans; [exact K2 |]. nra.
  - unfold openness. rewrite IN, IQ, I1. replace (2 * PI * 2047 * 1024 / 4096) with (- (PI / 2) + 2 * INR 512 * PI) by (rewrite (INR_IZR_INZ 512); simpl (IZR (Z.of_nat 512)); field).
    rewrite sin_period, sin_neg, sin_PI2, Rabs_Ropp. apply Rabs_right. lra.
Qed.

(* ---------- examples ---------- *)
Lemma glitch_radius j : (j < 4)%nat -> ring_radius (fun i => nth i [0; 0; 0; 0; 9] 0) 4 1 j = if (j =? 3)%nat then 6.75 else 2.25.
Proof.
  intros Hj. unfold ring_radius. cbn [rsum nth Nat.add]. change (INR 4) with (1 + 1 + 1 + 1).
  destruct j as [| [| [| [| j]]]]; [| | | | lia]; cbn [nth Nat.add Nat.eqb];
  try (rewrite <- (sqrt_Rsqr 6.75) by lra); try (rewrite <- (sqrt_Rsqr 2.25) by lra); f_equal; unfold Rsqr; lra.
Qed.
Lemma glitch_majority : (length [0; 0; 0; 0; 9] - 1 < 2 * length (filter (fun j => Reqb (ring_radius (fun i => nth i [0; 0; 0; 0; 9]%R 0%R) (length [0; 0; 0; 0; 9] - 1) 1 j) 2.25) (seq 0 (length [0; 0; 0; 0; 9] - 1))))%nat.
Proof.
  cbn [length Nat.sub seq filter]. rewrite !glitch_radius by lia. cbn [Nat.eqb].
  rewrite (proj2 (Reqb_true 2.25 2.25)) by reflexivity. cbn [length]. destruct (Reqb 6.75 2.25); cbn [length]; lia.
Qed.
Lemma c112_outliers_ex : phase_plane [0; 0; 0; 0; 9] (Some 1%Z) true 4 = Ok (1%Z, [4%Z]).
Proof.
  change 1%Z with (Z.of_nat 1) at 1. rewrite phase_plane_closed by (cbn [length]; lia). cbn [length Nat.sub seq map].
  rewrite !(mask_majority [0; 0; 0; 0; 9] 1 4 2.25) by exact glitch_majority. cbn [length Nat.sub]. rewrite !glitch_radius by lia. cbn [Nat.eqb].
  replace (2.25 - 2.25) with 0 by lra. rewrite Rabs_R0, (Rabs_right (6.75 - 2.25)) by lra.
  assert (0 < 4 / 10 ^ 12 < 1) by lra. rewrite (proj2 (Rltb_false (4 / 10 ^ 12) 0)) by lra. rewrite (proj2 (Rltb_true (4 / 10 ^ 12) (6.75 - 2.25))) by lra. reflexivity.
Qed.
Lemma c112_lags_ex : phase_plane [1; 2; 3] (Some 0%Z) true 4 = Err ValueError /\ phase_plane [1; 2; 3] (Some (-1)%Z) true 4 = Err IndexError /\
  phase_plane [1; 2; 3] (Some 3%Z) true 4 = Err ValueError /\ phase_plane [1; 2; 3] (Some 2%Z) false 4 = Ok (2%Z, []).
Proof.
  split; [apply (c112_lags [1; 2; 3] 0 4); cbn [length]; lia |]. split; [apply (c112_lags [1; 2; 3] (-1) 4); lia |].
  split; [apply (c112_lags [1; 2; 3] 3 4); cbn [length]; lia | reflexivity].
Qed.
Lemma c112_invariant_ex : phase_plane [5; 5; 5; 5; -4] (Some 1%Z) true 4 = Ok (1%Z, [4%Z]).
Proof.
  rewrite <- c112_outliers_ex. pose proof (c112_invariant [0; 0; 0; 0; 9] 1 4 (-1) 5 ltac:(cbn [length]; lia) (or_intror (or_introl eq_refl))) as H.
  cbn [map] in H. change (Z.of_nat 1) with 1%Z in H. rewrite <- H. f_equal. repeat (apply f_equal2; [lra |]). reflexivity.
Qed.
Lemma c112_at_most_half_ex : (2 * Z.of_nat (length [4%Z]) <= Z.of_nat (length [0; 0; 0; 0; 9]) - 1)%Z.
Proof. exact (proj2 (c112_at_most_half [0; 0; 0; 0; 9] 1 4 _ _ ltac:(lra) c112_outliers_ex ltac:(lia))). Qed.
Lemma c112_majority_ex : In (Z.of_nat 4) [4%Z] <-> Rabs (6.75 - 2.25) > 4 / 10 ^ 12.
Proof. rewrite (c112_majority [0; 0; 0; 0; 9] 1 4 2.25 [4%Z] ltac:(cbn [length]; lia) glitch_majority c112_outliers_ex 4 ltac:(cbn [length]; lia)). cbn [length Nat.sub]. rewrite glitch_radius by lia. reflexivity. Qed.
Lemma c112_circle_ex : phase_plane [3; 1; -1; 1; 3] (Some 1%Z) true 4 = Ok (1%Z, []).
Proof.
  pose proof (c112_circle 4 1 1 1 2 1 0 4 ltac:(lia) ltac:(lia) ltac:(lia) ltac:(lra) eq_refl eq_refl) as H. change (Z.of_nat 1) with 1%Z in H. rewrite <- H. f_equal.
  cbn [seq map Nat.add]. change (INR 4) with (1 + 1 + 1 + 1). change (INR 0) with 0. change (INR 1) with 1. change (INR 2) with (1 + 1). change (INR 3) with (1 + 1 + 1).
  replace (2 * PI * 1 * 0 / (1 + 1 + 1 + 1) + 0) with 0 by lra. replace (2 * PI * 1 * 1 / (1 + 1 + 1 + 1) + 0) with (PI / 2) by lra.
  replace (2 * PI * 1 * (1 + 1) / (1 + 1 + 1 + 1) + 0) with PI by lra. replace (2 * PI * 1 * (1 + 1 + 1) / (1 + 1 + 1 + 1) + 0) with (3 * (PI / 2)) by lra.
  replace (2 * PI * 1 * (1 + 1 + 1 + 1) / (1 + 1 + 1 + 1) + 0) with (2 * PI) by lra.
  rewrite cos_0, cos_PI2, cos_PI, cos_2PI, cos_3PI2. repeat (apply f_equal2; [lra |]). reflexivity.
Qed.
Lemma c113_auto_ex : exists out, phase_plane (peak_record 16 4) None true 4 = Ok (1%Z, out).
Proof.
  assert (LN : length (peak_record 16 4) = 16%nat) by reflexivity.
  destruct (c113_auto (peak_record 16 4) true 4 ltac:(rewrite LN; lia)) as (p & k & S1 & B & Kr & _ & out & E).
  assert (p = 4)%nat. { apply (plane_peak_iff (peak_record 16 4) p) in S1; [| rewrite LN; lia]. rewrite peak_record_peak in S1 by lia. congruence. } subst p. rewrite LN in *.
  assert (O1 : openness 16 4 1 = 1).
  { unfold openness. replace (2 * PI * INR 4 * INR 1 / INR 16) with (PI / 2) by (cbn [INR]; field). rewrite sin_PI2. apply Rabs_right. lra. }
  destruct (Nat.eq_dec k 1) as [-> | D]; [exists out; exact E | exfalso].
  assert (C1 : lag_candidate 16 4 1) by (split; [cbn; lia |]; rewrite !INR_IZR_INZ; simpl; lra).
  destruct (proj2 B 1%nat C1) as [_ L]. specialize (L ltac:(lia)). rewrite O1 in L. change (INR 1) with 1 in L.
  assert (openness 16 4 k <= 1) by (unfold openness; apply Rabs_le; apply SIN_bound). assert (2 <= INR k) by (apply (le_INR 2 k); lia). lra.
Qed.
Lemma c113_short_ex : phase_plane [3] None true 4 = Err ValueError.
Proof. apply c113_short. cbn [length]. lia. Qed.
Lemma c113_quality_ex : forall k, best_lag 1024 16 k -> openness 1024 16 k > 0.8.
Proof.
  intros k B. pose proof (c113_quality 1024 16 k ltac:(apply Nat.leb_le; reflexivity) ltac:(lia) ltac:(apply Nat.leb_le; reflexivity) B) as H.
  assert (I1 : INR 1024 = 1024) by (rewrite INR_IZR_INZ; reflexivity). assert (I2 : INR 16 = 16) by (rewrite INR_IZR_INZ; reflexivity). rewrite I1, I2 in H.
  pose proof PI_4. pose proof PI_RGT_0. set (x := PI * 16 / 1024) in *. assert (X : 0 < x <= 1 / 16) by (unfold x; lra).
  assert (Cx : 1 - 2 * (x / 2) * (x / 2) <= cos x).
  { replace x with (2 * (x / 2)) at 3 by lra. rewrite cos_2a_sin. pose proof (sin_abs_le (x / 2) ltac:(lra)) as S1. assert (0 <= sin (x / 2)) by (apply sin_ge_0; unfold x; lra). rewrite Rabs_right in S1 by lra. nra. }
  nra.
Qed.
Lemma c113_slow_ex : forall k, best_lag (2 ^ 17) 1 k -> k = 1%nat.
Proof.
  intros k B. assert (I : INR (2 ^ 17) = 131072) by (rewrite pow_INR; change (INR 2) with 2; lra).
  refine (proj1 (c113_slow (2 ^ 17) 1 k _ (le_n 1) _ B)); [apply INR_le; rewrite I; change (INR 2) with 2; lra |]. rewrite I. change (INR 1) with 1.
  pose proof PI_4. lra.
Qed.
Lemma c113_near_nyquist_ex : forall k, best_lag 1024 511 k -> openness 1024 511 k <= PI * 2 * INR k / 1024.
Proof.
  intros k B. pose proof (proj2 (c113_near_nyquist 1024 511 k 2 ltac:(apply Nat.leb_le; reflexivity) ltac:(apply Nat.leb_le; reflexivity) eq_refl B)) as H.
  rewrite (INR_IZR_INZ 1024) in H. change (INR 2) with 2 in H. exact H.
Qed.
