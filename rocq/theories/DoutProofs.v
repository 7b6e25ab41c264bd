(** * Digital-output analyses: the final lemmas are named c41_, c42_, c43_, c72_. *)
From Verif Require Import Base BaseLemmas FreqProofs UnitsProofs SpecLemmas SpecProofs SiggenModel SiggenProofs DoutModel DoutSpec.
From Coq Require Import Psatz ZifyBool Permutation.
Local Open Scope R_scope.

(** ** C41: overflow statistics *)
Lemma nth_skipn' {A} (l : list A) n k d : nth k (skipn n l) d = nth (n + k) l d.
Proof. revert n. induction l as [|x t IH]; intros n; [destruct n, k; reflexivity|]. destruct n as [|n]; [reflexivity|]. cbn [skipn Nat.add nth]. apply IH. Qed.
Lemma rest_dot row w ii m : length row = m -> length w = m -> dot (skipn ii row) (skipn ii w) = rest_value row w ii m.
Proof.
  intros H1 H2. rewrite dot_rsum by (rewrite !skipn_length; lia). rewrite skipn_length, H1. apply rsum_ext. intros k Hk. rewrite !nth_skipn'. reflexivity.
Qed.
Lemma rest_lsum w ii m : length w = m -> lsum (skipn ii w) = rest_weight w ii m.
Proof. intros H. rewrite lsum_rsum, skipn_length, H. apply rsum_ext. intros k Hk. rewrite nth_skipn'. reflexivity. Qed.
Lemma lmin1_spec (l : list R) : l <> [] -> In (lmin1 (hd 0 l) (tl l)) l /\ forall x, In x l -> lmin1 (hd 0 l) (tl l) <= x.
Proof.
  intros H. destruct l as [|v t]; [congruence|]. cbn [hd tl]. split; [apply lmin1_in|]. intros x [<- | Hx]; [apply lmin1_le_init|apply lmin1_le, Hx].
Qed.
Lemma lmax1_spec (l : list R) : l <> [] -> In (lmax1 (hd 0 l) (tl l)) l /\ forall x, In x l -> x <= lmax1 (hd 0 l) (tl l).
Proof.
  intros H. destruct l as [|v t]; [congruence|]. cbn [hd tl]. split; [apply lmax1_in|]. intros x [<- | Hx]; [apply lmax1_ge_init|apply lmax1_ge, Hx].
Qed.
Lemma filter_map_len {A B} (f : A -> B) (p : B -> bool) (q : A -> bool) l : (forall x, In x l -> p (f x) = q x) -> length (filter p (map f l)) = length (filter q l).
Proof.
  induction l as [|x t IH]; intros H; [reflexivity|]. cbn [map filter]. rewrite (H x (or_introl eq_refl)). destruct (q x); cbn [length]; rewrite IH; auto; intros y Hy; apply H; right; exact Hy.
Qed.
Lemma overflow_inv codes m w ofb l : analyze_overflow codes m w ofb = Ok l -> length w = m /\ (0 < m)%nat /\ codes <> [] /\ l = map (overflow_stat codes w) (seq 0 m).
Proof.
  unfold analyze_overflow. destruct (Nat.eqb_spec (length w) m) as [E|E]; [|discriminate]. cbn [negb]. destruct (Nat.eqb_spec (length codes) 0) as [Z|Z].
  - destruct (Nat.ltb_spec 0 m) as [K|K]; [discriminate|]. assert (m = 0)%nat by lia. subst m. cbn [andb]. match goal with |- (if ?c then _ else _) = _ -> _ => assert (c = true) as -> by (apply orb_true_iff; rewrite Z.ltb_lt, Z.leb_le; lia); discriminate end.
  - cbn [andb]. match goal with |- (if ?c then _ else _) = _ -> _ => destruct c eqn:C; [discriminate|] end. intros F. apply Ok_inj in F. split; [exact E|]. assert (M : (0 < m)%nat).
    { destruct m; [|lia]. exfalso. apply orb_false_iff in C. rewrite Z.ltb_ge, Z.leb_gt in C. cbn in C. lia. }
    split; [exact M|]. split; [destruct codes; [cbn in Z; lia|discriminate]|]. symmetry. exact F.
Qed.
(** Any codes, positive remaining weight S: range_min and range_max are the extremes over all rows of
    (value of bits ii..m-1)/S, and the percentages count the rows whose value is <= 0 or >= S. *)
Lemma c41_stats codes m w ofb l ii : analyze_overflow codes m w ofb = Ok l -> matrix_of m codes -> (ii < m)%nat -> 0 < rest_weight w ii m ->
  exists mn mx pz po, length l = m /\ nth_error l ii = Some (mn, mx, pz, po) /\
    (forall row, In row codes -> mn <= rest_value row w ii m / rest_weight w ii m <= mx) /\
    (exists row, In row codes /\ mn = rest_value row w ii m / rest_weight w ii m) /\ (exists row, In row codes /\ mx = rest_value row w ii m / rest_weight w ii m) /\
    pz = percent_of (fun row => Rleb (rest_value row w ii m) 0) codes /\ po = percent_of (fun row => Rleb (rest_weight w ii m) (rest_value row w ii m)) codes.
Proof.
  intros E HM Hi HS. destruct (overflow_inv _ _ _ _ _ E) as (Lw & _ & Hc & ->). unfold overflow_stat at 1.
  set (S := rest_weight w ii m) in *. pose (tmp := map (fun row => dot (skipn ii row) (skipn ii w)) codes).
  assert (T : forall row, In row codes -> dot (skipn ii row) (skipn ii w) = rest_value row w ii m) by (intros row Hr; apply rest_dot; [apply HM, Hr|exact Lw]).
  assert (Tn : tmp <> []) by (unfold tmp; destruct codes; [congruence|discriminate]).
  destruct (lmin1_spec tmp Tn) as (I1 & B1). destruct (lmax1_spec tmp Tn) as (I2 & B2).
  exists (lmin1 (hd 0 tmp) (tl tmp) / S), (lmax1 (hd 0 tmp) (tl tmp) / S). do 2 eexists. split; [rewrite map_length, seq_length; reflexivity|]. split.
  { rewrite nth_error_map. rewrite (nth_error_nth' _ 0%nat) by (rewrite seq_length; exact Hi). rewrite seq_nth by exact Hi. cbn [option_map Nat.add]. unfold overflow_stat. rewrite (rest_lsum w ii m Lw). fold S. fold tmp. reflexivity. }
  split; [|split; [|split; [|split]]].
  - intros row Hr. rewrite <- (T row Hr). assert (Ir : In (dot (skipn ii row) (skipn ii w)) tmp) by (unfold tmp; apply (in_map (fun row => dot (skipn ii row) (skipn ii w))), Hr). unfold Rdiv. pose proof (Rinv_0_lt_compat _ HS). split; apply Rmult_le_compat_r; try lra; auto.
  - apply in_map_iff in I1. destruct I1 as (row & <- & Hr). exists row. split; [exact Hr|]. rewrite (T row Hr). reflexivity.
  - apply in_map_iff in I2. destruct I2 as (row & <- & Hr). exists row. split; [exact Hr|]. rewrite (T row Hr). reflexivity.
  - unfold percent_of, count, tmp. rewrite Rmult_comm. f_equal. f_equal. f_equal. rewrite map_map. apply filter_map_len. intros row Hr. rewrite (T row Hr). pose proof (Rinv_0_lt_compat _ HS).
    destruct (Rleb_spec (rest_value row w ii m / S) 0) as [K|K], (Rleb_spec (rest_value row w ii m) 0) as [K'|K']; try reflexivity; unfold Rdiv in K; exfalso; nra.
  - unfold percent_of, count, tmp. rewrite Rmult_comm. f_equal. f_equal. f_equal. rewrite map_map. apply filter_map_len. intros row Hr. rewrite (T row Hr).
    assert (Q : rest_value row w ii m = rest_value row w ii m / S * S) by (field; lra).
    destruct (Rleb_spec 1 (rest_value row w ii m / S)) as [K|K], (Rleb_spec S (rest_value row w ii m)) as [K'|K']; try reflexivity; exfalso; rewrite Q in K'; nra.
Qed.
Lemma rsum_nonneg_zero n f : (forall i, (i < n)%nat -> 0 <= f i) -> rsum n f <= 0 -> forall i, (i < n)%nat -> f i = 0.
Proof.
  induction n as [|n IH]; intros H E i Hi; [lia|]. cbn [rsum] in E. assert (0 <= rsum n f) by (apply rsum_nonneg; intros; apply H; lia). pose proof (H n ltac:(lia)). destruct (Nat.eq_dec i n) as [->|N]; [lra|]. apply IH; [intros; apply H; lia|lra|lia].
Qed.
Lemma rest_all_iff v ii m row : rest_all v ii m row = true <-> forall k, (k < m - ii)%nat -> nth (ii + k) row 0 = v.
Proof.
  unfold rest_all. rewrite forallb_forall. split.
  - intros H k Hk. apply Reqb_true. apply H. apply in_seq. lia.
  - intros H j Hj. apply in_seq in Hj. apply Reqb_true. replace j with (ii + (j - ii))%nat by lia. apply H. lia.
Qed.
Section Binary.
Context (codes : list (list R)) (m : nat) (w : list R) (HB : binary_of m codes) (Hw : forall j, (j < m)%nat -> 0 < nth j w 0).
Lemma rest_weight_pos ii : (ii < m)%nat -> 0 < rest_weight w ii m.
Proof.
  intros H. unfold rest_weight. replace (m - ii)%nat with (S (m - ii - 1)) by lia. rewrite rsum_shift. rewrite Nat.add_0_r. pose proof (Hw ii H).
  assert (0 <= rsum (m - ii - 1) (fun i => nth (ii + S i) w 0)) by (apply rsum_nonneg; intros k Hk; apply Rlt_le, Hw; lia). lra.
Qed.
Lemma rest_bounds ii row : In row codes -> 0 <= rest_value row w ii m <= rest_weight w ii m.
Proof.
  intros Hr. destruct HB as (_ & Hb). split.
  - apply rsum_nonneg. intros k Hk. pose proof (Hw (ii + k) ltac:(lia)). destruct (Hb row (ii + k)%nat Hr) as [-> | ->]; lra.
  - apply rsum_le. intros k Hk. pose proof (Hw (ii + k) ltac:(lia)). destruct (Hb row (ii + k)%nat Hr) as [-> | ->]; lra.
Qed.
Lemma rest_zero_iff ii row : In row codes -> Rleb (rest_value row w ii m) 0 = rest_all 0 ii m row.
Proof.
  intros Hr. destruct HB as (_ & Hb). destruct (rest_all 0 ii m row) eqn:A.
  - apply Rleb_true. unfold rest_value. rewrite rsum_zero; [lra|]. intros k Hk. rewrite (proj1 (rest_all_iff _ _ _ _) A k Hk). ring.
  - apply Rleb_false. apply Rnot_le_lt. intros L. assert (B : rest_all 0 ii m row = true); [|congruence]. apply rest_all_iff. intros k Hk.
    assert (Z : nth (ii + k) row 0 * nth (ii + k) w 0 = 0) by (apply (rsum_nonneg_zero (m - ii) (fun k => nth (ii + k) row 0 * nth (ii + k) w 0)); [intros i Hi; pose proof (Hw (ii + i) ltac:(lia)); destruct (Hb row (ii + i)%nat Hr) as [-> | ->]; lra|exact L|exact Hk]).
    pose proof (Hw (ii + k) ltac:(lia)). destruct (Hb row (ii + k)%nat Hr) as [K|K]; [exact K|]. rewrite K in Z. lra.
Qed.
Lemma rest_one_iff ii row : In row codes -> Rleb (rest_weight w ii m) (rest_value row w ii m) = rest_all 1 ii m row.
Proof.
  intros Hr. destruct HB as (_ & Hb). destruct (rest_all 1 ii m row) eqn:A.
  - apply Rleb_true. apply Req_le, rsum_ext. intros k Hk. rewrite (proj1 (rest_all_iff _ _ _ _) A k Hk). ring.
  - apply Rleb_false. apply Rnot_le_lt. intros L. assert (B : rest_all 1 ii m row = true); [|congruence]. apply rest_all_iff. intros k Hk.
    assert (Z : (fun k => nth (ii + k) w 0 - nth (ii + k) row 0 * nth (ii + k) w 0) k = 0).
    { apply (rsum_nonneg_zero (m - ii) (fun k => nth (ii + k) w 0 - nth (ii + k) row 0 * nth (ii + k) w 0)); [intros i Hi; pose proof (Hw (ii + i) ltac:(lia)); destruct (Hb row (ii + i)%nat Hr) as [-> | ->]; lra| |exact Hk]. rewrite rsum_minus. unfold rest_weight, rest_value in L. lra. }
    cbv beta in Z. pose proof (Hw (ii + k) ltac:(lia)). destruct (Hb row (ii + k)%nat Hr) as [K|K]; [|exact K]. rewrite K in Z. lra.
Qed.
End Binary.
Lemma filter_ext_len {A} (p q : A -> bool) l : (forall x, In x l -> p x = q x) -> length (filter p l) = length (filter q l).
Proof. intros H. rewrite <- (map_id l) at 1. apply filter_map_len. exact H. Qed.
Lemma filter_disjoint {A} (p q : A -> bool) l : (forall x, In x l -> p x = true -> q x = true -> False) -> (length (filter p l) + length (filter q l) <= length l)%nat.
Proof.
  induction l as [|x t IH]; intros H; [cbn; lia|]. cbn [filter length]. specialize (IH (fun y Hy => H y (or_intror Hy))). pose proof (H x (or_introl eq_refl)) as K. destruct (p x), (q x); cbn [length]; try lia; exfalso; auto.
Qed.
Lemma filter_cover {A} (p q : A -> bool) l : (forall x, In x l -> p x = true -> q x = true -> False) -> (forall x, In x l -> p x = true \/ q x = true) -> (length (filter p l) + length (filter q l) = length l)%nat.
Proof.
  induction l as [|x t IH]; intros H C; [reflexivity|]. cbn [filter length]. specialize (IH (fun y Hy => H y (or_intror Hy)) (fun y Hy => C y (or_intror Hy))). pose proof (H x (or_introl eq_refl)) as K. pose proof (C x (or_introl eq_refl)) as K2. destruct (p x), (q x); cbn [length]; try lia; exfalso; auto; destruct K2; discriminate.
Qed.
Lemma filter_mono_len {A} (p q : A -> bool) l : (forall x, In x l -> p x = true -> q x = true) -> (length (filter p l) <= length (filter q l))%nat.
Proof.
  induction l as [|x t IH]; intros H; [cbn; lia|]. cbn [filter]. specialize (IH (fun y Hy => H y (or_intror Hy))). pose proof (H x (or_introl eq_refl)) as K. destruct (p x); [rewrite K by reflexivity; cbn [length]; lia|]. destruct (q x); cbn [length]; lia.
Qed.
Lemma percent_range p (rows : list (list R)) : rows <> [] -> 0 <= percent_of p rows <= 100.
Proof.
  intros H. unfold percent_of. assert (P : 0 < INR (length rows)) by (apply lt_0_INR; destruct rows; [congruence|cbn; lia]). pose proof (pos_INR (length (filter p rows))). pose proof (le_INR _ _ (filter_len_le p rows)).
  assert (0 <= INR (length (filter p rows)) / INR (length rows)) by (apply Rdiv_le_0_compat; lra). assert (INR (length (filter p rows)) / INR (length rows) <= 1) by (apply Rdiv_le_upper; lra). lra.
Qed.
(** Binary codes and positive weights: every reported residue is in [0,1]; underflow at bit ii means
    all bits from ii on are 0, overflow means all are 1; the percentages are in [0,100], add up to
    at most 100, and to exactly 100 at the last bit. *)
Lemma c41_binary codes m w ofb l ii : analyze_overflow codes m w ofb = Ok l -> binary_of m codes -> (forall j, (j < m)%nat -> 0 < nth j w 0) -> (ii < m)%nat ->
  exists mn mx pz po, nth_error l ii = Some (mn, mx, pz, po) /\ 0 <= mn /\ mn <= mx /\ mx <= 1 /\
    pz = percent_of (rest_all 0 ii m) codes /\ po = percent_of (rest_all 1 ii m) codes /\ 0 <= pz /\ 0 <= po /\ pz + po <= 100 /\ (S ii = m -> pz + po = 100).
Proof.
  intros E HB Hw Hi. destruct (overflow_inv _ _ _ _ _ E) as (Lw & _ & Hc & _). pose proof (rest_weight_pos m w Hw ii Hi) as HS.
  destruct (c41_stats codes m w ofb l ii E (proj1 HB) Hi HS) as (mn & mx & pz & po & _ & N & B & (r1 & R1 & E1) & (r2 & R2 & E2) & Pz & Po). exists mn, mx, pz, po. split; [exact N|].
  pose proof (rest_bounds codes m w HB Hw ii r1 R1) as B1. pose proof (rest_bounds codes m w HB Hw ii r2 R2) as B2.
  assert (P : 0 < INR (length codes)) by (apply lt_0_INR; destruct codes; [congruence|cbn; lia]).
  assert (Pz' : pz = percent_of (rest_all 0 ii m) codes) by (rewrite Pz; unfold percent_of; do 3 f_equal; apply filter_ext_len; intros row Hr; exact (rest_zero_iff codes m w HB Hw ii row Hr)).
  assert (Po' : po = percent_of (rest_all 1 ii m) codes) by (rewrite Po; unfold percent_of; do 3 f_equal; apply filter_ext_len; intros row Hr; exact (rest_one_iff codes m w HB Hw ii row Hr)).
  assert (Dj : forall row, In row codes -> rest_all 0 ii m row = true -> rest_all 1 ii m row = true -> False).
  { intros row _ A0 A1. pose proof (proj1 (rest_all_iff _ _ _ _) A0 O ltac:(lia)). pose proof (proj1 (rest_all_iff _ _ _ _) A1 O ltac:(lia)). lra. }
  split; [rewrite E1; apply Rdiv_le_0_compat; lra|]. split; [destruct (B r1 R1); lra|]. split; [rewrite E2; apply Rdiv_le_upper; lra|]. split; [exact Pz'|]. split; [exact Po'|].
  split; [rewrite Pz'; apply percent_range, Hc|]. split; [rewrite Po'; apply percent_range, Hc|]. rewrite Pz', Po'. unfold percent_of. split.
  - rewrite <- Rmult_plus_distr_l. unfold Rdiv. rewrite <- Rmult_plus_distr_r, <- plus_INR. pose proof (le_INR _ _ (filter_disjoint _ _ _ Dj)) as D. apply (Rmult_le_compat_r (/ INR (length codes))) in D; [|apply Rlt_le, Rinv_0_lt_compat, P]. rewrite Rinv_r in D by lra. lra.
  - intros Em. rewrite <- Rmult_plus_distr_l. unfold Rdiv. rewrite <- Rmult_plus_distr_r, <- plus_INR. rewrite filter_cover; [field; lra|exact Dj|]. intros row Hr. destruct (proj2 HB row ii Hr) as [K|K]; [left|right]; apply rest_all_iff; intros k Hk; replace k with O by lia; rewrite Nat.add_0_r; exact K.
Qed.
(** Both percentages can only grow from one bit to the next lower one. *)
Lemma c41_grows codes m w ofb l i j p q : analyze_overflow codes m w ofb = Ok l -> binary_of m codes -> (forall k, (k < m)%nat -> 0 < nth k w 0) -> (i <= j < m)%nat ->
  nth_error l i = Some p -> nth_error l j = Some q -> snd (fst p) <= snd (fst q) /\ snd p <= snd q.
Proof.
  intros E HB Hw Hij Np Nq. destruct (overflow_inv _ _ _ _ _ E) as (_ & _ & Hc & _). assert (P : 0 < INR (length codes)) by (apply lt_0_INR; destruct codes; [congruence|cbn; lia]).
  destruct (c41_binary codes m w ofb l i E HB Hw ltac:(lia)) as (a & b & pz & po & N1 & _ & _ & _ & Z1 & O1 & _). destruct (c41_binary codes m w ofb l j E HB Hw ltac:(lia)) as (a' & b' & qz & qo & N2 & _ & _ & _ & Z2 & O2 & _).
  rewrite N1 in Np. rewrite N2 in Nq. injection Np as <-. injection Nq as <-. cbn [fst snd].
  assert (G : forall v, percent_of (rest_all v i m) codes <= percent_of (rest_all v j m) codes).
  { intros v. unfold percent_of, Rdiv. apply Rmult_le_compat_l; [lra|]. apply Rmult_le_compat_r; [apply Rlt_le, Rinv_0_lt_compat, P|]. apply le_INR, filter_mono_len. intros row _ A. apply rest_all_iff. intros k Hk. replace (j + k)%nat with (i + (j - i + k))%nat by lia. apply (proj1 (rest_all_iff _ _ _ _) A). lia. }
  rewrite Z1, O1, Z2, O2. split; apply G.
Qed.
(** A weight vector of the wrong length is a ValueError; so is an empty record; a check position
    outside 1..2m is an IndexError (positions m+1..2m wrap around silently). *)
Lemma c41_errors codes m w ofb : (length w <> m -> analyze_overflow codes m w ofb = Err ValueError) /\
  (length w = m -> (0 < m)%nat -> codes = [] -> analyze_overflow codes m w ofb = Err ValueError) /\
  (length w = m -> (0 < m)%nat -> codes <> [] -> match ofb with None => exists l, analyze_overflow codes m w ofb = Ok l | Some b =>
     ((1 <= b <= 2 * Z.of_nat m)%Z -> exists l, analyze_overflow codes m w ofb = Ok l) /\ (~ (1 <= b <= 2 * Z.of_nat m)%Z -> analyze_overflow codes m w ofb = Err IndexError) end).
Proof.
  unfold analyze_overflow. split; [|split].
  - intros H. apply Nat.eqb_neq in H. rewrite H. reflexivity.
  - intros H M ->. apply Nat.eqb_eq in H. rewrite H. cbn [negb length Nat.eqb]. apply Nat.ltb_lt in M. rewrite M. reflexivity.
  - intros H M C. apply Nat.eqb_eq in H. rewrite H. cbn [negb]. replace (length codes =? 0)%nat with false by (destruct codes; [congruence|reflexivity]). cbn [andb]. destruct ofb as [b|].
    + split; intros K; match goal with |- context [if ?c then _ else _] => destruct c eqn:D end; try (eexists; reflexivity); try reflexivity; exfalso.
      * apply orb_true_iff in D. rewrite Z.ltb_lt, Z.leb_le in D. lia.
      * apply orb_false_iff in D. rewrite Z.ltb_ge, Z.leb_gt in D. lia.
    + match goal with |- context [if ?c then _ else _] => destruct c eqn:D end; [|eexists; reflexivity]. apply orb_true_iff in D. rewrite Z.ltb_lt, Z.leb_le in D. lia.
Qed.
(** Weights 2, 1 and codes 11, 00, 01: at the MSB 1/3 overflow and 1/3 underflow; at the LSB 2/3 and 1/3. *)
Lemma c41_values_ex : analyze_overflow [[1;1];[0;0];[0;1]] 2 [2;1] None = Ok [(0, 1, 1/3*100, 1/3*100); (0, 1, 1/3*100, 2/3*100)].
Proof.
  unfold analyze_overflow. cbn [length Nat.eqb negb andb Nat.ltb Nat.leb]. change (Z.of_nat 2 - Z.of_nat 2)%Z with 0%Z. cbn [orb Z.ltb Z.leb Z.compare Z.opp Z.of_nat Pos.of_succ_nat CompOpp]. f_equal. cbn [seq map]. unfold overflow_stat. cbn [length skipn map dot lsum hd tl lmin1 lmax1 fold_right].
  assert (A0 : (1 * 2 + (1 * 1 + 0)) / (2 + (1 + 0)) = 1) by field. assert (A1 : (0 * 2 + (0 * 1 + 0)) / (2 + (1 + 0)) = 0) by field. assert (A2 : (0 * 2 + (1 * 1 + 0)) / (2 + (1 + 0)) = 1/3) by field. rewrite A0, A1, A2.
  assert (B0 : (1 * 1 + 0) / (1 + 0) = 1) by field. assert (B1 : (0 * 1 + 0) / (1 + 0) = 0) by field. rewrite B0, B1.
  assert (N3 : INR 3 = 3) by (cbn; lra). rewrite N3.
  unfold count. cbn [filter].
  destruct (Rleb_spec 1 0); [lra|]. destruct (Rleb_spec 0 0); [|lra]. destruct (Rleb_spec (1/3) 0); [lra|]. destruct (Rleb_spec 1 1); [|lra]. destruct (Rleb_spec 1 (1/3)); [lra|]. cbn [length INR].
  f_equal; [|f_equal]; repeat (apply f_equal2; [|try lra]); unfold Rmin, Rmax; repeat (destruct (Rle_dec _ _); try lra).
Qed.

(** ** C42: weight radix and effective resolution *)
Lemma ascending_unique : forall l l', ascending l -> ascending l' -> Permutation l l' -> l = l'.
Proof.
  induction l as [|x t IH]; intros l' A A' P; [apply Permutation_nil in P; congruence|]. destruct l' as [|y u]; [apply Permutation_sym, Permutation_nil in P; discriminate|].
  destruct (ascending_tail _ _ A) as (At & Hx). destruct (ascending_tail _ _ A') as (Au & Hy).
  assert (E : x = y). { assert (Ix : In x (y :: u)) by (apply (Permutation_in _ P); left; reflexivity). assert (Iy : In y (x :: t)) by (apply (Permutation_in _ (Permutation_sym P)); left; reflexivity). destruct Ix as [Ix|Ix]; [congruence|]. destruct Iy as [Iy|Iy]; [congruence|]. apply Hx in Iy. apply Hy in Ix. lra. }
  subst y. f_equal. apply IH; [exact At|exact Au|apply Permutation_cons_inv with x; exact P].
Qed.
Lemma ascending_map c l : 0 < c -> ascending l -> ascending (map (fun x => c * x) l).
Proof. intros H A i j Hij Hj. rewrite map_length in Hj. rewrite !(nth_map_in _ _ _ 0) by lia. apply Rmult_le_compat_l; [lra|]. apply A; assumption. Qed.
Lemma rsort_perm_eq l l' : Permutation l l' -> rsort l = rsort l'.
Proof. intros P. apply ascending_unique; try apply rsort_ascending. rewrite <- !rsort_perm. exact P. Qed.
Lemma rsort_scale c l : 0 < c -> rsort (map (fun x => c * x) l) = map (fun x => c * x) (rsort l).
Proof. intros H. apply ascending_unique; [apply rsort_ascending|apply ascending_map; [exact H|apply rsort_ascending]|]. rewrite <- rsort_perm. apply Permutation_map, rsort_perm. Qed.
Lemma sort_desc_perm l : Permutation l (sort_desc l).
Proof. unfold sort_desc. rewrite <- Permutation_rev. apply rsort_perm. Qed.
Lemma sort_desc_length l : length (sort_desc l) = length l.
Proof. symmetry. apply Permutation_length, sort_desc_perm. Qed.
Lemma rev_decreasing l : ascending l -> decreasing (rev l).
Proof. intros A i j Hij Hj. rewrite rev_length in Hj. rewrite !rev_nth by lia. apply A; lia. Qed.
Lemma rev_ascending l : decreasing l -> ascending (rev l).
Proof. intros A i j Hij Hj. rewrite rev_length in Hj. rewrite !rev_nth by lia. apply A; lia. Qed.
Lemma sort_desc_decreasing l : decreasing (sort_desc l).
Proof. apply rev_decreasing, rsort_ascending. Qed.
Lemma sort_desc_id l : decreasing l -> sort_desc l = l.
Proof.
  intros D. unfold sort_desc. rewrite <- (rev_involutive l) at 2. f_equal. apply ascending_unique; [apply rsort_ascending|apply rev_ascending, D|]. rewrite <- rsort_perm. apply Permutation_rev.
Qed.
Lemma sort_desc_scale c l : 0 < c -> sort_desc (map (fun x => c * x) l) = map (fun x => c * x) (sort_desc l).
Proof. intros H. unfold sort_desc. rewrite rsort_scale by exact H. symmetry. apply map_rev. Qed.
Lemma removelast_len {A} (l : list A) : length (removelast l) = (length l - 1)%nat.
Proof. rewrite removelast_firstn_len, firstn_length. lia. Qed.
Lemma tl_len {A} (l : list A) : length (tl l) = (length l - 1)%nat.
Proof. destruct l; cbn; lia. Qed.
Lemma tl_nth (l : list R) i : nth i (tl l) 0 = nth (S i) l 0.
Proof. destruct l; [destruct i; reflexivity|reflexivity]. Qed.
Lemma ratios_length l : length (neighbour_ratios l) = (length l - 1)%nat.
Proof. unfold neighbour_ratios. rewrite map2_length; rewrite ?removelast_len, ?tl_len; lia. Qed.
Lemma ratios_nth l i : (S i < length l)%nat -> nth i (neighbour_ratios l) 0 = nth i l 0 / nth (S i) l 0.
Proof.
  intros H. unfold neighbour_ratios. rewrite (map2_nth _ _ _ i 0 0) by (rewrite ?removelast_len, ?tl_len; lia). rewrite removelast_nth' by exact H. rewrite tl_nth. reflexivity.
Qed.
Lemma sig_index_spec r : let k := sig_index r in (k <= length r)%nat /\ (forall i, (i < k)%nat -> nth i r 0 < 3) /\ ((k < length r)%nat -> 3 <= nth k r 0).
Proof.
  induction r as [|v t IH]; cbn [sig_index]; [repeat split; cbn; intros; lia|]. destruct (Rleb_spec 3 v) as [K|K]; cbv zeta.
  - repeat split; cbn; intros; try lia. exact K.
  - destruct IH as (I1 & I2 & I3). split; [cbn; lia|]. split.
    + intros [|i] Hi; [exact K|]. apply I2. lia.
    + intros Hk. apply I3. cbn in Hk. lia.
Qed.
Lemma significant_prefix a : a <> [] -> let s := sort_desc a in let k := sig_index (neighbour_ratios s) in significant a = firstn (S k) s /\ length (significant a) = S k /\ (S k <= length s)%nat.
Proof.
  intros Ha s k. destruct (sig_index_spec (neighbour_ratios s)) as (K & _). fold k in K. rewrite ratios_length in K. assert (0 < length s)%nat by (unfold s; rewrite sort_desc_length; destruct a; [congruence|cbn; lia]).
  unfold significant. fold s. fold k. split; [reflexivity|]. split; [rewrite firstn_length; lia|lia].
Qed.
(** The significant weights: the largest |w|, down to the first neighbouring ratio of 3 or more. *)
Lemma c42_significant weights r sca er : analyze_weight_radix weights = Ok (r, sca, er) -> exists s sig, 
  Permutation (map Rabs weights) s /\ decreasing s /\ sig = firstn (length sig) s /\ (1 <= length sig <= length s)%nat /\
  (forall i, (S i < length sig)%nat -> nth i s 0 / nth (S i) s 0 < 3) /\ ((length sig < length s)%nat -> 3 <= nth (length sig - 1) s 0 / nth (length sig) s 0) /\
  er = lg2 (lsum sig / nth (length sig - 1) s 0 + 1).
Proof.
  intros E. unfold analyze_weight_radix in E. destruct weights as [|w0 wt] eqn:W; [discriminate E|]. rewrite <- W in *. assert (Ha : map Rabs weights <> []) by (rewrite W; discriminate). clear W. apply Ok_inj in E. injection E as _ _ E.
  exists (sort_desc (map Rabs weights)), (significant (map Rabs weights)). destruct (significant_prefix _ Ha) as (S1 & S2 & S3). cbv zeta in *. set (s := sort_desc (map Rabs weights)) in *. set (k := sig_index (neighbour_ratios s)) in *.
  destruct (sig_index_spec (neighbour_ratios s)) as (K1 & K2 & K3). fold k in K1, K2, K3. rewrite ratios_length in K1, K3.
  split; [apply sort_desc_perm|]. split; [apply sort_desc_decreasing|]. split; [rewrite S2; exact S1|]. split; [rewrite S2; lia|]. rewrite S2. split; [|split].
  - intros i Hi. rewrite <- ratios_nth by lia. apply K2. lia.
  - intros Hk. cbn [Nat.sub]. rewrite Nat.sub_0_r, <- ratios_nth by lia. apply K3. lia.
  - rewrite <- E. unfold effres_of, lg2. rewrite last_nth, S2. rewrite S1 at 2. rewrite firstn_nth by lia. reflexivity.
Qed.
Lemma sig_in a x : In x (significant a) -> In x a.
Proof.
  intros H. apply (Permutation_in _ (Permutation_sym (sort_desc_perm a))). unfold significant in H. cbv zeta in H. rewrite <- (firstn_skipn (S (sig_index (neighbour_ratios (sort_desc a)))) (sort_desc a)). apply in_or_app. left. exact H.
Qed.
Lemma lsum_ge_min (l : list R) mn : (forall x, In x l -> mn <= x) -> INR (length l) * mn <= lsum l.
Proof.
  induction l as [|x t IH]; intros H; [cbn; lra|]. cbn [length lsum]. rewrite S_INR. pose proof (H x (or_introl eq_refl)). assert (INR (length t) * mn <= lsum t) by (apply IH; intros; apply H; right; assumption). lra.
Qed.
Lemma ln2_pos : 0 < ln 2. Proof. rewrite <- ln_1. apply ln_increasing; lra. Qed.
Lemma lg2_le x y : 0 < x -> x <= y -> lg2 x <= lg2 y.
Proof. intros H L. unfold lg2, Rdiv. apply Rmult_le_compat_r; [apply Rlt_le, Rinv_0_lt_compat, ln2_pos|]. destruct L as [L | ->]; [apply Rlt_le, ln_increasing; assumption|lra]. Qed.
Lemma sig_positive weights : (forall x, In x weights -> x <> 0) -> forall x, In x (significant (map Rabs weights)) -> 0 < x.
Proof. intros H x Hx. apply sig_in, in_map_iff in Hx. destruct Hx as (y & <- & Hy). apply Rabs_pos_lt, H, Hy. Qed.
Lemma sig_nonempty weights : weights <> [] -> significant (map Rabs weights) <> [].
Proof. intros H. destruct (significant_prefix (map Rabs weights)) as (_ & L & _); [destruct weights; [congruence|discriminate]|]. intros E. rewrite E in L. discriminate. Qed.
Lemma last_in (l : list R) : l <> [] -> In (last l 0) l.
Proof. intros H. rewrite last_nth. apply nth_In. destruct l; [congruence|cbn; lia]. Qed.
(** At least lg2 of one more than the number of significant weights, so at least one bit. *)
Lemma c42_lower weights r sca er : analyze_weight_radix weights = Ok (r, sca, er) -> (forall x, In x weights -> x <> 0) ->
  lg2 (INR (length (significant (map Rabs weights))) + 1) <= er /\ 1 <= er.
Proof.
  intros E Hw. unfold analyze_weight_radix in E. destruct weights as [|w0 wt] eqn:W; [discriminate E|]. rewrite <- W in *. assert (Hn : weights <> []) by (rewrite W; discriminate). clear W. apply Ok_inj in E. injection E as _ _ <-.
  set (sig := significant (map Rabs weights)). assert (Hs : sig <> []) by (apply sig_nonempty, Hn). pose proof (sig_positive weights Hw) as P. fold sig in P. pose proof (P _ (last_in _ Hs)) as Pl.
  assert (D : decreasing sig). { intros i j Hij Hj. unfold sig, significant in *. cbv zeta in *. rewrite firstn_length in Hj. rewrite !firstn_nth by lia. apply sort_desc_decreasing; lia. }
  assert (B : INR (length sig) <= lsum sig / last sig 0). { apply Rdiv_le_lower; [exact Pl|]. apply lsum_ge_min. intros x Hx. rewrite last_nth. destruct (In_nth _ _ 0 Hx) as (i & Hi & <-). apply D; lia. }
  assert (L1 : 1 <= INR (length sig)) by (apply (le_INR 1); destruct sig; [congruence|cbn; lia]). assert (G : lg2 (INR (length sig) + 1) <= effres_of sig) by (unfold effres_of; fold (lg2 (lsum sig / last sig 0 + 1)); apply lg2_le; lra).
  split; [exact G|]. apply Rle_trans with (2 := G). replace 1 with (lg2 2) at 1; [apply lg2_le; lra|]. unfold lg2. field. pose proof ln2_pos. lra.
Qed.
Lemma round_err_scale c sig s : 0 < c -> round_err (map (fun x => c * x) sig) (s / c) = round_err sig s.
Proof.
  intros H. unfold round_err, lmean. rewrite map_map, !map_length. do 3 f_equal. apply map_ext. intros x. replace (c * x * (s / c)) with (x * s) by (field; lra). reflexivity.
Qed.
Lemma refine_scale c sig top cands : 0 < c -> top <> 0 -> forall st, refine (map (fun x => c * x) sig) (c * top) cands (fst st, snd st / c) = (fst (refine sig top cands st), snd (refine sig top cands st) / c).
Proof.
  intros H Ht. induction cands as [|z t IH]; intros st; [reflexivity|]. cbn [refine]. cbv zeta. replace (IZR z / (c * top)) with (IZR z / top / c) by (field; lra). rewrite round_err_scale by exact H. cbn [fst].
  destruct (Rltb (round_err sig (IZR z / top)) (fst st)); [|apply IH]. exact (IH (round_err sig (IZR z / top), IZR z / top)).
Qed.
Lemma wgtsca_scale c sig top : 0 < c -> top <> 0 -> last sig 0 <> 0 -> wgtsca_of (map (fun x => c * x) sig) (c * top) = wgtsca_of sig top / c.
Proof.
  intros H Ht Hl. unfold wgtsca_of. cbv zeta. assert (Ls : last (map (fun x => c * x) sig) 0 = c * last sig 0).
  { rewrite !last_nth, map_length. destruct sig as [|v t]; [cbn; ring|]. rewrite (nth_map_in _ _ _ 0) by (cbn; lia). reflexivity. }
  rewrite Ls. replace (1 / (c * last sig 0)) with (1 / last sig 0 / c) by (field; lra). replace (c * top * (1 / last sig 0 / c)) with (top * (1 / last sig 0)) by (field; lra). rewrite round_err_scale by exact H.
  set (cands := zrange _ _). change (round_err sig (1 / last sig 0), 1 / last sig 0 / c) with (fst (round_err sig (1 / last sig 0), 1 / last sig 0), snd (round_err sig (1 / last sig 0), 1 / last sig 0) / c). rewrite refine_scale by assumption. reflexivity.
Qed.
(** Scaling by c, flipping signs and permuting leaves effres unchanged and divides wgtsca by |c|. *)
Lemma c42_invariant w w' c r sca er : 0 < c -> (forall x, In x w -> x <> 0) -> Permutation (map Rabs w') (map (fun x => c * Rabs x) w) ->
  analyze_weight_radix w = Ok (r, sca, er) -> exists r', analyze_weight_radix w' = Ok (r', sca / c, er).
Proof.
  intros Hc Hw P E. unfold analyze_weight_radix in E. destruct w as [|w0 wt] eqn:W; [discriminate E|]. rewrite <- W in *. assert (Hn : w <> []) by (rewrite W; discriminate). clear W. apply Ok_inj in E. injection E as _ Es Ee.
  assert (Hn' : w' <> []) by (intros ->; apply Permutation_nil in P; destruct w; [congruence|discriminate]).
  assert (SD : sort_desc (map Rabs w') = map (fun x => c * x) (sort_desc (map Rabs w))). { unfold sort_desc at 1. rewrite (rsort_perm_eq _ _ P). fold (sort_desc (map (fun x => c * Rabs x) w)). rewrite <- (map_map Rabs (fun x => c * x)). apply sort_desc_scale, Hc. }
  set (s := sort_desc (map Rabs w)) in *.
  assert (Pos : forall i, (i < length s)%nat -> 0 < nth i s 0). { intros i Hi. assert (I : In (nth i s 0) (map Rabs w)) by (apply (Permutation_in _ (Permutation_sym (sort_desc_perm _))), nth_In, Hi). apply in_map_iff in I. destruct I as (y & <- & Hy). apply Rabs_pos_lt, Hw, Hy. }
  assert (RR : neighbour_ratios (map (fun x => c * x) s) = neighbour_ratios s).
  { apply (nth_ext _ _ 0 0); [rewrite !ratios_length, map_length; reflexivity|]. intros i Hi. rewrite ratios_length, map_length in Hi. rewrite !ratios_nth by (rewrite ?map_length; lia). rewrite !(nth_map_in _ _ _ 0) by lia. pose proof (Pos (S i) ltac:(lia)). field. lra. }
  assert (SG : significant (map Rabs w') = map (fun x => c * x) (significant (map Rabs w))). { unfold significant. cbv zeta. rewrite SD. fold s. rewrite RR. apply firstn_map. }
  pose proof (sig_nonempty w Hn) as Ns. set (sig := significant (map Rabs w)) in *. pose proof (sig_positive w Hw _ (last_in _ Ns)) as Pl. fold sig in Pl.
  assert (Ls : (0 < length s)%nat) by (unfold s; rewrite sort_desc_length, map_length; destruct w; [congruence|cbn; lia]).
  assert (Hd : hd 0 (sort_desc (map Rabs w')) = c * hd 0 s) by (rewrite SD; destruct s; [cbn in Ls; lia|reflexivity]). assert (Pt : 0 < hd 0 s) by (pose proof (Pos O Ls) as K; destruct s; [cbn in Ls; lia|exact K]).
  exists (radix_list (map Rabs w')). unfold analyze_weight_radix. destruct w' as [|x' t'] eqn:W'; [congruence|]. rewrite <- W' in *. rewrite Hd, SG. f_equal. f_equal; [f_equal|].
  - rewrite <- Es. apply wgtsca_scale; lra.
  - rewrite <- Ee. unfold effres_of. rewrite lsum_map_scale. f_equal. f_equal. f_equal. rewrite !last_nth, map_length. rewrite (nth_map_in _ _ _ 0) by (destruct sig; [congruence|cbn; lia]). rewrite <- last_nth. field. lra.
Qed.
Lemma round_dist x : (x - IZR (round_he x)) ^ 2 = int_dist x ^ 2.
Proof.
  assert (E : Rabs (x - IZR (round_he x)) = int_dist x).
  { pose proof (Zfloor_lb x) as L. pose proof (Zfloor_ub x) as U. pose proof (round_he_dist x (Zfloor x)) as D1. pose proof (round_he_dist x (Zfloor x + 1)) as D2. rewrite plus_IZR in D2. rewrite (Rabs_right (x - IZR (Zfloor x))) in D1 by lra. rewrite (Rabs_left1 (x - (IZR (Zfloor x) + 1))) in D2 by lra.
    assert (G : int_dist x <= Rabs (x - IZR (round_he x))). { unfold int_dist. destruct (Z.le_gt_cases (round_he x) (Zfloor x)) as [K|K].
      - apply IZR_le in K. rewrite Rabs_right by lra. apply Rle_trans with (1 := Rmin_l _ _). lra.
      - assert (K' : (Zfloor x + 1 <= round_he x)%Z) by lia. apply IZR_le in K'. rewrite plus_IZR in K'. rewrite Rabs_left1 by lra. apply Rle_trans with (1 := Rmin_r _ _). lra. }
    apply Rle_antisym; [|exact G]. unfold int_dist. apply Rmin_glb; lra. }
  rewrite <- E. symmetry. apply pow2_abs.
Qed.
Lemma round_err_eq sig s : round_err sig s = scale_error sig s.
Proof.
  unfold round_err, scale_error, lmean. rewrite map_length. do 2 f_equal. rewrite lsum_rsum, map_length. apply rsum_ext. intros i Hi. rewrite (nth_map_in _ _ _ 0) by exact Hi. apply round_dist.
Qed.
Lemma zrange_in z a b : In z (zrange a b) <-> (a <= z <= b)%Z.
Proof.
  unfold zrange. rewrite in_map_iff. split.
  - intros (i & <- & Hi). apply in_seq in Hi. lia.
  - intros H. exists (Z.to_nat (z - a)). split; [lia|]. apply in_seq. lia.
Qed.
Lemma refine_best sig top cands : forall st, fst st = round_err sig (snd st) -> let r := refine sig top cands st in
  fst r = round_err sig (snd r) /\ fst r <= fst st /\ (forall z, In z cands -> fst r <= round_err sig (IZR z / top)) /\ (snd r = snd st \/ exists z, In z cands /\ snd r = IZR z / top) /\ (fst st <= fst r -> r = st).
Proof.
  induction cands as [|c t IH]; intros st Hst; cbv zeta; cbn [refine].
  - split; [exact Hst|]. split; [lra|]. split; [intros z []|]. split; [left; reflexivity|intros _; reflexivity].
  - cbv zeta. destruct (Rltb_spec (round_err sig (IZR c / top)) (fst st)) as [L|L].
    + destruct (IH (round_err sig (IZR c / top), IZR c / top) eq_refl) as (R1 & R2 & R3 & R4 & R5). cbn [fst snd] in *. split; [exact R1|]. split; [lra|]. split; [intros z [<- | Hz]; [exact R2|apply R3, Hz]|]. split.
      * right. destruct R4 as [R4 | (z & Hz & R4)]; [exists c; split; [left; reflexivity|exact R4]|exists z; split; [right; exact Hz|exact R4]].
      * intros K. exfalso. lra.
    + destruct (IH st Hst) as (R1 & R2 & R3 & R4 & R5). split; [exact R1|]. split; [exact R2|]. split; [intros z [<- | Hz]; [lra|apply R3, Hz]|]. split; [|exact R5].
      destruct R4 as [R4 | (z & Hz & R4)]; [left; exact R4|right; exists z; split; [right; exact Hz|exact R4]].
Qed.
Lemma radix_inv weights r sca er : analyze_weight_radix weights = Ok (r, sca, er) -> weights <> [] /\ r = radix_list (map Rabs weights) /\
  sca = wgtsca_of (significant (map Rabs weights)) (hd 0 (sort_desc (map Rabs weights))) /\ er = effres_of (significant (map Rabs weights)).
Proof. intros E. unfold analyze_weight_radix in E. destruct weights as [|w0 wt]; [discriminate E|]. apply Ok_inj in E. injection E as <- <- <-. repeat split. discriminate. Qed.
Lemma round_err_nonneg sig s : 0 <= round_err sig s. Proof. apply sqrt_pos. Qed.
(** wgtsca is positive and no worse than 1/min or than any z/max with z between half and one and a
    half times round(max/min); it is 1/min when that makes every significant weight an integer. *)
Lemma c42_scale weights r sca er : analyze_weight_radix weights = Ok (r, sca, er) -> (forall x, In x weights -> x <> 0) ->
  let sig := significant (map Rabs weights) in let mn := last sig 0 in let mx := hd 0 sig in let i0 := round_he (mx / mn) in
  0 < sca /\ scale_error sig sca <= scale_error sig (1 / mn) /\
  (forall z, (1 <= z)%Z -> (round_he (IZR i0 * 0.5) <= z <= round_he (IZR i0 * 1.5))%Z -> scale_error sig sca <= scale_error sig (IZR z / mx)) /\
  (scale_error sig (1 / mn) = 0 -> sca = 1 / mn).
Proof.
  intros E Hw sig mn mx i0. destruct (radix_inv _ _ _ _ E) as (Hn & _ & Es & _). symmetry in Es. fold sig in Es.
  assert (Hs : sig <> []) by (apply sig_nonempty, Hn). pose proof (sig_positive weights Hw) as P. fold sig in P. pose proof (P _ (last_in _ Hs)) as Pl. fold mn in Pl.
  assert (Top : hd 0 (sort_desc (map Rabs weights)) = mx). { unfold mx, sig, significant. cbv zeta. destruct (sort_desc (map Rabs weights)); reflexivity. } rewrite Top in Es.
  assert (Pm : 0 < mx) by (apply P; unfold mx; destruct sig; [congruence|left; reflexivity]).
  unfold wgtsca_of in Es. cbv zeta in Es. fold mn in Es. replace (mx * (1 / mn)) with (mx / mn) in Es by (field; lra). fold i0 in Es. set (lo := Z.max 1 (round_he (IZR i0 * 0.5))) in *. set (hi := Z.max lo (round_he (IZR i0 * 1.5))) in *.
  destruct (refine_best sig mx (zrange lo hi) (round_err sig (1 / mn), 1 / mn) eq_refl) as (R1 & R2 & R3 & R4 & R5). set (rr := refine sig mx (zrange lo hi) (round_err sig (1 / mn), 1 / mn)) in *. cbn [fst snd] in R2, R4, R5. rewrite <- !round_err_eq. rewrite <- Es, <- R1. split; [|split; [exact R2|split]].
  - destruct R4 as [R4 | (z & Hz & R4)]; rewrite R4; [apply Rdiv_lt_0_compat; lra|]. apply zrange_in in Hz. apply Rdiv_lt_0_compat; [apply (IZR_lt 0); lia|exact Pm].
  - intros z Hz Hz2. rewrite <- round_err_eq. apply R3, zrange_in. lia.
  - intros Z. assert (K : rr = (round_err sig (1 / mn), 1 / mn)) by (apply R5; rewrite Z, R1; apply round_err_nonneg). rewrite K. reflexivity.
Qed.
(** radix[0] is nan and radix[i]*|w[i]| = |w[i-1]|. *)
Lemma c42_radix weights r sca er i : analyze_weight_radix weights = Ok (r, sca, er) -> length r = length weights /\ nth_error r 0 = Some NaN /\
  ((S i < length weights)%nat -> nth (S i) weights 0 <> 0 -> exists q, nth_error r (S i) = Some (Fin q) /\ q * Rabs (nth (S i) weights 0) = Rabs (nth i weights 0)).
Proof.
  intros E. unfold analyze_weight_radix in E. destruct weights as [|w0 wt] eqn:W; [discriminate E|]. rewrite <- W in *. assert (Hn : (0 < length weights)%nat) by (rewrite W; cbn; lia). clear W. apply Ok_inj in E. injection E as <- _ _. unfold radix_list. set (a := map Rabs weights).
  assert (La : length a = length weights) by apply map_length. assert (Lm : length (map2 (fun p q => Fin (p / q)) (removelast a) (tl a)) = (length weights - 1)%nat) by (rewrite map2_length; rewrite ?removelast_len, ?tl_len; lia).
  split; [cbn [length]; rewrite Lm; lia|]. split; [reflexivity|]. intros Hi Hz. exists (Rabs (nth i weights 0) / Rabs (nth (S i) weights 0)). split; [|field; apply Rabs_no_R0, Hz].
  cbn [nth_error]. rewrite (nth_error_nth' _ NaN) by (rewrite Lm; lia). rewrite (map2_nth _ _ _ i 0 0) by (rewrite ?removelast_len, ?tl_len; lia). rewrite removelast_nth', tl_nth by lia. unfold a. rewrite !(nth_map_in _ _ _ 0) by lia. reflexivity.
Qed.
Lemma binary_nth m i : (i < m)%nat -> nth i (binary_weights m) 0 = 2 ^ (m - 1 - i).
Proof. intros H. unfold binary_weights. rewrite (nth_map_in _ _ _ 0%nat) by (rewrite seq_length; exact H). rewrite seq_nth by exact H. reflexivity. Qed.
Lemma binary_length m : length (binary_weights m) = m.
Proof. unfold binary_weights. rewrite map_length, seq_length. reflexivity. Qed.
Lemma binary_sum m : lsum (binary_weights m) = 2 ^ m - 1.
Proof.
  rewrite lsum_rsum, binary_length. rewrite (rsum_ext m _ (fun i => 2 ^ (m - 1 - i))) by (intros i Hi; apply binary_nth, Hi). destruct m as [|m]; [cbn; lra|]. replace (S m - 1)%nat with m by lia. rewrite (rsum_rev m (fun k => 2 ^ k)).
  induction m as [|m IH]; [cbn; lra|]. change (rsum (S (S m)) (fun k => 2 ^ k)) with (rsum (S m) (fun k => 2 ^ k) + 2 ^ (S m)). rewrite IH. cbn [pow]. ring.
Qed.
(** The n-bit binary array (n >= 1) has effective resolution n and scale 1. *)
Lemma c42_binary n : (1 <= n)%nat -> exists r, analyze_weight_radix (map (fun i => 2 ^ (n - 1 - i)) (seq 0 n)) = Ok (r, 1, INR n).
Proof.
  intros Hn. fold (binary_weights n). set (b := binary_weights n). assert (Hb : b <> []) by (intros E; pose proof (binary_length n) as L; fold b in L; rewrite E in L; cbn in L; lia).
  assert (Pb : forall x, In x b -> 0 < x) by (intros x Hx; unfold b, binary_weights in Hx; apply in_map_iff in Hx; destruct Hx as (i & <- & _); apply pow_lt; lra).
  assert (Ab : map Rabs b = b) by (rewrite <- (map_id b) at 2; apply map_ext_in; intros x Hx; apply Rabs_right; pose proof (Pb x Hx); lra).
  assert (Db : decreasing b). { intros i j Hij Hj. unfold b in *. rewrite binary_length in Hj. rewrite !binary_nth by lia. apply Rle_pow; [lra|lia]. }
  assert (Sb : sort_desc (map Rabs b) = b) by (rewrite Ab; apply sort_desc_id, Db).
  assert (Len : length b = n) by apply binary_length.
  assert (K : sig_index (neighbour_ratios b) = (n - 1)%nat). { destruct (sig_index_spec (neighbour_ratios b)) as (K1 & K2 & K3). cbv zeta in K1, K2, K3. rewrite ratios_length, Len in K1, K3. destruct (Nat.lt_ge_cases (sig_index (neighbour_ratios b)) (n - 1)) as [L|L]; [|lia]. specialize (K3 L). exfalso.
    rewrite ratios_nth in K3 by lia. set (k := sig_index (neighbour_ratios b)) in *. unfold b in K3. rewrite !binary_nth in K3 by lia. replace (n - 1 - k)%nat with (S (n - 1 - S k)) in K3 by lia. cbn [pow] in K3. set (p := 2 ^ (n - 1 - S k)) in *. assert (0 < p) by (apply pow_lt; lra). replace (2 * p / p) with 2 in K3 by (field; lra). lra. }
  assert (Sg : significant (map Rabs b) = b) by (unfold significant; cbv zeta; rewrite Sb, K; apply firstn_all2; unfold b; rewrite binary_length; lia).
  assert (Lb : last b 0 = 1) by (rewrite last_nth; unfold b; rewrite binary_length, binary_nth by lia; replace (n - 1 - (n - 1))%nat with O by lia; reflexivity).
  destruct (analyze_weight_radix b) as [[[r sca] er]|e] eqn:E; [|exfalso; unfold analyze_weight_radix in E; destruct b; [congruence|discriminate E]].
  exists r. destruct (c42_scale b r sca er E) as (_ & _ & _ & Z); [intros x Hx; pose proof (Pb x Hx); lra|]. cbv zeta in Z. rewrite Sg, Lb in Z.
  assert (SE : scale_error b (1 / 1) = 0). { unfold scale_error. rewrite rsum_zero; [unfold Rdiv; rewrite Rmult_0_l; apply sqrt_0|]. intros i Hi. unfold b in *. rewrite binary_length in Hi. rewrite binary_nth by exact Hi. replace (2 ^ (n - 1 - i) * (1 / 1)) with (IZR (2 ^ Z.of_nat (n - 1 - i))) by (rewrite <- pow_IZR; field).
    unfold int_dist. rewrite Zfloor_IZR. rewrite Rmin_left by lra. ring. }
  rewrite (Z SE). replace (1 / 1) with 1 by field. f_equal. f_equal. clear Z SE.
  destruct (radix_inv _ _ _ _ E) as (_ & _ & _ & ->). rewrite Sg. unfold effres_of. rewrite Lb. unfold b. rewrite binary_sum.
  replace ((2 ^ n - 1) / 1 + 1) with (2 ^ n) by field. rewrite ln_pow by lra. field. pose proof ln2_pos. lra.
Qed.
(** An empty weight list is an IndexError. *)
Lemma c42_empty : analyze_weight_radix [] = Err IndexError.
Proof. reflexivity. Qed.
(** Weights 100, 2, 1: the ratio 50 cuts everything after 100, so effres is exactly 1 bit. *)
Lemma c42_cut_ex : exists r sca, analyze_weight_radix [100; 2; 1] = Ok (r, sca, 1).
Proof.
  unfold analyze_weight_radix. do 2 eexists. f_equal. f_equal. cbn [map]. rewrite !Rabs_right by lra.
  assert (S : sort_desc [100; 2; 1] = [100; 2; 1]). { apply sort_desc_id. intros i j Hij Hj. cbn in Hj. destruct j as [|[|[|j]]]; destruct i as [|[|[|i]]]; cbn; try lra; lia. }
  unfold significant. cbv zeta. rewrite S. unfold neighbour_ratios. cbn [removelast tl map2 sig_index]. destruct (Rleb_spec 3 (100 / 2)); [|lra]. cbn [firstn]. unfold effres_of. cbn [lsum last]. replace ((100 + 0) / 100 + 1) with 2 by field. field. pose proof ln2_pos. lra.
Qed.

(** ** C43: residual scatter *)
Lemma slice_nat {A} n (l : list A) : slice_to (Z.of_nat n) l = firstn n l.
Proof. unfold slice_to. destruct (Z.ltb_spec (Z.of_nat n) 0); [lia|]. rewrite Nat2Z.id. reflexivity. Qed.
Lemma residual_nat signal bits m w n res i : residual signal bits m w (Z.of_nat n) = Ok res -> length w = m -> matrix_of m bits -> length signal = length bits -> (n <= m)%nat -> (i < length signal)%nat ->
  length res = length signal /\ nth i res 0 = nth i signal 0 - bits_between (nth i bits []) w 0 n.
Proof.
  intros E Lw HM Ls Hn Hi. unfold residual in E. destruct (Z.eqb_spec (Z.of_nat n) 0) as [Z|Z].
  - apply Ok_inj in E. subst res. split; [reflexivity|]. replace n with O by lia. unfold bits_between. cbn [Nat.sub rsum]. ring.
  - match type of E with (if ?c then _ else _) = _ => destruct c eqn:C; [discriminate E|] end. apply Ok_inj in E. subst res. split; [apply map2_length, Ls|]. rewrite (map2_nth _ _ _ i 0 []) by lia. f_equal. rewrite !slice_nat.
    assert (Lr : length (nth i bits []) = m) by (apply HM, nth_In; lia). rewrite dot_rsum by (rewrite !firstn_length; lia). rewrite firstn_length, Lr. rewrite Nat.min_l by lia. unfold bits_between. rewrite Nat.sub_0_r. apply rsum_ext. intros k Hk. rewrite !firstn_nth by lia. reflexivity.
Qed.
Lemma pairs_nth signal bits m w : forall ps rx ry, residual_pairs signal bits m w ps = Ok (rx, ry) -> length rx = length ps /\ length ry = length ps /\
  forall p x y, nth_error ps p = Some (x, y) -> exists a b, nth_error rx p = Some a /\ nth_error ry p = Some b /\ residual signal bits m w x = Ok a /\ residual signal bits m w y = Ok b.
Proof.
  induction ps as [|[x0 y0] t IH]; intros rx ry E; cbn [residual_pairs] in E.
  - injection E as <- <-. split; [reflexivity|]. split; [reflexivity|]. intros p x y H. destruct p; discriminate H.
  - destruct (residual signal bits m w x0) as [a|] eqn:Ea; [|discriminate E]. destruct (residual signal bits m w y0) as [b|] eqn:Eb; [|discriminate E]. destruct (residual_pairs signal bits m w t) as [[u v]|] eqn:Et; [|discriminate E].
    cbn [bind fst snd] in E. injection E as <- <-. destruct (IH u v eq_refl) as (L1 & L2 & V). split; [cbn [length]; congruence|]. split; [cbn [length]; congruence|]. intros p x y H. destruct p as [|p]; [injection H as <- <-; exists a, b; repeat split; assumption|]. exact (V p x y H).
Qed.
Lemma scatter_inv signal bits m w pairs auto ps rx ry : plot_residual_scatter signal bits m w pairs auto = Ok (ps, rx, ry) ->
  length signal = length bits /\ ps = match pairs with None => map (fun i => (Z.of_nat i, Z.of_nat m)) (seq 0 m) | Some p => p end /\
  residual_pairs signal bits m (match w with None => binary_weights m | Some w => w end) ps = Ok (rx, ry).
Proof.
  intros E. unfold plot_residual_scatter in E. destruct (Nat.eqb_spec (length signal) (length bits)) as [L|L]; [|discriminate E]. cbn [negb] in E. split; [exact L|]. match type of E with (if ?c then _ else _) = _ => destruct c; [discriminate E|] end.
  match type of E with bind ?r _ = _ => destruct r as [[u v]|] eqn:R; [|discriminate E] end. cbn [bind fst snd] in E. injection E as <- <- <-. split; [reflexivity|exact R].
Qed.
(** For a pair (x, y) with 0 <= x <= y <= m, at every sample the x-residual minus the y-residual is
    exactly the weighted sum of bits x..y-1, and the x-residual is the signal when x = 0. *)
Lemma c43_telescope signal bits m w pairs auto ps rx ry p x y i : plot_residual_scatter signal bits m (Some w) pairs auto = Ok (ps, rx, ry) -> length w = m -> matrix_of m bits ->
  nth_error ps p = Some (Z.of_nat x, Z.of_nat y) -> (x <= y <= m)%nat -> (i < length signal)%nat ->
  exists a b, nth_error rx p = Some a /\ nth_error ry p = Some b /\ length a = length signal /\ length b = length signal /\
    nth i a 0 - nth i b 0 = bits_between (nth i bits []) w x y /\ nth i b 0 = nth i signal 0 - bits_between (nth i bits []) w 0 y /\ (x = O -> a = signal).
Proof.
  intros E Lw HM Np Hxy Hi. destruct (scatter_inv _ _ _ _ _ _ _ _ _ E) as (Ls & _ & R). destruct (pairs_nth _ _ _ _ _ _ _ R) as (_ & _ & V). destruct (V p _ _ Np) as (a & b & Na & Nb & Ra & Rb). exists a, b. split; [exact Na|]. split; [exact Nb|].
  destruct (residual_nat _ _ _ _ _ _ i Ra Lw HM Ls ltac:(lia) Hi) as (La & Va). destruct (residual_nat _ _ _ _ _ _ i Rb Lw HM Ls ltac:(lia) Hi) as (Lb & Vb). split; [exact La|]. split; [exact Lb|]. split; [|split; [exact Vb|]].
  - rewrite Va, Vb. unfold bits_between. rewrite !Nat.sub_0_r. replace y with (x + (y - x))%nat at 1 by lia. rewrite rsum_app. cbn [Nat.add]. ring.
  - intros ->. unfold residual in Ra. cbn [Z.of_nat Z.eqb] in Ra. apply Ok_inj in Ra. congruence.
Qed.
(** Any integer index is accepted as a Python slice end: beyond m it means all bits, and -k means all but the
    last k bits (none if k >= m). *)
Lemma c43_any_index signal bits m w pairs auto ps rx ry p zx zy i : plot_residual_scatter signal bits m (Some w) pairs auto = Ok (ps, rx, ry) -> length w = m -> matrix_of m bits ->
  nth_error ps p = Some (zx, zy) -> (i < length signal)%nat ->
  let removed z := if (z <? 0)%Z then Z.to_nat (Z.of_nat m + z) else Nat.min m (Z.to_nat z) in
  exists a b, nth_error rx p = Some a /\ nth_error ry p = Some b /\
    nth i a 0 = nth i signal 0 - bits_between (nth i bits []) w 0 (removed zx) /\ nth i b 0 = nth i signal 0 - bits_between (nth i bits []) w 0 (removed zy).
Proof.
  intros E Lw HM Np Hi removed. destruct (scatter_inv _ _ _ _ _ _ _ _ _ E) as (Ls & _ & RP). destruct (pairs_nth _ _ _ _ _ _ _ RP) as (_ & _ & V). destruct (V p _ _ Np) as (a & b & Na & Nb & Ra & Rb). exists a, b. split; [exact Na|]. split; [exact Nb|].
  assert (G : forall z res, residual signal bits m w z = Ok res -> nth i res 0 = nth i signal 0 - bits_between (nth i bits []) w 0 (removed z)).
  { intros z res Q. assert (Lr : length (nth i bits []) = m) by (apply HM, nth_In; lia).
    assert (SL : forall l : list R, length l = m -> slice_to z l = firstn (removed z) l).
    { intros l Ll. unfold slice_to, removed. rewrite Ll. destruct (z <? 0)%Z; [reflexivity |]. destruct (Nat.le_gt_cases (Z.to_nat z) m); [rewrite Nat.min_r by lia; reflexivity |]. rewrite Nat.min_l by lia. rewrite !firstn_all2 by lia. reflexivity. }
    assert (RM : (removed z <= m)%nat) by (unfold removed; destruct (Z.ltb_spec z 0); lia).
    unfold residual in Q. destruct (Z.eqb_spec z 0) as [Z0|Z0].
    - apply Ok_inj in Q. subst res z. unfold removed. cbn [Z.ltb Z.compare Z.to_nat]. rewrite Nat.min_0_r. unfold bits_between. cbn [Nat.sub rsum]. ring.
    - match type of Q with (if ?c then _ else _) = _ => destruct c eqn:C; [discriminate Q|] end. apply Ok_inj in Q. subst res. rewrite (map2_nth _ _ _ i 0 []) by lia. f_equal. rewrite !SL by assumption.
      rewrite dot_rsum by (rewrite !firstn_length; lia). rewrite firstn_length, Lr. rewrite Nat.min_l by lia. unfold bits_between. rewrite Nat.sub_0_r. apply rsum_ext. intros k Hk. rewrite !firstn_nth by lia. reflexivity. }
  split; apply G; assumption.
Qed.
(** Defaults: pairs (0,m), (1,m), ..., (m-1,m), and if every row is the binary code of its sample the
    residual after all bits is zero everywhere. *)
Lemma c43_exact signal bits m auto ps rx ry p i : plot_residual_scatter signal bits m None None auto = Ok (ps, rx, ry) -> matrix_of m bits ->
  (forall k, (k < length signal)%nat -> nth k signal 0 = rsum m (fun j => nth j (nth k bits []) 0 * 2 ^ (m - 1 - j))) -> (p < m)%nat -> (i < length signal)%nat ->
  length ps = m /\ nth_error ps p = Some (Z.of_nat p, Z.of_nat m) /\ exists b, nth_error ry p = Some b /\ length b = length signal /\ nth i b 0 = 0.
Proof.
  intros E HM Hc Hp Hi. destruct (scatter_inv _ _ _ _ _ _ _ _ _ E) as (Ls & Eps & R). assert (Np : nth_error ps p = Some (Z.of_nat p, Z.of_nat m)) by (rewrite Eps, nth_error_map, (nth_error_nth' _ 0%nat) by (rewrite seq_length; exact Hp); rewrite seq_nth by exact Hp; reflexivity).
  split; [rewrite Eps, map_length, seq_length; reflexivity|]. split; [exact Np|]. destruct (pairs_nth _ _ _ _ _ _ _ R) as (_ & _ & V). destruct (V p _ _ Np) as (a & b & _ & Nb & _ & Rb). exists b. split; [exact Nb|].
  destruct (residual_nat _ _ _ _ _ _ i Rb (binary_length m) HM Ls ltac:(lia) Hi) as (Lb & Vb). split; [exact Lb|]. rewrite Vb, Hc by exact Hi. unfold bits_between. rewrite Nat.sub_0_r. rewrite <- rsum_minus. apply rsum_zero. intros j Hj. cbn [Nat.add]. rewrite binary_nth by exact Hj. ring.
Qed.
(** A signal of the wrong length is a ValueError. *)
Lemma c43_errors signal bits m w pairs auto : length signal <> length bits -> plot_residual_scatter signal bits m w pairs auto = Err ValueError.
Proof. intros H. unfold plot_residual_scatter. apply Nat.eqb_neq in H. rewrite H. reflexivity. Qed.
(** One sample 2.5 with bits 10: residuals 2.5 (no bits), 0.5 (MSB removed), 0.5 (all removed). *)
Lemma c43_values_ex : plot_residual_scatter [2.5] [[1;0]] 2 None None false = Ok ([(0,2);(1,2)]%Z, [[2.5];[0.5]], [[0.5];[0.5]]).
Proof.
  unfold plot_residual_scatter. cbn [length Nat.eqb negb andb seq map Z.of_nat Pos.of_succ_nat]. cbn [residual_pairs]. unfold residual, slice_to, binary_weights. cbn -[pow]. cbn [pow]. unfold Pos.to_nat. cbn -[pow].
  repeat f_equal; lra.
Qed.

(** ** C72: bit activity *)
Lemma activity_nth bits B j : (j < B)%nat -> nth j (bit_activity bits B) 0 = lmean (map (fun row => nth j row 0) bits) * 100.
Proof. intros H. unfold bit_activity. rewrite (nth_map_in _ _ _ 0%nat) by (rewrite seq_length; exact H). rewrite seq_nth by exact H. reflexivity. Qed.
(** For a binary record, entry j is the percentage of rows whose bit j is 1, hence in [0,100]. *)
Lemma c72_percentage bits B j : bits <> [] -> binary_of B bits -> (j < B)%nat -> length (bit_activity bits B) = B /\
  nth j (bit_activity bits B) 0 = percent_of (fun row => Reqb (nth j row 0) 1) bits /\ 0 <= nth j (bit_activity bits B) 0 <= 100.
Proof.
  intros Hn (_ & Hb) Hj. split; [unfold bit_activity; rewrite map_length, seq_length; reflexivity|]. assert (E : nth j (bit_activity bits B) 0 = percent_of (fun row => Reqb (nth j row 0) 1) bits).
  { rewrite activity_nth by exact Hj. unfold lmean, percent_of. rewrite map_length, Rmult_comm. do 2 f_equal. clear Hn. induction bits as [|row t IH]; [reflexivity|]. cbn [map lsum filter]. rewrite IH by (intros r k Hr; apply Hb; right; exact Hr).
    destruct (Hb row j (or_introl eq_refl)) as [K|K]; rewrite K; [destruct (Reqb_spec 0 1); [lra|]; ring|]. destruct (Reqb_spec 1 1); [|lra]. cbn [length]. rewrite S_INR. ring. }
  split; [exact E|]. rewrite E. apply percent_range, Hn.
Qed.
(** The activities determine the mean code: sum_j w_j * activity_j / 100 is the mean of the weighted rows. *)
Lemma c72_mean bits B w : bits <> [] -> matrix_of B bits -> length w = B -> rsum B (fun j => nth j w 0 * (nth j (bit_activity bits B) 0 / 100)) = lmean (map (fun row => dot row w) bits).
Proof.
  intros Hn HM Lw. assert (P : 0 < INR (length bits)) by (apply lt_0_INR; destruct bits; [congruence|cbn; lia]).
  rewrite (rsum_ext B _ (fun j => / INR (length bits) * rsum (length bits) (fun i => nth j w 0 * nth j (nth i bits []) 0))).
  - rewrite rsum_scale, rsum_swap. unfold lmean, Rdiv. rewrite map_length, Rmult_comm. f_equal. rewrite lsum_rsum, map_length. apply rsum_ext. intros i Hi. rewrite (nth_map_in _ _ _ []) by exact Hi. assert (Lr : length (nth i bits []) = B) by (apply HM, nth_In, Hi).
    rewrite dot_rsum by congruence. rewrite Lr. apply rsum_ext. intros j Hj. ring.
  - intros j Hj. rewrite activity_nth by exact Hj. unfold lmean. rewrite map_length, lsum_rsum, map_length, rsum_scale. rewrite (rsum_ext (length bits) (fun i => nth i (map (fun row => nth j row 0) bits) 0) (fun i => nth j (nth i bits []) 0)) by (intros i Hi; rewrite (nth_map_in _ _ _ []) by exact Hi; reflexivity). field. lra.
Qed.
(** Codes 11, 01, 00, 01: activities 25 and 75 percent. *)
Lemma c72_values_ex : bit_activity [[1;1];[0;1];[0;0];[0;1]] 2 = [25; 75].
Proof. unfold bit_activity, lmean. cbn [seq map nth length lsum INR]. list_eq; lra. Qed.
