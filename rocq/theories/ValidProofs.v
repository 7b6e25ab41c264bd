(** * Proofs about input validation. *)
From Verif Require Import Base BaseLemmas ValidModel ValidSpec.
From Coq Require Import Psatz.
Local Open Scope R_scope.

Lemma fold_min_spec x l : In (lmin1 x l) (x :: l) /\ forall y, In y (x :: l) -> lmin1 x l <= y.
Proof.
  unfold lmin1. induction l as [|z l [I B]]; [split; [left; auto|intros y [<-|[]]; simpl; lra]|]. cbn [fold_right]. set (m := fold_right Rmin x l) in *. split.
  - unfold Rmin. destruct (Rle_dec z m); [right; left; auto|]. destruct I as [I|I]; [left|right; right]; auto.
  - intros y [<-|[<-|Hy]]; [apply Rle_trans with m; [apply Rmin_r|apply B; left; auto]|apply Rmin_l|apply Rle_trans with m; [apply Rmin_r|apply B; right; auto]].
Qed.
Lemma fold_max_spec x l : In (lmax1 x l) (x :: l) /\ forall y, In y (x :: l) -> y <= lmax1 x l.
Proof.
  unfold lmax1. induction l as [|z l [I B]]; [split; [left; auto|intros y [<-|[]]; simpl; lra]|]. cbn [fold_right]. set (m := fold_right Rmax x l) in *. split.
  - unfold Rmax. destruct (Rle_dec z m); [destruct I as [I|I]; [left|right; right]; auto|right; left; auto].
  - intros y [<-|[<-|Hy]]; [apply Rle_trans with m; [apply B; left; auto|apply Rmax_r]|apply Rmax_l|apply Rle_trans with m; [apply B; right; auto|apply Rmax_r]].
Qed.
Lemma basic_ok a : basic_integrity a = Ok tt <-> a_data a <> [] /\ real_number (a_dtype a) /\ all_finite a.
Proof.
  unfold basic_integrity, raise_if, all_finite, real_number. destruct (a_data a) as [|x0 l0] eqn:D; [simpl; split; [discriminate|intros [H _]; congruence]|].
  change (length (x0 :: l0) =? 0)%nat with false. cbv iota.
  destruct (forallb xfinite (x0 :: l0)) eqn:F.
  - assert (FF : forall x, In x (x0 :: l0) -> exists v, x = Fin v).
    { rewrite forallb_forall in F. intros x Hx. specialize (F x Hx). destruct x; try discriminate. eauto. }
    destruct (a_dtype a); simpl; split; intro H; try discriminate; try reflexivity.
    all: try (destruct H as (_ & [?|[[? ?]|[? ?]]] & _); discriminate).
    all: split; [congruence|split; [|exact FF]]; eauto.
  - split.
    + destruct (negb (is_number (a_dtype a))); [discriminate|]. destruct (is_complex (a_dtype a)); discriminate.
    + intros (_ & _ & H). exfalso. assert (forallb xfinite (x0 :: l0) = true); [|congruence]. apply forallb_forall. intros x Hx. destruct (H x Hx) as [v ->]. reflexivity.
Qed.
Lemma basic_err a : basic_integrity a = Ok tt \/ basic_integrity a = Err ValueError.
Proof. unfold basic_integrity, raise_if. repeat match goal with |- context [if ?b then _ else _] => destruct b end; auto. Qed.
Lemma wrap_small b z : (- 2 ^ (Zpos b - 1) <= z < 2 ^ (Zpos b - 1))%Z -> wrap b z = z.
Proof.
  intro H. unfold wrap. assert (E : (2 ^ Zpos b = 2 * 2 ^ (Zpos b - 1))%Z) by (rewrite <- Z.pow_succ_r by lia; f_equal; lia). rewrite Z.mod_small by lia. lia.
Qed.
Lemma wrap_big b z : (2 ^ (Zpos b - 1) <= z < 2 ^ Zpos b)%Z -> wrap b z = (z - 2 ^ Zpos b)%Z.
Proof.
  intro H. unfold wrap. assert (E : (2 ^ Zpos b = 2 * 2 ^ (Zpos b - 1))%Z) by (rewrite <- Z.pow_succ_r by lia; f_equal; lia).
  assert (P : (0 < 2 ^ (Zpos b - 1))%Z) by (apply Z.pow_pos_nonneg; lia).
  replace (z + 2 ^ (Zpos b - 1))%Z with (z - 2 ^ (Zpos b - 1) + 1 * 2 ^ Zpos b)%Z by lia. rewrite Z.mod_add by lia. rewrite Z.mod_small by lia. lia.
Qed.
Lemma fin_values a : all_finite a -> forall v, In v (map xval (a_data a)) <-> In (Fin v) (a_data a).
Proof.
  intros F v. rewrite in_map_iff. split.
  - intros (x & <- & I). destruct (F x I) as [u ->]. exact I.
  - intro I. exists (Fin v); auto.
Qed.
(** The signed range before wrap-around. *)
Lemma range_signed a b x l : numpy_array a -> all_finite a -> a_dtype a = DSigned b -> map xval (a_data a) = x :: l ->
  exists z, lmax1 x l - lmin1 x l = IZR z /\ (0 <= z < 2 ^ Zpos b)%Z.
Proof.
  intros [_ W] F D M. rewrite D in W. destruct (fold_min_spec x l) as [I1 B1]. destruct (fold_max_spec x l) as [I2 B2]. specialize (B1 _ I2).
  rewrite <- M in I1, I2. rewrite fin_values in I1, I2 by auto. rewrite Forall_forall in W. destruct (W _ I1) as (z1 & E1 & R1). destruct (W _ I2) as (z2 & E2 & R2).
  injection E1 as E1. injection E2 as E2. exists (z2 - z1)%Z. rewrite minus_IZR, E1, E2. split; [reflexivity|]. rewrite E1, E2 in B1. apply le_IZR in B1.
  assert (E : (2 ^ Zpos b = 2 * 2 ^ (Zpos b - 1))%Z) by (rewrite <- Z.pow_succ_r by lia; f_equal; lia). lia.
Qed.
Lemma ptp_zero a x l : numpy_array a -> all_finite a -> map xval (a_data a) = x :: l -> ptp (a_dtype a) x l = 0 <-> ~ not_constant a.
Proof.
  intros W F M. destruct (fold_min_spec x l) as [I1 B1]. destruct (fold_max_spec x l) as [I2 B2].
  assert (Z0 : lmax1 x l - lmin1 x l = 0 <-> ~ not_constant a).
  { split.
    - intros E (u & v & U & V & N). rewrite <- fin_values in U, V by auto. rewrite M in U, V. pose proof (B1 _ U). pose proof (B1 _ V). pose proof (B2 _ U). pose proof (B2 _ V). apply N; lra.
    - intro N. destruct (Req_dec (lmax1 x l) (lmin1 x l)) as [E|E]; [lra|]. exfalso. apply N. exists (lmax1 x l), (lmin1 x l). rewrite <- M in I1, I2. rewrite fin_values in I1, I2 by auto. auto. }
  rewrite <- Z0. unfold ptp. destruct (a_dtype a) as [|b|b| | |] eqn:D; try tauto.
  destruct (range_signed a b x l W F D M) as (z & E & R). rewrite E, Zfloor_IZR.
  assert (P : (0 < 2 ^ (Zpos b - 1))%Z) by (apply Z.pow_pos_nonneg; lia).
  assert (E2 : (2 ^ Zpos b = 2 * 2 ^ (Zpos b - 1))%Z) by (rewrite <- Z.pow_succ_r by lia; f_equal; lia).
  destruct (Z_lt_le_dec z (2 ^ (Zpos b - 1))) as [H|H].
  - rewrite wrap_small by lia. tauto.
  - rewrite wrap_big by lia. split; intro Q; apply eq_IZR in Q; lia.
Qed.
Lemma max_shape_spec s n : max_shape s = Ok n -> In n s /\ forall m, In m s -> (m <= n)%nat.
Proof.
  destruct s as [|x s]; [discriminate|]. intro H; injection H as <-. revert x. induction s as [|y s IH]; intro x; [simpl; split; auto; intros m [->|[]]; lia|].
  cbn [fold_left]. destruct (IH (Nat.max x y)) as [I B]. split.
  - destruct I as [I|I]; [|right; right; auto]. destruct (Nat.max_spec x y) as [[_ E]|[_ E]]; [right; left|left]; congruence.
  - intros m [<-|[<-|Hm]]; [pose proof (B _ (or_introl eq_refl)); lia|pose proof (B _ (or_introl eq_refl)); lia|apply B; right; auto].
Qed.
Lemma axis_ok a : a_shape a <> [] -> exists n, match a_shape a with [n] => Ok n | s => max_shape s end = Ok n /\ longest_axis a n.
Proof.
  intro H. unfold longest_axis. destruct (a_shape a) as [|x [|y s]] eqn:S; [congruence|exists x; split; auto; split; [left; auto|intros m [->|[]]; lia]|].
  destruct (max_shape (x :: y :: s)) as [n|] eqn:M; [|discriminate]. exists n. split; [reflexivity|]. now apply max_shape_spec.
Qed.
Lemma longest_unique a n m : longest_axis a n -> longest_axis a m -> n = m.
Proof. intros [I1 B1] [I2 B2]. apply Nat.le_antisymm; auto. Qed.
(** validate_aout_data accepts exactly the non-empty arrays of a real number type with finite,
    non-constant contents, at most two axes, and a longest axis of at least min_samples. *)
Lemma c47_aout_accepts a min_samples : numpy_array a ->
  (exists w, validate_aout_data a min_samples = Ok w) <->
  a_data a <> [] /\ real_number (a_dtype a) /\ all_finite a /\ (length (a_shape a) <= 2)%nat /\ (exists n, longest_axis a n /\ (min_samples <= Z.of_nat n)%Z) /\ not_constant a.
Proof.
  intro W. unfold validate_aout_data. split.
  - intros [w H]. destruct (basic_err a) as [B|B]; rewrite B in H; cbn [bind] in H; [|discriminate]. apply basic_ok in B as (B1 & B2 & B3). unfold raise_if at 1 in H.
    destruct (2 <? length (a_shape a))%nat eqn:N; [discriminate|]. apply Nat.ltb_ge in N. 
    assert (S : a_shape a <> []) by (intro E; rewrite E in H; discriminate). destruct (axis_ok a S) as (n & En & L). rewrite En in H. cbn [bind] in H. unfold raise_if at 1 in H.
    destruct (Z.ltb_spec (Z.of_nat n) min_samples) as [Q|Q]; [discriminate|]. destruct (map xval (a_data a)) as [|x l] eqn:M; [discriminate|]. cbn zeta in H. unfold raise_if in H.
    destruct (Reqb_spec (ptp (a_dtype a) x l) 0) as [Z|Z]; [discriminate|]. repeat split; auto; [exists n; auto|].
    destruct (Req_dec (lmax1 x l) (lmin1 x l)) as [E|E].
    + exfalso. apply Z. apply (ptp_zero a x l W B3 M). intros (u & v & U & V & NE). rewrite <- fin_values in U, V by auto. rewrite M in U, V.
      pose proof (proj2 (fold_min_spec x l) _ U). pose proof (proj2 (fold_min_spec x l) _ V). pose proof (proj2 (fold_max_spec x l) _ U). pose proof (proj2 (fold_max_spec x l) _ V). apply NE; lra.
    + exists (lmax1 x l), (lmin1 x l). rewrite <- !fin_values, M by auto. repeat split; auto; [apply fold_max_spec|apply fold_min_spec].
  - intros (H1 & H2 & H3 & H4 & (n & L & Q) & NC). rewrite (proj2 (basic_ok a)) by auto. cbn [bind]. unfold raise_if at 1. rewrite (proj2 (Nat.ltb_ge _ _) H4).
    assert (S : a_shape a <> []) by (intro E; destruct L as [I _]; rewrite E in I; destruct I). destruct (axis_ok a S) as (m & Em & Lm). rewrite Em. cbn [bind]. rewrite (longest_unique a m n Lm L).
    unfold raise_if at 1. destruct (Z.ltb_spec (Z.of_nat n) min_samples); [lia|]. destruct (map xval (a_data a)) as [|x l] eqn:M; [destruct (a_data a); [congruence|discriminate]|].
    cbn zeta. unfold raise_if. destruct (Reqb_spec (ptp (a_dtype a) x l) 0) as [Z|Z]; [|eauto]. exfalso. apply (ptp_zero a x l W H3 M) in Z. auto.
Qed.
(** The only error of either function is ValueError. *)
Lemma c47_errors a min_samples e : validate_aout_data a min_samples = Err e \/ validate_dout_data a min_samples = Err e -> e = ValueError.
Proof.
  unfold validate_aout_data, validate_dout_data. destruct (basic_err a) as [-> | ->]; cbn [bind]; [|intros [H|H]; congruence]. unfold raise_if, max_shape. intros [H|H];
  repeat match type of H with
  | (if ?b then _ else _) = _ => destruct b
  | match ?x with _ => _ end = _ => destruct x
  | bind ?x _ = _ => destruct x eqn:?; cbn [bind] in H
  | _ => progress cbn zeta in H
  end; try congruence.
  all: repeat match goal with E : match ?x with _ => _ end = Err _ |- _ => destruct x end; congruence.
Qed.
(** For floating-point data the low-amplitude warning is given exactly when all values lie within
    less than 1e-10 of each other. *)
Lemma c47_low_warning a min_samples w : a_dtype a = DFloat -> validate_aout_data a min_samples = Ok w ->
  (In WLowAmplitude w <-> forall u v, In (Fin u) (a_data a) -> In (Fin v) (a_data a) -> u - v < 1 / 10 ^ 10).
Proof.
  intros D H. unfold validate_aout_data in H. destruct (basic_err a) as [B|B]; rewrite B in H; cbn [bind] in H; [|discriminate]. apply basic_ok in B as (B1 & B2 & B3). unfold raise_if at 1 in H.
  destruct (2 <? length (a_shape a))%nat; [discriminate|]. destruct (match a_shape a with [n] => Ok n | s => max_shape s end) as [n|]; cbn [bind] in H; [|discriminate]. unfold raise_if at 1 in H.
  destruct (Z.of_nat n <? min_samples)%Z; [discriminate|]. destruct (map xval (a_data a)) as [|x l] eqn:M; [discriminate|]. cbn zeta in H. unfold raise_if in H.
  destruct (Reqb (ptp (a_dtype a) x l) 0); [discriminate|]. rewrite D in H. unfold ptp in H. cbn zeta iota in H.
  destruct (fold_min_spec x l) as [I1 L1]. destruct (fold_max_spec x l) as [I2 L2].
  destruct (Rltb_spec (lmax1 x l - lmin1 x l) (1 / 10 ^ 10)) as [Q|Q]; injection H as <-; split.
  - intros _ u v U V. rewrite <- fin_values in U, V by auto. rewrite M in U, V. specialize (L1 _ V). specialize (L2 _ U). lra.
  - intros _; left; auto.
  - intros [].
  - intro H. exfalso. specialize (H (lmax1 x l) (lmin1 x l)). rewrite <- !fin_values, M in H by auto. specialize (H I2 I1). lra.
Qed.

(** ** Digital data *)
Lemma col_index rows cols i j : (i < rows)%nat -> (j < cols)%nat -> (i * cols + j < rows * cols)%nat.
Proof. intros. nia. Qed.
Lemma lsum_zero_iff {A} (f : A -> R) l : (forall x, In x l -> 0 <= f x) -> lsum (map f l) = 0 <-> forall x, In x l -> f x = 0.
Proof.
  induction l as [|x l IH]; intro H; simpl; [split; [intros _ x []|auto]|].
  assert (P : 0 <= lsum (map f l)).
  { clear IH. assert (H' : forall y, In y l -> 0 <= f y) by (intros; apply H; right; auto). clear H. induction l as [|y l IHl]; simpl; [lra|]. pose proof (H' y (or_introl eq_refl)). specialize (IHl (fun z Hz => H' z (or_intror Hz))). lra. }
  pose proof (H x (or_introl eq_refl)) as Hx. specialize (IH (fun y Hy => H y (or_intror Hy))). split.
  - intros E y [<-|Hy]; [lra|]. apply IH; auto. lra.
  - intro A0. rewrite (A0 x (or_introl eq_refl)). rewrite (proj2 IH); [lra|]. intros; apply A0; right; auto.
Qed.
Section Cols.
  Context (a : arr) (rows cols : nat) (W : length (a_data a) = (rows * cols)%nat) (F : all_finite a) (B : forall v, In (Fin v) (a_data a) -> v = 0 \/ v = 1).
  Lemma entry_nth i j : (i < rows)%nat -> (j < cols)%nat -> entry a cols i j = Fin (nth (i * cols + j) (map xval (a_data a)) 0) /\ (nth (i * cols + j) (map xval (a_data a)) 0 = 0 \/ nth (i * cols + j) (map xval (a_data a)) 0 = 1).
  Proof.
    intros Hi Hj. pose proof (col_index rows cols i j Hi Hj) as L. rewrite <- W in L. unfold entry. pose proof (nth_In _ NaN L) as I.
    change 0 with (xval NaN). rewrite map_nth. destruct (F _ I) as [v E]. rewrite E in *. simpl. split; auto.
  Qed.
  Lemma col_low j : (j < cols)%nat -> col_sum rows cols (map xval (a_data a)) j = 0 <-> forall i, (i < rows)%nat -> entry a cols i j = Fin 0.
  Proof.
    intro Hj. unfold col_sum. rewrite lsum_zero_iff.
    - split.
      + intros H i Hi. destruct (entry_nth i j Hi Hj) as [-> _]. rewrite H; [reflexivity|]. apply in_seq; lia.
      + intros H i Hi. apply in_seq in Hi. specialize (H i ltac:(lia)). destruct (entry_nth i j ltac:(lia) Hj) as [E _]. congruence.
    - intros i Hi. apply in_seq in Hi. destruct (entry_nth i j ltac:(lia) Hj) as [_ [E|E]]; rewrite E; lra.
  Qed.
  Lemma col_high j : (j < cols)%nat -> col_sum rows cols (map xval (a_data a)) j = INR rows <-> forall i, (i < rows)%nat -> entry a cols i j = Fin 1.
  Proof.
    intro Hj. unfold col_sum. set (f := fun i => nth (i * cols + j) (map xval (a_data a)) 0).
    assert (E : lsum (map (fun i => 1 - f i) (seq 0 rows)) = INR rows - lsum (map f (seq 0 rows))).
    { clear. rewrite <- (seq_length rows 0) at 2. induction (seq 0 rows) as [|x l IH]; [simpl; lra|]. cbn [map lsum length]. rewrite S_INR. rewrite IH. lra. }
    assert (Z : lsum (map f (seq 0 rows)) = INR rows <-> lsum (map (fun i => 1 - f i) (seq 0 rows)) = 0) by (rewrite E; split; lra).
    rewrite Z, lsum_zero_iff.
    - split.
      + intros H i Hi. destruct (entry_nth i j Hi Hj) as [-> _]. specialize (H i ltac:(apply in_seq; lia)). unfold f in H. f_equal. lra.
      + intros H i Hi. apply in_seq in Hi. specialize (H i ltac:(lia)). destruct (entry_nth i j ltac:(lia) Hj) as [E1 _]. rewrite E1 in H. injection H as H. unfold f. lra.
    - intros i Hi. apply in_seq in Hi. unfold f. destruct (entry_nth i j ltac:(lia) Hj) as [_ [E1|E1]]; rewrite E1; lra.
  Qed.
End Cols.
(** What an accepted digital record looks like, and its warnings. *)
Definition dout_warnings (rows cols : nat) (a : arr) : list warning :=
  let d := map xval (a_data a) in
  let low := filter (fun j => Reqb (col_sum rows cols d j) 0) (seq 0 cols) in
  let high := filter (fun j => Reqb (col_sum rows cols d j) (INR rows)) (seq 0 cols) in
  (if (rows <? cols)%nat then [WTransposed] else []) ++ (if (0 <? length low)%nat then [WStuckLow low] else []) ++ (if (0 <? length high)%nat then [WStuckHigh high] else []).
Lemma dout_ok a min_samples w : numpy_array a ->
  validate_dout_data a min_samples = Ok w <-> exists rows cols, a_shape a = [rows; cols] /\ a_data a <> [] /\ real_number (a_dtype a) /\ all_finite a /\
    (min_samples <= Z.of_nat rows)%Z /\ (forall v, In (Fin v) (a_data a) -> v = 0 \/ v = 1) /\ w = dout_warnings rows cols a.
Proof.
  intro W. unfold validate_dout_data. split.
  - intro H. destruct (basic_err a) as [B|B]; rewrite B in H; cbn [bind] in H; [|discriminate]. apply basic_ok in B as (B1 & B2 & B3).
    destruct (a_shape a) as [|rows [|cols [|]]] eqn:S; try discriminate. unfold raise_if at 1 in H. destruct (Z.ltb_spec (Z.of_nat rows) min_samples) as [Q|Q]; [discriminate|].
    unfold raise_if at 1 in H. destruct (cols <? 1)%nat; [discriminate|]. cbn zeta in H. unfold raise_if in H. destruct (forallb _ _) eqn:FB; cbn [negb] in H; [|discriminate].
    injection H as <-. exists rows, cols. repeat split; auto. intros v I. rewrite forallb_forall in FB. rewrite <- fin_values in I by auto. specialize (FB v I).
    apply orb_true_iff in FB as [FB|FB]; apply Reqb_true in FB; auto.
  - intros (rows & cols & S & B1 & B2 & B3 & Q & BV & ->). rewrite (proj2 (basic_ok a)) by auto. cbn [bind]. rewrite S. unfold raise_if at 1. destruct (Z.ltb_spec (Z.of_nat rows) min_samples); [lia|].
    destruct W as [W _]. rewrite S in W. simpl in W. unfold raise_if at 1. destruct (Nat.ltb_spec cols 1) as [C|C]; [destruct (a_data a); [congruence|simpl in W; replace cols with 0%nat in W by lia; lia]|].
    cbn zeta. unfold raise_if. replace (forallb _ _) with true; [reflexivity|]. symmetry. apply forallb_forall. intros v I. rewrite fin_values in I by auto. apply orb_true_iff. destruct (BV v I); [left|right]; now apply Reqb_true.
Qed.
(** validate_dout_data accepts exactly the non-empty 2-D arrays of a real number type that hold
    only zeros and ones and have at least min_samples rows. *)
Lemma c47_dout_accepts a min_samples : numpy_array a ->
  (exists w, validate_dout_data a min_samples = Ok w) <->
  a_data a <> [] /\ real_number (a_dtype a) /\ (forall x, In x (a_data a) -> x = Fin 0 \/ x = Fin 1) /\ exists rows cols, a_shape a = [rows; cols] /\ (min_samples <= Z.of_nat rows)%Z.
Proof.
  intro W. split.
  - intros [w H]. apply dout_ok in H as (rows & cols & S & B1 & B2 & B3 & Q & BV & _); auto. repeat split; auto; [|eauto]. intros x I. destruct (B3 x I) as [v ->]. destruct (BV v I) as [-> | ->]; auto.
  - intros (B1 & B2 & BV & rows & cols & S & Q). eexists. apply dout_ok; auto. exists rows, cols. repeat split; auto.
    + intros x I. destruct (BV x I) as [-> | ->]; eauto.
    + intros v I. destruct (BV _ I) as [E|E]; injection E as ->; auto.
Qed.
Ltac pick I := repeat match type of I with In _ (_ ++ _) => apply in_app_or in I as [I|I] | In _ (if ?b then _ else _) => destruct b | In _ [] => destruct I | In _ [_] => destruct I as [I|[]] end.
(** The warnings: transposed exactly when there are more columns than rows; the stuck lists name
    exactly the columns that are constantly 0 (constantly 1). *)
Lemma c47_dout_warnings a min_samples w rows cols : numpy_array a -> a_shape a = [rows; cols] -> validate_dout_data a min_samples = Ok w ->
  (In WTransposed w <-> (rows < cols)%nat) /\
  (forall j, (exists idx, In (WStuckLow idx) w /\ In j idx) <-> (j < cols)%nat /\ forall i, (i < rows)%nat -> entry a cols i j = Fin 0) /\
  (forall j, (exists idx, In (WStuckHigh idx) w /\ In j idx) <-> (j < cols)%nat /\ forall i, (i < rows)%nat -> entry a cols i j = Fin 1).
Proof.
  intros W S H. apply dout_ok in H as (r & c & S' & B1 & B2 & B3 & Q & BV & ->); auto. rewrite S in S'. injection S' as <- <-.
  assert (L : length (a_data a) = (rows * cols)%nat) by (destruct W as [W _]; rewrite W, S; simpl; lia).
  unfold dout_warnings. cbn zeta. set (low := filter _ _). set (high := filter (fun j => Reqb _ (INR rows)) _).
  assert (LI : forall j, In j low <-> (j < cols)%nat /\ forall i, (i < rows)%nat -> entry a cols i j = Fin 0).
  { intro j. unfold low. rewrite filter_In, in_seq. rewrite Reqb_true. split; [intros [H1 H2]; split; [lia|]; apply col_low; auto; lia|]. intros [H1 H2]. split; [lia|]. apply col_low; auto. }
  assert (HI : forall j, In j high <-> (j < cols)%nat /\ forall i, (i < rows)%nat -> entry a cols i j = Fin 1).
  { intro j. unfold high. rewrite filter_In, in_seq. rewrite Reqb_true. split; [intros [H1 H2]; split; [lia|]; apply col_high; auto; lia|]. intros [H1 H2]. split; [lia|]. apply col_high; auto. }
  assert (NE : forall {A} (l : list A) x, In x l -> (0 <? length l)%nat = true) by (intros A l x I; destruct l; [destruct I|reflexivity]).
  split; [|split].
  - split; intro I; [|apply Nat.ltb_lt in I; rewrite I; left; reflexivity]. destruct (Nat.ltb_spec rows cols) as [?|?]; auto. exfalso. pick I; discriminate.
  - intro j. rewrite <- LI. split.
    + intros (idx & I & J). pick I; congruence.
    + intros X. exists low. split; auto. apply in_or_app; right. apply in_or_app; left. rewrite (NE _ _ _ X). left; auto.
  - intro j. rewrite <- HI. split.
    + intros (idx & I & J). pick I; congruence.
    + intros X. exists high. split; auto. apply in_or_app; right. apply in_or_app; right. rewrite (NE _ _ _ X). left; auto.
Qed.

(** ** C76: documented conventions that the code does not keep *)
(** The documented layout is (samples, channels), but the sample count is the longest axis: a
    record of two samples of 100 channels passes. *)
Lemma c76_aout_samples_refuted : exists a w, numpy_array a /\ a_shape a = [2%nat; 100%nat] /\ validate_aout_data a 100 = Ok w /\ (Z.of_nat 2 < 100)%Z.
Proof.
  set (a := mkArr DFloat [2%nat; 100%nat] (Fin 1 :: repeat (Fin 0) 199)).
  assert (W : numpy_array a) by (split; [reflexivity|apply Forall_forall; intros; exact I]).
  destruct (proj2 (c47_aout_accepts a 100 W)) as [w Hw].
  - split; [discriminate|]. split; [left; reflexivity|]. split.
    { intros x [<-|I]; eauto. apply repeat_spec in I. eauto. }
    split; [simpl; lia|]. split; [exists 100%nat; split; [split; [right; left; reflexivity|intros m [<-|[<-|[]]]; lia]|lia]|].
    exists 1, 0. repeat split; [left; auto|right; left; auto|lra].
  - exists a, w. repeat split; auto. apply W.
Qed.
(** The comment allows boolean bit matrices, but they are rejected as not numeric. *)
Lemma c76_dout_bool_refuted a min_samples : a_dtype a = DBool -> validate_dout_data a min_samples = Err ValueError.
Proof. intro D. unfold validate_dout_data, basic_integrity. rewrite D. unfold raise_if. destruct (length (a_data a) =? 0)%nat; reflexivity. Qed.
(** A full-scale signed 8-bit record is reported as having extremely low amplitude. *)
Lemma c76_low_amplitude_refuted : exists a w, numpy_array a /\ a_dtype a = DSigned 8 /\ In (Fin (-128)) (a_data a) /\ In (Fin 127) (a_data a) /\ validate_aout_data a 2 = Ok w /\ In WLowAmplitude w.
Proof.
  exists (mkArr (DSigned 8) [2%nat] [Fin (-128); Fin 127]), [WLowAmplitude]. split; [split; [reflexivity|]|].
  - repeat constructor; [exists (-128)%Z|exists 127%Z]; split; auto; lia.
  - repeat split; simpl; auto. unfold validate_aout_data. cbn -[ptp Reqb Rltb pow].
    assert (P : ptp (DSigned 8) (-128) [127] = -1).
    { unfold ptp, lmax1, lmin1. cbn [fold_right]. rewrite Rmax_left by lra. rewrite Rmin_right by lra. replace (127 - -128) with (IZR 255) by (simpl; lra). rewrite Zfloor_IZR. reflexivity. }
    unfold raise_if. rewrite P. rewrite (proj2 (Reqb_false _ _)) by lra. rewrite (proj2 (Rltb_true _ _)) by lra. reflexivity.
Qed.
(** For one-dimensional data the sample count is right, and unsigned or floating data never get a
    spurious warning. *)
Lemma c76_one_dimensional a min_samples n w : numpy_array a -> a_shape a = [n] -> validate_aout_data a min_samples = Ok w -> (min_samples <= Z.of_nat n)%Z /\ length (a_data a) = n.
Proof.
  intros W S H. destruct (proj1 (c47_aout_accepts a min_samples W) (ex_intro _ w H)) as (_ & _ & _ & _ & (m & [I _] & Q) & _). rewrite S in I. destruct I as [<-|[]]. split; auto.
  destruct W as [W _]. rewrite W, S. simpl. lia.
Qed.
(** Unsigned integers are not wrapped: the warning rule is the same as for floats, so it is never given for an
    accepted unsigned record. *)
Lemma c76_unsigned a min_samples w b : numpy_array a -> a_dtype a = DUnsigned b -> validate_aout_data a min_samples = Ok w -> w = [].
Proof.
  intros W D H. destruct (proj1 (c47_aout_accepts a min_samples W) (ex_intro _ w H)) as (_ & _ & FN & _ & _ & NC).
  unfold validate_aout_data in H. destruct (basic_err a) as [B|B]; rewrite B in H; cbn [bind] in H; [|discriminate]. apply basic_ok in B as (B1 & B2 & B3). unfold raise_if at 1 in H.
  destruct (2 <? length (a_shape a))%nat; [discriminate|]. destruct (match a_shape a with [n] => Ok n | s => max_shape s end) as [n|]; cbn [bind] in H; [|discriminate]. unfold raise_if at 1 in H.
  destruct (Z.of_nat n <? min_samples)%Z; [discriminate|]. destruct (map xval (a_data a)) as [|x l] eqn:M; [discriminate|]. cbn zeta in H. unfold raise_if in H.
  destruct (Reqb_spec (ptp (a_dtype a) x l) 0) as [|NZ]; [discriminate|]. rewrite D in H, NZ. unfold ptp in H, NZ. cbn zeta iota in H, NZ.
  destruct (fold_min_spec x l) as [I1 L1]. destruct (fold_max_spec x l) as [I2 L2].
  destruct (Rltb_spec (lmax1 x l - lmin1 x l) (1 / 10 ^ 10)) as [Q|Q]; injection H as <-; [exfalso | reflexivity].
  assert (INT : forall v, In v (x :: l) -> exists z, v = IZR z).
  { intros v V. rewrite <- M in V. rewrite fin_values in V by auto. destruct W as [_ W]. rewrite D in W. rewrite Forall_forall in W. destruct (W _ V) as (z & Z & _). injection Z as ->. exists z. reflexivity. }
  destruct (INT _ I1) as [z1 E1]. destruct (INT _ I2) as [z2 E2]. rewrite E1, E2 in Q, NZ. rewrite <- minus_IZR in Q, NZ. assert (0 <= IZR (z2 - z1)) by (rewrite minus_IZR, <- E1, <- E2; specialize (L2 _ I1); lra).
  assert (z2 - z1 <= 0)%Z by (assert (z2 - z1 < 1)%Z; [apply lt_IZR; eapply Rlt_trans; [exact Q |]; lra | lia]). apply NZ. assert (0 <= z2 - z1)%Z by (apply le_IZR; assumption). replace (z2 - z1)%Z with 0%Z by lia. reflexivity.
Qed.
Lemma c76_one_dimensional_ex : exists w, validate_aout_data (mkArr (DUnsigned 8) [3%nat] [Fin 0; Fin 255; Fin 7]) 3 = Ok w.
Proof.
  apply c47_aout_accepts.
  - split; [reflexivity|]. repeat constructor; [exists 0%Z|exists 255%Z|exists 7%Z]; split; auto; lia.
  - simpl. split; [discriminate|]. split; [right; right; eauto|]. split; [intros x [<-|[<-|[<-|[]]]]; eauto|]. split; [lia|].
    split; [exists 3%nat; split; [split; [left; auto|intros m [<-|[]]; simpl; lia]|lia]|]. exists 0, 255. simpl. split; [left; reflexivity|split; [right; left; reflexivity|lra]].
Qed.
Lemma c47_aout_accepts_ex : validate_aout_data (mkArr DFloat [3%nat] [Fin 2; Fin 2; Fin 2]) 3 = Err ValueError /\ validate_aout_data (mkArr DFloat [2%nat] [Fin 2; NaN]) 1 = Err ValueError /\
  validate_aout_data (mkArr DComplex [1%nat] [Fin 2]) 1 = Err ValueError.
Proof.
  repeat split. unfold validate_aout_data. cbn -[ptp Reqb Rltb pow]. unfold raise_if. rewrite (proj2 (Reqb_true _ _)); [reflexivity|].
  unfold ptp, lmax1, lmin1. cbn [fold_right]. unfold Rmax, Rmin. repeat destruct (Rle_dec _ _); lra.
Qed.
(** A 2x3 bit matrix: accepted, with a transposition warning, column 0 stuck low, column 2 stuck high. *)
Lemma c47_dout_warnings_ex : exists w, validate_dout_data (mkArr (DUnsigned 8) [2%nat; 3%nat] [Fin 0; Fin 1; Fin 1; Fin 0; Fin 0; Fin 1]) 2 = Ok w /\ In WTransposed w /\
  (exists i, In (WStuckLow i) w /\ In 0%nat i) /\ (exists i, In (WStuckHigh i) w /\ In 2%nat i) /\ ~ (exists i, In (WStuckHigh i) w /\ In 1%nat i).
Proof.
  set (a := mkArr _ _ _).
  assert (W : numpy_array a).
  { split; [reflexivity|]. cbn. repeat (apply Forall_cons; [|]); try apply Forall_nil; cbn [in_dtype]; match goal with |- exists z, Fin ?v = _ /\ _ => first [exists 0%Z; split; [reflexivity|lia]|exists 1%Z; split; [reflexivity|lia]] end. }
  destruct (proj2 (c47_dout_accepts a 2 W)) as [w Hw].
  { split; [discriminate|]. split; [right; right; exists 8%positive; reflexivity|]. split; [|exists 2%nat, 3%nat; split; [reflexivity|lia]]. cbn. intros x H. repeat destruct H as [<-|H]; auto. destruct H. }
  exists w. split; auto. destruct (c47_dout_warnings a 2 w 2 3 W eq_refl Hw) as (T & L & H). split; [apply T; lia|]. split; [apply L|split; [apply H|rewrite H]].
  - split; [lia|]. intros [|[|i]] Hi; try lia; reflexivity.
  - split; [lia|]. intros [|[|i]] Hi; try lia; reflexivity.
  - intros [_ Q]. specialize (Q 1%nat ltac:(lia)). injection Q as Q. lra.
Qed.
