From Verif Require Import Base.
From Coq Require Import Psatz.
Local Open Scope R_scope.

Lemma Rleb_true x y : Rleb x y = true <-> x <= y.
Proof. unfold Rleb; destruct (Rle_dec x y); split; intros; try easy; try congruence. Qed.
Lemma Rleb_false x y : Rleb x y = false <-> y < x.
Proof. unfold Rleb; destruct (Rle_dec x y); split; intros; try easy; try lra. Qed.
Lemma Rltb_true x y : Rltb x y = true <-> x < y.
Proof. unfold Rltb; destruct (Rlt_dec x y); split; intros; try easy; try congruence. Qed.
Lemma Rltb_false x y : Rltb x y = false <-> y <= x.
Proof. unfold Rltb; destruct (Rlt_dec x y); split; intros; try easy; try lra. Qed.
Lemma Reqb_true x y : Reqb x y = true <-> x = y.
Proof. unfold Reqb; destruct (Req_EM_T x y); split; intros; try easy; try congruence. Qed.
Lemma Reqb_false x y : Reqb x y = false <-> x <> y.
Proof. unfold Reqb; destruct (Req_EM_T x y); split; intros; try easy; try congruence. Qed.

Lemma Rleb_spec x y : BoolSpec (x <= y) (y < x) (Rleb x y).
Proof. destruct (Rleb x y) eqn:E; constructor; [apply Rleb_true|apply Rleb_false]; exact E. Qed.
Lemma Rltb_spec x y : BoolSpec (x < y) (y <= x) (Rltb x y).
Proof. destruct (Rltb x y) eqn:E; constructor; [apply Rltb_true|apply Rltb_false]; exact E. Qed.
Lemma Reqb_spec x y : BoolSpec (x = y) (x <> y) (Reqb x y).
Proof. destruct (Reqb x y) eqn:E; constructor; [apply Reqb_true|apply Reqb_false]; exact E. Qed.

Lemma lsum_app a b : lsum (a ++ b) = lsum a + lsum b.
Proof. induction a as [|x a IH]; simpl; [lra|rewrite IH; lra]. Qed.

Lemma lsum_map_scale c l : lsum (map (fun x => c * x) l) = c * lsum l.
Proof. induction l as [|x l IH]; simpl; [lra|rewrite IH; lra]. Qed.

Lemma lsum_map_ext {A} (f g : A -> R) l :
  (forall x, In x l -> f x = g x) -> lsum (map f l) = lsum (map g l).
Proof.
  induction l as [|x l IH]; simpl; intros H; [reflexivity|].
  rewrite (H x) by (left; reflexivity). rewrite IH; [reflexivity|]. intros; apply H; right; assumption.
Qed.

Lemma lsum_map_plus {A} (f g : A -> R) l :
  lsum (map (fun x => f x + g x) l) = lsum (map f l) + lsum (map g l).
Proof. induction l as [|x l IH]; simpl; [lra|rewrite IH; lra]. Qed.

Lemma lsum_map_minus {A} (f g : A -> R) l :
  lsum (map (fun x => f x - g x) l) = lsum (map f l) - lsum (map g l).
Proof. induction l as [|x l IH]; simpl; [lra|rewrite IH; lra]. Qed.

Lemma lsum_const {A} c (l : list A) : lsum (map (fun _ => c) l) = INR (length l) * c.
Proof.
  induction l as [|x l IH]; [simpl; lra|].
  cbn [map lsum length]. rewrite IH, S_INR. lra.
Qed.

Lemma lsum_nonneg l : Forall (fun x => 0 <= x) l -> 0 <= lsum l.
Proof. induction 1; simpl; lra. Qed.

Lemma lsum_rev l : lsum (rev l) = lsum l.
Proof. induction l as [|x l IH]; simpl; [reflexivity|]. rewrite lsum_app, IH; simpl; lra. Qed.

Lemma lsum_le (a b : list R) : Forall2 Rle a b -> lsum a <= lsum b.
Proof. induction 1; simpl; lra. Qed.

Lemma rsum_ext n f g : (forall i, (i < n)%nat -> f i = g i) -> rsum n f = rsum n g.
Proof. induction n as [|n IH]; simpl; intros H; [reflexivity|]. rewrite IH, H; auto with arith. Qed.

Lemma rsum_shift n f : rsum (S n) f = f O + rsum n (fun i => f (S i)).
Proof. induction n as [|n IH]; [simpl; lra|]. cbn [rsum] in *. rewrite IH. lra. Qed.

Lemma lsum_rsum l : lsum l = rsum (length l) (fun i => nth i l 0).
Proof.
  induction l as [|x l IH]; [reflexivity|].
  cbn [length]. rewrite rsum_shift. cbn [lsum nth]. rewrite IH. reflexivity.
Qed.

Lemma rsum_plus n f g : rsum n (fun i => f i + g i) = rsum n f + rsum n g.
Proof. induction n as [|n IH]; simpl; [lra|rewrite IH; lra]. Qed.
Lemma rsum_scale n c f : rsum n (fun i => c * f i) = c * rsum n f.
Proof. induction n as [|n IH]; simpl; [lra|rewrite IH; lra]. Qed.
Lemma rsum_minus n f g : rsum n (fun i => f i - g i) = rsum n f - rsum n g.
Proof. induction n as [|n IH]; simpl; [lra|rewrite IH; lra]. Qed.
Lemma rsum_const n c : rsum n (fun _ => c) = INR n * c.
Proof. induction n as [|n IH]; [simpl; lra|]. cbn [rsum]. rewrite IH, S_INR. lra. Qed.
Lemma rsum_nonneg n f : (forall i, (i < n)%nat -> 0 <= f i) -> 0 <= rsum n f.
Proof.
  induction n as [|n IH]; simpl; intros H; [lra|].
  assert (0 <= rsum n f) by (apply IH; intros; apply H; lia).
  assert (0 <= f n) by (apply H; lia). lra.
Qed.
Lemma rsum_le n f g : (forall i, (i < n)%nat -> f i <= g i) -> rsum n f <= rsum n g.
Proof.
  induction n as [|n IH]; simpl; intros H; [lra|].
  assert (rsum n f <= rsum n g) by (apply IH; intros; apply H; lia).
  assert (f n <= g n) by (apply H; lia). lra.
Qed.
Lemma rsum_zero n f : (forall i, (i < n)%nat -> f i = 0) -> rsum n f = 0.
Proof. intros H. rewrite (rsum_ext n f (fun _ => 0)) by exact H. rewrite rsum_const; lra. Qed.
Lemma rsum_swap n m (f : nat -> nat -> R) :
  rsum n (fun i => rsum m (fun j => f i j)) = rsum m (fun j => rsum n (fun i => f i j)).
Proof.
  induction n as [|n IH]; simpl; [symmetry; apply rsum_zero; reflexivity|].
  rewrite IH, <- rsum_plus. reflexivity.
Qed.
Lemma rsum_single n k f : (k < n)%nat -> (forall i, (i < n)%nat -> i <> k -> f i = 0) -> rsum n f = f k.
Proof.
  induction n as [|n IH]; intros Hk H; [lia|]. simpl.
  destruct (Nat.eq_dec k n) as [->|Hn].
  - rewrite rsum_zero; [lra|]. intros; apply H; lia.
  - rewrite IH; [|lia|intros; apply H; lia]. rewrite (H n) by lia. lra.
Qed.
Lemma rsum_app n m f : rsum (n + m) f = rsum n f + rsum m (fun i => f (n + i)%nat).
Proof.
  induction m as [|m IH]; [rewrite Nat.add_0_r; simpl; lra|].
  rewrite Nat.add_succ_r; simpl. rewrite IH. lra.
Qed.

Lemma dot_rsum a b : length a = length b ->
  dot a b = rsum (length a) (fun i => nth i a 0 * nth i b 0).
Proof.
  revert b; induction a as [|x a IH]; intros [|y b] H; try discriminate; [reflexivity|].
  cbn [length]. rewrite rsum_shift. cbn [dot nth]. rewrite IH by (simpl in H; lia). reflexivity.
Qed.

Lemma dot_app a1 a2 b1 b2 : length a1 = length b1 ->
  dot (a1 ++ a2) (b1 ++ b2) = dot a1 b1 + dot a2 b2.
Proof.
  revert b1; induction a1 as [|x a IH]; intros [|y b] H; try discriminate; simpl; [lra|].
  rewrite IH by (simpl in H; lia). lra.
Qed.

Lemma dot_nil_r a : dot a [] = 0.
Proof. destruct a; reflexivity. Qed.

Lemma dot_scale_r c a b : dot a (map (fun x => c * x) b) = c * dot a b.
Proof.
  revert b; induction a as [|x a IH]; intros [|y b]; simpl; try lra. rewrite IH; lra.
Qed.

Lemma lmax1_ge_init x l : x <= lmax1 x l.
Proof. induction l as [|y l IH]; simpl; [lra|]. unfold lmax1 in *; simpl. eapply Rle_trans; [exact IH|apply Rmax_r]. Qed.
Lemma lmax1_ge x l y : In y l -> y <= lmax1 x l.
Proof.
  induction l as [|z l IH]; simpl; [easy|]. unfold lmax1 in *; simpl. intros [->|H]; [apply Rmax_l|].
  eapply Rle_trans; [apply IH, H|apply Rmax_r].
Qed.
Lemma lmax1_in x l : In (lmax1 x l) (x :: l).
Proof.
  induction l as [|z l IH]; [left; reflexivity|]. unfold lmax1 in *; simpl fold_right.
  unfold Rmax at 1. destruct (Rle_dec z _); [|right; left; reflexivity].
  destruct IH as [IH|IH]; [left; exact IH|right; right; exact IH].
Qed.
Lemma lmin1_le_init x l : lmin1 x l <= x.
Proof. induction l as [|y l IH]; simpl; [lra|]. unfold lmin1 in *; simpl. eapply Rle_trans; [apply Rmin_r|exact IH]. Qed.
Lemma lmin1_le x l y : In y l -> lmin1 x l <= y.
Proof.
  induction l as [|z l IH]; simpl; [easy|]. unfold lmin1 in *; simpl. intros [->|H]; [apply Rmin_l|].
  eapply Rle_trans; [apply Rmin_r|apply IH, H].
Qed.
Lemma lmin1_in x l : In (lmin1 x l) (x :: l).
Proof.
  induction l as [|z l IH]; [left; reflexivity|]. unfold lmin1 in *; simpl fold_right.
  unfold Rmin at 1. destruct (Rle_dec z _); [right; left; reflexivity|].
  destruct IH as [IH|IH]; [left; exact IH|right; right; exact IH].
Qed.

Lemma nth_map_in {A B} (f : A -> B) l i d e : (i < length l)%nat -> nth i (map f l) e = f (nth i l d).
Proof.
  intros H. rewrite (nth_indep _ e (f d)) by (rewrite map_length; exact H). apply map_nth.
Qed.

Lemma nth_ext_eq {A} (d : A) l l' : length l = length l' ->
  (forall i, (i < length l)%nat -> nth i l d = nth i l' d) -> l = l'.
Proof. intros; apply (nth_ext l l' d d); assumption. Qed.

Lemma map2_length {A B C} (f : A -> B -> C) a b :
  length a = length b -> length (map2 f a b) = length a.
Proof. revert b; induction a as [|x a IH]; intros [|y b] H; try discriminate; simpl; auto. Qed.

Lemma map2_nth {A B C} (f : A -> B -> C) a b i da db dc :
  length a = length b -> (i < length a)%nat ->
  nth i (map2 f a b) dc = f (nth i a da) (nth i b db).
Proof.
  revert b i; induction a as [|x a IH]; intros [|y b] [|i] H Hi; simpl in *; try lia; [reflexivity|].
  apply IH; lia.
Qed.

Lemma map2_map_l {A A' B C} (f : A' -> B -> C) (g : A -> A') a b :
  map2 f (map g a) b = map2 (fun x y => f (g x) y) a b.
Proof. revert b; induction a as [|x a IH]; intros [|y b]; simpl; f_equal; auto. Qed.
Lemma map2_map_r {A B B' C} (f : A -> B' -> C) (g : B -> B') a b :
  map2 f a (map g b) = map2 (fun x y => f x (g y)) a b.
Proof. revert b; induction a as [|x a IH]; intros [|y b]; simpl; f_equal; auto. Qed.
Lemma map2_same {A C} (f : A -> A -> C) a : map2 f a a = map (fun x => f x x) a.
Proof. induction a as [|x a IH]; simpl; f_equal; auto. Qed.
Lemma map_map2 {A B C D} (g : C -> D) (f : A -> B -> C) a b :
  map g (map2 f a b) = map2 (fun x y => g (f x y)) a b.
Proof. revert b; induction a as [|x a IH]; intros [|y b]; simpl; f_equal; auto. Qed.

(** Tactics for concrete instances. *)
Ltac list_eq :=
  repeat match goal with
  | |- Ok _ = Ok _ => apply f_equal
  | |- (_ :: _) = (_ :: _) => apply f_equal2
  | |- (_, _) = (_, _) => apply f_equal2
  | |- Fin _ = Fin _ => apply f_equal
  end; try reflexivity.
Ltac cases_lt i :=
  try (exfalso; simpl length in *; lia);
  (destruct i as [|i]; [cbn; try lra|cases_lt i]).

Lemma Rdiv_le_0_compat a b : 0 <= a -> 0 < b -> 0 <= a / b.
Proof. intros Ha Hb. unfold Rdiv. apply Rmult_le_pos; [exact Ha|]. left. apply Rinv_0_lt_compat, Hb. Qed.
Lemma Rdiv_le_upper a b c : 0 < b -> a <= c * b -> a / b <= c.
Proof.
  intros Hb H. apply (Rmult_le_reg_r b); [exact Hb|]. replace (a / b * b) with a by (field; lra). exact H.
Qed.
Lemma Rdiv_le_lower a b c : 0 < b -> c * b <= a -> c <= a / b.
Proof.
  intros Hb H. apply (Rmult_le_reg_r b); [exact Hb|]. replace (a / b * b) with a by (field; lra). exact H.
Qed.
