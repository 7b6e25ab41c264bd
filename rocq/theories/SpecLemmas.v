(** * Lemmas about the list helpers of SpecModel. *)
From Verif Require Import Base BaseLemmas Cplx FreqModel UnitsModel TiModel TiProofs SpecModel SpecSpec.
From Coq Require Import Psatz Permutation Sorted.
Local Open Scope R_scope.

Lemma Ok_inj {A} (a b : A) : Ok a = Ok b -> a = b.
Proof. intros H. injection H. auto. Qed.
Lemma nth_firstn_lt {A} (d : A) n l i : (i < n)%nat -> nth i (firstn n l) d = nth i l d.
Proof.
  revert l i; induction n; intros l i H; [lia|]. destruct l; [reflexivity|].
  destruct i; [reflexivity|]. simpl. apply IHn. lia.
Qed.
Lemma nth_skipn {A} (d : A) n l i : nth i (skipn n l) d = nth (n + i) l d.
Proof. revert l; induction n; intros l; [reflexivity|]. destruct l; [destruct i; reflexivity|]. simpl. apply IHn. Qed.
Lemma slice_length {A} lo hi (l : list A) : length (slice lo hi l) = Nat.min (hi - lo) (length l - lo).
Proof. unfold slice. rewrite firstn_length, skipn_length. reflexivity. Qed.
Lemma slice_nth {A} (d : A) lo hi l i : (i < hi - lo)%nat -> nth i (slice lo hi l) d = nth (lo + i) l d.
Proof. intros H. unfold slice. rewrite nth_firstn_lt by exact H. apply nth_skipn. Qed.
Lemma zero_range_length lo hi l : length (zero_range lo hi l) = length l.
Proof. unfold zero_range. rewrite map_length, seq_length. reflexivity. Qed.
Lemma zero_range_nth lo hi l i : nth i (zero_range lo hi l) 0 = if ((lo <=? i) && (i <? hi))%nat then 0 else nth i l 0.
Proof.
  destruct (Nat.lt_ge_cases i (length l)) as [H|H].
  - unfold zero_range. rewrite map_seq_nth by exact H. reflexivity.
  - rewrite !nth_overflow by (rewrite ?zero_range_length; lia). destruct (_ && _); reflexivity.
Qed.
Lemma zero_range_empty lo hi l : (hi <= lo)%nat -> zero_range lo hi l = l.
Proof.
  intros H. apply (nth_ext_eq 0); [apply zero_range_length|]. intros i _. rewrite zero_range_nth.
  destruct (Nat.leb_spec lo i), (Nat.ltb_spec i hi); simpl; try reflexivity; lia.
Qed.
Lemma lsum_firstn n l : lsum (firstn n l) = rsum n (fun i => nth i l 0).
Proof.
  revert l; induction n; intros l; [reflexivity|]. destruct l.
  - simpl. rewrite (rsum_zero n). + destruct n; lra. + intros i _. destruct i; reflexivity.
  - rewrite rsum_shift. simpl. rewrite IHn. reflexivity.
Qed.
Lemma lsum_slice lo hi l n : (hi <= n)%nat ->
  lsum (slice lo hi l) = rsum n (fun i => if ((lo <=? i) && (i <? hi))%nat then nth i l 0 else 0).
Proof.
  intros H. unfold slice. rewrite lsum_firstn.
  destruct (Nat.le_gt_cases hi lo) as [L|L].
  - replace (hi - lo)%nat with O by lia. cbn [rsum]. symmetry. apply rsum_zero. intros i _.
    destruct (Nat.leb_spec lo i), (Nat.ltb_spec i hi); simpl; try reflexivity; lia.
  - replace n with (lo + ((hi - lo) + (n - hi)))%nat by lia. rewrite !rsum_app.
    rewrite (rsum_zero lo).
    2:{ intros i Hi. destruct (Nat.leb_spec lo i); [lia|reflexivity]. }
    rewrite (rsum_zero (n - hi)).
    2:{ intros i Hi. destruct (Nat.ltb_spec (lo + (hi - lo + i)) hi); [lia|]. rewrite andb_false_r. reflexivity. }
    rewrite Rplus_0_l, Rplus_0_r. apply rsum_ext. intros i Hi. rewrite nth_skipn.
    destruct (Nat.leb_spec lo (lo + i)), (Nat.ltb_spec (lo + i) hi); simpl; try reflexivity; lia.
Qed.

(** argmax *)
Lemma argmax_from_spec l : forall best bi i,
  let r := argmax_from best bi i l in
  (r = bi /\ (forall j, (j < length l)%nat -> nth j l 0 <= best)) \/
  ((i <= r < i + length l)%nat /\ best < nth (r - i) l 0 /\
   (forall j, (j < length l)%nat -> nth j l 0 <= nth (r - i) l 0) /\
   (forall j, (j < r - i)%nat -> nth j l 0 < nth (r - i) l 0)).
Proof.
  induction l as [|x t IH]; intros best bi i; cbn [argmax_from].
  - left. split; [reflexivity|]. intros j H. simpl in H. lia.
  - destruct (Rltb_spec best x) as [B|B].
    + specialize (IH x i (S i)). cbv zeta in IH. set (r := argmax_from x i (S i) t) in *. right.
      destruct IH as [[E H]|(Rg & Bx & Mx & Fs)].
      * rewrite E. replace (i - i)%nat with O by lia. cbn [length nth]. split; [lia|]. split; [exact B|].
        split; [|intros j Hj; lia]. intros j Hj. destruct j; [lra|]. apply H. lia.
      * cbn [length]. destruct (r - i)%nat as [|m] eqn:Em; [lia|]. cbn [nth]. replace (r - S i)%nat with m in * by lia.
        split; [lia|]. split; [lra|]. split.
        -- intros j Hj. destruct j; [lra|]. apply Mx. lia.
        -- intros j Hj. destruct j; [lra|]. apply Fs. lia.
    + specialize (IH best bi (S i)). cbv zeta in IH. set (r := argmax_from best bi (S i) t) in *.
      destruct IH as [[E H]|(Rg & Bx & Mx & Fs)].
      * left. split; [exact E|]. intros j Hj. destruct j; [exact B|]. apply H. cbn [length] in Hj. lia.
      * right. cbn [length]. destruct (r - i)%nat as [|m] eqn:Em; [lia|]. cbn [nth]. replace (r - S i)%nat with m in * by lia.
        split; [lia|]. split; [exact Bx|]. split.
        -- intros j Hj. destruct j; [lra|]. apply Mx. lia.
        -- intros j Hj. destruct j; [lra|]. apply Fs. lia.
Qed.
Lemma argmax_spec l : l <> [] ->
  (argmax l < length l)%nat /\ (forall j, (j < length l)%nat -> nth j l 0 <= nth (argmax l) l 0) /\
  (forall j, (j < argmax l)%nat -> nth j l 0 < nth (argmax l) l 0).
Proof.
  destruct l as [|x t]; [intros H; contradiction|]. intros _. unfold argmax.
  pose proof (argmax_from_spec t x O 1%nat) as H. cbv zeta in H. set (r := argmax_from x 0 1 t) in *. cbn [length].
  destruct H as [[E H]|(Rg & Bx & Mx & Fs)].
  - rewrite E. split; [lia|]. split; [|intros j Hj; lia]. intros j Hj. destruct j; cbn [nth]; [lra|]. apply H. lia.
  - destruct r as [|m]; [lia|]. replace (S m - 1)%nat with m in * by lia. cbn [nth]. split; [lia|]. split.
    + intros j Hj. destruct j; [lra|]. apply Mx. lia.
    + intros j Hj. destruct j; [lra|]. apply Fs. lia.
Qed.
Lemma argmax_unique l r : (r < length l)%nat -> (forall j, (j < length l)%nat -> nth j l 0 <= nth r l 0) ->
  (forall j, (j < r)%nat -> nth j l 0 < nth r l 0) -> argmax l = r.
Proof.
  intros H1 H2 H3. assert (N : l <> []) by (destruct l; [simpl in H1; lia|discriminate]).
  destruct (argmax_spec l N) as (A1 & A2 & A3). destruct (Nat.lt_trichotomy (argmax l) r) as [L|[L|L]]; [|exact L|].
  - specialize (H3 _ L). specialize (A2 r H1). lra.
  - specialize (A3 _ L). specialize (H2 _ A1). lra.
Qed.

(** sorting *)
Lemma insR_perm x l : Permutation (insR x l) (x :: l).
Proof.
  induction l as [|y t IH]; [reflexivity|]. cbn [insR]. destruct (Rleb x y); [reflexivity|].
  rewrite IH. apply perm_swap.
Qed.
Lemma sortR_perm l : Permutation (sortR l) l.
Proof. induction l; [reflexivity|]. simpl. rewrite insR_perm. constructor. exact IHl. Qed.
Lemma sortR_length l : length (sortR l) = length l.
Proof. apply Permutation_length, sortR_perm. Qed.
Lemma insR_sorted x l : StronglySorted Rle l -> StronglySorted Rle (insR x l).
Proof.
  induction 1 as [|y t S IH F]; cbn [insR].
  - constructor; constructor.
  - destruct (Rleb_spec x y) as [L|L].
    + constructor; [constructor; assumption|]. constructor; [exact L|]. eapply Forall_impl; [|exact F]. intros z Hz; simpl in Hz; lra.
    + constructor; [exact IH|]. apply (Permutation_Forall (Permutation_sym (insR_perm x t))). constructor; [lra|exact F].
Qed.
Lemma sortR_sorted l : StronglySorted Rle (sortR l).
Proof. induction l; simpl; [constructor|]. apply insR_sorted. exact IHl. Qed.
Lemma sorted_nth l : StronglySorted Rle l -> forall i j, (i <= j < length l)%nat -> nth i l 0 <= nth j l 0.
Proof.
  induction 1 as [|y t S IH F]; intros i j [H1 H2]; simpl in H2; [lia|].
  destruct i, j; cbn [nth]; [lra| |lia|apply IH; lia].
  rewrite Forall_forall in F. apply F, nth_In. lia.
Qed.
(** The median lies between any bounds of the data. *)
Lemma median_bounds l a b : l <> [] -> (forall x, In x l -> a <= x <= b) -> a <= median l <= b.
Proof.
  intros N H. assert (L : (0 < length l)%nat) by (destruct l; [contradiction|simpl; lia]).
  assert (In' : forall i, (i < length l)%nat -> a <= nth i (sortR l) 0 <= b).
  { intros i Hi. apply H. apply (Permutation_in _ (sortR_perm l)). apply nth_In. rewrite sortR_length. exact Hi. }
  unfold median. destruct (Nat.even (length l)) eqn:Ev.
  - apply Nat.even_spec in Ev. destruct Ev as [h Eh]. rewrite Eh. rewrite (Nat.mul_comm 2 h), Nat.div_mul by lia.
    pose proof (In' (h - 1)%nat ltac:(lia)). pose proof (In' h ltac:(lia)). lra.
  - apply In'. apply Nat.div_lt; lia.
Qed.
Lemma sorted_unique a b : StronglySorted Rle a -> StronglySorted Rle b -> Permutation a b -> a = b.
Proof.
  intros Ha. revert b. induction Ha as [|x a' Sa IH Fa]; intros b Hb P.
  - apply Permutation_nil in P. subst. reflexivity.
  - destruct Hb as [|y b' Sb Fb]; [apply Permutation_sym, Permutation_nil in P; discriminate|].
    assert (E : x = y).
    { apply Rle_antisym.
      - assert (I : In y (x :: a')) by (apply (Permutation_in _ (Permutation_sym P)); left; reflexivity).
        destruct I as [->|I]; [lra|]. rewrite Forall_forall in Fa. apply Fa, I.
      - assert (I : In x (y :: b')) by (apply (Permutation_in _ P); left; reflexivity).
        destruct I as [->|I]; [lra|]. rewrite Forall_forall in Fb. apply Fb, I. }
    subst y. f_equal. apply IH; [exact Sb|]. eapply Permutation_cons_inv, P.
Qed.
Lemma sortR_permutation a b : Permutation a b -> sortR a = sortR b.
Proof.
  intros P. apply sorted_unique; try apply sortR_sorted. rewrite !sortR_perm. exact P.
Qed.
