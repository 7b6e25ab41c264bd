From Verif Require Import Base BaseLemmas FreqModel FreqSpec.
From Coq Require Import Psatz ZifyBool Sorted Znumtheory.
Local Open Scope R_scope.

(** ** Rounding facts *)
Lemma round_he_half x : Rabs (IZR (round_he x) - x) <= / 2.
Proof. unfold round_he. rewrite Rabs_minus_sym. apply Znearest_half. Qed.
Lemma round_he_dist x k : Rabs (x - IZR (round_he x)) <= Rabs (x - IZR k).
Proof.
  pose proof (round_he_half x) as H. rewrite Rabs_minus_sym in H.
  destruct (Z.eq_dec k (round_he x)) as [->|Hne]; [lra|].
  assert (1 <= Rabs (IZR (round_he x) - IZR k)).
  { rewrite <- minus_IZR, <- abs_IZR. apply (IZR_le 1). lia. }
  pose proof (Rabs_triang (IZR (round_he x) - x) (x - IZR k)) as T.
  replace (IZR (round_he x) - x + (x - IZR k)) with (IZR (round_he x) - IZR k) in T by ring.
  rewrite (Rabs_minus_sym (IZR (round_he x)) x) in T. lra.
Qed.

(** ** Stable sort: the head is the first minimum *)
Fixpoint sorted_key (l : list (R * Z)) : Prop :=
  match l with [] => True | x :: t => (forall y, In y t -> fst x <= fst y) /\ sorted_key t end.
Lemma ins_key_in x l y : In y (ins_key x l) <-> y = x \/ In y l.
Proof.
  induction l as [|z l IH]; simpl; [intuition|]. destruct (Rltb _ _); simpl; rewrite ?IH; intuition.
Qed.
Lemma sort_key_in l y : In y (sort_key l) <-> In y l.
Proof. induction l as [|x l IH]; simpl; [tauto|]. rewrite ins_key_in, IH. intuition. Qed.
Lemma ins_key_sorted x l : sorted_key l -> sorted_key (ins_key x l).
Proof.
  induction l as [|z l IH]; simpl; [intuition|]. intros [H1 H2].
  destruct (Rltb_spec (fst z) (fst x)).
  - split; [|apply IH, H2]. intros y Hy. apply ins_key_in in Hy. destruct Hy as [->|Hy]; [lra|apply H1, Hy].
  - split; [|split; assumption]. intros y [<-|Hy]; [lra|]. specialize (H1 y Hy). lra.
Qed.
Lemma sort_key_sorted l : sorted_key (sort_key l).
Proof. induction l; simpl; [exact I|]. apply ins_key_sorted; assumption. Qed.

(** On a list increasing in the bin, the head has the lowest bin among the minima. *)
Lemma sort_key_first l d b t :
  StronglySorted (fun x y => (snd x < snd y)%Z) l ->
  sort_key l = (d, b) :: t -> forall y, In y l -> fst y = d -> (b <= snd y)%Z.
Proof.
  revert d b t; induction l as [|x l IH]; intros d b t S E y Hy Ey; [easy|].
  apply StronglySorted_inv in S. destruct S as [S F]. simpl in E.
  destruct (sort_key l) as [|[d' b'] t'] eqn:E'.
  - simpl in E. injection E as E _. assert (l = []).
    { destruct l as [|z l]; [reflexivity|]. exfalso. pose proof (proj2 (sort_key_in (z :: l) z) (or_introl eq_refl)) as H. rewrite E' in H. easy. }
    subst l. destruct Hy as [<-|[]]. subst x. simpl. lia.
  - cbn [ins_key] in E. destruct (Rltb_spec (fst (d', b')) (fst x)) as [L|L]; simpl in L.
    + injection E as <- <- _. destruct Hy as [<-|Hy]; [lra|]. apply (IH d' b' t' S eq_refl y Hy Ey).
    + injection E as -> _. simpl in *. destruct Hy as [<-|Hy]; [simpl; lia|].
      rewrite Forall_forall in F. specialize (F y Hy). simpl in F. lia.
Qed.

Lemma radius_range_in r i : In i (radius_range r) <-> (- r <= i <= r)%Z.
Proof.
  unfold radius_range. rewrite in_map_iff. split.
  - intros [k [<- Hk]]. apply in_seq in Hk. lia.
  - intros H. exists (Z.to_nat (i + r)). split; [lia|]. apply in_seq. lia.
Qed.

Lemma bin_ok_spec fo n b : bin_ok fo n b = true <-> admissible fo n b.
Proof.
  unfold bin_ok, admissible. rewrite !andb_true_iff, !negb_true_iff, Z.leb_gt, Z.eqb_eq.
  assert (E : fo && (b mod 2 =? 0)%Z = false <-> (fo = true -> Z.Odd b)).
  { destruct fo; simpl; [|split; [discriminate|reflexivity]].
    rewrite <- Z.odd_spec, Zodd_mod. split; [intros H _|intros H; specialize (H eq_refl)];
    pose proof (Z.mod_pos_bound b 2 ltac:(lia)); unfold Zeq_bool in *; destruct (Z.eqb_spec (b mod 2) 0);
    destruct (Z.compare_spec (b mod 2) 1); try lia; try discriminate; auto. }
  rewrite E. tauto.
Qed.

Lemma StronglySorted_map_seq (f : nat -> Z) a n :
  (forall i j, (i < j)%nat -> (f i < f j)%Z) -> StronglySorted Z.lt (map f (seq a n)).
Proof.
  intros H. revert a; induction n as [|n IH]; intros a; simpl; constructor; [apply IH|].
  rewrite Forall_forall. intros y Hy. apply in_map_iff in Hy. destruct Hy as [k [<- Hk]]. apply in_seq in Hk. apply H. lia.
Qed.
Lemma StronglySorted_filter {A} (R0 : A -> A -> Prop) f l : StronglySorted R0 l -> StronglySorted R0 (filter f l).
Proof.
  induction 1 as [|x l S IH F]; simpl; [constructor|]. destruct (f x); [|exact IH]. constructor; [exact IH|].
  rewrite Forall_forall in *. intros y Hy. apply filter_In in Hy. apply F, Hy.
Qed.
Lemma StronglySorted_map {A B} (R0 : B -> B -> Prop) (g : A -> B) l :
  StronglySorted (fun x y => R0 (g x) (g y)) l -> StronglySorted R0 (map g l).
Proof.
  induction 1 as [|x l S IH F]; simpl; constructor; [exact IH|]. rewrite Forall_map. exact F.
Qed.

Lemma coherent_eval fs fin n fo r :
  fs <> 0 ->
  let t := fin / fs * IZR n in let c := round_he t in
  (find_coherent_frequency fs fin n fo r = Err ValueError /\
     forall b, admissible fo n b -> ~ (Z.abs (b - c) <= r)%Z) \/
  (exists b, admissible fo n b /\ (Z.abs (b - c) <= r)%Z /\
     (forall b', admissible fo n b' -> (Z.abs (b' - c) <= r)%Z ->
        Rabs (IZR b - t) <= Rabs (IZR b' - t) /\ (Rabs (IZR b' - t) = Rabs (IZR b - t) -> (b <= b')%Z)) /\
     find_coherent_frequency fs fin n fo r =
       if (n =? 0)%Z then Err ZeroDivisionError else Ok (IZR b * fs / IZR n, b)).
Proof.
  intros Hfs t c. unfold find_coherent_frequency. destruct (Reqb_spec fs 0) as [Hz|Hz]; [contradiction|].
  fold t. fold c. set (bins := map (fun i => (c + i)%Z) (radius_range r)).
  set (cand := map (fun b => (Rabs (IZR b - t), b)) (filter (bin_ok fo n) bins)).
  assert (Hin : forall b, In (Rabs (IZR b - t), b) cand <-> admissible fo n b /\ (Z.abs (b - c) <= r)%Z).
  { intros b. unfold cand. rewrite in_map_iff. split.
    - intros [b' [E H]]. injection E as _ ->. apply filter_In in H. destruct H as [H1 H2].
      apply bin_ok_spec in H2. split; [exact H2|]. unfold bins in H1. apply in_map_iff in H1.
      destruct H1 as [i [<- Hi]]. apply radius_range_in in Hi. lia.
    - intros [H1 H2]. exists b. split; [reflexivity|]. apply filter_In. split; [|apply bin_ok_spec, H1].
      unfold bins. apply in_map_iff. exists (b - c)%Z. split; [lia|]. apply radius_range_in. lia. }
  assert (Hsort : StronglySorted (fun x y => (snd x < snd y)%Z) cand).
  { unfold cand. apply StronglySorted_map. cbn [snd]. apply StronglySorted_filter. unfold bins, radius_range.
    rewrite map_map. apply StronglySorted_map_seq. intros; lia. }
  destruct (sort_key cand) as [|[d b] tl] eqn:E.
  - left. split; [reflexivity|]. intros b Hb Hw. pose proof (proj2 (sort_key_in cand _) (proj2 (Hin b) (conj Hb Hw))) as H.
    rewrite E in H. easy.
  - right. exists b.
    assert (Hb : In (d, b) cand) by (apply sort_key_in; rewrite E; left; reflexivity).
    assert (Ed : d = Rabs (IZR b - t)).
    { unfold cand in Hb. apply in_map_iff in Hb. destruct Hb as [b' [Eb _]]. injection Eb as <- ->. reflexivity. }
    subst d. pose proof (proj1 (Hin b) Hb) as [H1 H2]. split; [exact H1|]. split; [exact H2|]. split; [|reflexivity].
    intros b' Hb1 Hb2. pose proof (proj2 (Hin b') (conj Hb1 Hb2)) as Hc. split.
    + pose proof (sort_key_sorted cand) as S. rewrite E in S. simpl in S. destruct S as [S _].
      pose proof (proj2 (sort_key_in cand _) Hc) as Hs. rewrite E in Hs. destruct Hs as [Hs|Hs].
      * injection Hs as _ ->. lra.
      * apply (S _ Hs).
    + intros Et. apply (sort_key_first cand _ b tl Hsort E (Rabs (IZR b' - t), b') Hc). exact Et.
Qed.

(** ** C10 *)
Lemma c10_nearest_bin fs fin n fo r f b :
  find_coherent_frequency fs fin n fo r = Ok (f, b) ->
  let t := fin / fs * IZR n in let c := round_he t in
  fs <> 0 /\ n <> 0%Z /\
  admissible fo n b /\ (Z.abs (b - c) <= r)%Z /\ f = IZR b * fs / IZR n /\
  (forall b', admissible fo n b' -> Rabs (IZR b - t) <= Rabs (IZR b' - t)) /\
  (forall b', admissible fo n b' -> (Z.abs (b' - c) <= r)%Z ->
     Rabs (IZR b' - t) = Rabs (IZR b - t) -> (b <= b')%Z).
Proof.
  intros E t c. assert (Hfs : fs <> 0).
  { unfold find_coherent_frequency in E. destruct (Reqb_spec fs 0); [discriminate|assumption]. }
  destruct (coherent_eval fs fin n fo r Hfs) as [[E' _]|[b0 [A [W [M E']]]]]; [congruence|].
  rewrite E' in E. destruct (Z.eqb_spec n 0); [discriminate|]. injection E as <- <-.
  fold t in M, W, E'. fold c in M, W, E'. split; [exact Hfs|]. split; [assumption|].
  split; [exact A|]. split; [exact W|]. split; [reflexivity|]. split.
  - intros b' A'. destruct (Z_le_gt_dec (Z.abs (b' - c)) r) as [L|G]; [apply (M b' A' L)|].
    pose proof (round_he_half t) as H. fold c in H.
    assert (G' : IZR r + 1 <= Rabs (IZR b' - IZR c)).
    { rewrite <- minus_IZR, <- abs_IZR, <- (plus_IZR r 1). apply IZR_le. lia. }
    assert (W' : Rabs (IZR b0 - IZR c) <= IZR r).
    { rewrite <- minus_IZR, <- abs_IZR. apply IZR_le. exact W. }
    pose proof (Rabs_triang (IZR b0 - IZR c) (IZR c - t)) as T1.
    replace (IZR b0 - IZR c + (IZR c - t)) with (IZR b0 - t) in T1 by ring.
    pose proof (Rabs_triang (IZR b' - t) (t - IZR c)) as T2.
    replace (IZR b' - t + (t - IZR c)) with (IZR b' - IZR c) in T2 by ring.
    rewrite (Rabs_minus_sym t) in T2. lra.
  - intros b' A' W'. apply (M b' A' W').
Qed.

Lemma c10_error fs fin n fo r :
  fs <> 0 ->
  find_coherent_frequency fs fin n fo r = Err ValueError <->
  forall b, admissible fo n b -> ~ (Z.abs (b - round_he (fin / fs * IZR n)) <= r)%Z.
Proof.
  intros Hfs. destruct (coherent_eval fs fin n fo r Hfs) as [[E H]|[b [A [W [M E]]]]].
  - split; [intros _; exact H|intros _; exact E].
  - split; [|intros H; exfalso; apply (H b A W)]. rewrite E. destruct (n =? 0)%Z; discriminate.
Qed.

(** For a power-of-two FFT the search always succeeds and is off by at most one bin. *)
Lemma c10_power_of_two fs fin m fo r :
  0 < fs -> 0 <= fin -> (0 <= m)%Z -> (1 <= r)%Z ->
  exists f b, find_coherent_frequency fs fin (2 ^ m) fo r = Ok (f, b) /\
    Rabs (f - fin) <= fs / IZR (2 ^ m).
Proof.
  intros Hfs Hf Hm Hr. set (n := (2 ^ m)%Z). assert (Hn : (0 < n)%Z) by (apply Z.pow_pos_nonneg; lia).
  set (t := fin / fs * IZR n). set (c := round_he t).
  assert (Hn' : 0 < IZR n) by (apply IZR_lt; exact Hn).
  assert (Ht : 0 <= t).
  { unfold t. apply Rmult_le_pos; [apply Rdiv_le_0_compat; lra|lra]. }
  pose proof (round_he_half t) as Hc. fold c in Hc.
  assert (Hc0 : (0 <= c)%Z).
  { apply le_IZR. destruct (Rle_dec 0 (IZR c)) as [|G]; [assumption|].
    assert (c <= -1)%Z by (cut (c < 0)%Z; [lia|apply lt_IZR; lra]). apply IZR_le in H.
    unfold Rabs in Hc. destruct (Rcase_abs _); lra. }
  (* an odd positive bin within distance one of t and in the window *)
  assert (G : exists b, (0 < b)%Z /\ Z.Odd b /\ (Z.abs (b - c) <= 1)%Z /\ Rabs (IZR b - t) <= 1).
  { destruct (Z.Even_or_Odd c) as [[k Ek]|Oc].
    - destruct (Rle_dec (IZR c) t) as [L|L].
      + exists (c + 1)%Z. rewrite plus_IZR. split; [lia|]. split; [exists k; lia|]. split; [lia|].
        unfold Rabs in *. destruct (Rcase_abs _), (Rcase_abs _); lra.
      + exists (c - 1)%Z. assert (c <> 0)%Z by (intros ->; lra). rewrite minus_IZR.
        split; [lia|]. split; [exists (k - 1)%Z; lia|]. split; [lia|].
        unfold Rabs in *. destruct (Rcase_abs _), (Rcase_abs _); lra.
    - exists c. split; [destruct Oc as [k Ek]; lia|]. split; [exact Oc|]. split; [lia|lra]. }
  destruct G as [b [B1 [B2 [B3 B4]]]].
  assert (Ab : admissible fo n b).
  { split; [exact B1|]. split; [intros _; exact B2|].
    unfold n. clear - B2 Hm. apply Zgcd_1_rel_prime. apply rel_prime_sym.
    apply (natlike_ind (fun m => rel_prime (2 ^ m) b)); [| |exact Hm].
    - apply rel_prime_1.
    - intros x Hx IH. rewrite Z.pow_succ_r by lia. apply rel_prime_sym, rel_prime_mult; [|apply rel_prime_sym, IH].
      apply rel_prime_sym, prime_rel_prime; [apply prime_2|].
      intros [q Hq]. destruct B2 as [p Hp]. lia. }
  destruct (coherent_eval fs fin n fo r ltac:(lra)) as [[E H]|[b0 [A [W [M E]]]]].
  { exfalso. apply (H b Ab). fold t. fold c. lia. }
  fold t in M. fold c in M. destruct (Z.eqb_spec n 0); [lia|].
  exists (IZR b0 * fs / IZR n), b0. split; [exact E|].
  destruct (M b Ab ltac:(lia)) as [M1 _].
  replace (IZR b0 * fs / IZR n - fin) with ((IZR b0 - t) * (fs / IZR n)) by (unfold t; field; lra).
  rewrite Rabs_mult. rewrite (Rabs_pos_eq (fs / IZR n)) by (apply Rdiv_le_0_compat; lra).
  rewrite <- (Rmult_1_l (fs / IZR n)) at 2. apply Rmult_le_compat_r; [apply Rdiv_le_0_compat; lra|lra].
Qed.

(** ** C11 *)
Lemma fold_nearest f fs : 0 < fs -> nearest_multiple_distance f fs (fold_frequency f fs).
Proof.
  intros Hfs. unfold fold_frequency. split.
  - exists (round_he (f / fs)). f_equal. ring.
  - intros k. pose proof (round_he_dist (f / fs) k) as H.
    replace (f - fs * IZR (round_he (f / fs))) with (fs * (f / fs - IZR (round_he (f / fs)))) by (field; lra).
    replace (f - IZR k * fs) with (fs * (f / fs - IZR k)) by (field; lra).
    rewrite !Rabs_mult. apply Rmult_le_compat_l; [apply Rabs_pos|exact H].
Qed.

Lemma nmd_unique x m d e : nearest_multiple_distance x m d -> nearest_multiple_distance x m e -> d = e.
Proof. intros [[k Hk] H] [[j Hj] G]. specialize (H j). specialize (G k). lra. Qed.
Lemma nmd_half x m d : 0 < m -> nearest_multiple_distance x m d -> 0 <= d <= m / 2.
Proof.
  intros Hm [[k Hk] H]. split; [rewrite Hk; apply Rabs_pos|].
  pose proof (fold_nearest x m Hm) as G. assert (E : d = fold_frequency x m) by (apply (nmd_unique x m); [split; eauto|exact G]).
  rewrite E. unfold fold_frequency. pose proof (round_he_half (x / m)) as Hr. rewrite Rabs_minus_sym in Hr.
  replace (x - m * IZR (round_he (x / m))) with (m * (x / m - IZR (round_he (x / m)))) by (field; lra).
  rewrite Rabs_mult, (Rabs_pos_eq m) by lra. nra.
Qed.
Lemma nmd_shift x m d k : nearest_multiple_distance x m d -> nearest_multiple_distance (x + IZR k * m) m d.
Proof.
  intros [[j Hj] H]. split.
  - exists (j + k)%Z. rewrite plus_IZR. rewrite Hj. f_equal. ring.
  - intros i. specialize (H (i - k)%Z). rewrite minus_IZR in H.
    replace (x + IZR k * m - IZR i * m) with (x - (IZR i - IZR k) * m) by ring. exact H.
Qed.
Lemma nmd_neg x m d : nearest_multiple_distance x m d -> nearest_multiple_distance (- x) m d.
Proof.
  intros [[j Hj] H]. split.
  - exists (- j)%Z. rewrite opp_IZR, Hj, <- Rabs_Ropp. f_equal. ring.
  - intros i. specialize (H (- i)%Z). rewrite opp_IZR in H. rewrite <- Rabs_Ropp.
    replace (- (- x - IZR i * m)) with (x - - IZR i * m) by ring. exact H.
Qed.
Lemma nmd_fixed x m : 0 < m -> 0 <= x <= m / 2 -> nearest_multiple_distance x m x.
Proof.
  intros Hm Hx. split; [exists 0%Z; rewrite Rmult_0_l, Rminus_0_r, Rabs_pos_eq; lra|].
  intros k. destruct (Z.eq_dec k 0) as [->|Hk]; [rewrite Rmult_0_l, Rminus_0_r, Rabs_pos_eq; lra|].
  assert (H : 1 <= Rabs (IZR k)) by (rewrite <- abs_IZR; apply (IZR_le 1); lia).
  pose proof (Rabs_triang_inv (IZR k * m) x) as T. rewrite Rabs_mult, (Rabs_pos_eq m), (Rabs_pos_eq x) in T by lra.
  rewrite Rabs_minus_sym in T. nra.
Qed.

Lemma c11_fold_frequency f fs : 0 < fs ->
  0 <= fold_frequency f fs <= fs / 2 /\
  nearest_multiple_distance f fs (fold_frequency f fs) /\
  (forall k : Z, fold_frequency (f + IZR k * fs) fs = fold_frequency f fs) /\
  fold_frequency (- f) fs = fold_frequency f fs /\
  (0 <= f <= fs / 2 -> fold_frequency f fs = f) /\
  fold_frequency (fold_frequency f fs) fs = fold_frequency f fs.
Proof.
  intros Hfs. pose proof (fold_nearest f fs Hfs) as N. pose proof (nmd_half f fs _ Hfs N) as H.
  assert (Fx : forall x, 0 <= x <= fs / 2 -> fold_frequency x fs = x).
  { intros x Hx. apply (nmd_unique x fs); [apply fold_nearest, Hfs|apply nmd_fixed; assumption]. }
  split; [exact H|]. split; [exact N|]. split; [|split; [|split; [apply Fx|apply Fx, H]]].
  - intros k. apply (nmd_unique (f + IZR k * fs) fs); [apply fold_nearest, Hfs|apply nmd_shift, N].
  - apply (nmd_unique (- f) fs); [apply fold_nearest, Hfs|apply nmd_neg, N].
Qed.

(** ** C12 *)
Lemma wrap_range b n : (0 < n)%Z ->
  let w := b - IZR n * IZR (Zfloor (b / IZR n)) in 0 <= w < IZR n.
Proof.
  intros Hn w. assert (Hn' : 0 < IZR n) by (apply IZR_lt, Hn).
  pose proof (Zfloor_lb (b / IZR n)) as L. pose proof (Zfloor_ub (b / IZR n)) as U.
  set (q := b / IZR n) in *. assert (Eb : b = q * IZR n) by (unfold q; field; lra).
  unfold w. rewrite Eb. nra.
Qed.

Lemma fold_bin_general b n : (0 < n)%Z ->
  let w := b - IZR n * IZR (Zfloor (b / IZR n)) in
  (w <= IZR n / 2 -> w <= IZR (n / 2)) ->
  nearest_multiple_distance b (IZR n) (fold_bin b n).
Proof.
  intros Hn w Hw. pose proof (wrap_range b n Hn) as R. cbv zeta in R. fold w in R.
  assert (Hn' : 0 < IZR n) by (apply IZR_lt, Hn).
  assert (D : IZR (n / 2) <= IZR n / 2).
  { pose proof (Z.div_mod n 2 ltac:(lia)) as DM. pose proof (Z.mod_pos_bound n 2 ltac:(lia)).
    assert (2 * (n / 2) <= n)%Z by lia. apply IZR_le in H0. rewrite mult_IZR in H0. lra. }
  unfold fold_bin. fold w. set (k := Zfloor (b / IZR n)) in *.
  assert (Ew : b = w + IZR k * IZR n) by (unfold w; ring). rewrite Ew at 1.
  apply nmd_shift. destruct (Rltb_spec (IZR (n / 2)) w) as [L|L].
  - assert (IZR n / 2 < w) by (destruct (Rlt_dec (IZR n / 2) w); [assumption|]; lra).
    replace w with (- (IZR n - w) + IZR 1 * IZR n) at 1 by (simpl; ring).
    apply nmd_shift, nmd_neg, nmd_fixed; [exact Hn'|lra].
  - apply nmd_fixed; [exact Hn'|lra].
Qed.

Lemma c12_even_length b n : (0 < n)%Z -> Z.Even n ->
  nearest_multiple_distance b (IZR n) (fold_bin b n) /\ 0 <= fold_bin b n <= IZR n / 2.
Proof.
  intros Hn [h Eh]. assert (N : nearest_multiple_distance b (IZR n) (fold_bin b n)).
  { apply fold_bin_general; [exact Hn|]. intros Hw. assert (Ed : (n / 2)%Z = h) by (subst n; rewrite Z.mul_comm; apply Z.div_mul; lia). rewrite Ed. assert (En : IZR n = 2 * IZR h) by (rewrite Eh; apply mult_IZR). lra. }
  split; [exact N|]. eapply nmd_half; [|exact N]. apply IZR_lt, Hn.
Qed.

Lemma c12_integer_bin (b n : Z) : (0 < n)%Z ->
  nearest_multiple_distance (IZR b) (IZR n) (fold_bin (IZR b) n) /\
  0 <= fold_bin (IZR b) n <= IZR n / 2 /\ exists k : Z, fold_bin (IZR b) n = IZR k.
Proof.
  intros Hn. assert (N : nearest_multiple_distance (IZR b) (IZR n) (fold_bin (IZR b) n)).
  { apply fold_bin_general; [exact Hn|]. intros Hw. revert Hw.
    rewrite <- mult_IZR, <- minus_IZR. set (z := (b - n * _)%Z). intros Hw. apply IZR_le.
    assert (2 * z <= n)%Z by (apply le_IZR; rewrite mult_IZR; lra). apply Z.div_le_lower_bound; lia. }
  split; [exact N|]. split; [eapply nmd_half; [|exact N]; apply IZR_lt, Hn|].
  unfold fold_bin. destruct (Rltb _ _); eexists; rewrite <- mult_IZR, <- !minus_IZR; reflexivity.
Qed.

(** For odd n a fractional bin can fold above n/2 (but never by half a bin or more). *)
Lemma c12_odd_fractional_refuted :
  exists (b : R) (n : Z), (0 < n)%Z /\ IZR n / 2 < fold_bin b n /\
    ~ nearest_multiple_distance b (IZR n) (fold_bin b n).
Proof.
  exists 4.2, 9%Z. assert (E : fold_bin 4.2 9 = 4.8).
  { unfold fold_bin. replace (Zfloor (4.2 / 9)) with 0%Z.
    - replace (9 / 2)%Z with 4%Z by reflexivity. destruct (Rltb_spec 4 (4.2 - 9 * 0)); lra.
    - symmetry. apply Zfloor_imp. simpl. lra. }
  rewrite E. split; [lia|]. split; [lra|]. intros N. apply nmd_half in N; lra.
Qed.

Lemma c12_general_bound b n : (0 < n)%Z -> 0 <= fold_bin b n < IZR n / 2 + 1 / 2.
Proof.
  intros Hn. pose proof (wrap_range b n Hn) as R. cbv zeta in R. unfold fold_bin.
  set (w := b - _) in *.
  assert (D : IZR n / 2 - 1 / 2 <= IZR (n / 2) <= IZR n / 2).
  { pose proof (Z.div_mod n 2 ltac:(lia)) as DM. pose proof (Z.mod_pos_bound n 2 ltac:(lia)).
    assert (H0 : (n - 1 <= 2 * (n / 2) <= n)%Z) by lia. destruct H0 as [H0 H1].
    apply IZR_le in H0. apply IZR_le in H1. rewrite minus_IZR in H0. rewrite mult_IZR in *. lra. }
  destruct (Rltb_spec (IZR (n / 2)) w); lra.
Qed.

Lemma c10_search_ex :
  find_coherent_frequency 8 2.1 8 true 1 = Ok (3, 3%Z) /\
  admissible true 8 3 /\ ~ admissible true 8 2 /\ admissible false 9 4.
Proof.
  split.
  - unfold find_coherent_frequency. destruct (Reqb_spec 8 0) as [H|H]; [lra|].
    replace (2.1 / 8 * 8) with 2.1 by lra.
    replace (round_he 2.1) with 2%Z.
    2:{ symmetry. apply Znearest_imp. rewrite Rabs_pos_eq; simpl; lra. }
    replace (filter (bin_ok true 8) (map (fun i => (2 + i)%Z) (radius_range 1))) with [1; 3]%Z by (vm_compute; reflexivity).
    cbn [map sort_key fold_right ins_key fst]. destruct (Rltb_spec (Rabs (3 - 2.1)) (Rabs (1 - 2.1))) as [L|L].
    + cbn. list_eq. lra.
    + rewrite (Rabs_left (1 - 2.1)), (Rabs_pos_eq (3 - 2.1)) in L by lra. lra.
  - repeat split; try reflexivity; try lia; try discriminate; [exists 1%Z; lia|].
    intros [_ [H _]]. destruct (H eq_refl) as [k Hk]. lia.
Qed.
