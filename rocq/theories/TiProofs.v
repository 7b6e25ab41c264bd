(** * Lemmas about the time-interleave model; the final lemmas are named c17_ .. c22_. *)
From Verif Require Import Base BaseLemmas Cplx FreqModel FreqSpec FreqProofs TiModel TiSpec.
From Coq Require Import Psatz Sorted Permutation.
Local Open Scope R_scope.

(** ** Rectangular lists *)
Lemma concat_rect_length M K a : rect M K a -> length (concat a) = (M * K)%nat.
Proof.
  revert M. induction a as [|r a IH]; intros M [H1 H2]; simpl in *; subst M; [reflexivity|].
  rewrite app_length, (IH (length a)).
  - rewrite (H2 O) by lia. lia.
  - split; [reflexivity|]. intros m Hm. apply (H2 (S m)). lia.
Qed.

Lemma concat_rect_nth M K a i j : rect M K a -> (i < M)%nat -> (j < K)%nat ->
  nth (i * K + j) (concat a) 0 = nth j (nth i a []) 0.
Proof.
  revert M i. induction a as [|r a IH]; intros M i [H1 H2] Hi Hj; simpl in H1; [subst; lia|].
  assert (Hr : length r = K) by (apply (H2 O); lia).
  destruct i as [|i]; simpl.
  - rewrite app_nth1 by lia. reflexivity.
  - rewrite app_nth2 by lia. replace (K + i * K + j - length r)%nat with (i * K + j)%nat by lia.
    apply (IH (length a)); [|lia|exact Hj]. split; [reflexivity|]. intros m Hm. apply (H2 (S m)). lia.
Qed.

Lemma reshape_rect r c x : rect r c (reshape r c x).
Proof.
  unfold reshape. split; [rewrite map_length, seq_length; reflexivity|]. intros m Hm.
  rewrite (nth_map_in _ _ _ O) by (rewrite seq_length; exact Hm). rewrite map_length, seq_length. reflexivity.
Qed.
Lemma reshape_nth r c x i j : (i < r)%nat -> (j < c)%nat -> nth j (nth i (reshape r c x) []) 0 = nth (i * c + j) x 0.
Proof.
  intros Hi Hj. unfold reshape. rewrite (nth_map_in _ _ _ O) by (rewrite seq_length; exact Hi).
  rewrite (nth_map_in _ _ _ O) by (rewrite seq_length; exact Hj). rewrite !seq_nth by assumption. reflexivity.
Qed.
Lemma transpose_rect r c a : length a = r -> rect c r (transpose c a).
Proof.
  intros H. unfold transpose. split; [rewrite map_length, seq_length; reflexivity|]. intros m Hm.
  rewrite (nth_map_in _ _ _ O) by (rewrite seq_length; exact Hm). rewrite map_length. exact H.
Qed.
Lemma transpose_nth c a i j : (i < length a)%nat -> (j < c)%nat -> nth i (nth j (transpose c a) []) 0 = nth j (nth i a []) 0.
Proof.
  intros Hi Hj. unfold transpose. rewrite (nth_map_in _ _ _ O) by (rewrite seq_length; exact Hj).
  rewrite (nth_map_in _ _ _ []) by exact Hi. rewrite seq_nth by exact Hj. reflexivity.
Qed.

Lemma rect_ext M K a b : rect M K a -> rect M K b ->
  (forall m k, (m < M)%nat -> (k < K)%nat -> nth k (nth m a []) 0 = nth k (nth m b []) 0) -> a = b.
Proof.
  intros [A1 A2] [B1 B2] H. apply (nth_ext_eq []); [congruence|]. intros m Hm.
  apply (nth_ext_eq 0); [rewrite A2, B2 by lia; reflexivity|]. intros k Hk. apply H; [lia|]. rewrite A2 in Hk by lia. exact Hk.
Qed.

Lemma deinterleave_ok x M ch : deinterleave x M = Ok ch -> exists m K,
  M = Z.of_nat m /\ (0 < m)%nat /\ length x = (K * m)%nat /\ ch = transpose m (reshape K m x).
Proof.
  unfold deinterleave, raise_if. destruct (Z.leb_spec M 0) as [H|H]; [discriminate|].
  destruct (Z.eqb_spec (Z.of_nat (length x) mod M) 0) as [E|E]; simpl; [|discriminate].
  intros Q. injection Q as <-. exists (Z.to_nat M), (Z.to_nat (Z.of_nat (length x) / M)).
  apply Z.mod_divide in E; [|lia]. destruct E as [q Hq]. rewrite Hq, Z.div_mul by lia.
  assert (0 <= q)%Z by nia.
  repeat split; try lia.
Qed.

Lemma deinterleave_eq x m K : (0 < m)%nat -> length x = (K * m)%nat ->
  deinterleave x (Z.of_nat m) = Ok (transpose m (reshape K m x)).
Proof.
  intros Hm Hx. unfold deinterleave, raise_if. destruct (Z.leb_spec (Z.of_nat m) 0) as [H|H]; [lia|].
  rewrite Hx, Nat2Z.inj_mul, Z_mod_mult, Z.div_mul, !Nat2Z.id by lia. reflexivity.
Qed.

(** deinterleave succeeds exactly when M >= 1 divides the length, and otherwise raises
    ValueError. *)
Lemma c17_deinterleave_domain x M :
  ((0 < M)%Z /\ (M | Z.of_nat (length x))%Z <-> exists ch, deinterleave x M = Ok ch) /\
  (~ ((0 < M)%Z /\ (M | Z.of_nat (length x))%Z) <-> deinterleave x M = Err ValueError).
Proof.
  assert (A : (0 < M)%Z /\ (M | Z.of_nat (length x))%Z -> exists ch, deinterleave x M = Ok ch).
  { intros [H1 [q Hq]]. exists (transpose (Z.to_nat M) (reshape (Z.to_nat q) (Z.to_nat M) x)).
    rewrite <- (Z2Nat.id M) at 1 by lia. apply deinterleave_eq; [lia|].
    assert (0 <= q)%Z by nia. rewrite <- (Nat2Z.id (length x)), Hq, Z2Nat.inj_mul by lia. reflexivity. }
  assert (B : ~ ((0 < M)%Z /\ (M | Z.of_nat (length x))%Z) -> deinterleave x M = Err ValueError).
  { intros H. unfold deinterleave, raise_if. destruct (Z.leb_spec M 0) as [L|L]; [reflexivity|].
    destruct (Z.eqb_spec (Z.of_nat (length x) mod M) 0) as [E|E]; [|reflexivity].
    exfalso. apply H. split; [exact L|]. apply Z.mod_divide; [lia|exact E]. }
  split; split; auto.
  - intros [ch E]. destruct (Z_lt_dec 0 M) as [L|L]; [|rewrite B in E by lia; discriminate].
    destruct (Znumtheory.Zdivide_dec M (Z.of_nat (length x))) as [D|D]; [auto|].
    rewrite B in E by tauto. discriminate.
  - intros E P. destruct (A P) as [ch Q]. congruence.
Qed.

(** The result is an M x (N/M) array whose row m holds x[m], x[m+M], ... *)
Lemma c17_channel_samples x (M : nat) ch :
  deinterleave x (Z.of_nat M) = Ok ch ->
  rect M (length x / M) ch /\
  forall m k, (m < M)%nat -> (k < length x / M)%nat -> nth k (nth m ch []) 0 = nth (k * M + m) x 0.
Proof.
  intros H. apply deinterleave_ok in H. destruct H as [m0 [K [E [Hm [Hx ->]]]]]. apply Nat2Z.inj in E. subst m0.
  assert (D : (length x / M = K)%nat) by (rewrite Hx; apply Nat.div_mul; lia). rewrite D.
  destruct (reshape_rect K M x) as [R1 R2]. split; [apply transpose_rect, R1|].
  intros m k Hm' Hk. rewrite transpose_nth by (rewrite ?R1; lia). apply reshape_nth; assumption.
Qed.

Lemma interleave_ok M K ch : (0 < M)%nat -> rect M K ch -> interleave ch = Ok (concat (transpose K ch)).
Proof.
  intros HM [H1 H2]. unfold interleave. destruct ch as [|r0 ch]; [simpl in H1; lia|].
  assert (E : length r0 = K) by (apply (H2 O); lia). rewrite E.
  replace (forallb _ _) with true; [reflexivity|]. symmetry. apply forallb_forall. intros r Hr.
  apply Nat.eqb_eq. destruct (In_nth _ _ [] Hr) as [i [Hi <-]]. apply H2. lia.
Qed.

Lemma interleave_rect_inv ch y : interleave ch = Ok y -> exists K, rect (length ch) K ch.
Proof.
  unfold interleave. destruct ch as [|r0 t]; [discriminate|].
  destruct (forallb _ _) eqn:F; [|discriminate]. intros _. exists (length r0). split; [reflexivity|].
  intros m Hm. rewrite forallb_forall in F. apply Nat.eqb_eq, F, nth_In, Hm.
Qed.

Lemma interleave_nth M K ch y : (0 < M)%nat -> rect M K ch -> interleave ch = Ok y ->
  length y = (K * M)%nat /\ forall k m, (k < K)%nat -> (m < M)%nat -> nth (k * M + m) y 0 = nth k (nth m ch []) 0.
Proof.
  intros HM Hr E. rewrite (interleave_ok M K) in E by assumption. injection E as <-.
  assert (T : rect K M (transpose K ch)) by (apply transpose_rect, Hr).
  split; [apply concat_rect_length, T|]. intros k m Hk Hm.
  rewrite (concat_rect_nth K M) by assumption. apply transpose_nth; [destruct Hr; lia|exact Hk].
Qed.

Lemma divmod_split (M K n : nat) : (0 < M)%nat -> (n < K * M)%nat ->
  (n / M < K)%nat /\ (n mod M < M)%nat /\ (n = n / M * M + n mod M)%nat.
Proof.
  intros HM Hn. split; [apply Nat.div_lt_upper_bound; lia|]. split; [apply Nat.mod_upper_bound; lia|].
  rewrite (Nat.div_mod n M) at 1 by lia. lia.
Qed.

(** Interleaving the channels of a capture gives the capture back. *)
Lemma c17_interleave_deinterleave x M ch :
  deinterleave x M = Ok ch -> interleave ch = Ok x.
Proof.
  intros H. pose proof (deinterleave_ok _ _ _ H) as [m [K [-> [Hm [Hx E]]]]].
  destruct (c17_channel_samples _ _ _ H) as [R S].
  assert (D : (length x / m = K)%nat) by (rewrite Hx; apply Nat.div_mul; lia). rewrite D in *.
  rewrite (interleave_ok m K) by assumption. f_equal.
  destruct (interleave_nth m K ch _ Hm R (interleave_ok m K ch Hm R)) as [L N].
  apply (nth_ext_eq 0); [congruence|]. intros n Hn. rewrite L in Hn.
  destruct (divmod_split m K n Hm Hn) as [A [B C]]. rewrite C. rewrite N by assumption. apply S; assumption.
Qed.

(** Deinterleaving an interleaved M x K array gives the array back. *)
Lemma c17_deinterleave_interleave M K ch :
  (0 < M)%nat -> rect M K ch ->
  exists x, interleave ch = Ok x /\ length x = (M * K)%nat /\ deinterleave x (Z.of_nat M) = Ok ch.
Proof.
  intros HM R. exists (concat (transpose K ch)). split; [apply (interleave_ok M); assumption|].
  destruct (interleave_nth M K ch _ HM R (interleave_ok M K ch HM R)) as [L N]. split; [lia|].
  rewrite (deinterleave_eq _ M K) by assumption. f_equal.
  apply (rect_ext M K).
  - apply transpose_rect, reshape_rect.
  - exact R.
  - intros m k Hm Hk. destruct (reshape_rect K M (concat (transpose K ch))) as [R1 _].
    rewrite transpose_nth by (rewrite ?R1; lia). rewrite reshape_nth by assumption. apply N; assumption.
Qed.

Lemma c17_roundtrip_ex :
  deinterleave [1; 2; 3; 4; 5; 6] 3 = Ok [[1; 4]; [2; 5]; [3; 6]] /\
  interleave [[1; 4]; [2; 5]; [3; 6]] = Ok [1; 2; 3; 4; 5; 6] /\
  deinterleave [1; 2; 3; 4; 5] 3 = Err ValueError /\ deinterleave [1] (-1) = Err ValueError /\
  interleave [[1; 2]; [3]] = Err ValueError.
Proof. repeat split. Qed.

(** ** Foreground calibration with negligible skew *)
Lemma correct_all_negligible meth nt fs sk chs : length sk = length chs ->
  (forall i, (i < length sk)%nat -> Rabs (nth i sk 0) < / 10 ^ 18) -> correct_all meth nt fs sk chs = Ok chs.
Proof.
  revert chs. induction sk as [|s sk IH]; intros [|c chs] L H; simpl in L; try discriminate; [reflexivity|].
  cbn [correct_all]. unfold correct_skew.
  destruct (Rltb_spec (Rabs s) (/ 10 ^ 18)) as [P|P].
  - cbn [bind]. rewrite IH; [reflexivity|lia|]. intros i Hi. apply (H (S i)). simpl. lia.
  - exfalso. specialize (H O ltac:(simpl; lia)). simpl nth in H. lra.
Qed.

Lemma ch1_nth M K offset gain chs m k : rect M K chs -> length offset = M -> length gain = M ->
  (m < M)%nat -> (k < K)%nat ->
  nth k (nth m (map2 (fun og row => map (fun v => (v - fst og) / snd og) row) (combine offset gain) chs) []) 0
  = (nth k (nth m chs []) 0 - nth m offset 0) / nth m gain 0.
Proof.
  intros [R1 R2] Ho Hg Hm Hk.
  rewrite (map2_nth _ _ _ m (0, 0) [] []) by (rewrite ?combine_length; lia).
  rewrite combine_nth by lia. cbn [fst snd].
  rewrite (nth_map_in _ _ _ 0) by (rewrite R2; lia). reflexivity.
Qed.
Lemma ch1_rect M K offset gain chs : rect M K chs -> length offset = M -> length gain = M ->
  rect M K (map2 (fun og row => map (fun v => (v - fst og) / snd og) row) (combine offset gain) chs).
Proof.
  intros [R1 R2] Ho Hg. split; [rewrite map2_length; rewrite combine_length; lia|]. intros m Hm.
  rewrite (map2_nth _ _ _ m (0, 0) [] []) by (rewrite ?combine_length; lia). rewrite map_length. apply R2, Hm.
Qed.

Lemma map_seq_nth (f : nat -> R) n i : (i < n)%nat -> nth i (map f (seq 0 n)) 0 = f i.
Proof. intros H. rewrite (nth_map_in _ _ _ O) by (rewrite seq_length; exact H). rewrite seq_nth by exact H. reflexivity. Qed.

(** A capture in which channel m multiplied by gain m and added offset m is restored exactly
    by the true parameters when every skew is negligible, whatever skew method is named. *)
Lemma c18_restores_signal s M K offset gain skew fs method n_taps :
  (0 < M)%nat -> length offset = M -> length gain = M -> length skew = M ->
  (forall m, (m < M)%nat -> nth m gain 0 <> 0) ->
  (forall m, (m < M)%nat -> Rabs (nth m skew 0) < / 10 ^ 18) ->
  calibrate_foreground (map (mismatched M gain offset s) (seq 0 (K * M))) (Z.of_nat M)
    offset gain skew fs method n_taps = Ok (map s (seq 0 (K * M))).
Proof.
  intros HM Ho Hg Hs G S. set (x := map _ _). assert (Lx : length x = (K * M)%nat) by (unfold x; rewrite map_length, seq_length; reflexivity).
  unfold calibrate_foreground. pose proof (deinterleave_eq x M K HM Lx) as D. rewrite D.
  destruct (c17_channel_samples _ _ _ D) as [R N].
  replace (length x / M)%nat with K in * by (rewrite Lx; symmetry; apply Nat.div_mul; lia).
  set (chs := transpose M (reshape K M x)) in *. cbn [bind]. unfold raise_if.
  rewrite Ho, Hg, Hs, Z.eqb_refl. cbn [andb negb].
  pose proof (ch1_rect M K offset gain chs R Ho Hg) as R1.
  pose proof (fun m k => ch1_nth M K offset gain chs m k R Ho Hg) as N1.
  set (c1 := map2 _ _ _) in *.
  rewrite correct_all_negligible; [|destruct R1; lia|intros i Hi; apply S; lia].
  cbn [bind]. rewrite (interleave_ok M K) by assumption. f_equal.
  destruct (interleave_nth M K c1 _ HM R1 (interleave_ok M K c1 HM R1)) as [L N2].
  apply (nth_ext_eq 0); [rewrite L, map_length, seq_length; reflexivity|]. intros n Hn. rewrite L in Hn.
  destruct (divmod_split M K n HM Hn) as [A [B C]].
  rewrite map_seq_nth by exact Hn. rewrite C at 1. rewrite N2, N1, N by assumption. rewrite <- C.
  unfold x. rewrite map_seq_nth by exact Hn. unfold mismatched. field. apply G, B.
Qed.

(** Parameter vectors of a wrong size, or an unusable signal/channel count, raise ValueError. *)
Lemma c18_wrong_sizes x M offset gain skew fs method n_taps :
  Z.of_nat (length offset) <> M \/ Z.of_nat (length gain) <> M \/ Z.of_nat (length skew) <> M
  \/ (M <= 0)%Z \/ ~ (M | Z.of_nat (length x))%Z ->
  calibrate_foreground x M offset gain skew fs method n_taps = Err ValueError.
Proof.
  intros H. unfold calibrate_foreground.
  destruct (deinterleave x M) as [ch|e] eqn:D.
  - cbn [bind]. unfold raise_if.
    destruct (Z.eqb_spec (Z.of_nat (length offset)) M); [|reflexivity].
    destruct (Z.eqb_spec (Z.of_nat (length gain)) M); [|reflexivity].
    destruct (Z.eqb_spec (Z.of_nat (length skew)) M); [|reflexivity].
    exfalso. destruct (c17_deinterleave_domain x M) as [P _]. apply proj2 in P. destruct P as [P1 P2]; [eauto|].
    destruct H as [H|[H|[H|[H|H]]]]; auto; lia.
  - destruct (c17_deinterleave_domain x M) as [P Q]. cbn [bind].
    unfold deinterleave, raise_if in D. destruct (M <=? 0)%Z; [congruence|].
    destruct (negb _); congruence.
Qed.

(** An unknown skew_method raises ValueError as soon as one skew is not negligible. *)
Lemma c18_unknown_method x M offset gain skew fs n_taps m :
  (m < length skew)%nat -> / 10 ^ 18 <= Rabs (nth m skew 0) ->
  calibrate_foreground x M offset gain skew fs SkewOther n_taps = Err ValueError.
Proof.
  intros Hm Hs. unfold calibrate_foreground. destruct (deinterleave x M) as [ch|e] eqn:D.
  2:{ unfold deinterleave, raise_if in D. cbn [bind]. destruct (M <=? 0)%Z; [congruence|]. destruct (negb _); congruence. }
  cbn [bind]. unfold raise_if.
  destruct (Z.eqb_spec (Z.of_nat (length offset)) M) as [Ho|]; [|reflexivity].
  destruct (Z.eqb_spec (Z.of_nat (length gain)) M) as [Hg|]; [|reflexivity].
  destruct (Z.eqb_spec (Z.of_nat (length skew)) M) as [Hk|]; [|reflexivity]. cbn [andb negb].
  apply deinterleave_ok in D. destruct D as [m0 [K [-> [H0 [Hx ->]]]]].
  assert (R : rect m0 K (transpose m0 (reshape K m0 x))) by (apply transpose_rect, reshape_rect).
  apply Nat2Z.inj in Ho, Hg, Hk.
  pose proof (ch1_rect m0 K offset gain _ R Ho Hg) as [R1 _]. set (c1 := map2 _ _ _) in *. clearbody c1.
  enough (E : correct_all SkewOther n_taps (fs / IZR (Z.of_nat m0)) skew c1 = Err ValueError) by (rewrite E; reflexivity).
  assert (L : length skew = length c1) by congruence. clear - Hm Hs L.
  revert c1 m L Hm Hs. induction skew as [|s sk IH]; intros [|c chs] m L Hm Hs; simpl in L, Hm; try lia.
  cbn [correct_all]. unfold correct_skew. destruct (Rltb_spec (Rabs s) (/ 10 ^ 18)) as [P|P]; [|reflexivity].
  cbn [bind]. destruct m as [|m]; [simpl in Hs; lra|].
  rewrite (IH chs m) by (try lia; exact Hs). reflexivity.
Qed.

Lemma c18_restores_ex :
  let s := fun n => INR n in
  map (mismatched 2 [2; 4] [10; 20] s) (seq 0 4) = [10; 24; 14; 32] /\
  calibrate_foreground [10; 24; 14; 32] 2 [10; 20] [2; 4] [0; 0] 1 SkewFft 7 = Ok [0; 1; 2; 3].
Proof.
  cbn zeta. assert (E : map (mismatched 2 [2; 4] [10; 20] INR) (seq 0 4) = [10; 24; 14; 32]).
  { unfold mismatched. cbn [seq map Nat.modulo Nat.divmod fst snd Nat.sub nth INR]. list_eq; lra. }
  split; [exact E|]. rewrite <- E.
  rewrite (c18_restores_signal INR 2 2); try reflexivity; try lia.
  - cbn [seq map Nat.mul Nat.add INR]. list_eq; lra.
  - intros m Hm. cases_lt m.
  - intros m Hm. assert (0 < / 10 ^ 18) by (apply Rinv_0_lt_compat, pow_lt; lra). cases_lt m; rewrite Rabs_R0; assumption.
Qed.

(** ** Lagrange taps *)
Lemma poly_cons a c t : poly (a :: c) t = a + t * poly c t.
Proof.
  unfold poly. cbn [length]. rewrite rsum_shift. cbn [nth pow]. rewrite Rmult_1_r. f_equal.
  rewrite <- rsum_scale. apply rsum_ext. intros i _. ring.
Qed.
Definition is_poly (n : nat) (f : R -> R) : Prop := exists c, length c = n /\ forall t, f t = poly c t.

Lemma is_poly_ext n f g : (forall t, f t = g t) -> is_poly n f -> is_poly n g.
Proof. intros E [c [L H]]. exists c. split; [exact L|]. intros t. rewrite <- E. apply H. Qed.
Lemma is_poly_const k : is_poly 1 (fun _ => k).
Proof. exists [k]. split; [reflexivity|]. intros t. rewrite poly_cons. unfold poly; simpl. ring. Qed.
Lemma poly_add c : forall d t, length c = length d -> poly (map2 Rplus c d) t = poly c t + poly d t.
Proof.
  induction c as [|a c IH]; intros [|b d] t L; simpl in L; try discriminate; [unfold poly; simpl; ring|].
  cbn [map2]. rewrite !poly_cons, IH by lia. ring.
Qed.
Lemma is_poly_add n f g : is_poly n f -> is_poly n g -> is_poly n (fun t => f t + g t).
Proof.
  intros [c [L H]] [d [L' H']]. exists (map2 Rplus c d). split; [rewrite map2_length; lia|].
  intros t. rewrite H, H', poly_add by lia. reflexivity.
Qed.
Lemma poly_scale k c t : poly (map (fun a => k * a) c) t = k * poly c t.
Proof. induction c as [|a c IH]; [unfold poly; simpl; ring|]. cbn [map]. rewrite !poly_cons, IH. ring. Qed.
Lemma is_poly_scale n k f : is_poly n f -> is_poly n (fun t => k * f t).
Proof.
  intros [c [L H]]. exists (map (fun a => k * a) c). split; [rewrite map_length; exact L|].
  intros t. rewrite H, poly_scale. reflexivity.
Qed.
Lemma poly_app0 c t : poly (c ++ [0]) t = poly c t.
Proof. induction c as [|a c IH]; cbn [app]; rewrite ?poly_cons, ?IH; unfold poly; simpl; ring. Qed.
Lemma is_poly_weaken n f : is_poly n f -> is_poly (S n) f.
Proof.
  intros [c [L H]]. exists (c ++ [0]). split; [rewrite app_length; simpl; lia|]. intros t. rewrite H, poly_app0. reflexivity.
Qed.
Lemma is_poly_le n m f : (n <= m)%nat -> is_poly n f -> is_poly m f.
Proof. intros H P. induction H; [exact P|]. apply is_poly_weaken, IHle. Qed.
Lemma is_poly_mul_id n f : is_poly n f -> is_poly (S n) (fun t => t * f t).
Proof. intros [c [L H]]. exists (0 :: c). split; [simpl; lia|]. intros t. rewrite H, poly_cons. ring. Qed.
Lemma is_poly_mul_linear n f a b : is_poly n f -> is_poly (S n) (fun t => f t * ((t - a) / b)).
Proof.
  intros H. apply (is_poly_ext _ (fun t => (/ b) * (t * f t) + (- a / b) * f t)); [intros t; unfold Rdiv; ring|].
  apply is_poly_add; apply is_poly_scale; [apply is_poly_mul_id, H|apply is_poly_weaken, H].
Qed.
Lemma is_poly_zero n : is_poly n (fun _ => 0).
Proof. exists (repeat 0 n). split; [apply repeat_length|]. intros t. induction n; [reflexivity|]. cbn [repeat]. rewrite poly_cons, <- IHn. ring. Qed.
Lemma is_poly_rsum n m (f : nat -> R -> R) : (forall i, (i < m)%nat -> is_poly n (f i)) -> is_poly n (fun t => rsum m (fun i => f i t)).
Proof.
  intros H. induction m as [|m IH]; [apply is_poly_zero|]. cbn [rsum]. apply is_poly_add; [apply IH; intros; apply H; lia|apply H; lia].
Qed.

Lemma poly_factor c a : exists d, length d = pred (length c) /\ forall t, poly c t - poly c a = (t - a) * poly d t.
Proof.
  induction c as [|k c [d [L H]]].
  - exists []. split; [reflexivity|]. intros t. unfold poly; simpl; ring.
  - destruct c as [|k2 c].
    + exists []. split; [reflexivity|]. intros t. unfold poly; simpl; ring.
    + exists (poly (k2 :: c) a :: d). split; [simpl in *; lia|]. intros t. rewrite !(poly_cons k), (poly_cons _ d).
      replace (k + t * poly (k2 :: c) t - (k + a * poly (k2 :: c) a))
        with (t * (poly (k2 :: c) t - poly (k2 :: c) a) + (t - a) * poly (k2 :: c) a) by ring.
      rewrite H. ring.
Qed.

Lemma poly_roots l : forall c, length c = length l -> NoDup l -> (forall a, In a l -> poly c a = 0) -> forall t, poly c t = 0.
Proof.
  induction l as [|a l IH]; intros c L N H t.
  - destruct c; [reflexivity|discriminate].
  - destruct (poly_factor c a) as [d [Ld Hd]]. inversion_clear N as [|? ? N1 N2].
    assert (Ha : poly c a = 0) by (apply H; left; reflexivity).
    assert (Z : forall t, poly d t = 0).
    { apply IH; [simpl in L; lia|exact N2|]. intros b Hb.
      assert (Hb0 : poly c b = 0) by (apply H; right; exact Hb).
      specialize (Hd b). rewrite Ha, Hb0 in Hd.
      assert (b - a <> 0) by (intros E; apply N1; replace a with b by lra; exact Hb).
      apply (Rmult_eq_reg_l (b - a)); [lra|assumption]. }
    specialize (Hd t). rewrite Ha, Z in Hd. lra.
Qed.

(** The partial product over the first m factors, as a function of p. *)
Definition lag_prod (i m : nat) (p : R) : R :=
  fold_left (fun h j => if (j =? i)%nat then h else h * ((p - INR j) / (INR i - INR j))) (seq 0 m) 1.
Lemma lag_prod_S i m p : lag_prod i (S m) p =
  if (m =? i)%nat then lag_prod i m p else lag_prod i m p * ((p - INR m) / (INR i - INR m)).
Proof. unfold lag_prod. rewrite seq_S, fold_left_app. reflexivity. Qed.
Lemma lag_prod_poly i m : is_poly (if (i <? m)%nat then m else S m) (lag_prod i m).
Proof.
  induction m as [|m IH].
  - apply (is_poly_ext _ (fun _ => 1)); [reflexivity|apply is_poly_const].
  - apply (is_poly_ext _ (fun p => if (m =? i)%nat then lag_prod i m p else lag_prod i m p * ((p - INR m) / (INR i - INR m)))).
    { intros t. symmetry. apply lag_prod_S. }
    destruct (Nat.eqb_spec m i) as [->|Hne].
    + replace (i <? S i)%nat with true by (symmetry; apply Nat.ltb_lt; lia). rewrite Nat.ltb_irrefl in IH. exact IH.
    + destruct (Nat.ltb_spec i m) as [H|H].
      * replace (i <? S m)%nat with true by (symmetry; apply Nat.ltb_lt; lia). apply is_poly_mul_linear, IH.
      * replace (i <? S m)%nat with false by (symmetry; apply Nat.ltb_ge; lia). apply is_poly_mul_linear, IH.
Qed.
Lemma lag_prod_self i m : lag_prod i m (INR i) = 1.
Proof.
  induction m as [|m IH]; [reflexivity|]. rewrite lag_prod_S, IH. destruct (Nat.eqb_spec m i) as [|H]; [reflexivity|].
  field. intros E. apply H. apply INR_eq. lra.
Qed.
Lemma lag_prod_other i j m : (j < m)%nat -> j <> i -> lag_prod i m (INR j) = 0.
Proof.
  intros Hj Hne. induction m as [|m IH]; [lia|]. rewrite lag_prod_S.
  destruct (Nat.eq_dec j m) as [->|Hm].
  - destruct (Nat.eqb_spec m i); [congruence|]. unfold Rdiv. rewrite Rminus_eq_0. ring.
  - rewrite IH by lia. destruct (m =? i)%nat; ring.
Qed.
Lemma tap_delta n i j : (j < n)%nat -> lagrange_tap n (INR j) i = if (j =? i)%nat then 1 else 0.
Proof.
  intros Hj. change (lagrange_tap n (INR j) i) with (lag_prod i n (INR j)).
  destruct (Nat.eqb_spec j i) as [->|H]; [apply lag_prod_self|apply lag_prod_other; assumption].
Qed.

Lemma is_poly_reflect n f a : is_poly n f -> is_poly n (fun t => f (a - t)).
Proof.
  intros [c [L H]]. revert n f L H. induction c as [|k c IH]; intros n f L H.
  - simpl in L. subst n. exists []. split; [reflexivity|]. intros t. rewrite H. reflexivity.
  - simpl in L. subst n. specialize (IH (length c) (poly c) eq_refl (fun t => eq_refl)).
    apply (is_poly_ext _ (fun t => k + (-1 * (t * poly c (a - t)) + a * poly c (a - t)))).
    { intros t. rewrite H, poly_cons. ring. }
    apply is_poly_add; [|apply is_poly_add; apply is_poly_scale].
    + apply (is_poly_le 1); [lia|apply is_poly_const].
    + apply is_poly_mul_id, IH.
    + apply is_poly_weaken, IH.
Qed.

Lemma lagrange_exact n f p : is_poly n f -> rsum n (fun i => lagrange_tap n p i * f (INR i)) = f p.
Proof.
  intros Hf.
  assert (P : is_poly n (fun t => rsum n (fun i => lagrange_tap n t i * f (INR i)) + -1 * f t)).
  { apply is_poly_add; [|apply is_poly_scale, Hf].
    apply (is_poly_ext _ (fun t => rsum n (fun i => f (INR i) * lag_prod i n t))).
    { intros t. apply rsum_ext. intros i _. apply Rmult_comm. }
    apply is_poly_rsum. intros i Hi. apply is_poly_scale. pose proof (lag_prod_poly i n) as Q.
    replace (i <? n)%nat with true in Q by (symmetry; apply Nat.ltb_lt; exact Hi). exact Q. }
  destruct P as [c [L H]].
  assert (Z : forall t, poly c t = 0).
  { apply (poly_roots (map INR (seq 0 n))).
    - rewrite map_length, seq_length. exact L.
    - apply FinFun.Injective_map_NoDup; [intros x y; apply INR_eq|apply seq_NoDup].
    - intros a Ha. apply in_map_iff in Ha. destruct Ha as [j [<- Hj]]. apply in_seq in Hj. rewrite <- H.
      rewrite (rsum_single n j) by (try lia; (intros i Hi Hne; rewrite tap_delta by lia;
        destruct (Nat.eqb_spec j i); [congruence|ring])).
      rewrite tap_delta by lia. rewrite Nat.eqb_refl. ring. }
  specialize (H p). rewrite Z in H. lra.
Qed.

(** ** Convolution *)
Lemma rsum_extend n m f : (n <= m)%nat -> (forall i, (n <= i < m)%nat -> f i = 0) -> rsum m f = rsum n f.
Proof.
  intros H Z. replace m with (n + (m - n))%nat by lia. rewrite rsum_app, (rsum_zero (m - n)); [ring|].
  intros i Hi. apply Z. lia.
Qed.
Lemma rsum_reverse n : forall f, rsum n f = rsum n (fun i => f (n - 1 - i)%nat).
Proof.
  induction n as [|n IH]; intros f; [reflexivity|]. rewrite rsum_shift. cbn [rsum].
  replace (S n - 1 - n)%nat with O by lia. rewrite Rplus_comm. f_equal.
  rewrite (IH (fun i => f (S i))). apply rsum_ext. intros i Hi. f_equal. lia.
Qed.

Lemma conv_full_eq a v i : conv_full a v i = rsum (length v) (fun j => nth j v 0 * zget a (Z.of_nat i - Z.of_nat j)).
Proof.
  unfold conv_full. rewrite rsum_reverse.
  transitivity (rsum (S i) (fun j => nth j v 0 * zget a (Z.of_nat i - Z.of_nat j))).
  - apply rsum_ext. intros j Hj. unfold zget. replace (0 <=? Z.of_nat i - Z.of_nat j)%Z with true by (symmetry; apply Z.leb_le; lia).
    replace (Z.to_nat (Z.of_nat i - Z.of_nat j)) with (S i - 1 - j)%nat by lia.
    replace (i - (S i - 1 - j))%nat with j by lia. ring.
  - destruct (Nat.le_ge_cases (S i) (length v)) as [H|H].
    + symmetry. apply rsum_extend; [exact H|]. intros j Hj. unfold zget.
      replace (0 <=? Z.of_nat i - Z.of_nat j)%Z with false by (symmetry; apply Z.leb_gt; lia). ring.
    + apply rsum_extend; [exact H|]. intros j Hj. rewrite nth_overflow by lia. ring.
Qed.

Lemma shift_length x D : length (integer_shift_zero_pad x D) = length x.
Proof.
  unfold integer_shift_zero_pad. destruct (D =? 0)%Z; [reflexivity|].
  destruct (0 <? D)%Z; rewrite app_length, repeat_length, ?firstn_length, ?skipn_length; lia.
Qed.
Lemma shift_get x D i : (0 <= i < Z.of_nat (length x))%Z -> zget (integer_shift_zero_pad x D) i = zget x (i - D).
Proof.
  intros Hi. unfold zget at 1. replace (0 <=? i)%Z with true by (symmetry; apply Z.leb_le; lia).
  unfold integer_shift_zero_pad. destruct (Z.eqb_spec D 0) as [->|H0].
  - rewrite Z.sub_0_r. unfold zget. replace (0 <=? i)%Z with true by (symmetry; apply Z.leb_le; lia). reflexivity.
  - destruct (Z.ltb_spec 0 D) as [H|H].
    + unfold zget. destruct (Z.leb_spec 0 (i - D)) as [G|G].
      * rewrite app_nth2 by (rewrite repeat_length; lia). rewrite repeat_length.
        replace (Z.to_nat i - Nat.min (Z.to_nat D) (length x))%nat with (Z.to_nat (i - D)) by lia.
        set (j := Z.to_nat (i - D)). rewrite <- (firstn_skipn (length x - Z.to_nat D) x) at 3.
        rewrite app_nth1; [reflexivity|]. rewrite firstn_length. lia.
      * rewrite app_nth1 by (rewrite repeat_length; lia). apply nth_repeat.
    + unfold zget. replace (0 <=? i - D)%Z with true by (symmetry; apply Z.leb_le; lia).
      rewrite <- (firstn_skipn (Z.to_nat (- D)) x) at 3.
      destruct (Z_lt_le_dec (i - D) (Z.of_nat (length x))) as [G|G].
      * rewrite app_nth1 by (rewrite skipn_length; lia).
        rewrite app_nth2 by (rewrite firstn_length; lia). rewrite firstn_length. f_equal. lia.
      * rewrite app_nth2 by (rewrite skipn_length; lia). rewrite nth_repeat.
        symmetry. apply nth_overflow. rewrite firstn_skipn. lia.
Qed.
Lemma zget_out x i : (i < 0 \/ Z.of_nat (length x) <= i)%Z -> zget x i = 0.
Proof.
  intros [H|H]; unfold zget; [replace (0 <=? i)%Z with false by (symmetry; apply Z.leb_gt; lia); reflexivity|].
  destruct (0 <=? i)%Z; [|reflexivity]. apply nth_overflow. lia.
Qed.

Lemma farrow_out x delay fs P : (2 * P + 1 <= length x)%nat ->
  exists y, fractional_delay_farrow x delay fs (2 * Z.of_nat P + 1) = Ok y /\ length y = length x /\
  let D := delay * fs in
  forall t, (t < length x)%nat ->
  nth t y 0 = rsum (2 * P + 1) (fun i => lagrange_tap (2 * P + 1) (INR P + (D - IZR (round_he D))) i
     * zget (integer_shift_zero_pad x (round_he D)) (Z.of_nat t + Z.of_nat P - Z.of_nat i)).
Proof.
  intros H. unfold fractional_delay_farrow, raise_if.
  replace (((2 * Z.of_nat P + 1) mod 2 =? 0)%Z) with false.
  2:{ symmetry. apply Z.eqb_neq. replace (2 * Z.of_nat P + 1)%Z with (1 + Z.of_nat P * 2)%Z by ring. rewrite Z_mod_plus_full. discriminate. }
  replace (2 * Z.of_nat P + 1 <? 1)%Z with false by (symmetry; apply Z.ltb_ge; lia). cbn [orb].
  replace ((2 * Z.of_nat P + 1) / 2)%Z with (Z.of_nat P).
  2:{ replace (2 * Z.of_nat P + 1)%Z with (1 + Z.of_nat P * 2)%Z by ring. rewrite Z_div_plus_full by lia. reflexivity. }
  replace (Z.to_nat (2 * Z.of_nat P + 1)) with (2 * P + 1)%nat by lia.
  unfold conv_same, lagrange_taps. rewrite map_length, seq_length, shift_length.
  rewrite Nat.min_r, Nat.max_l by lia. unfold raise_if.
  replace (2 * P + 1 =? 0)%nat with false by (symmetry; apply Nat.eqb_neq; lia).
  eexists. split; [reflexivity|]. split; [rewrite map_length, seq_length; reflexivity|]. cbn zeta. intros t Ht.
  rewrite map_seq_nth by exact Ht.
  replace ((2 * P + 1 - 1) / 2)%nat with P by (replace (2 * P + 1 - 1)%nat with (P * 2)%nat by lia; symmetry; apply Nat.div_mul; lia).
  rewrite conv_full_eq, map_length, seq_length. apply rsum_ext. intros i Hi. rewrite map_seq_nth by exact Hi.
  rewrite <- INR_IZR_INZ. f_equal. f_equal. lia.
Qed.

(** The taps sum to 1 for every tap count and evaluation point. *)
Lemma c20_taps_sum_to_one n p : (0 < n)%nat -> rsum n (fun i => nth i (lagrange_taps n p) 0) = 1.
Proof.
  intros Hn. rewrite <- (lagrange_exact n (fun _ => 1) p).
  - apply rsum_ext. intros i Hi. unfold lagrange_taps. rewrite map_seq_nth by exact Hi. ring.
  - apply (is_poly_le 1); [lia|apply is_poly_const].
Qed.

(** Every polynomial of degree below n_taps = 2P+1 is delayed exactly, for every real delay,
    at each output sample whose filter window lies inside the (shifted) record. *)
Lemma c20_polynomial_delay c N P delay fs y t :
  (2 * P + 1 <= N)%nat -> (length c <= 2 * P + 1)%nat ->
  fractional_delay_farrow (map (fun n => poly c (INR n)) (seq 0 N)) delay fs (2 * Z.of_nat P + 1) = Ok y ->
  let D := delay * fs in let Di := round_he D in
  (Z.of_nat P + Z.max 0 Di <= Z.of_nat t)%Z -> (Z.of_nat t + Z.of_nat P < Z.of_nat N + Z.min 0 Di)%Z ->
  nth t y 0 = poly c (INR t - D).
Proof.
  intros HP Hc E D Di H1 H2. set (x := map _ _) in E.
  assert (Lx : length x = N) by (unfold x; rewrite map_length, seq_length; reflexivity).
  destruct (farrow_out x delay fs P ltac:(lia)) as [y' [E' [L Hy]]]. rewrite E in E'. injection E' as <-.
  rewrite Hy by lia. fold D. fold Di.
  set (f := fun p => poly c (INR t + INR P - IZR Di - p)).
  transitivity (rsum (2 * P + 1) (fun i => lagrange_tap (2 * P + 1) (INR P + (D - IZR Di)) i * f (INR i))).
  - apply rsum_ext. intros i Hi. f_equal. rewrite shift_get by lia. unfold zget.
    replace (0 <=? Z.of_nat t + Z.of_nat P - Z.of_nat i - Di)%Z with true by (symmetry; apply Z.leb_le; lia).
    unfold x. rewrite map_seq_nth by lia. unfold f. f_equal.
    rewrite INR_IZR_INZ, Z2Nat.id by lia. rewrite !minus_IZR, plus_IZR, <- !INR_IZR_INZ. ring.
  - rewrite lagrange_exact.
    + unfold f. f_equal. ring.
    + apply is_poly_reflect with (f := poly c). apply (is_poly_le (length c)); [exact Hc|]. exists c. split; [reflexivity|]. reflexivity.
Qed.

Lemma round_he_IZR k : round_he (IZR k) = k.
Proof. unfold round_he. apply Znearest_imp. rewrite Rminus_eq_0, Rabs_R0. lra. Qed.

(** An integer delay d (of either sign and any size) is a zero-filled shift by d samples. *)
Lemma c21_integer_delay x delay fs n_taps (d : Z) :
  (Z.Odd n_taps) -> (1 <= n_taps <= Z.of_nat (length x))%Z -> delay * fs = IZR d ->
  exists y, fractional_delay_farrow x delay fs n_taps = Ok y /\ length y = length x /\
  forall t, (t < length x)%nat -> nth t y 0 = zget x (Z.of_nat t - d).
Proof.
  intros [p Hp] Hn HD. set (P := Z.to_nat p). replace n_taps with (2 * Z.of_nat P + 1)%Z in * by (unfold P; lia).
  destruct (farrow_out x delay fs P ltac:(lia)) as [y [E [L Hy]]]. exists y. split; [exact E|]. split; [exact L|].
  intros t Ht. cbn zeta in Hy. rewrite Hy by exact Ht. rewrite HD, round_he_IZR, Rminus_eq_0, Rplus_0_r.
  rewrite (rsum_single _ P) by (try lia; (intros i Hi Hne; rewrite tap_delta by lia;
    destruct (Nat.eqb_spec P i); [congruence|ring])).
  rewrite tap_delta, Nat.eqb_refl, Rmult_1_l by lia. rewrite shift_get by lia. f_equal. lia.
Qed.

(** Zero delay is the identity. *)
Lemma c21_zero_delay x delay fs n_taps :
  (Z.Odd n_taps) -> (1 <= n_taps <= Z.of_nat (length x))%Z -> delay * fs = 0 ->
  fractional_delay_farrow x delay fs n_taps = Ok x.
Proof.
  intros Ho Hn HD. destruct (c21_integer_delay x delay fs n_taps 0 Ho Hn HD) as [y [E [L Hy]]]. rewrite E. f_equal.
  apply (nth_ext_eq 0); [exact L|]. intros t Ht. rewrite Hy by lia. rewrite Z.sub_0_r. unfold zget.
  replace (0 <=? Z.of_nat t)%Z with true by (symmetry; apply Z.leb_le; lia). rewrite Nat2Z.id. reflexivity.
Qed.

(** The output length is max(len(x), n_taps): the record length exactly when n_taps fits. *)
Lemma c21_output_length x delay fs n_taps y :
  fractional_delay_farrow x delay fs n_taps = Ok y ->
  length y = Nat.max (length x) (Z.to_nat n_taps).
Proof.
  unfold fractional_delay_farrow, raise_if. destruct (_ || _); [discriminate|].
  unfold conv_same, raise_if. destruct (_ =? 0)%nat; [discriminate|]. intros E. injection E as <-.
  rewrite map_length, seq_length. unfold lagrange_taps. rewrite map_length, seq_length, shift_length. reflexivity.
Qed.

(** The call fails exactly for an even or non-positive n_taps or an empty signal. *)
Lemma c21_error_iff x delay fs n_taps :
  fractional_delay_farrow x delay fs n_taps = Err ValueError <->
  (Z.Even n_taps \/ (n_taps <= 0)%Z \/ x = []).
Proof.
  unfold fractional_delay_farrow, raise_if.
  destruct (Z.eqb_spec (n_taps mod 2) 0) as [E|E]; cbn [orb].
  - split; [intros _; left; exists (n_taps / 2)%Z; rewrite (Z_div_mod_eq_full n_taps 2) at 1; lia|reflexivity].
  - assert (NE : ~ Z.Even n_taps).
    { intros [q ->]. apply E. rewrite Z.mul_comm. apply Z_mod_mult. }
    destruct (Z.ltb_spec n_taps 1) as [G|G]; [split; [right; left; lia|reflexivity]|].
    unfold conv_same, raise_if, lagrange_taps. rewrite map_length, seq_length, shift_length.
    destruct (Nat.eqb_spec (Nat.min (length x) (Z.to_nat n_taps)) 0) as [Q|Q].
    + split; [intros _; right; right; destruct x; [reflexivity|cbn [length] in Q; lia]|reflexivity].
    + split; [discriminate|]. intros [H|[H|H]]; [contradiction|lia|subst x; simpl in Q; lia].
Qed.

(** The length is not preserved when the record is shorter than the filter. *)
Lemma c21_same_length_refuted :
  exists x delay fs n_taps y, fractional_delay_farrow x delay fs n_taps = Ok y /\ length y <> length x.
Proof.
  exists [1], 0, 1, 3%Z. assert (Z.Odd 3) by (exists 1%Z; reflexivity).
  destruct (fractional_delay_farrow [1] 0 1 3) as [y|e] eqn:E.
  - exists y. split; [reflexivity|]. rewrite (c21_output_length _ _ _ _ _ E). simpl. lia.
  - exfalso. unfold fractional_delay_farrow, raise_if, conv_same, raise_if in E. cbn in E.
    rewrite shift_length in E. cbn in E. discriminate.
Qed.

Lemma c21_shift_ex :
  fractional_delay_farrow [1; 2; 3; 4] 1 1 3 = Ok [0; 1; 2; 3] /\
  fractional_delay_farrow [1; 2; 3; 4] (-6) 1 3 = Ok [0; 0; 0; 0] /\
  fractional_delay_farrow [1; 2; 3; 4] 1 1 2 = Err ValueError.
Proof.
  assert (O : Z.Odd 3) by (exists 1%Z; reflexivity).
  split; [|split].
  - destruct (c21_integer_delay [1; 2; 3; 4] 1 1 3 1 O ltac:(simpl; lia) ltac:(ring)) as [y [E [L H]]]. rewrite E. f_equal.
    apply (nth_ext_eq 0); [exact L|]. intros i Hi. rewrite L in Hi. rewrite H by exact Hi. cases_lt i; reflexivity.
  - destruct (c21_integer_delay [1; 2; 3; 4] (-6) 1 3 (-6) O ltac:(simpl; lia) ltac:(ring)) as [y [E [L H]]]. rewrite E. f_equal.
    apply (nth_ext_eq 0); [exact L|]. intros i Hi. rewrite L in Hi. rewrite H by exact Hi. cases_lt i; reflexivity.
  - apply c21_error_iff. left. exists 1%Z. reflexivity.
Qed.

(** A parabola delayed by a quarter sample: 3 taps suffice, sample 2 is exact. *)
Lemma c20_parabola_ex :
  exists y, fractional_delay_farrow (map (fun n => poly [0; 0; 1] (INR n)) (seq 0 5)) (1/4) 1 3 = Ok y /\
  nth 2 y 0 = 49 / 16.
Proof.
  set (x := map _ _). destruct (farrow_out x (1/4) 1 1 ltac:(unfold x; simpl; lia)) as [y [E [L _]]].
  exists y. split; [exact E|].
  assert (Hr : round_he (1/4 * 1) = 0%Z) by (unfold round_he; apply Znearest_imp; simpl; rewrite Rabs_right; lra).
  rewrite (c20_polynomial_delay [0; 0; 1] 5 1 (1/4) 1 y 2); try (simpl; lia); try exact E.
  - unfold poly; cbn; lra.
  - rewrite Hr. simpl. lia.
  - rewrite Hr. simpl. lia.
Qed.

(** ** Predicted spurs *)
Lemma ins_spur_perm x l : Permutation (ins_spur x l) (x :: l).
Proof.
  induction l as [|y l IH]; simpl; [reflexivity|]. destruct (Rltb (sp_freq y) (sp_freq x)); [|reflexivity].
  rewrite IH. apply perm_swap.
Qed.
Lemma sort_spurs_perm l : Permutation (sort_spurs l) l.
Proof. induction l as [|x l IH]; simpl; [reflexivity|]. rewrite ins_spur_perm, IH. reflexivity. Qed.
Lemma ins_spur_sorted x l : Sorted (fun a b => sp_freq a <= sp_freq b) l -> Sorted (fun a b => sp_freq a <= sp_freq b) (ins_spur x l).
Proof.
  induction l as [|y l IH]; intros H; simpl; [repeat constructor|].
  destruct (Rltb_spec (sp_freq y) (sp_freq x)) as [L|L].
  - inversion_clear H as [|? ? H1 H2]. constructor; [apply IH, H1|].
    destruct l as [|z l]; simpl; [constructor; lra|]. destruct (Rltb _ _); constructor; [inversion_clear H2; assumption|lra].
  - constructor; [exact H|]. constructor. exact L.
Qed.
Lemma sort_spurs_sorted l : Sorted (fun a b => sp_freq a <= sp_freq b) (sort_spurs l).
Proof. induction l as [|x l IH]; simpl; [constructor|]. apply ins_spur_sorted, IH. Qed.

Lemma dft_const_zero N (c : C) k : (0 < k < N)%nat -> dft N (fun _ => c) k = C0.
Proof.
  intros Hk. rewrite (dft_ext N _ (fun n => Cmult c C1)) by (intros; ring). rewrite dft_cmult.
  rewrite (dft_ext N _ (fun n => cis (2 * PI * IZR 0 * INR n / INR N))).
  - rewrite dft_tone by lia. replace ((0 - Z.of_nat k) mod Z.of_nat N =? 0)%Z with false; [ring|].
    symmetry. apply Z.eqb_neq. intros E. apply Z.mod_divide in E; [|lia]. destruct E as [q Hq]. assert (q < 0)%Z by nia. assert (-1 < q)%Z by nia. lia.
  - intros i _. rewrite Rmult_0_r, Rmult_0_l. unfold Rdiv. rewrite Rmult_0_l, cis_0. reflexivity.
Qed.
Lemma dft_minus_const N f c k : (0 < k < N)%nat -> dft N (fun n => Cminus (f n) c) k = dft N f k.
Proof.
  intros Hk. unfold Cminus. rewrite dft_plus, (dft_const_zero N (Copp c)) by exact Hk. ring.
Qed.

Lemma dft_zero_const N f : (0 < N)%nat -> (forall k, (0 < k < N)%nat -> dft N f k = C0) ->
  forall i j, (i < N)%nat -> (j < N)%nat -> f i = f j.
Proof.
  intros HN H i j Hi Hj. assert (HN' : INR N <> 0) by (apply not_0_INR; lia).
  assert (E : forall n, (n < N)%nat -> Cscale (INR N) (f n) = dft N f 0).
  { intros n Hn. rewrite <- (dft_inverse N f n Hn). rewrite (csum_single N 0).
    - replace (2 * PI * INR 0 * INR n / INR N) with 0 by (simpl; unfold Rdiv; ring). rewrite cis_0. ring.
    - exact HN.
    - intros k Hk Hne. rewrite H by lia. ring. }
  rewrite <- (Cscale_1 (f i)), <- (Cscale_1 (f j)). replace 1 with (/ INR N * INR N) by (field; exact HN').
  rewrite <- !Cscale_scale, (E i Hi), (E j Hj). reflexivity.
Qed.

(** The call returns one offset spur and one gain/skew spur for every k in 1..M-1, sorted by
    frequency; each frequency is the fold of k fs/M (resp. fin + k fs/M), i.e. the distance
    to the nearest multiple of fs, and lies in [0, fs/2]; each amplitude is 1/M times the DFT
    coefficient k of the offsets (resp. A times that of gain e^{j 2 pi fin skew}). *)
Lemma c22_spur_list gain offset skew A fs fin l :
  0 < fs -> predict_spurs gain offset skew A fs fin = Ok l ->
  let M := length gain in
  length l = (2 * (M - 1))%nat /\
  Sorted (fun a b => sp_freq a <= sp_freq b) l /\
  Permutation (map (fun s => (sp_kind s, sp_k s)) l)
    (map (fun k => (KOffset, k)) (seq 1 (M - 1)) ++ map (fun k => (KGainSkew, k)) (seq 1 (M - 1))) /\
  forall s, In s l -> 0 <= sp_freq s <= fs / 2 /\
    match sp_kind s with
    | KOffset => nearest_multiple_distance (INR (sp_k s) * fs / INR M) fs (sp_freq s) /\
        sp_amp s = Cmod (rdft M (fun m => nth m offset 0) (sp_k s)) / INR M
    | KGainSkew => nearest_multiple_distance (fin + INR (sp_k s) * fs / INR M) fs (sp_freq s) /\
        sp_amp s = A * Cmod (dft M (fun m => Cscale (nth m gain 0) (cis (2 * PI * fin * nth m skew 0))) (sp_k s)) / INR M
    end.
Proof.
  intros Hfs H M. unfold predict_spurs, raise_if in H. fold M in H. destruct (negb _); [discriminate|].
  injection H as <-. set (off := map _ (seq 1 (M - 1))). set (gs := map (fun k => mkSpur _ KGainSkew _ _) _).
  split; [|split; [apply sort_spurs_sorted|split]].
  - rewrite (Permutation_length (sort_spurs_perm (off ++ gs))), app_length. unfold off, gs. rewrite !map_length, seq_length. lia.
  - rewrite (Permutation_map _ (sort_spurs_perm (off ++ gs))), map_app. unfold off, gs. rewrite !map_map. reflexivity.
  - intros s Hs. apply (Permutation_in s (sort_spurs_perm (off ++ gs))) in Hs.
    apply in_app_or in Hs. unfold off, gs in Hs.
    destruct Hs as [Hs|Hs]; apply in_map_iff in Hs; destruct Hs as [k [<- Hk]]; apply in_seq in Hk; cbn [sp_freq sp_kind sp_k sp_amp].
    + pose proof (fold_nearest (INR k * fs / INR M) fs Hfs) as F. split; [apply (nmd_half _ _ _ Hfs F)|]. split; [exact F|reflexivity].
    + pose proof (fold_nearest (fin + INR k * fs / INR M) fs Hfs) as F. split; [apply (nmd_half _ _ _ Hfs F)|]. split; [exact F|].
      f_equal. f_equal. f_equal. unfold alpha_ac. fold M. apply dft_minus_const. lia.
Qed.

(** Vectors of different lengths raise ValueError and nothing else does. *)
Lemma c22_size_check gain offset skew A fs fin :
  (length offset = length gain /\ length skew = length gain <-> exists l, predict_spurs gain offset skew A fs fin = Ok l) /\
  (~ (length offset = length gain /\ length skew = length gain) <-> predict_spurs gain offset skew A fs fin = Err ValueError).
Proof.
  unfold predict_spurs, raise_if.
  destruct (Nat.eqb_spec (length offset) (length gain)) as [E1|E1];
  destruct (Nat.eqb_spec (length skew) (length gain)) as [E2|E2]; cbn [andb negb];
  (split; split; [intros H; try tauto; eauto|intros [l H]; try discriminate; tauto|intros H; try tauto|intros H; try discriminate; tauto]).
Qed.

(** All offset spurs vanish exactly when the channel offsets are equal; all gain/skew spurs
    vanish exactly when the complex channel gains are equal (for A <> 0). *)
Lemma c22_no_spurs_iff_matched gain offset skew A fs fin l :
  0 < fs -> A <> 0 -> predict_spurs gain offset skew A fs fin = Ok l ->
  let M := length gain in
  ((forall s, In s l -> sp_kind s = KOffset -> sp_amp s = 0) <->
   (forall i j, (i < M)%nat -> (j < M)%nat -> nth i offset 0 = nth j offset 0)) /\
  ((forall s, In s l -> sp_kind s = KGainSkew -> sp_amp s = 0) <->
   (forall i j, (i < M)%nat -> (j < M)%nat ->
      Cscale (nth i gain 0) (cis (2 * PI * fin * nth i skew 0)) = Cscale (nth j gain 0) (cis (2 * PI * fin * nth j skew 0)))).
Proof.
  intros Hfs HA H M. destruct (c22_spur_list _ _ _ _ _ _ _ Hfs H) as [_ [_ [P S]]]. fold M in P, S.
  assert (Hin : forall kd k, (1 <= k < M)%nat -> exists s, In s l /\ sp_kind s = kd /\ sp_k s = k).
  { intros kd k Hk. assert (I : In (kd, k) (map (fun s => (sp_kind s, sp_k s)) l)).
    { apply (Permutation_in _ (Permutation_sym P)). apply in_or_app.
      destruct kd; [left|right]; apply in_map_iff; exists k; (split; [reflexivity|apply in_seq; lia]). }
    apply in_map_iff in I. destruct I as [s [E I]]. exists s. injection E as <- <-. auto. }
  assert (Hk : forall s, In s l -> (1 <= sp_k s < M)%nat).
  { intros s Hs. assert (I : In (sp_kind s, sp_k s) (map (fun s => (sp_kind s, sp_k s)) l)) by (apply in_map_iff; eauto).
    apply (Permutation_in _ P), in_app_or in I. destruct I as [I|I]; apply in_map_iff in I; destruct I as [k [E I]];
    injection E as _ <-; apply in_seq in I; lia. }
  destruct (Nat.eq_dec M 0) as [M0|M0].
  { split; (split; [intros _ i j Hi; lia|]); intros _ s Hs; specialize (Hk s Hs); lia. }
  assert (MR : INR M <> 0) by (apply not_0_INR; exact M0).
  split; split.
  - intros Z i j Hi Hj.
    assert (E : RtoC (nth i offset 0) = RtoC (nth j offset 0)).
    { apply (dft_zero_const M (fun m => RtoC (nth m offset 0))); [lia| |exact Hi|exact Hj].
      intros k Hk'. destruct (Hin KOffset k ltac:(lia)) as [s [Is [Ks <-]]].
      specialize (S s Is). rewrite Ks in S. destruct S as [_ [_ S]]. rewrite (Z s Is Ks) in S.
      apply Cmod_eq_0. unfold rdft in S. apply (Rmult_eq_reg_r (/ INR M)); [unfold Rdiv in S; lra|apply Rinv_neq_0_compat, MR]. }
    injection E as E. exact E.
  - intros Z s Is Ks. specialize (S s Is). rewrite Ks in S. destruct S as [_ [_ S]]. rewrite S.
    unfold rdft. rewrite (dft_ext M _ (fun _ => RtoC (nth 0 offset 0))) by (intros i Hi; rewrite (Z i O) by lia; reflexivity).
    rewrite dft_const_zero by (specialize (Hk s Is); lia). rewrite Cmod_0. unfold Rdiv. ring.
  - intros Z. apply (dft_zero_const M (fun m => Cscale (nth m gain 0) (cis (2 * PI * fin * nth m skew 0)))); [lia|].
    intros k Hk'. destruct (Hin KGainSkew k ltac:(lia)) as [s [Is [Ks <-]]].
    specialize (S s Is). rewrite Ks in S. destruct S as [_ [_ S]]. rewrite (Z s Is Ks) in S.
    apply Cmod_eq_0. apply (Rmult_eq_reg_l (A / INR M)); [unfold Rdiv in *; lra|].
    apply Rmult_integral_contrapositive. split; [exact HA|apply Rinv_neq_0_compat, MR].
  - intros Z s Is Ks. specialize (S s Is). rewrite Ks in S. destruct S as [_ [_ S]]. rewrite S.
    rewrite (dft_ext M _ (fun _ => Cscale (nth 0 gain 0) (cis (2 * PI * fin * nth 0 skew 0)))) by (intros i Hi; rewrite (Z i O) by lia; reflexivity).
    rewrite dft_const_zero by (specialize (Hk s Is); lia). rewrite Cmod_0. unfold Rdiv. ring.
Qed.

(** Two channels with offsets +-1 and equal gains: one offset spur at fs/2 of amplitude 1. *)
Lemma c22_two_channel_ex :
  exists l, predict_spurs [1; 1] [1; -1] [0; 0] 1 1 (1/8) = Ok l /\
  exists s, In s l /\ sp_kind s = KOffset /\ sp_amp s = 1 /\ sp_freq s = 1/2.
Proof.
  destruct (c22_size_check [1; 1] [1; -1] [0; 0] 1 1 (1/8)) as [[Q _] _].
  destruct Q as [l E]; [split; reflexivity|]. exists l. split; [exact E|].
  destruct (c22_spur_list _ _ _ _ _ _ _ Rlt_0_1 E) as [_ [_ [P S]]].
  assert (I : In (KOffset, 1%nat) (map (fun s => (sp_kind s, sp_k s)) l)).
  { apply (Permutation_in _ (Permutation_sym P)). left. reflexivity. }
  apply in_map_iff in I. destruct I as [s [Es Is]]. injection Es as E1 E2. exists s. split; [exact Is|]. split; [exact E1|].
  specialize (S s Is). rewrite E1, E2 in S. destruct S as [_ [S1 S2]]. split.
  - rewrite S2. unfold rdft, dft. cbn [length csum nth INR].
    replace (- (2 * PI * 1 * 0 / (1 + 1))) with 0 by field. replace (- (2 * PI * 1 * 1 / (1 + 1))) with (- PI) by field.
    rewrite cis_0. unfold Cmod, Cmod2, Cmult, Cplus, RtoC, cis, C0, C1. cbn [fst snd]. rewrite cos_neg, sin_neg, cos_PI, sin_PI.
    replace ((0 + (1 * 1 - 0 * 0) + (-1 * -1 - 0 * - 0)) * (0 + (1 * 1 - 0 * 0) + (-1 * -1 - 0 * - 0)) +
      (0 + (1 * 0 + 0 * 1) + (-1 * - 0 + 0 * -1)) * (0 + (1 * 0 + 0 * 1) + (-1 * - 0 + 0 * -1))) with (2 * 2) by ring.
    rewrite sqrt_square by lra. field.
  - cbn [length INR] in S1. apply (nmd_unique _ _ _ _ S1). replace (1 * 1 / (1 + 1)) with (1/2) by field.
    apply nmd_fixed; lra.
Qed.

(** ** Extracted mismatch *)
Lemma lmean_scale_inv a l : lmean (map (fun v => v / a) l) = lmean l / a.
Proof.
  unfold lmean. rewrite map_length.
  rewrite (lsum_map_ext (fun v => v / a) (fun v => / a * v)) by (intros; unfold Rdiv; ring).
  rewrite lsum_map_scale. unfold Rdiv. ring.
Qed.
Lemma lmean_centered l : l <> [] -> lmean (map (fun v => v - lmean l) l) = 0.
Proof.
  intros H. unfold lmean at 1. rewrite lsum_map_minus, lsum_const, map_length, map_id. unfold lmean.
  assert (INR (length l) <> 0) by (apply not_0_INR; destruct l; [contradiction|simpl; lia]). field. assumption.
Qed.
Lemma unwrap_from_length p : forall prev acc, length (unwrap_from prev acc p) = length p.
Proof. induction p as [|x p IH]; intros; simpl; [reflexivity|]. rewrite IH. reflexivity. Qed.
Lemma unwrap_length p : length (unwrap p) = length p.
Proof. destruct p; simpl; [reflexivity|]. rewrite unwrap_from_length. reflexivity. Qed.

(** Gains average to exactly 1, skews to exactly 0, there is one of each per channel, and
    offset m is the mean of channel m's samples. *)
Lemma c19_normalised x (M : nat) fs fin r :
  extract_mismatch_sine x (Z.of_nat M) fs fin = Ok r ->
  (length (mm_gain r) = M /\ length (mm_skew r) = M /\ length (mm_offset r) = M) /\
  lmean (mm_gain r) = 1 /\ lmean (mm_skew r) = 0 /\
  let K := (length x / M)%nat in
  forall m, (m < M)%nat -> nth m (mm_offset r) 0 = rsum K (fun k => nth (k * M + m) x 0) / INR K.
Proof.
  unfold extract_mismatch_sine. destruct (deinterleave x (Z.of_nat M)) as [ch|e] eqn:D; cbn [bind]; [|discriminate].
  destruct (c17_channel_samples _ _ _ D) as [[R1 R2] N].
  pose proof (deinterleave_ok _ _ _ D) as [m0 [K0 [E0 [HM [Hx _]]]]]. apply Nat2Z.inj in E0. subst m0. clear Hx K0.
  rewrite Nat2Z.id. intros Q. injection Q as <-. cbn [mm_gain mm_skew mm_offset].
  set (ph := map (fun m => channel_phasor _ _ fin fs M m) (seq 0 M)).
  assert (Lph : length ph = M) by (unfold ph; rewrite map_length, seq_length; reflexivity).
  assert (MR : INR M <> 0) by (apply not_0_INR; lia).
  split; [split; [|split]|split; [|split]].
  - destruct (Rltb _ _); rewrite ?map_length, ?repeat_length; [exact Lph|reflexivity].
  - rewrite map_length, unwrap_length, map_length. exact Lph.
  - rewrite map_length. exact R1.
  - destruct (Rltb_spec 0 (lmean (map Cmod ph))) as [H|H].
    + rewrite lmean_scale_inv. field. lra.
    + unfold lmean. rewrite repeat_length. assert (E : forall n, lsum (repeat 1 n) = INR n) by
        (induction n as [|n IH]; [reflexivity|]; cbn [repeat lsum]; rewrite IH, S_INR; ring).
      rewrite E. field. exact MR.
  - set (pu := unwrap (map Carg ph)).
    rewrite <- (map_map (fun p => p - lmean pu) (fun p => p / (2 * PI * fin)) pu), lmean_scale_inv, lmean_centered.
    + unfold Rdiv. ring.
    + intros E. apply (f_equal (@length R)) in E. unfold pu in E. rewrite unwrap_length, map_length, Lph in E. simpl in E. lia.
  - cbn zeta. intros m Hm. rewrite (nth_map_in _ _ _ []) by lia. unfold lmean. rewrite R2 by exact Hm. f_equal.
    rewrite lsum_rsum, R2 by exact Hm. apply rsum_ext. intros k Hk. apply N; assumption.
Qed.

(** Adding a constant c to every sample of channel j moves only offset j, by exactly c. *)
Lemma c19_constant_moves_offset_only x M fs fin j c r :
  (j < M)%nat -> (M <= length x)%nat ->
  extract_mismatch_sine x (Z.of_nat M) fs fin = Ok r ->
  exists r', extract_mismatch_sine
    (map (fun n => nth n x 0 + (if (n mod M =? j)%nat then c else 0)) (seq 0 (length x))) (Z.of_nat M) fs fin = Ok r' /\
  mm_A r' = mm_A r /\ mm_gain r' = mm_gain r /\ mm_skew r' = mm_skew r /\ mm_phases r' = mm_phases r /\
  forall m, (m < M)%nat -> nth m (mm_offset r') 0 = nth m (mm_offset r) 0 + (if (m =? j)%nat then c else 0).
Proof.
  intros Hj HMx E. set (x' := map _ _).
  assert (Lx' : length x' = length x) by (unfold x'; rewrite map_length, seq_length; reflexivity).
  unfold extract_mismatch_sine in E. destruct (deinterleave x (Z.of_nat M)) as [ch|e] eqn:D; cbn [bind] in E; [|discriminate].
  pose proof (deinterleave_ok _ _ _ D) as [m0 [K [E0 [HM [Hx _]]]]]. apply Nat2Z.inj in E0. subst m0.
  pose proof (deinterleave_eq x' M K HM ltac:(lia)) as D'. set (ch' := transpose M (reshape K M x')) in D'.
  destruct (c17_channel_samples _ _ _ D) as [[R1 R2] N]. destruct (c17_channel_samples _ _ _ D') as [[R1' R2'] N'].
  rewrite Lx' in R2', N'. replace (length x / M)%nat with K in * by (rewrite Hx; symmetry; apply Nat.div_mul; lia).
  assert (K0 : (0 < K)%nat) by nia. assert (KR : INR K <> 0) by (apply not_0_INR; lia).
  assert (NC : forall m k, (m < M)%nat -> (k < K)%nat -> nth k (nth m ch' []) 0 = nth k (nth m ch []) 0 + (if (m =? j)%nat then c else 0)).
  { intros m k Hm Hk. rewrite N, N' by assumption. unfold x'. rewrite map_seq_nth by nia.
    rewrite Nat.add_comm, Nat.mod_add, Nat.mod_small by lia. rewrite Nat.add_comm. reflexivity. }
  assert (MC : forall m, (m < M)%nat -> nth m (map lmean ch') 0 = nth m (map lmean ch) 0 + (if (m =? j)%nat then c else 0)).
  { intros m Hm. rewrite !(nth_map_in lmean _ _ []) by lia. unfold lmean. rewrite R2, R2', !lsum_rsum, R2, R2' by exact Hm.
    rewrite (rsum_ext K (fun i => nth i (nth m ch' []) 0) (fun i => nth i (nth m ch []) 0 + (if (m =? j)%nat then c else 0)))
      by (intros; apply NC; assumption).
    rewrite rsum_plus, rsum_const. field. exact KR. }
  assert (PC : map (fun m => channel_phasor (nth m ch' []) (nth m (map lmean ch') 0) fin fs M m) (seq 0 M)
             = map (fun m => channel_phasor (nth m ch []) (nth m (map lmean ch) 0) fin fs M m) (seq 0 M)).
  { apply map_ext_in. intros m Hm. apply in_seq in Hm. unfold channel_phasor. rewrite R2, R2' by lia. f_equal.
    apply csum_ext. intros k Hk. rewrite MC, NC by lia. do 2 f_equal. ring. }
  unfold extract_mismatch_sine. rewrite D'. cbn [bind]. rewrite Nat2Z.id in *. rewrite PC.
  injection E as <-. eexists. split; [reflexivity|]. cbn [mm_A mm_gain mm_skew mm_phases mm_offset].
  do 4 (split; [reflexivity|]). exact MC.
Qed.

(** Validation: same domain as deinterleave. *)
Lemma c19_error_iff x M fs fin :
  extract_mismatch_sine x M fs fin = Err ValueError <-> ~ ((0 < M)%Z /\ (M | Z.of_nat (length x))%Z).
Proof.
  unfold extract_mismatch_sine. destruct (c17_deinterleave_domain x M) as [P Q].
  destruct (deinterleave x M) as [ch|e] eqn:D; cbn [bind].
  - split; [discriminate|]. intros H. apply Q in H. discriminate.
  - rewrite Q. split; congruence.
Qed.

Lemma c19_constant_ex :
  exists r, extract_mismatch_sine [1; 5; 1; 7] 2 1 (1/4) = Ok r /\ nth 0 (mm_offset r) 0 = 1 /\ nth 1 (mm_offset r) 0 = 6 /\ lmean (mm_gain r) = 1.
Proof.
  destruct (extract_mismatch_sine [1; 5; 1; 7] 2 1 (1/4)) as [r|e] eqn:E.
  - exists r. split; [reflexivity|]. change 2%Z with (Z.of_nat 2) in E. destruct (c19_normalised _ _ _ _ _ E) as [_ [G [_ O]]].
    pose proof (O 0%nat ltac:(lia)) as O0. pose proof (O 1%nat ltac:(lia)) as O1. rewrite O0, O1. cbn. split; [field|split; [field|exact G]].
  - discriminate.
Qed.
