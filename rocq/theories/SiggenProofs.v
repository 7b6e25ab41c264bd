(** * Signal generator: the final lemmas are named c48_, c49_, c66_ to c71_. *)
From Verif Require Import Base BaseLemmas FreqProofs SpecLemmas SpecProofs SiggenModel SiggenSpec.
From Coq Require Import Psatz ZifyBool Reals.Binomial Permutation.
Local Open Scope R_scope.

(** ** C48: the quantiser *)
Section Quant.
Context (n : nat) (a b : R) (Hab : a < b).
Let q := lsb_of n a b.
Let M := (2 ^ Z.of_nat n)%Z.
Lemma q_pos : 0 < q. Proof. unfold q, lsb_of. apply Rdiv_lt_0_compat; [lra|apply pow_lt; lra]. Qed.
Lemma M_pos : (0 < M)%Z. Proof. apply Z.pow_pos_nonneg; lia. Qed.
Lemma M_IZR : IZR M = 2 ^ n. Proof. unfold M. rewrite <- (pow_IZR 2 n). reflexivity. Qed.
Lemma q_span : b = a + IZR M * q. Proof. rewrite M_IZR. unfold q, lsb_of. field. apply pow_nonzero. lra. Qed.
Lemma quantise_code x : quantise n a b x = a + IZR (Z.min (Z.max (Zfloor ((x - a) / q)) 0) (M - 1)) * q.
Proof.
  unfold quantise. fold (lsb_of n a b). fold q. unfold rclip. rewrite <- M_IZR. rewrite <- (minus_IZR M 1). unfold Rmax. destruct (Rle_dec (IZR (Zfloor ((x - a) / q))) 0) as [L|L].
  - apply (le_IZR _ 0) in L. rewrite Z.max_r by exact L. rewrite Rmin_left by (apply IZR_le; pose proof M_pos; lia). rewrite Z.min_l by (pose proof M_pos; lia). ring.
  - assert (L' : (0 < Zfloor ((x - a) / q))%Z) by (apply lt_IZR; lra). rewrite Z.max_l by lia. unfold Rmin. destruct (Rle_dec (IZR (Zfloor ((x - a) / q))) (IZR (M - 1))) as [K|K].
    + apply le_IZR in K. rewrite Z.min_l by exact K. ring.
    + rewrite Z.min_r; [ring|]. apply Z.lt_le_incl, lt_IZR. lra.
Qed.
Lemma floor_quot x : IZR (Zfloor ((x - a) / q)) * q <= x - a < (IZR (Zfloor ((x - a) / q)) + 1) * q.
Proof.
  pose proof (Zfloor_lb ((x - a) / q)). pose proof (Zfloor_ub ((x - a) / q)). pose proof q_pos. assert (E : x - a = (x - a) / q * q) by (field; lra). rewrite E at 2 3. split; nra.
Qed.
End Quant.
(** Every output is one of the 2^n levels v_min + k*lsb, so it lies in [v_min, v_max - lsb]. *)
Lemma c48_levels g s n a b i : a < b -> let x := resolve_signal g s in let y := apply_quantization_noise g s n a b in
  length y = length x /\
  ((i < length x)%nat -> exists k, (0 <= k < 2 ^ Z.of_nat n)%Z /\ nth i y 0 = a + IZR k * lsb_of n a b /\ a <= nth i y 0 <= b - lsb_of n a b).
Proof.
  intros Hab x y. unfold y, apply_quantization_noise. fold x. split; [apply map_length|]. intros Hi. rewrite (nth_map_in _ _ _ 0) by exact Hi. rewrite quantise_code.
  set (k := Z.min _ _). pose proof (M_pos n) as P. exists k. assert (K : (0 <= k < 2 ^ Z.of_nat n)%Z) by (unfold k; lia). split; [exact K|]. split; [reflexivity|].
  pose proof (q_pos n a b Hab). pose proof (q_span n a b) as Sp. assert (K1 : 0 <= IZR k) by (apply (IZR_le 0); lia). assert (K2 : IZR k <= IZR (2 ^ Z.of_nat n) - 1) by (rewrite <- minus_IZR; apply IZR_le; lia).
  set (q := lsb_of n a b) in *. set (K3 := IZR k) in *. set (M3 := IZR (2 ^ Z.of_nat n)) in *. split; [nra|]. nra.
Qed.
(** The transfer is monotone. *)
Lemma c48_monotone n a b x y : a < b -> x <= y -> quantise n a b x <= quantise n a b y.
Proof.
  intros Hab H. rewrite !quantise_code. pose proof (q_pos n a b Hab) as Q. apply Rplus_le_compat_l, Rmult_le_compat_r; [lra|]. apply IZR_le.
  assert (Zfloor ((x - a) / lsb_of n a b) <= Zfloor ((y - a) / lsb_of n a b))%Z by (apply Zfloor_le; apply Rmult_le_compat_r; [apply Rlt_le, Rinv_0_lt_compat, Q|lra]). lia.
Qed.
(** In range the output is below the input by less than one LSB; outside it saturates. *)
Lemma c48_error n a b x : a < b ->
  (a <= x < b -> 0 <= x - quantise n a b x < lsb_of n a b) /\
  (x <= a -> quantise n a b x = a) /\ (b <= x -> quantise n a b x = b - lsb_of n a b).
Proof.
  intros Hab. pose proof (q_pos n a b Hab) as Q. pose proof (floor_quot n a b Hab x) as F. rewrite quantise_code. set (f := Zfloor ((x - a) / lsb_of n a b)) in *. set (M := (2 ^ Z.of_nat n)%Z). pose proof (M_pos n) as P. fold M in P.
  pose proof (q_span n a b) as Sp. fold M in Sp. set (q := lsb_of n a b) in *. split; [|split].
  - intros Hx. assert (0 <= f)%Z by (apply Zfloor_lub; apply Rdiv_le_0_compat; lra). assert (f < M)%Z by (apply lt_IZR; nra). rewrite Z.max_l, Z.min_l by lia. lra.
  - intros Hx. assert (f <= 0)%Z. { apply Z.le_ngt. intros L. assert (1 <= IZR f) by (apply (IZR_le 1); lia). nra. } rewrite Z.max_r, Z.min_l by lia. ring.
  - intros Hx. assert (M <= f)%Z. { apply Z.le_ngt. intros L. assert (IZR f + 1 <= IZR M) by (rewrite <- plus_IZR; apply IZR_le; lia). nra. } rewrite Z.max_l, Z.min_r by lia. rewrite minus_IZR. lra.
Qed.
(** Quantising twice changes nothing. *)
Lemma c48_idempotent g s n a b : a < b -> let y := apply_quantization_noise g s n a b in apply_quantization_noise g (Some y) n a b = y.
Proof.
  intros Hab y. unfold y, apply_quantization_noise. cbn [resolve_signal]. rewrite map_map. apply map_ext. intros x. pose proof (q_pos n a b Hab) as Q. pose proof (M_pos n) as P.
  assert (H : exists k, (0 <= k <= 2 ^ Z.of_nat n - 1)%Z /\ quantise n a b x = a + IZR k * lsb_of n a b) by (rewrite quantise_code; eexists; split; [|reflexivity]; lia).
  destruct H as (k & Hk & ->). rewrite quantise_code. replace ((a + IZR k * lsb_of n a b - a) / lsb_of n a b) with (IZR k) by (field; lra). rewrite Zfloor_IZR. rewrite Z.max_l, Z.min_l by lia. reflexivity.
Qed.
(** 3 bits over (0, 1): 0.3 falls to 0.25; 1.7 saturates at 0.875. *)
Lemma c48_values_ex : quantise 3 0 1 0.3 = 0.25 /\ quantise 3 0 1 1.7 = 0.875.
Proof.
  split.
  - rewrite quantise_code. replace (Zfloor _) with 2%Z; [unfold lsb_of; cbn; lra|]. symmetry. apply Zfloor_imp. unfold lsb_of. cbn. lra.
  - destruct (c48_error 3 0 1 1.7) as (_ & _ & H); [lra|]. rewrite H by lra. unfold lsb_of. cbn. lra.
Qed.

(** ** C49: the filter and noise shaping *)
Lemma lfilter_length b a x : forall xh yh, length (lfilter_from b a xh yh x) = length x.
Proof. induction x as [|v t IH]; intros xh yh; [reflexivity|]. cbn [lfilter_from length]. rewrite IH. reflexivity. Qed.
Lemma lfilter_nth b a x : forall xh yh n, (n < length x)%nat -> let y := lfilter_from b a xh yh x in
  nth n y 0 = (dot b (rev (firstn (S n) x) ++ xh) - dot (tl a) (rev (firstn n y) ++ yh)) / hd 0 a.
Proof.
  induction x as [|v t IH]; intros xh yh n Hn; [cbn in Hn; lia|]. cbv zeta. cbn [lfilter_from]. destruct n as [|n]; [reflexivity|].
  cbn [nth]. rewrite (IH (v :: xh) _ n) by (cbn [length] in Hn; lia). cbv zeta. rewrite !firstn_cons. cbn [rev]. rewrite <- !app_assoc. reflexivity.
Qed.
Lemma dot_trunc b : forall l, dot b l = rsum (length b) (fun k => if (k <? length l)%nat then nth k b 0 * nth k l 0 else 0).
Proof.
  induction b as [|x t IH]; intros l; [destruct l; reflexivity|]. cbn [length]. rewrite rsum_shift. destruct l as [|y u].
  - cbn [dot]. rewrite rsum_zero; [cbn; ring|]. intros i _. reflexivity.
  - cbn [dot nth]. rewrite IH. f_equal.
Qed.
Lemma nth_rev_firstn (x : list R) n k : (n < length x)%nat -> (k <= n)%nat -> nth k (rev (firstn (S n) x)) 0 = nth (n - k) x 0.
Proof.
  intros Hn Hk. rewrite rev_nth by (rewrite firstn_length; lia). rewrite firstn_length, Nat.min_l by lia. replace (S n - S k)%nat with (n - k)%nat by lia.
  rewrite <- (firstn_skipn (S n) x) at 2. rewrite app_nth1 by (rewrite firstn_length; lia). reflexivity.
Qed.
Lemma dot_convolve b x n : (n < length x)%nat -> dot b (rev (firstn (S n) x)) = convolve b x n.
Proof.
  intros Hn. rewrite dot_trunc. unfold convolve. apply rsum_ext. intros k Hk. rewrite rev_length, firstn_length, Nat.min_l by lia.
  destruct (Nat.ltb_spec k (S n)), (Nat.leb_spec k n); try lia; [|reflexivity]. rewrite nth_rev_firstn by lia. reflexivity.
Qed.
Lemma lfilter_eq b a x y n : lfilter b a x = Ok y -> (n < length x)%nat -> convolve a y n = convolve b x n /\ length y = length x /\ hd 0 a <> 0.
Proof.
  unfold lfilter. destruct (Reqb_spec (hd 0 a) 0) as [Z|Z]; [discriminate|]. intros E Hn. apply Ok_inj in E. pose proof (lfilter_nth b a x [] [] n Hn) as N. cbv zeta in N. pose proof (lfilter_length b a x [] []) as L. rewrite E in *.
  split; [|split; [exact L|exact Z]]. rewrite !app_nil_r in N. rewrite (dot_convolve b x n Hn) in N. rewrite <- (dot_convolve a y n) by lia.
  destruct a as [|a0 a']; [cbn in Z; congruence|]. cbn [hd tl] in *. 
  assert (F : rev (firstn (S n) y) = nth n y 0 :: rev (firstn n y)).
  { clear - Hn L. rewrite <- L in Hn. clear L. revert n Hn. induction y as [|v t IH]; intros n Hn; [cbn in Hn; lia|]. destruct n as [|n]; [destruct t; reflexivity|].
    rewrite firstn_cons. cbn [rev nth]. rewrite IH by (cbn in Hn; lia). rewrite firstn_cons. cbn [rev]. reflexivity. }
  rewrite F. cbn [dot]. rewrite N. field. exact Z.
Qed.
Lemma noise_shaping_inv g s n a b order ntf out : apply_noise_shaping g s n a b order ntf = Ok out ->
  let x := resolve_signal g s in exists num den sh, 
    match ntf with NtfNone => ntf_table order = Some num /\ den = [1] | NtfFir c => num = c /\ den = [1] | NtfIir c d => num = c /\ den = d end /\
    lfilter num den (map2 (fun p q => p - q) (apply_quantization_noise g (Some x) n a b) x) = Ok sh /\ out = map2 (fun p q => p + q) x sh /\ length sh = length x.
Proof.
  intros E x. unfold apply_noise_shaping in E. fold x in E.
  assert (G : forall num den, (bind (lfilter num den (map2 (fun p q => p - q) (apply_quantization_noise g (Some x) n a b) x)) (fun sh => Ok (map2 (fun p q => p + q) x sh))) = Ok out ->
     exists sh, lfilter num den (map2 (fun p q => p - q) (apply_quantization_noise g (Some x) n a b) x) = Ok sh /\ out = map2 (fun p q => p + q) x sh /\ length sh = length x).
  { intros num den H. destruct (lfilter num den _) as [sh|e] eqn:F; [|discriminate H]. cbn [bind] in H. apply Ok_inj in H. exists sh. split; [reflexivity|]. split; [symmetry; exact H|].
    unfold lfilter in F. destruct (Reqb (hd 0 den) 0); [discriminate F|]. apply Ok_inj in F. rewrite <- F, lfilter_length, map2_length; unfold apply_quantization_noise; rewrite map_length; reflexivity. }
  destruct ntf as [|c|c d].
  - destruct (ntf_table order) as [num|] eqn:T; [|discriminate E]. cbn [bind fst snd] in E. destruct (G _ _ E) as (sh & H). exists num, [1], sh. split; [split; reflexivity|exact H].
  - cbn [bind fst snd] in E. destruct (G _ _ E) as (sh & H). exists c, [1], sh. split; [split; reflexivity|exact H].
  - cbn [bind fst snd] in E. destruct (G _ _ E) as (sh & H). exists c, d, sh. split; [split; reflexivity|exact H].
Qed.
Definition quant_error (n : nat) (a b : R) (x : list R) : list R := map (fun v => quantise n a b v - v) x.
Lemma qerr_eq g n a b x : map2 (fun p q => p - q) (apply_quantization_noise g (Some x) n a b) x = quant_error n a b x.
Proof. unfold apply_quantization_noise, quant_error. cbn [resolve_signal]. rewrite map2_map_l, map2_same. reflexivity. Qed.
Lemma sh_eq x : forall sh, length sh = length x -> out_minus_in x (map2 (fun p q => p + q) x sh) = sh.
Proof. unfold out_minus_in. induction x as [|v t IH]; intros [|w u] H; try discriminate H; [reflexivity|]. cbn [map2]. rewrite IH by (cbn in H; lia). f_equal. ring. Qed.
(** With a custom FIR or IIR transfer function, output minus input is the quantisation error
    filtered by num/den. *)
Lemma c49_custom g s n a b order num den out : apply_noise_shaping g s n a b order (NtfIir num den) = Ok out ->
  let x := resolve_signal g s in length out = length x /\ hd 0 den <> 0 /\
  forall i, (i < length x)%nat -> convolve den (out_minus_in x out) i = convolve num (quant_error n a b x) i.
Proof.
  intros E x. destruct (noise_shaping_inv _ _ _ _ _ _ _ _ E) as (nm & dn & sh & [-> ->] & F & -> & L). fold x in F, L |- *. rewrite qerr_eq in F.
  split; [rewrite map2_length by lia; reflexivity|]. split; [unfold lfilter in F; destruct (Reqb_spec (hd 0 den) 0); [discriminate F|assumption]|].
  intros i Hi. rewrite (sh_eq x sh L). apply (lfilter_eq _ _ _ _ i F). unfold quant_error. rewrite map_length. exact Hi.
Qed.
Lemma convolve_one y n : convolve [1] y n = nth n y 0.
Proof. unfold convolve. cbn [length rsum]. change (0 <=? n)%nat with true. cbv iota. rewrite Nat.sub_0_r. cbn [nth]. ring. Qed.
Lemma c49_fir g s n a b order num out : apply_noise_shaping g s n a b order (NtfFir num) = Ok out ->
  let x := resolve_signal g s in length out = length x /\
  forall i, (i < length x)%nat -> nth i out 0 - nth i x 0 = convolve num (quant_error n a b x) i.
Proof.
  intros E x. destruct (noise_shaping_inv _ _ _ _ _ _ _ _ E) as (nm & dn & sh & [-> ->] & F & -> & L). fold x in F, L |- *. rewrite qerr_eq in F.
  split; [rewrite map2_length by lia; reflexivity|]. intros i Hi. assert (Hq : (i < length (quant_error n a b x))%nat) by (unfold quant_error; rewrite map_length; exact Hi). destruct (lfilter_eq _ _ _ _ i F Hq) as (Q & _ & _). rewrite convolve_one in Q.
  rewrite <- Q. rewrite (map2_nth _ _ _ _ 0 0) by lia. ring.
Qed.
(** The built-in orders 1..5 use the coefficients of (1 - z^-1)^L; any other order raises. *)
Lemma c49_builtin g s n a b L out : apply_noise_shaping g s n a b (Z.of_nat L) NtfNone = Ok out -> 
  let x := resolve_signal g s in length out = length x /\ (1 <= L <= 5)%nat /\
  forall i, (i < length x)%nat -> nth i out 0 - nth i x 0 = rsum (S L) (fun k => if (k <=? i)%nat then binomial_ntf L k * nth (i - k) (quant_error n a b x) 0 else 0).
Proof.
  intros E x. destruct (noise_shaping_inv _ _ _ _ _ _ _ _ E) as (num & dn & sh & [T ->] & F & -> & Ls). fold x in F, Ls |- *. rewrite qerr_eq in F.
  split; [rewrite map2_length by lia; reflexivity|]. assert (HL : (1 <= L <= 5)%nat /\ num = map (binomial_ntf L) (seq 0 (S L))).
  { unfold ntf_table in T.
    assert (Cs : L = 1%nat \/ L = 2%nat \/ L = 3%nat \/ L = 4%nat \/ L = 5%nat).
    { destruct (Z.eqb_spec (Z.of_nat L) 1); [lia|]. destruct (Z.eqb_spec (Z.of_nat L) 2); [lia|]. destruct (Z.eqb_spec (Z.of_nat L) 3); [lia|]. destruct (Z.eqb_spec (Z.of_nat L) 4); [lia|]. destruct (Z.eqb_spec (Z.of_nat L) 5); [lia|discriminate T]. }
    split; [lia|]. destruct Cs as [-> | [-> | [-> | [-> | ->]]]]; cbn in T; injection T; intros <-; unfold binomial_ntf, C; cbn [map seq fact pow]; repeat (f_equal; try (cbn; field)). }
  destruct HL as [HL ->]. split; [exact HL|]. intros i Hi. assert (Hq : (i < length (quant_error n a b x))%nat) by (unfold quant_error; rewrite map_length; exact Hi). destruct (lfilter_eq _ _ _ _ i F Hq) as (Q & _ & _). rewrite convolve_one in Q.
  rewrite (map2_nth _ _ _ _ 0 0) by lia. replace (nth i x 0 + nth i sh 0 - nth i x 0) with (nth i sh 0) by ring. rewrite Q. unfold convolve. rewrite map_length, seq_length.
  apply rsum_ext. intros k Hk. destruct (k <=? i)%nat; [|reflexivity]. f_equal. rewrite (nth_map_in _ _ _ 0%nat) by (rewrite seq_length; exact Hk). rewrite seq_nth by exact Hk. reflexivity.
Qed.
(** Orders outside 1..5 raise ValueError unless a transfer function is given. *)
Lemma c49_errors g s n a b order : (forall L, (1 <= L <= 5)%nat -> order <> Z.of_nat L) -> apply_noise_shaping g s n a b order NtfNone = Err ValueError.
Proof.
  intros H. unfold apply_noise_shaping, ntf_table. pose proof (H 1%nat ltac:(lia)). pose proof (H 2%nat ltac:(lia)). pose proof (H 3%nat ltac:(lia)). pose proof (H 4%nat ltac:(lia)). pose proof (H 5%nat ltac:(lia)).
  replace (order =? 1)%Z with false by lia. replace (order =? 2)%Z with false by lia. replace (order =? 3)%Z with false by lia. replace (order =? 4)%Z with false by lia. replace (order =? 5)%Z with false by lia. reflexivity.
Qed.
Lemma binomial_vals : map (binomial_ntf 1) (seq 0 2) = [1;-1] /\ map (binomial_ntf 2) (seq 0 3) = [1;-2;1] /\ map (binomial_ntf 3) (seq 0 4) = [1;-3;3;-1] /\
  map (binomial_ntf 4) (seq 0 5) = [1;-4;6;-4;1] /\ map (binomial_ntf 5) (seq 0 6) = [1;-5;10;-10;5;-1].
Proof. repeat split; unfold binomial_ntf, C; cbn [map seq]; repeat (f_equal; try (cbn; field)). Qed.
(** The coefficients add up to zero: a constant error is removed. *)
Lemma c49_zero_dc L : (1 <= L <= 5)%nat -> rsum (S L) (binomial_ntf L) = 0.
Proof.
  intros H. assert (E : rsum (S L) (binomial_ntf L) = lsum (map (binomial_ntf L) (seq 0 (S L)))).
  { rewrite lsum_rsum, map_length, seq_length. apply rsum_ext. intros i Hi. rewrite (nth_map_in _ _ _ 0%nat) by (rewrite seq_length; exact Hi). rewrite seq_nth by exact Hi. reflexivity. }
  rewrite E. destruct binomial_vals as (B1 & B2 & B3 & B4 & B5). assert (Cs : L = 1%nat \/ L = 2%nat \/ L = 3%nat \/ L = 4%nat \/ L = 5%nat) by lia.
  destruct Cs as [-> | [-> | [-> | [-> | ->]]]]; [rewrite B1|rewrite B2|rewrite B3|rewrite B4|rewrite B5]; cbn [lsum]; ring.
Qed.
Lemma fir_difference L (e : nat -> R) i : (1 <= L <= 5)%nat ->
  rsum (S L) (fun k => if (k <=? i)%nat then binomial_ntf L k * e (i - k)%nat else 0) = Nat.iter L difference e i.
Proof.
  intros H. destruct binomial_vals as (B1 & B2 & B3 & B4 & B5). cbn [map seq] in B1, B2, B3, B4, B5.
  injection B1 as B10 B11. injection B2 as B20 B21 B22. injection B3 as B30 B31 B32 B33. injection B4 as B40 B41 B42 B43 B44. injection B5 as B50 B51 B52 B53 B54 B55.
  assert (Cs : L = 1%nat \/ L = 2%nat \/ L = 3%nat \/ L = 4%nat \/ L = 5%nat) by lia.
  destruct Cs as [-> | [-> | [-> | [-> | ->]]]]; cbn [rsum];
    rewrite ?B10, ?B11, ?B20, ?B21, ?B22, ?B30, ?B31, ?B32, ?B33, ?B40, ?B41, ?B42, ?B43, ?B44, ?B50, ?B51, ?B52, ?B53, ?B54, ?B55;
    do 5 (destruct i as [|i]; [unfold difference, delayed; cbn [Nat.iter nat_rect Nat.leb Nat.sub]; ring|]);
    unfold difference, delayed; cbn [Nat.iter nat_rect Nat.leb Nat.sub]; rewrite ?Nat.sub_0_r; ring.
Qed.
Lemma running_ext L (f g : nat -> R) i : (forall j, (j <= i)%nat -> f j = g j) -> Nat.iter L running_sum f i = Nat.iter L running_sum g i.
Proof.
  revert i. induction L as [|L IH]; intros i H; [apply H; lia|]. cbn [Nat.iter nat_rect]. unfold running_sum at 1 3. apply rsum_ext. intros j Hj. apply IH. intros k Hk. apply H. lia.
Qed.
Lemma running_difference (f : nat -> R) i : running_sum (difference f) i = f i.
Proof. unfold running_sum. induction i as [|i IH]; [cbn [rsum]; unfold difference, delayed; ring|]. cbn [rsum] in *. rewrite IH. unfold difference, delayed. ring. Qed.
Lemma iter_in {A} (f : A -> A) L x : f (Nat.iter L f x) = Nat.iter L f (f x).
Proof. induction L as [|L IH]; [reflexivity|]. cbn [Nat.iter nat_rect]. f_equal. exact IH. Qed.
Lemma iter_inverse L (e : nat -> R) i : Nat.iter L running_sum (Nat.iter L difference e) i = e i.
Proof.
  revert e i. induction L as [|L IH]; intros e i; [reflexivity|]. change (running_sum (Nat.iter L running_sum (difference (Nat.iter L difference e))) i = e i). rewrite (iter_in running_sum).
  rewrite (running_ext L _ (Nat.iter L difference e)); [apply IH|]. intros j _. apply running_difference.
Qed.
(** Order L: the L-fold running sum of (output - input) is exactly the quantisation error, hence
    never leaves (-lsb, 0] while the input is in range. *)
Lemma c49_integrated g s n a b L out i : apply_noise_shaping g s n a b (Z.of_nat L) NtfNone = Ok out ->
  let x := resolve_signal g s in (i < length x)%nat ->
  let acc := Nat.iter L running_sum (fun j => nth j out 0 - nth j x 0) i in
  acc = nth i (quant_error n a b x) 0 /\ (a < b -> a <= nth i x 0 < b -> - lsb_of n a b < acc <= 0).
Proof.
  intros E x Hi acc. destruct (c49_builtin _ _ _ _ _ _ _ E) as (Lo & HL & V). fold x in Lo, V.
  assert (A : acc = nth i (quant_error n a b x) 0).
  { unfold acc. rewrite (running_ext L _ (Nat.iter L difference (fun j => nth j (quant_error n a b x) 0))); [apply iter_inverse|].
    intros j Hj. rewrite V by lia. exact (fir_difference L (fun j => nth j (quant_error n a b x) 0) j HL). }
  split; [exact A|]. intros Hab Hx. rewrite A. unfold quant_error. rewrite (nth_map_in _ _ _ 0) by exact Hi. destruct (c48_error n a b (nth i x 0) Hab) as (Q & _ & _). specialize (Q Hx). lra.
Qed.
(** A concrete first-order run: 1 bit over (0,1) on the input 0.75, 0.75, 0.25. *)
Lemma c49_shape_ex g : apply_noise_shaping g (Some [0.75; 0.75; 0.25]) 1 0 1 1 NtfNone = Ok [0.5; 0.75; 0.25].
Proof.
  unfold apply_noise_shaping. cbn [ntf_table Z.eqb Pos.eqb bind resolve_signal fst snd]. rewrite qerr_eq. unfold quant_error. cbn [map].
  assert (Q1 : quantise 1 0 1 0.75 = 0.5) by (rewrite quantise_code; replace (Zfloor _) with 1%Z by (symmetry; apply Zfloor_imp; unfold lsb_of; cbn; lra); unfold lsb_of; cbn; lra).
  assert (Q2 : quantise 1 0 1 0.25 = 0) by (rewrite quantise_code; replace (Zfloor _) with 0%Z by (symmetry; apply Zfloor_imp; unfold lsb_of; cbn; lra); unfold lsb_of; cbn; lra).
  rewrite Q1, Q2. unfold lfilter. cbn [hd]. destruct (Reqb_spec 1 0); [lra|]. cbn [bind lfilter_from map2 dot tl]. list_eq; cbn [hd]; lra.
Qed.

(** ** C66: static nonlinearity *)
Lemma nonlin_poly dc k2 k3 k4 k5 x : nonlin dc k2 k3 k4 k5 x = x + k2 * (x - dc) ^ 2 + k3 * (x - dc) ^ 3 + k4 * (x - dc) ^ 4 + k5 * (x - dc) ^ 5.
Proof. unfold nonlin. destruct (Reqb_spec k2 0), (Reqb_spec k3 0), (Reqb_spec k4 0), (Reqb_spec k5 0); subst; ring. Qed.
(** Every sample is the polynomial x + k2 a^2 + k3 a^3 + k4 a^4 + k5 a^5 of a = x - DC. *)
Lemma c66_polynomial g s k2 k3 k4 k5 i : let x := resolve_signal g s in let y := apply_static_nonlinearity g s k2 k3 k4 k5 in let a := nth i x 0 - g_DC g in
  length y = length x /\ ((i < length x)%nat -> nth i y 0 = nth i x 0 + k2 * a ^ 2 + k3 * a ^ 3 + k4 * a ^ 4 + k5 * a ^ 5).
Proof.
  intros x y a. unfold y, apply_static_nonlinearity. fold x. split; [apply map_length|]. intros Hi. rewrite (nth_map_in _ _ _ 0) by exact Hi. apply nonlin_poly.
Qed.
Lemma clean_length g : length (clean_signal g) = g_N g.
Proof. unfold clean_signal. rewrite map_length, seq_length. reflexivity. Qed.
Lemma clean_nth g i : (i < g_N g)%nat -> nth i (clean_signal g) 0 = g_A g * sin (2 * PI * g_Fin g * (INR i / g_Fs g)) + g_DC g.
Proof. intros H. unfold clean_signal. rewrite (nth_map_in _ _ _ 0%nat) by (rewrite seq_length; exact H). rewrite seq_nth by exact H. reflexivity. Qed.
Lemma trig_multiples t : let c := cos t in let s := sin t in
  cos (2 * t) = 1 - 2 * s ^ 2 /\ sin (3 * t) = 3 * s - 4 * s ^ 3 /\ cos (4 * t) = 1 - 8 * s ^ 2 + 8 * s ^ 4 /\ sin (5 * t) = 5 * s - 20 * s ^ 3 + 16 * s ^ 5.
Proof.
  intros c s. assert (P : c ^ 2 = 1 - s ^ 2). { pose proof (sin2_cos2 t) as H. unfold Rsqr in H. fold s in H. fold c in H. nra. }
  assert (C2 : cos (2 * t) = 1 - 2 * s ^ 2) by (rewrite cos_2a_sin; unfold s; ring). assert (S2 : sin (2 * t) = 2 * s * c) by (rewrite sin_2a; reflexivity).
  assert (S3 : sin (3 * t) = 3 * s - 4 * s ^ 3). { replace (3 * t) with (2 * t + t) by ring. rewrite sin_plus, C2, S2. fold s. fold c. replace (2 * s * c * c) with (2 * s * c ^ 2) by ring. rewrite P. ring. }
  assert (C3 : cos (3 * t) = c * (1 - 4 * s ^ 2)). { replace (3 * t) with (2 * t + t) by ring. rewrite cos_plus, C2, S2. fold s. fold c. ring. }
  split; [exact C2|]. split; [exact S3|]. split.
  - replace (4 * t) with (2 * (2 * t)) by ring. rewrite cos_2a_sin, S2. replace (1 - 2 * (2 * s * c) * (2 * s * c)) with (1 - 8 * s ^ 2 * c ^ 2) by ring. rewrite P. ring.
  - replace (5 * t) with (2 * t + 3 * t) by ring. rewrite sin_plus, C2, S2, S3, C3. replace (2 * s * c * (c * (1 - 4 * s ^ 2))) with (2 * s * c ^ 2 * (1 - 4 * s ^ 2)) by ring. rewrite P. ring.
Qed.
Lemma db_to_k_eq A db k : A <> 0 -> db_to_k A db (S k) = 2 ^ k * ratio db / A ^ k.
Proof. intros H. unfold db_to_k, ratio. destruct db as [v|]; cbn [Nat.sub]; rewrite ?Nat.sub_0_r; [reflexivity|]. field. apply pow_nonzero, H. Qed.
Lemma hd_at A dc h2 h3 h4 h5 t : A <> 0 -> nonlin dc (db_to_k A h2 2) (db_to_k A h3 3) (db_to_k A h4 4) (db_to_k A h5 5) (A * sin t + dc) =
  dc + A * ((1 + 3 * ratio h3 + 10 * ratio h5) * sin t + ratio h2 * (1 - cos (2 * t)) + ratio h4 * (3 - 4 * cos (2 * t) + cos (4 * t))
    - (ratio h3 + 5 * ratio h5) * sin (3 * t) + ratio h5 * sin (5 * t)).
Proof.
  intros H. rewrite nonlin_poly, !db_to_k_eq by exact H. destruct (trig_multiples t) as (-> & -> & -> & ->). cbn [pow]. field. exact H.
Qed.
(** Applied to the clean sine, the output is this exact sum of harmonics, where r_k is the requested
    amplitude ratio of harmonic k. *)
Lemma c66_harmonics g h2 h3 h4 h5 i : g_A g <> 0 -> (i < g_N g)%nat -> let t := 2 * PI * g_Fin g * (INR i / g_Fs g) in
  nth i (apply_static_nonlinearity_hd g None h2 h3 h4 h5) 0 =
  g_DC g + g_A g * ((1 + 3 * ratio h3 + 10 * ratio h5) * sin t + ratio h2 * (1 - cos (2 * t)) + ratio h4 * (3 - 4 * cos (2 * t) + cos (4 * t))
    - (ratio h3 + 5 * ratio h5) * sin (3 * t) + ratio h5 * sin (5 * t)).
Proof.
  intros H Hi t. unfold apply_static_nonlinearity_hd, apply_static_nonlinearity. cbn [resolve_signal]. rewrite (nth_map_in _ _ _ 0) by (rewrite clean_length; exact Hi). rewrite clean_nth by exact Hi. apply hd_at, H.
Qed.
(** A second-harmonic request alone is met exactly: the fundamental keeps amplitude A and the
    second harmonic gets amplitude A*r2 (and DC moves by A*r2). *)
Lemma c66_hd2 g h2 i : g_A g <> 0 -> (i < g_N g)%nat -> let t := 2 * PI * g_Fin g * (INR i / g_Fs g) in
  nth i (apply_static_nonlinearity_hd g None (Some h2) None None None) 0 =
  (g_DC g + g_A g * Rpower 10 (h2 / 20)) + g_A g * sin t - g_A g * Rpower 10 (h2 / 20) * cos (2 * t).
Proof. intros H Hi t. rewrite c66_harmonics by assumption. fold t. cbn [ratio]. ring. Qed.
Lemma ratio_m20 : ratio (Some (-20)) = 1/10.
Proof. cbn [ratio]. replace (-20 / 20) with (-(1)) by field. rewrite Rpower_Ropp, Rpower_1 by lra. lra. Qed.
(** A third-harmonic request is not met: asking for -20 dBc gives fundamental 1.3*A and third
    harmonic 0.1*A, so H3/H1 is 1/13 (-22.3 dBc) whatever way the waveform is decomposed. *)
Lemma c66_hd3_refuted : exists h3, ratio (Some h3) = 1/10 /\
  (exists F H, forall t, nonlin 0 0 (db_to_k 1 (Some h3) 3) 0 0 (sin t) = F * sin t + H * sin (3 * t)) /\
  (forall F H, (forall t, nonlin 0 0 (db_to_k 1 (Some h3) 3) 0 0 (sin t) = F * sin t + H * sin (3 * t)) -> Rabs H / Rabs F = 1/13).
Proof.
  exists (-20). split; [exact ratio_m20|].
  assert (V : forall t, nonlin 0 0 (db_to_k 1 (Some (-20)) 3) 0 0 (sin t) = 1.3 * sin t + (-0.1) * sin (3 * t)).
  { intros t. pose proof (hd_at 1 0 None (Some (-20)) None None t ltac:(lra)) as E. rewrite ratio_m20 in E. cbn [ratio] in E. replace (1 * sin t + 0) with (sin t) in E by ring. change (db_to_k 1 None 2) with 0 in E. change (db_to_k 1 None 4) with 0 in E. change (db_to_k 1 None 5) with 0 in E. rewrite E. lra. }
  split; [exists 1.3, (-0.1); exact V|]. intros F H E. pose proof (E (PI / 2)) as E1. rewrite V in E1. destruct (trig_multiples (PI / 2)) as (_ & S3 & _). cbv zeta in S3. rewrite S3 in E1. rewrite sin_PI2 in E1.
  pose proof (E (PI / 6)) as E2. rewrite V in E2. destruct (trig_multiples (PI / 6)) as (_ & S3' & _). cbv zeta in S3'. rewrite S3' in E2. rewrite sin_PI6 in E2.
  assert (HF : F = 1.3) by lra. assert (HH : H = -0.1) by lra. subst. rewrite (Rabs_right 1.3), (Rabs_left (-0.1)) by lra. lra.
Qed.
(** A fourth-harmonic request also produces a second harmonic four times as large; a fifth-harmonic
    request produces a third harmonic five times as large. *)
Lemma c66_side_products A h t : A <> 0 ->
  nonlin 0 0 0 (db_to_k A (Some h) 4) 0 (A * sin t) = A * (sin t + 3 * ratio (Some h) - 4 * ratio (Some h) * cos (2 * t) + ratio (Some h) * cos (4 * t)) /\
  nonlin 0 0 0 0 (db_to_k A (Some h) 5) (A * sin t) = A * ((1 + 10 * ratio (Some h)) * sin t - 5 * ratio (Some h) * sin (3 * t) + ratio (Some h) * sin (5 * t)).
Proof.
  intros H. pose proof (hd_at A 0 None None (Some h) None t H) as E4. pose proof (hd_at A 0 None None None (Some h) t H) as E5. change (ratio None) with 0 in *. change (db_to_k A None 2) with 0 in *. change (db_to_k A None 3) with 0 in *. change (db_to_k A None 4) with 0 in *. change (db_to_k A None 5) with 0 in *.
  rewrite Rplus_0_r in E4, E5. split; [rewrite E4; ring|rewrite E5; ring].
Qed.
(** 4 samples per period, A = 1, DC = 0, k3 = 0.5: the peaks become 1.5 and -1.5. *)
Lemma c66_values_ex : apply_static_nonlinearity (mkGen 4 4 1 1 0) (Some [0; 1; 0; -1]) 0 0.5 0 0 = [0; 1.5; 0; -1.5].
Proof. unfold apply_static_nonlinearity. cbn [resolve_signal map g_DC]. rewrite !nonlin_poly. list_eq; lra. Qed.

(** ** C67: two-stage pipeline gain error *)
Lemma floor_bits_spec b x : exists k, floor_bits b x = IZR k / 2 ^ b /\ floor_bits b x <= x < floor_bits b x + / 2 ^ b.
Proof.
  exists (Zfloor (x * 2 ^ b)). split; [reflexivity|]. unfold floor_bits. pose proof (Zfloor_lb (x * 2 ^ b)) as L. pose proof (Zfloor_ub (x * 2 ^ b)) as U. assert (P : 0 < 2 ^ b) by (apply pow_lt; lra).
  split; apply (Rmult_le_reg_r (2 ^ b)) || apply (Rmult_lt_reg_r (2 ^ b)); try exact P.
  - replace (IZR (Zfloor (x * 2 ^ b)) / 2 ^ b * 2 ^ b) with (IZR (Zfloor (x * 2 ^ b))) by (field; lra). exact L.
  - replace ((IZR (Zfloor (x * 2 ^ b)) / 2 ^ b + / 2 ^ b) * 2 ^ b) with (IZR (Zfloor (x * 2 ^ b)) + 1) by (field; lra). exact U.
Qed.
Lemma floor_bits_nonneg b x : 0 <= x -> 0 <= floor_bits b x.
Proof. intros H. unfold floor_bits. apply Rdiv_le_0_compat; [|apply pow_lt; lra]. apply (IZR_le 0). apply Zfloor_lub. apply Rmult_le_pos; [exact H|apply pow_le; lra]. Qed.
(** The coarse code m and residue code l of one sample, with everything needed about them. *)
Lemma stages mb lb v : let m := floor_bits mb v in let l := floor_bits lb (v - m) in
  m <= v < m + / 2 ^ mb /\ 0 <= l < / 2 ^ mb /\ m + l <= v < m + l + / 2 ^ lb.
Proof.
  intros m l. destruct (floor_bits_spec mb v) as (k & _ & B). fold m in B. destruct (floor_bits_spec lb (v - m)) as (k' & _ & B'). fold l in B'. pose proof (floor_bits_nonneg lb (v - m) ltac:(lra)) as N. fold l in N. repeat split; lra.
Qed.
Lemma ra_nth g s gain mb lb mode out i : apply_ra_gain_error g s gain mb lb mode = Ok out -> let x := resolve_signal g s in
  length out = length x /\ ((i < length x)%nat -> let v := nth i x 0 - g_DC g in let m := floor_bits mb v in let l := floor_bits lb (v - m) in
    (mode = CoarsePath /\ nth i out 0 = m * gain + l + g_DC g) \/ (mode = ResiduePath /\ nth i out 0 = m + l * gain + g_DC g)).
Proof.
  intros E x. unfold apply_ra_gain_error in E. fold x in E. rewrite map2_map_r, map2_map_l, map2_same, map_map in E. cbv beta in E. 
  destruct mode; [| |discriminate E]; apply Ok_inj in E; subst out; (split; [rewrite map2_length; rewrite ?map_length; reflexivity|]); intros Hi v m l; [left|right]; (split; [reflexivity|]);
    rewrite (map2_nth _ _ _ i 0 0) by (rewrite ?map_length; auto); rewrite !(nth_map_in _ _ _ 0) by (rewrite ?map_length; exact Hi); reflexivity.
Qed.
(** With gain 1 both modes only quantise: the output is below the input by less than 2^-lsb_bits. *)
Lemma c67_unity g s mb lb mode out i : apply_ra_gain_error g s 1 mb lb mode = Ok out -> let x := resolve_signal g s in
  length out = length x /\ ((i < length x)%nat -> 0 <= nth i x 0 - nth i out 0 < / 2 ^ lb).
Proof.
  intros E x. destruct (ra_nth _ _ _ _ _ _ _ i E) as (L & V). split; [exact L|]. intros Hi. specialize (V Hi). cbv zeta in V. fold x in V. pose proof (stages mb lb (nth i x 0 - g_DC g)) as S. cbv zeta in S. destruct V as [(_ & ->) | (_ & ->)]; lra.
Qed.
(** Coarse path: the extra error is (gain-1) times the coarse level k*2^-msb_bits at or below the sample. *)
Lemma c67_coarse g s gain mb lb out ideal i : apply_ra_gain_error g s gain mb lb CoarsePath = Ok out -> apply_ra_gain_error g s 1 mb lb CoarsePath = Ok ideal ->
  let x := resolve_signal g s in (i < length x)%nat ->
  exists k, IZR k / 2 ^ mb <= nth i x 0 - g_DC g < (IZR k + 1) / 2 ^ mb /\ nth i out 0 - nth i ideal 0 = (gain - 1) * (IZR k / 2 ^ mb).
Proof.
  intros E E1 x Hi. destruct (ra_nth _ _ _ _ _ _ _ i E) as (_ & V). destruct (ra_nth _ _ _ _ _ _ _ i E1) as (_ & V1). specialize (V Hi). specialize (V1 Hi). cbv zeta in V, V1. fold x in V, V1.
  destruct V as [(_ & ->) | (H & _)]; [|discriminate H]. destruct V1 as [(_ & ->) | (H & _)]; [|discriminate H]. destruct (floor_bits_spec mb (nth i x 0 - g_DC g)) as (k & K & B). exists k. rewrite K in *. unfold Rdiv in *. split; lra.
Qed.
(** Residue path: the extra error is (gain-1) times a residue in [0, 2^-msb_bits). *)
Lemma c67_residue g s gain mb lb out ideal i : apply_ra_gain_error g s gain mb lb ResiduePath = Ok out -> apply_ra_gain_error g s 1 mb lb ResiduePath = Ok ideal ->
  let x := resolve_signal g s in (i < length x)%nat ->
  exists l, 0 <= l < / 2 ^ mb /\ nth i out 0 - nth i ideal 0 = (gain - 1) * l /\ Rabs (nth i out 0 - nth i ideal 0) <= Rabs (gain - 1) / 2 ^ mb.
Proof.
  intros E E1 x Hi. destruct (ra_nth _ _ _ _ _ _ _ i E) as (_ & V). destruct (ra_nth _ _ _ _ _ _ _ i E1) as (_ & V1). specialize (V Hi). specialize (V1 Hi). cbv zeta in V, V1. fold x in V, V1.
  destruct V as [(H & _) | (_ & ->)]; [discriminate H|]. destruct V1 as [(H & _) | (_ & ->)]; [discriminate H|]. pose proof (stages mb lb (nth i x 0 - g_DC g)) as S. cbv zeta in S. set (m := floor_bits mb (nth i x 0 - g_DC g)) in *. set (l := floor_bits lb _) in *.
  assert (D : m + l * gain + g_DC g - (m + l * 1 + g_DC g) = (gain - 1) * l) by ring. exists l. rewrite D. split; [lra|]. split; [reflexivity|]. rewrite Rabs_mult, (Rabs_right l) by lra. apply Rmult_le_compat_l; [apply Rabs_pos|lra].
Qed.
Lemma ra_loop_static gain mb lb coarse ac : forall st, ra_loop gain 0 mb lb coarse st ac =
  map (fun v => let m := floor_bits mb v in let l := floor_bits lb (v - m) in if coarse then m * gain + l else m + l * gain) ac.
Proof.
  induction ac as [|v t IH]; intros st; [reflexivity|]. cbn [ra_loop map]. destruct coarse; rewrite IH; f_equal; ring.
Qed.
(** Without the cubic term the dynamic model is the static one. *)
Lemma c67_dynamic_static g s gain mb lb mode : length (resolve_signal g s) = g_N g ->
  apply_ra_gain_error_dynamic g s gain 0 mb lb mode = apply_ra_gain_error g s gain mb lb mode.
Proof.
  intros L. unfold apply_ra_gain_error_dynamic, apply_ra_gain_error. rewrite L, Nat.ltb_irrefl, firstn_all2 by lia. rewrite map2_map_r, map2_map_l, map2_same, !map_map, ?ra_loop_static, ?map_map.
  destruct mode; [| |reflexivity]; f_equal; rewrite map2_map_l, map2_map_r, map2_same; apply map_ext; intros v; cbv zeta; ring.
Qed.
(** A wrong mode string is a ValueError; the dynamic model needs at least N samples and returns N. *)
Lemma c67_errors g s gain c3 mb lb mode :
  apply_ra_gain_error g s gain mb lb OtherMode = Err ValueError /\ apply_ra_gain_error_dynamic g s gain c3 mb lb OtherMode = Err ValueError /\
  (mode <> OtherMode -> (length (resolve_signal g s) < g_N g)%nat -> apply_ra_gain_error_dynamic g s gain c3 mb lb mode = Err IndexError) /\
  (mode <> OtherMode -> (g_N g <= length (resolve_signal g s))%nat -> exists out, apply_ra_gain_error_dynamic g s gain c3 mb lb mode = Ok out /\ length out = g_N g).
Proof.
  assert (LL : forall coarse ac st, length (ra_loop gain c3 mb lb coarse st ac) = length ac) by (intros coarse; induction ac as [|v t IH]; intros st; [reflexivity|]; cbn [ra_loop]; destruct coarse; cbn [length]; rewrite IH; reflexivity).
  split; [reflexivity|]. split; [reflexivity|]. unfold apply_ra_gain_error_dynamic. split.
  - intros Hm H. destruct mode; [| |congruence]; (destruct (Nat.ltb_spec (length (resolve_signal g s)) (g_N g)); [reflexivity|lia]).
  - intros Hm H. destruct mode; [| |congruence]; (destruct (Nat.ltb_spec (length (resolve_signal g s)) (g_N g)); [lia|]); eexists; (split; [reflexivity|]); rewrite map_length, LL, map_length, firstn_length; lia.
Qed.
(** msb_bits = 1, lsb_bits = 2, DC = 0, sample 0.8 = coarse 0.5 + residue 0.25 (0.05 lost). *)
Lemma c67_values_ex : apply_ra_gain_error (mkGen 1 1 1 1 0) (Some [0.8]) 0.9 1 2 CoarsePath = Ok [0.7] /\
  apply_ra_gain_error (mkGen 1 1 1 1 0) (Some [0.8]) 0.9 1 2 ResiduePath = Ok [0.725].
Proof.
  assert (M : floor_bits 1 (0.8 - 0) = 0.5) by (unfold floor_bits; replace (Zfloor _) with 1%Z by (symmetry; apply Zfloor_imp; cbn; lra); cbn; lra).
  assert (L : floor_bits 2 (0.8 - 0 - 0.5) = 0.25) by (unfold floor_bits; replace (Zfloor _) with 1%Z by (symmetry; apply Zfloor_imp; cbn; lra); cbn; lra).
  unfold apply_ra_gain_error. cbn [resolve_signal map map2 g_DC]. rewrite M, L. split; f_equal; list_eq; lra.
Qed.

(** ** C68: incomplete settling *)
Section Settle.
Context (T tau k : R) (HT : 0 <= T) (Htau : 0 < tau) (Hk : 0 <= k).
Lemma alpha_range v : 0 < exp (- T / (tau * (1 + k * v ^ 2))) <= 1.
Proof.
  split; [apply exp_pos|]. assert (P : 0 < tau * (1 + k * v ^ 2)) by (apply Rmult_lt_0_compat; [exact Htau|]; pose proof (pow2_ge_0 v); nra).
  assert (E : - T / (tau * (1 + k * v ^ 2)) <= 0). { unfold Rdiv. rewrite Ropp_mult_distr_l_reverse. apply Ropp_le_cancel. rewrite Ropp_0, Ropp_involutive. apply Rmult_le_pos; [exact HT|apply Rlt_le, Rinv_0_lt_compat, P]. }
  destruct E as [E|E]; [apply exp_increasing in E; rewrite exp_0 in E; lra|rewrite E, exp_0; lra].
Qed.
Lemma settle_length x : forall p, length (settle T tau k p x) = length x.
Proof. induction x as [|v t IH]; intros p; [reflexivity|]. cbn [settle length]. rewrite IH. reflexivity. Qed.
Lemma settle_nth x : forall p i, (i < length x)%nat -> let o := settle T tau k p x in let prev := match i with O => p | S j => nth j o 0 end in
  nth i o 0 = nth i x 0 + (prev - nth i x 0) * exp (- T / (tau * (1 + k * nth i x 0 ^ 2))).
Proof.
  induction x as [|v t IH]; intros p i Hi; [cbn in Hi; lia|]. cbv zeta. destruct i as [|i]; [reflexivity|]. cbn [settle nth]. cbn [length] in Hi. rewrite IH by lia. cbv zeta. destruct i as [|i]; reflexivity.
Qed.
Lemma settle_bound M x : (forall v, In v x -> Rabs v <= M) -> forall p, Rabs p <= M -> forall o, In o (settle T tau k p x) -> Rabs o <= M.
Proof.
  induction x as [|v t IH]; intros Hx p Hp o Ho; [destruct Ho|]. cbn [settle] in Ho. cbv zeta in Ho.
  assert (B : Rabs (v + (p - v) * exp (- T / (tau * (1 + k * v ^ 2)))) <= M).
  { pose proof (alpha_range v) as A. set (al := exp _) in *. specialize (Hx v (or_introl eq_refl)). apply Rabs_le. apply Rabs_le_inv in Hx. apply Rabs_le_inv in Hp. split; nra. }
  destruct Ho as [<- | Ho]; [exact B|]. refine (IH _ _ B _ Ho). intros w Hw. apply Hx. right. exact Hw.
Qed.
Lemma settle_const c n : forall p i, (i < n)%nat -> nth i (settle T tau k p (repeat c n)) 0 = c + (p - c) * exp (- T / (tau * (1 + k * c ^ 2))) ^ (S i).
Proof.
  induction n as [|n IH]; intros p i Hi; [lia|]. cbn [repeat settle]. destruct i as [|i]; [cbn [nth pow]; ring|]. cbn [nth]. rewrite IH by lia. cbn [pow]. ring.
Qed.
End Settle.
Lemma map_repeat {A B} (f : A -> B) a n : map f (repeat a n) = repeat (f a) n.
Proof. induction n as [|n IH]; [reflexivity|]. cbn [repeat map]. rewrite IH. reflexivity. Qed.
Definition track (g : gen) (T : option R) : R := match T with Some t => t | None => 0.2 / g_Fs g end.
Lemma incomplete_inv g s T tau k out : apply_incomplete_sampling g s T tau k = Ok out ->
  (g_N g <= length (resolve_signal g s))%nat /\ out = map (fun v => v + g_DC g) (settle (track g T) tau k 0 (map (fun v => v - g_DC g) (firstn (g_N g) (resolve_signal g s)))).
Proof.
  unfold apply_incomplete_sampling. destruct (Nat.ltb_spec (length (resolve_signal g s)) (g_N g)) as [H|H]; [discriminate|]. intros E. apply Ok_inj in E. split; [exact H|]. rewrite <- E.
  unfold track. destruct T as [t|]; [reflexivity|]. replace (1 / g_Fs g * 0.2) with (0.2 / g_Fs g) by (unfold Rdiv; ring). reflexivity.
Qed.
Lemma firstn_nth (l : list R) n i : (i < n)%nat -> nth i (firstn n l) 0 = nth i l 0.
Proof. revert n i. induction l as [|v t IH]; intros n i H; [destruct n, i; reflexivity|]. destruct n as [|n]; [lia|]. destruct i as [|i]; [reflexivity|]. cbn [firstn nth]. apply IH. lia. Qed.
(** Each output lies between the previous output (DC before the first sample) and the present
    input, reaching the fraction 1 - exp(-T/tau_i) of the way with tau_i = tau*(1 + k*(x_i-DC)^2). *)
Lemma c68_step g s T tau k out i : apply_incomplete_sampling g s T tau k = Ok out -> 0 <= track g T -> 0 < tau -> 0 <= k -> (i < g_N g)%nat ->
  let x := resolve_signal g s in let prev := match i with O => g_DC g | S j => nth j out 0 end in let a := exp (- track g T / (tau * (1 + k * (nth i x 0 - g_DC g) ^ 2))) in
  length out = g_N g /\ nth i out 0 = nth i x 0 + (prev - nth i x 0) * a /\ 0 < a <= 1 /\ Rmin prev (nth i x 0) <= nth i out 0 <= Rmax prev (nth i x 0).
Proof.
  intros E HT Htau Hk Hi x prev a. destruct (incomplete_inv _ _ _ _ _ _ E) as (HL & Ho). fold x in HL, Ho. set (ac := map (fun v => v - g_DC g) (firstn (g_N g) x)) in *.
  assert (La : length ac = g_N g) by (unfold ac; rewrite map_length, firstn_length; lia). assert (Lo : length out = g_N g) by (rewrite Ho, map_length, settle_length; exact La). split; [exact Lo|].
  assert (Ai : nth i ac 0 = nth i x 0 - g_DC g) by (unfold ac; rewrite (nth_map_in _ _ _ 0) by (rewrite firstn_length; lia); rewrite firstn_nth by exact Hi; reflexivity).
  assert (On : forall j, (j < g_N g)%nat -> nth j out 0 = nth j (settle (track g T) tau k 0 ac) 0 + g_DC g) by (intros j Hj; rewrite Ho, (nth_map_in _ _ _ 0) by (rewrite settle_length; lia); reflexivity).
  pose proof (settle_nth (track g T) tau k ac 0 i ltac:(lia)) as V. cbv zeta in V. rewrite Ai in V. pose proof (alpha_range (track g T) tau k HT Htau Hk (nth i x 0 - g_DC g)) as Ra. fold a in Ra, V.
  assert (O : nth i out 0 = nth i x 0 + (prev - nth i x 0) * a). { rewrite On, V by exact Hi. unfold prev. destruct i as [|j]; [ring|]. rewrite (On j) by lia. ring. }
  split; [exact O|]. split; [exact Ra|]. rewrite O. unfold Rmin, Rmax. destruct (Rle_dec prev (nth i x 0)); split; nra.
Qed.
(** The output never exceeds the largest excursion of the input from DC. *)
Lemma c68_bounded g s T tau k out M : apply_incomplete_sampling g s T tau k = Ok out -> 0 <= track g T -> 0 < tau -> 0 <= k -> 0 <= M ->
  (forall v, In v (resolve_signal g s) -> Rabs (v - g_DC g) <= M) -> forall o, In o out -> Rabs (o - g_DC g) <= M.
Proof.
  intros E HT Htau Hk HM Hx o Ho. destruct (incomplete_inv _ _ _ _ _ _ E) as (_ & Eo). subst out. apply in_map_iff in Ho. destruct Ho as (w & <- & Hw). replace (w + g_DC g - g_DC g) with w by ring.
  refine (settle_bound _ _ _ HT Htau Hk M _ _ 0 _ _ Hw); [|rewrite Rabs_R0; exact HM]. intros v Hv. apply in_map_iff in Hv. destruct Hv as (u & <- & Hu). apply Hx. rewrite <- (firstn_skipn (g_N g)). apply in_or_app. left. exact Hu.
Qed.
(** A constant input is approached geometrically. *)
Lemma c68_constant g c n T tau k i : (i < g_N g)%nat -> (g_N g <= n)%nat -> exists out, apply_incomplete_sampling g (Some (repeat c n)) T tau k = Ok out /\
  nth i out 0 = c - (c - g_DC g) * exp (- track g T / (tau * (1 + k * (c - g_DC g) ^ 2))) ^ (S i).
Proof.
  intros Hi Hn. destruct (apply_incomplete_sampling g (Some (repeat c n)) T tau k) as [out|e] eqn:E.
  - exists out. split; [reflexivity|]. destruct (incomplete_inv _ _ _ _ _ _ E) as (_ & Eo). cbn [resolve_signal] in Eo. assert (F : firstn (g_N g) (repeat c n) = repeat c (g_N g)) by (clear -Hn; revert n Hn; induction (g_N g) as [|m IH]; intros n Hn; [reflexivity|]; destruct n as [|n]; [lia|]; cbn [repeat firstn]; rewrite IH by lia; reflexivity).
    rewrite F, map_repeat in Eo. rewrite Eo, (nth_map_in _ _ _ 0) by (rewrite settle_length, repeat_length; exact Hi). rewrite settle_const by exact Hi. ring.
  - exfalso. unfold apply_incomplete_sampling in E. cbn [resolve_signal] in E. rewrite repeat_length in E. destruct (Nat.ltb_spec n (g_N g)); [lia|discriminate E].
Qed.
(** A signal shorter than N is an IndexError. *)
Lemma c68_short g s T tau k : (length (resolve_signal g s) < g_N g)%nat -> apply_incomplete_sampling g s T tau k = Err IndexError.
Proof. intros H. unfold apply_incomplete_sampling. destruct (Nat.ltb_spec (length (resolve_signal g s)) (g_N g)); [reflexivity|lia]. Qed.
(** Tracking for tau*ln 2 halves the distance each time: 1/2, 3/4 for a unit step. *)
Lemma c68_values_ex : apply_incomplete_sampling (mkGen 2 1 0 1 0) (Some [1; 1]) (Some (ln 2)) 1 0 = Ok [1/2; 3/4].
Proof.
  unfold apply_incomplete_sampling. cbn [resolve_signal length g_N Nat.ltb Nat.leb firstn map settle g_DC]. replace (- ln 2 / (1 * (1 + 0 * (1 - 0) ^ 2))) with (- ln 2) by field. rewrite exp_Ropp, exp_ln by lra. f_equal. list_eq; lra.
Qed.

(** ** C69: reference droop *)
Lemma droop_nth d x : forall xh yh n, (n < length x)%nat ->
  nth n (lfilter_from [1] [1; - d] xh yh x) 0 = rsum (S n) (fun k => d ^ (n - k) * nth k x 0) + d ^ (S n) * hd 0 yh.
Proof.
  induction x as [|v t IH]; intros xh yh n Hn; [cbn in Hn; lia|]. cbn [lfilter_from]. cbv zeta. destruct n as [|n].
  - cbn [nth rsum hd tl dot pow Nat.sub]. destruct yh; cbn [dot hd]; field.
  - cbn [nth]. rewrite IH by (cbn [length] in Hn; lia). rewrite (rsum_shift (S n)). cbn [nth hd tl dot pow Nat.sub].
    destruct yh; cbn [dot hd]; field.
Qed.
Lemma reference_length g s tau st : length (apply_reference_error g s tau st) = length (resolve_signal g s).
Proof. unfold apply_reference_error. rewrite map2_length; rewrite ?lfilter_length, ?map_length; reflexivity. Qed.
(** Sample i is scaled about DC by one minus an exponentially fading sum of all past |x_k - DC|. *)
Lemma c69_closed_form g s tau st i : let x := resolve_signal g s in (i < length x)%nat ->
  nth i (apply_reference_error g s tau st) 0 =
  g_DC g + (nth i x 0 - g_DC g) * (1 - st * rsum (S i) (fun k => exp (- INR (i - k) / tau) * Rabs (nth k x 0 - g_DC g))).
Proof.
  intros x Hi. unfold apply_reference_error. fold x. rewrite (map2_nth _ _ _ i 0 0) by (rewrite ?lfilter_length, ?map_length; auto). rewrite (nth_map_in _ _ _ 0) by exact Hi. rewrite droop_nth by (rewrite !map_length; exact Hi). cbn [hd]. rewrite Rmult_0_r, Rplus_0_r, Rplus_comm. f_equal. f_equal. f_equal.
  rewrite <- rsum_scale. apply rsum_ext. intros k Hk. rewrite (nth_map_in _ _ _ 0) by (rewrite map_length; lia). rewrite (nth_map_in _ _ _ 0) by lia. rewrite <- Rmult_assoc, (Rmult_comm _ st), Rmult_assoc. f_equal. f_equal.
  assert (P : forall m, exp (-1 / tau) ^ m = exp (- INR m / tau)). { induction m as [|m IH]; [cbn [pow]; replace (- INR 0 / tau) with 0 by (cbn; unfold Rdiv; ring); rewrite exp_0; reflexivity|]. cbn [pow]. rewrite IH, <- exp_plus, S_INR. f_equal. unfold Rdiv. ring. }
  rewrite <- P. reflexivity.
Qed.
Lemma geom_le d n : 0 <= d < 1 -> rsum n (fun k => d ^ k) <= / (1 - d).
Proof.
  intros H. assert (E : rsum n (fun k => d ^ k) * (1 - d) = 1 - d ^ n). { induction n as [|n IH]; [cbn; ring|]. cbn [rsum pow]. rewrite Rmult_plus_distr_r, IH. ring. }
  apply (Rmult_le_reg_r (1 - d)); [lra|]. rewrite E, Rinv_l by lra. pose proof (pow_le d n ltac:(lra)). lra.
Qed.
Lemma rsum_rev n f : rsum (S n) (fun k => f (n - k)%nat) = rsum (S n) f.
Proof.
  induction n as [|n IH]; [reflexivity|]. rewrite rsum_shift. cbn [Nat.sub]. rewrite IH. change (rsum (S (S n)) f) with (rsum (S n) f + f (S n)). ring.
Qed.
(** The relative error of a sample is between 0 and strength*M/(1 - exp(-1/tau)). *)
Lemma c69_bound g s tau st M i : let x := resolve_signal g s in (i < length x)%nat -> 0 < tau -> 0 <= st ->
  (forall v, In v x -> Rabs (v - g_DC g) <= M) ->
  exists r, nth i (apply_reference_error g s tau st) 0 - nth i x 0 = - r * (nth i x 0 - g_DC g) /\ 0 <= r <= st * M / (1 - exp (- 1 / tau)).
Proof.
  intros x Hi Ht Hs HM. rewrite c69_closed_form by exact Hi. fold x. set (S := rsum _ _). exists (st * S). split; [ring|].
  assert (S0 : 0 <= S) by (apply rsum_nonneg; intros k _; apply Rmult_le_pos; [apply Rlt_le, exp_pos|apply Rabs_pos]).
  assert (D : 0 <= exp (- 1 / tau) < 1). { split; [apply Rlt_le, exp_pos|]. rewrite <- exp_0. apply exp_increasing. unfold Rdiv. pose proof (Rinv_0_lt_compat _ Ht). lra. }
  assert (S1 : S <= M * / (1 - exp (- 1 / tau))).
  { apply Rle_trans with (rsum (Datatypes.S i) (fun k => M * exp (- 1 / tau) ^ (i - k))).
    - apply rsum_le. intros k Hk. replace (exp (- INR (i - k) / tau)) with (exp (- 1 / tau) ^ (i - k)).
      + rewrite (Rmult_comm M). apply Rmult_le_compat_l; [apply pow_le; lra|]. apply HM, nth_In. lia.
      + generalize (i - k)%nat as m. induction m as [|m IH]; [cbn [pow]; replace (- INR 0 / tau) with 0 by (cbn; unfold Rdiv; ring); rewrite exp_0; reflexivity|]. cbn [pow]. rewrite IH, <- exp_plus, S_INR. f_equal. unfold Rdiv. ring.
    - rewrite rsum_scale. rewrite (rsum_rev i (fun k => exp (- 1 / tau) ^ k)). apply Rmult_le_compat_l; [|apply geom_le, D]. specialize (HM (nth i x 0) (nth_In _ _ Hi)). pose proof (Rabs_pos (nth i x 0 - g_DC g)). lra. }
  split; [apply Rmult_le_pos; assumption|]. unfold Rdiv. rewrite Rmult_assoc. apply Rmult_le_compat_l; [exact Hs|exact S1].
Qed.
(** Record 1, 1 with DC 0, tau = 1/ln 2 (decay 1/2), strength 0.1: outputs 0.9, 0.85. *)
Lemma c69_values_ex : apply_reference_error (mkGen 2 1 0 1 0) (Some [1; 1]) (/ ln 2) 0.1 = [0.9; 0.85].
Proof.
  assert (L2 : 0 < ln 2) by (rewrite <- ln_1; apply ln_increasing; lra).
  unfold apply_reference_error. cbn [resolve_signal map g_DC lfilter_from dot hd tl map2]. replace (- 1 / / ln 2) with (- ln 2) by (field; lra). rewrite exp_Ropp, exp_ln by lra. replace (1 - 0) with 1 by ring. rewrite Rabs_R1. list_eq; lra.
Qed.

(** ** C70: percentile clipping *)
Lemma rinsert_perm x l : Permutation (x :: l) (rinsert x l).
Proof. induction l as [|y t IH]; [reflexivity|]. cbn [rinsert]. destruct (Rleb x y); [reflexivity|]. rewrite perm_swap. constructor. exact IH. Qed.
Lemma rsort_perm l : Permutation l (rsort l).
Proof. induction l as [|x t IH]; [reflexivity|]. cbn [rsort fold_right]. rewrite IH at 1. apply rinsert_perm. Qed.
Definition ascending (s : list R) : Prop := forall i j, (i <= j)%nat -> (j < length s)%nat -> nth i s 0 <= nth j s 0.
Lemma ascending_cons x l : ascending l -> (forall y, In y l -> x <= y) -> ascending (x :: l).
Proof.
  intros A H i j Hij Hj. destruct i as [|i]; destruct j as [|j]; cbn [nth]; try lra; try lia.
  - apply H, nth_In. cbn in Hj. lia.
  - apply A; cbn in Hj; lia.
Qed.
Lemma ascending_tail x l : ascending (x :: l) -> ascending l /\ forall y, In y l -> x <= y.
Proof.
  intros A. split.
  - intros i j Hij Hj. apply (A (S i) (S j)); cbn; lia.
  - intros y Hy. destruct (In_nth _ _ 0 Hy) as (k & Hk & <-). apply (A O (S k)); cbn; lia.
Qed.
Lemma rinsert_ascending x l : ascending l -> ascending (rinsert x l).
Proof.
  induction l as [|y t IH]; intros A; cbn [rinsert].
  - intros i j Hij Hj. cbn in Hj. replace j with O by lia. replace i with O by lia. lra.
  - destruct (ascending_tail _ _ A) as (At & Hy). destruct (Rleb_spec x y) as [L|L].
    + apply ascending_cons; [exact A|]. intros z [<- | Hz]; [exact L|]. specialize (Hy z Hz). lra.
    + apply ascending_cons; [apply IH, At|]. intros z Hz. apply (Permutation_in _ (Permutation_sym (rinsert_perm x t))) in Hz. destruct Hz as [<- | Hz]; [lra|apply Hy, Hz].
Qed.
Lemma rsort_ascending l : ascending (rsort l).
Proof. induction l as [|x t IH]; [intros i j _ H; cbn in H; lia|]. cbn [rsort fold_right]. apply rinsert_ascending, IH. Qed.
Lemma rsort_length l : length (rsort l) = length l.
Proof. symmetry. apply Permutation_length, rsort_perm. Qed.
Lemma count_perm (P : R -> bool) l l' : Permutation l l' -> length (filter P l) = length (filter P l').
Proof. induction 1; cbn [filter]; try reflexivity; [destruct (P x); cbn; congruence|destruct (P x), (P y); cbn; congruence|congruence]. Qed.
Lemma filter_len_le {A} (P : A -> bool) l : (length (filter P l) <= length l)%nat.
Proof. induction l as [|x t IH]; [reflexivity|]. cbn [filter]. destruct (P x); cbn [length]; lia. Qed.
Lemma filter_all_false {A} (P : A -> bool) l : (forall x, In x l -> P x = false) -> filter P l = [].
Proof. induction l as [|x t IH]; intros H; [reflexivity|]. cbn [filter]. rewrite (H x (or_introl eq_refl)). apply IH. intros y Hy. apply H. right. exact Hy. Qed.
Lemma count_prefix (P : R -> bool) s c : (forall j, (c <= j < length s)%nat -> P (nth j s 0) = false) -> (length (filter P s) <= c)%nat.
Proof.
  intros H. rewrite <- (firstn_skipn c s), filter_app, app_length. rewrite (filter_all_false P (skipn c s)).
  - cbn [length]. pose proof (filter_len_le P (firstn c s)) as L. pose proof (firstn_le_length c s) as L2. lia.
  - intros x Hx. destruct (In_nth _ _ 0 Hx) as (k & Hk & <-). rewrite skipn_length in Hk. rewrite <- (H (c + k)%nat) by lia. f_equal. rewrite <- (firstn_skipn c s) at 2. rewrite app_nth2 by (rewrite firstn_length; lia). f_equal. rewrite firstn_length. lia.
Qed.
Lemma count_suffix (P : R -> bool) s c : (c <= length s)%nat -> (forall j, (j < c)%nat -> P (nth j s 0) = false) -> (length (filter P s) <= length s - c)%nat.
Proof.
  intros Hc H. rewrite <- (firstn_skipn c s) at 1. rewrite filter_app, app_length. rewrite (filter_all_false P (firstn c s)).
  - cbn [length]. pose proof (filter_len_le P (skipn c s)) as L. rewrite skipn_length in L. lia.
  - intros x Hx. destruct (In_nth _ _ 0 Hx) as (k & Hk & <-). rewrite firstn_length in Hk. rewrite firstn_nth by lia. apply H. lia.
Qed.
(** Interpolated order statistic at the fractional position h. *)
Definition order_at (s : list R) (h : R) : R :=
  let i := Z.to_nat (Zfloor h) in let a := nth i s 0 in let b := nth (i + 1) s a in a + (h - IZR (Zfloor h)) * (b - a).
Section Order.
Context (s : list R) (A : ascending s).
Let m := INR (length s) - 1.
Lemma frac_range h : 0 <= h - IZR (Zfloor h) < 1.
Proof. pose proof (Zfloor_lb h). pose proof (Zfloor_ub h). lra. Qed.
Lemma floor_index h : 0 <= h <= m -> (Z.to_nat (Zfloor h) < length s)%nat /\ (0 <= Zfloor h)%Z.
Proof.
  intros H. assert (F : (0 <= Zfloor h)%Z) by (apply Zfloor_lub; lra). split; [|exact F]. apply Nat2Z.inj_lt. rewrite Z2Nat.id by exact F. apply lt_IZR. rewrite <- INR_IZR_INZ. pose proof (Zfloor_lb h). unfold m in H. lra.
Qed.
Lemma order_between h : 0 <= h <= m -> let i := Z.to_nat (Zfloor h) in nth i s 0 <= order_at s h /\ order_at s h <= nth (i + 1) s (nth i s 0) /\ (h = IZR (Zfloor h) -> order_at s h = nth i s 0).
Proof.
  intros H i. destruct (floor_index h H) as (Hi & _). fold i in Hi. pose proof (frac_range h) as F. unfold order_at. fold i. cbv zeta. set (a := nth i s 0). set (b := nth (i + 1) s a).
  assert (Hab : a <= b). { unfold b. destruct (Nat.lt_ge_cases (i + 1) (length s)) as [L|L]; [rewrite (nth_indep s a 0) by exact L; apply A; lia|rewrite nth_overflow by exact L; lra]. }
  split; [nra|]. split; [nra|]. intros E. assert (Z : h - IZR (Zfloor h) = 0) by lra. rewrite Z. ring.
Qed.
Lemma order_mono h1 h2 : 0 <= h1 -> h1 <= h2 -> h2 <= m -> order_at s h1 <= order_at s h2.
Proof.
  intros H0 H1 H2. assert (R1 : 0 <= h1 <= m) by lra. assert (R2 : 0 <= h2 <= m) by lra. pose proof (Zfloor_le _ _ H1) as L. destruct (Z.eq_dec (Zfloor h1) (Zfloor h2)) as [E|E].
  - pose proof (order_between h1 R1) as B. cbv zeta in B. unfold order_at in *. rewrite E in *. cbv zeta in *. set (a := nth _ s 0) in *. set (b := nth _ s a) in *. pose proof (frac_range h1) as F. rewrite E in F. assert (0 <= b - a) by lra. nra.
  - destruct (floor_index _ R1) as (I1 & N1). destruct (floor_index _ R2) as (I2 & N2). destruct (order_between _ R1) as (_ & U & _). destruct (order_between _ R2) as (Lo & _). apply Rle_trans with (1 := U). apply Rle_trans with (2 := Lo).
    rewrite (nth_indep s _ 0) by lia. apply A; lia.
Qed.
Lemma order_below h : 0 <= h <= m -> (below (order_at s h) s <= Z.to_nat (Zceil h))%nat.
Proof.
  intros H. destruct (floor_index h H) as (Hi & Hf). destruct (order_between h H) as (B1 & B2 & B3). unfold below. apply count_prefix. intros j Hj. apply Rltb_false.
  destruct (Req_dec h (IZR (Zfloor h))) as [E|E].
  - rewrite (B3 E). rewrite E, Zceil_IZR in Hj. apply A; lia.
  - assert (C : (Zceil h = Zfloor h + 1)%Z) by (apply Zceil_floor_neq; intros K; apply E; symmetry; exact K). rewrite C in Hj. apply Rle_trans with (1 := B2). rewrite (nth_indep s _ 0) by lia. apply A; lia.
Qed.
Lemma order_above h : 0 <= h <= m -> (above (order_at s h) s <= Z.to_nat (Zceil (m - h)))%nat.
Proof.
  intros H. destruct (floor_index h H) as (Hi & Hf). destruct (order_between h H) as (B1 & _). unfold above.
  assert (C : (length (filter (fun x => Rltb (order_at s h) x) s) <= length s - S (Z.to_nat (Zfloor h)))%nat).
  { apply count_suffix; [lia|]. intros j Hj. apply Rltb_false. apply Rle_trans with (2 := B1). apply A; lia. }
  replace (Zceil (m - h)) with (Z.of_nat (length s) - 1 - Zfloor h)%Z; [lia|]. unfold Zceil. unfold m. rewrite INR_IZR_INZ.
  replace (- (IZR (Z.of_nat (length s)) - 1 - h)) with (h + IZR (1 - Z.of_nat (length s))) by (rewrite minus_IZR; ring).
  assert (S : (Zfloor (h + IZR (1 - Z.of_nat (length s))) = Zfloor h + (1 - Z.of_nat (length s)))%Z). { apply Zfloor_imp. rewrite !plus_IZR. pose proof (Zfloor_lb h). pose proof (Zfloor_ub h). lra. }
  rewrite S. lia.
Qed.
End Order.
Lemma percentile_ok l q : 0 <= q <= 100 -> percentile l q = Ok (order_at (rsort l) ((INR (length l) - 1) * (q / 100))).
Proof. intros H. unfold percentile. destruct (Rltb_spec q 0); [lra|]. destruct (Rltb_spec 100 q); [lra|]. reflexivity. Qed.
Lemma clipping_ok g s p : resolve_signal g s <> [] -> 0 <= p <= 100 -> let x := resolve_signal g s in let m := INR (length x) - 1 in
  apply_clipping g s p = Ok (map (rclip (order_at (rsort x) (m * (p / 100))) (order_at (rsort x) (m - m * (p / 100)))) x).
Proof.
  intros Hx Hp x m. assert (G : apply_clipping g s p = bind (percentile x p) (fun lo => bind (percentile x (100 - p)) (fun hi => Ok (map (rclip lo hi) x)))).
  { unfold apply_clipping, x. destruct (resolve_signal g s); [congruence|reflexivity]. }
  rewrite G, !percentile_ok by lra. cbn [bind]. fold m. replace (m * ((100 - p) / 100)) with (m - m * (p / 100)) by field. reflexivity.
Qed.
Lemma m_nonneg (x : list R) : x <> [] -> 0 <= INR (length x) - 1.
Proof. intros H. destruct x as [|v t]; [congruence|]. cbn [length]. rewrite S_INR. pose proof (pos_INR (length t)). lra. Qed.
(** p up to 50 is a proper clipper: there are thresholds lo <= hi such that samples between them
    are unchanged, samples outside are moved to the nearer one, and at most
    ceil((n-1)*p/100) samples lie on either side. *)
Lemma c70_clip g s p : resolve_signal g s <> [] -> 0 <= p <= 50 -> let x := resolve_signal g s in let m := INR (length x) - 1 in
  exists lo hi out, apply_clipping g s p = Ok out /\ lo <= hi /\ length out = length x /\
    (below lo x <= Z.to_nat (Zceil (m * (p / 100))))%nat /\ (above hi x <= Z.to_nat (Zceil (m * (p / 100))))%nat /\
    (forall i, (i < length x)%nat -> (lo <= nth i x 0 <= hi -> nth i out 0 = nth i x 0) /\ (nth i x 0 < lo -> nth i out 0 = lo) /\ (hi < nth i x 0 -> nth i out 0 = hi)).
Proof.
  intros Hx Hp x m. pose proof (m_nonneg _ Hx) as Hm. fold x in Hm. fold m in Hm. exists (order_at (rsort x) (m * (p / 100))), (order_at (rsort x) (m - m * (p / 100))). eexists. split; [apply clipping_ok; [exact Hx|lra]|].
  assert (K : 0 <= m * (p / 100) <= m - m * (p / 100)) by (split; nra). pose proof (rsort_ascending x) as A. pose proof (rsort_length x) as L.
  assert (LH : order_at (rsort x) (m * (p / 100)) <= order_at (rsort x) (m - m * (p / 100))) by (apply (order_mono _ A); rewrite ?L; fold m; lra).
  split; [exact LH|]. split; [apply map_length|]. split; [|split].
  - unfold below. rewrite (count_perm _ _ _ (rsort_perm x)). apply (order_below _ A). rewrite L. fold m. lra.
  - unfold above. rewrite (count_perm _ _ _ (rsort_perm x)). pose proof (order_above _ A (m - m * (p / 100))) as Ab. rewrite L in Ab. fold m in Ab. replace (m - (m - m * (p / 100))) with (m * (p / 100)) in Ab by ring. apply Ab. lra.
  - intros i Hi. fold x m. rewrite (nth_map_in _ _ _ 0) by exact Hi. set (lo := order_at _ (m * _)) in *. set (hi := order_at _ (m - _)) in *. unfold rclip, Rmin, Rmax. destruct (Rle_dec (nth i x 0) lo); [destruct (Rle_dec lo hi)|destruct (Rle_dec (nth i x 0) hi)]; repeat split; intros; lra.
Qed.
(** p = 0 changes nothing. *)
Lemma c70_identity g s : resolve_signal g s <> [] -> apply_clipping g s 0 = Ok (resolve_signal g s).
Proof.
  intros Hx. set (x := resolve_signal g s) in *. destruct (c70_clip g s 0 Hx ltac:(lra)) as (lo & hi & out & E & LH & Lo & B & Ab & V). fold x in Lo, B, Ab, V. replace ((INR (length x) - 1) * (0 / 100)) with (IZR 0) in B, Ab by (cbn; field). rewrite Zceil_IZR in B, Ab. rewrite E. f_equal.
  apply (nth_ext _ _ 0 0); [exact Lo|]. intros i Hi. rewrite Lo in Hi. destruct (V i Hi) as (V1 & _). apply V1.
  assert (Z : forall (P : R -> bool), (length (filter P x) <= Z.to_nat 0)%nat -> P (nth i x 0) = false). { intros P HP. destruct (P (nth i x 0)) eqn:K; [|reflexivity]. assert (In (nth i x 0) (filter P x)) as HI by (apply filter_In; split; [apply nth_In, Hi|exact K]). destruct (filter P x); [destruct HI|cbn in HP; lia]. }
  apply Z in B. apply Z in Ab. apply Rltb_false in B. apply Rltb_false in Ab. lra.
Qed.
(** p above 50 is not rejected: the thresholds cross and every sample becomes the same value. *)
Lemma c70_flat g s p : resolve_signal g s <> [] -> 50 < p <= 100 -> exists v, apply_clipping g s p = Ok (map (fun _ => v) (resolve_signal g s)).
Proof.
  intros Hx Hp. pose proof (m_nonneg _ Hx) as Hm. rewrite clipping_ok by (try assumption; lra). set (x := resolve_signal g s) in *. set (m := INR (length x) - 1) in *. exists (order_at (rsort x) (m - m * (p / 100))). f_equal. apply map_ext. intros v.
  assert (LH : order_at (rsort x) (m - m * (p / 100)) <= order_at (rsort x) (m * (p / 100))) by (apply (order_mono _ (rsort_ascending x)); rewrite ?rsort_length; fold m; nra).
  unfold rclip. apply Rmin_right. pose proof (Rmax_r v (order_at (rsort x) (m * (p / 100)))). lra.
Qed.
(** Percentages outside [0,100] are a ValueError; an empty record an IndexError. *)
Lemma c70_errors g s p : (resolve_signal g s <> [] -> p < 0 \/ 100 < p -> apply_clipping g s p = Err ValueError) /\ (resolve_signal g s = [] -> apply_clipping g s p = Err IndexError).
Proof.
  split.
  - intros Hx H. unfold apply_clipping. destruct (resolve_signal g s) as [|v t]; [congruence|]. unfold percentile. destruct (Rltb_spec p 0); [reflexivity|]. destruct (Rltb_spec 100 p); [reflexivity|lra].
  - intros E. unfold apply_clipping. rewrite E. reflexivity.
Qed.
(** 25 percent of [4; 1; 0; 3; 2]: 0 rises to 1 and 4 falls to 3. *)
Lemma c70_values_ex g : apply_clipping g (Some [4; 1; 0; 3; 2]) 25 = Ok [3; 1; 1; 3; 2].
Proof.
  assert (S : rsort [4; 1; 0; 3; 2] = [0; 1; 2; 3; 4]) by (unfold rsort; cbn [fold_right rinsert]; repeat (cbn [rinsert]; match goal with |- context [Rleb ?a ?b] => destruct (Rleb_spec a b); [try lra|try lra] end); reflexivity).
  rewrite clipping_ok by (cbn [resolve_signal]; try discriminate; lra). cbn [resolve_signal]. rewrite S. replace (INR (length [4; 1; 0; 3; 2]) - 1) with 4 by (cbn; lra).
  assert (L : order_at [0; 1; 2; 3; 4] (4 * (25 / 100)) = 1) by (replace (4 * (25 / 100)) with (IZR 1) by field; unfold order_at; rewrite Zfloor_IZR; change (Z.to_nat 1) with 1%nat; cbn; lra).
  assert (H : order_at [0; 1; 2; 3; 4] (4 - 4 * (25 / 100)) = 3) by (replace (4 - 4 * (25 / 100)) with (IZR 3) by field; unfold order_at; rewrite Zfloor_IZR; change (Z.to_nat 3) with 3%nat; cbn; lra).
  rewrite L, H. cbn [map]. unfold rclip, Rmin, Rmax. f_equal. list_eq; repeat (destruct (Rle_dec _ _); try lra).
Qed.

(** ** C71: impairments of strength zero *)
Lemma map2_id_l {A} (f : R -> A -> R) x : forall d, length d = length x -> (forall v w, f v w = v) -> map2 f x d = x.
Proof. induction x as [|v t IH]; intros [|w u] H F; try discriminate H; [reflexivity|]. cbn [map2]. rewrite F, IH; [reflexivity|cbn in H; lia|exact F]. Qed.
(** Thermal noise, glitches, AM noise and AM tone of strength zero return the signal. *)
Lemma c71_additive g s draws freq amp : let x := resolve_signal g s in length draws = length x -> length x = g_N g ->
  apply_thermal_noise g s 0 draws = x /\ apply_glitch g s 0 amp (map Rabs draws) = x /\ apply_glitch g s freq 0 draws = x /\
  apply_am_noise g s 0 draws = x /\ apply_am_tone g s freq 0 = x.
Proof.
  intros x L N. repeat split.
  - apply map2_id_l; [exact L|]. intros v w. ring.
  - unfold apply_glitch. fold x. rewrite map2_map_r. apply map2_id_l; [exact L|]. intros v w. destruct (Rltb_spec (Rabs w) 0) as [K|K]; [pose proof (Rabs_pos w); lra|ring].
  - apply map2_id_l; [exact L|]. intros v w. destruct (Rltb w freq); ring.
  - apply map2_id_l; [exact L|]. intros v w. ring.
  - unfold apply_am_tone. fold x. apply map2_id_l; [rewrite seq_length; symmetry; exact N|]. intros v w. ring.
Qed.
(** Jitter of zero rms returns the clean sine; zero coefficients, absent harmonic levels and zero
    droop return the signal. *)
Lemma c71_shaping g s draws tau : length draws = g_N g ->
  jitter_clean g 0 draws = clean_signal g /\ apply_static_nonlinearity g s 0 0 0 0 = resolve_signal g s /\
  apply_static_nonlinearity_hd g s None None None None = resolve_signal g s /\ apply_reference_error g s tau 0 = resolve_signal g s.
Proof.
  intros L. repeat split.
  - unfold jitter_clean, clean_signal. assert (G : forall l d, length d = length l -> map2 (fun i w => clean_at g (INR i / g_Fs g + w * 0)) l d = map (fun i => clean_at g (INR i / g_Fs g)) l).
    { induction l as [|i t IH]; intros [|w u] H; try discriminate H; [reflexivity|]. cbn [map2 map]. rewrite IH by (cbn in H; lia). f_equal. f_equal. ring. }
    apply G. rewrite seq_length. exact L.
  - unfold apply_static_nonlinearity. rewrite <- (map_id (resolve_signal g s)) at 2. apply map_ext. intros v. rewrite nonlin_poly. ring.
  - unfold apply_static_nonlinearity_hd, apply_static_nonlinearity. cbn [db_to_k]. rewrite <- (map_id (resolve_signal g s)) at 2. apply map_ext. intros v. rewrite nonlin_poly. ring.
  - apply (nth_ext _ _ 0 0); [apply reference_length|]. intros i Hi. rewrite reference_length in Hi. rewrite c69_closed_form by exact Hi. ring.
Qed.
Lemma removelast_nth' (l : list R) i : (S i < length l)%nat -> nth i (removelast l) 0 = nth i l 0.
Proof. revert i. induction l as [|v t IH]; intros i H; [cbn in H; lia|]. destruct t as [|w u]; [cbn in H; lia|]. change (removelast (v :: w :: u)) with (v :: removelast (w :: u)). destruct i as [|i]; [reflexivity|]. cbn [nth] in *. apply IH. cbn [length] in *. lia. Qed.
Lemma roll1_length l : length (roll1 l) = length l.
Proof. unfold roll1. destruct l as [|v t]; [reflexivity|]. cbn [length]. f_equal. rewrite removelast_firstn_len, firstn_length. cbn [length]. lia. Qed.
Lemma last_nth (l : list R) : last l 0 = nth (length l - 1) l 0.
Proof. induction l as [|v t IH]; [reflexivity|]. destruct t as [|w u]; [reflexivity|]. change (last (v :: w :: u) 0) with (last (w :: u) 0). rewrite IH. cbn [length]. replace (S (S (length u)) - 1)%nat with (S (S (length u) - 1)) by lia. reflexivity. Qed.
Lemma roll1_nth l i : (i < length l)%nat -> nth i (roll1 l) 0 = nth (match i with O => length l - 1 | S j => j end) l 0.
Proof.
  intros H. destruct l as [|v t]; [cbn in H; lia|]. change (roll1 (v :: t)) with (last (v :: t) 0 :: removelast (v :: t)). destruct i as [|j].
  - apply last_nth.
  - cbn [nth]. apply removelast_nth'. exact H.
Qed.
(** Memory effect: 4+12-bit quantisation plus the leaked coarse code of the previous sample; the
    first sample takes the coarse code of the LAST one (np.roll wraps around). With strength zero
    it still quantises to within 2^-12. *)
Lemma c71_memory g s strength i : let x := resolve_signal g s in let y := apply_memory_effect g s strength in (i < length x)%nat ->
  let j := match i with O => (length x - 1)%nat | S j => j end in
  exists k e, IZR k / 2 ^ 4 <= nth j x 0 < (IZR k + 1) / 2 ^ 4 /\ 0 <= e < / 2 ^ 12 /\ nth i y 0 = nth i x 0 - e + strength * (IZR k / 2 ^ 4).
Proof.
  intros x y Hi j. assert (Hj : (j < length x)%nat) by (unfold j; destruct i; lia).
  destruct (floor_bits_spec 4 (nth j x 0)) as (k & K & B). pose proof (stages 4 12 (nth i x 0)) as S. cbv zeta in S. set (m := floor_bits 4 (nth i x 0)) in *. set (l := floor_bits 12 (nth i x 0 - m)) in *.
  exists k, (nth i x 0 - m - l). rewrite K in B. split; [unfold Rdiv in *; lra|]. split; [lra|]. unfold y, apply_memory_effect. fold x.
  assert (L1 : length (map2 (fun v m0 => floor_bits 12 (v - m0)) x (map (floor_bits 4) x)) = length x) by (rewrite map2_length; rewrite ?map_length; reflexivity).
  assert (L2 : length (map2 (fun p q => p + q) (map (floor_bits 4) x) (map2 (fun v m0 => floor_bits 12 (v - m0)) x (map (floor_bits 4) x))) = length x) by (rewrite map2_length; rewrite ?map_length; congruence).
  rewrite (map2_nth _ _ _ i 0 0) by (rewrite ?L2, ?map_length, ?roll1_length, ?map_length; auto). rewrite (map2_nth _ _ _ i 0 0) by (rewrite ?L1, ?map_length; auto). rewrite (map2_nth _ _ _ i 0 0) by (rewrite ?map_length; auto).
  rewrite !(nth_map_in _ _ _ 0) by (rewrite ?roll1_length, ?map_length; exact Hi). rewrite roll1_nth by (rewrite map_length; exact Hi). rewrite map_length. fold j. rewrite (nth_map_in _ _ _ 0) by exact Hj. rewrite K. fold m. fold l. ring.
Qed.
(** Zero memory strength on [0.3]: only the 12-bit floor remains (0.3*4096 = 1228.8). *)
Lemma c71_memory_ex g : apply_memory_effect g (Some [0.3]) 0 = [1228 / 4096].
Proof.
  unfold apply_memory_effect. cbn [resolve_signal map map2 roll1 last removelast].
  assert (M : floor_bits 4 0.3 = 0.25) by (unfold floor_bits; replace (Zfloor _) with 4%Z by (symmetry; apply Zfloor_imp; cbn; lra); cbn; lra). rewrite M.
  assert (L : floor_bits 12 (0.3 - 0.25) = 204/4096) by (unfold floor_bits; replace (Zfloor _) with 204%Z by (symmetry; apply Zfloor_imp; cbn; lra); cbn; lra). rewrite L. list_eq; lra.
Qed.
(** ** C71: values at non-zero strength *)
(** Thermal noise adds rms times the draw; a glitch adds its amplitude where the draw is below the probability;
    AM noise scales the excursion from DC by 1 + strength times the draw; jitter moves the sampling instant. *)
Lemma c71_values g s rms prob amp strength draws i : let x := resolve_signal g s in length draws = length x -> (i < length x)%nat ->
  let d := nth i draws 0 in
  nth i (apply_thermal_noise g s rms draws) 0 = nth i x 0 + rms * d /\
  nth i (apply_glitch g s prob amp draws) 0 = (if Rltb d prob then nth i x 0 + amp else nth i x 0) /\
  nth i (apply_am_noise g s strength draws) 0 = g_DC g + (nth i x 0 - g_DC g) * (1 + strength * d).
Proof.
  intros x L Hi d. unfold apply_thermal_noise, apply_glitch, apply_am_noise. fold x. rewrite !(map2_nth _ x draws i 0 0) by (try (symmetry; exact L); exact Hi). fold d.
  split; [ring |]. split; [destruct (Rltb d prob); ring | ring].
Qed.
Lemma c71_jitter g rms draws i : length draws = g_N g -> (i < g_N g)%nat ->
  nth i (jitter_clean g rms draws) 0 = g_DC g + g_A g * sin (2 * PI * g_Fin g * (INR i / g_Fs g + rms * nth i draws 0)).
Proof.
  intros L Hi. unfold jitter_clean. rewrite (map2_nth _ (seq 0 (g_N g)) draws i O 0) by (rewrite seq_length; (symmetry; exact L) || exact Hi). rewrite seq_nth by exact Hi. unfold clean_at. cbn [Nat.add].
  replace (nth i draws 0 * rms) with (rms * nth i draws 0) by ring. ring.
Qed.
(** An AM tone on the clean sine gives the carrier and two sidebands of A*depth/2 at Fin - f and Fin + f. *)
Lemma c71_am_tone g f depth i : (i < g_N g)%nat -> let t := INR i / g_Fs g in
  nth i (apply_am_tone g None f depth) 0 = g_DC g + g_A g * sin (2 * PI * g_Fin g * t)
    + g_A g * depth / 2 * cos (2 * PI * (g_Fin g - f) * t) - g_A g * depth / 2 * cos (2 * PI * (g_Fin g + f) * t).
Proof.
  intros Hi t. unfold apply_am_tone. cbn [resolve_signal]. assert (LC : length (clean_signal g) = g_N g) by (unfold clean_signal; rewrite map_length, seq_length; reflexivity).
  rewrite (map2_nth _ _ _ i 0 O) by (rewrite ?seq_length, LC; auto). rewrite seq_nth by exact Hi. unfold clean_signal. rewrite (nth_map_in _ _ _ O), seq_nth by (rewrite ?seq_length; exact Hi). cbn [Nat.add]. fold t. unfold clean_at.
  replace (2 * PI * (g_Fin g - f) * t) with (2 * PI * g_Fin g * t - 2 * PI * f * t) by ring. replace (2 * PI * (g_Fin g + f) * t) with (2 * PI * g_Fin g * t + 2 * PI * f * t) by ring.
  rewrite cos_minus, cos_plus. field.
Qed.
Lemma c71_values_ex : apply_glitch (mkGen 3 1 1 1 0) (Some [1; 2; 3]) 0.5 10 [0.7; 0.2; 0.5] = [1; 12; 3] /\ apply_am_noise (mkGen 2 1 1 1 1) (Some [1; 3]) 0.5 [4; 1] = [1; 4].
Proof.
  unfold apply_glitch, apply_am_noise. cbn [resolve_signal map2 g_DC]. destruct (Rltb_spec 0.7 0.5); [lra |]. destruct (Rltb_spec 0.2 0.5); [| lra]. destruct (Rltb_spec 0.5 0.5); [lra |].
  split; list_eq; lra.
Qed.
(** ** C67: the dynamic model sample by sample *)
Lemma ra_loop_nth gain c3 mb lb coarse ac : forall st i, (i < length ac)%nat ->
  let y := ra_loop gain c3 mb lb coarse st ac in let v := nth i ac 0 in let m := floor_bits mb v in let l := floor_bits lb (v - m) in
  let prev := match i with O => st | S j => if coarse then nth j y 0 else nth j y 0 - floor_bits mb (nth j ac 0) end in
  nth i y 0 = if coarse then m * (gain + c3 * prev ^ 2) + l else m + l * (gain + c3 * prev ^ 2).
Proof.
  induction ac as [| v t IH]; intros st i Hi; [cbn [length] in Hi; lia |]. destruct i as [| i].
  - cbn [ra_loop nth]. destruct coarse; reflexivity.
  - cbn [length] in Hi. assert (Hi' : (i < length t)%nat) by lia. cbv zeta. cbn [ra_loop]. destruct coarse; cbn [nth].
    + rewrite (IH _ i Hi'). destruct i as [| i]; [reflexivity |]. cbn [nth]. reflexivity.
    + rewrite (IH _ i Hi'). destruct i as [| i]; cbn [nth]; [| reflexivity].
      match goal with |- _ + _ * (_ + _ * ?a ^ 2) = _ + _ * (_ + _ * ?b ^ 2) => replace b with a by ring end. reflexivity.
Qed.
(** The memory of the dynamic model: with coarse level m and residue l of the sample (both floored to their
    grids), the gain acting on m (coarse path) or on l (residue path) is gain + c3 times the square of the
    previous output (coarse path) or of the previous amplified residue (residue path). *)
Lemma c67_dynamic g s gain c3 mb lb mode out i : apply_ra_gain_error_dynamic g s gain c3 mb lb mode = Ok out -> (i < g_N g)%nat ->
  let x j := nth j (resolve_signal g s) 0 - g_DC g in
  exists m l : nat -> R,
    (forall j, (j < g_N g)%nat -> (exists k, m j = IZR k / 2 ^ mb) /\ m j <= x j < m j + / 2 ^ mb /\ (exists k, l j = IZR k / 2 ^ lb) /\ l j <= x j - m j < l j + / 2 ^ lb) /\
    let prev := match i with O => 0 | S j => nth j out 0 - g_DC g end in
    let prev_m := match i with O => 0 | S j => m j end in
    (mode = CoarsePath -> nth i out 0 = g_DC g + m i * (gain + c3 * prev ^ 2) + l i) /\
    (mode = ResiduePath -> nth i out 0 = g_DC g + m i + l i * (gain + c3 * (prev - prev_m) ^ 2)).
Proof.
  intros H Hi x. unfold apply_ra_gain_error_dynamic in H. set (sg := resolve_signal g s) in *.
  set (ac := map (fun v => v - g_DC g) (firstn (g_N g) sg)) in *.
  assert (Hlen : mode = OtherMode \/ (g_N g <= length sg)%nat) by (destruct mode; [right | right | left; reflexivity]; destruct (Nat.ltb_spec (length sg) (g_N g)); try discriminate H; assumption).
  destruct Hlen as [-> | HL]; [discriminate H |].
  assert (LA : length ac = g_N g) by (unfold ac; rewrite map_length, firstn_length; lia).
  assert (AC : forall j, (j < g_N g)%nat -> nth j ac 0 = x j).
  { intros j Hj. unfold ac. rewrite (nth_map_in _ _ _ 0) by (rewrite firstn_length; lia). unfold x. f_equal. rewrite <- (firstn_skipn (g_N g) sg) at 2. rewrite app_nth1 by (rewrite firstn_length; lia). reflexivity. }
  exists (fun j => floor_bits mb (x j)), (fun j => floor_bits lb (x j - floor_bits mb (x j))). split.
  { intros j Hj. destruct (floor_bits_spec mb (x j)) as (k & K & B). destruct (floor_bits_spec lb (x j - floor_bits mb (x j))) as (k2 & K2 & B2).
    split; [exists k; exact K |]. split; [lra |]. split; [exists k2; exact K2 | lra]. }
  assert (LL : forall coarse st, length (ra_loop gain c3 mb lb coarse st ac) = g_N g) by (intros coarse; rewrite <- LA; clear; induction ac as [| v t IH]; intros st; [reflexivity |]; cbn [ra_loop]; destruct coarse; cbn [length]; rewrite IH; reflexivity).
  destruct (Nat.ltb_spec (length sg) (g_N g)); [lia |].
  assert (O : forall coarse, out = map (fun v => v + g_DC g) (ra_loop gain c3 mb lb coarse 0 ac) -> forall j, (j < g_N g)%nat -> nth j out 0 = nth j (ra_loop gain c3 mb lb coarse 0 ac) 0 + g_DC g) by (intros coarse -> j Hj; rewrite (nth_map_in _ _ _ 0) by (rewrite LL; exact Hj); reflexivity).
  split; intros ->; injection H as E; symmetry in E.
  - specialize (O true E). rewrite O by exact Hi. rewrite (ra_loop_nth gain c3 mb lb true ac 0 i) by (rewrite LA; exact Hi). cbv iota. rewrite AC by exact Hi.
    destruct i as [| j]; [ring |]. rewrite (O j) by lia. ring.
  - specialize (O false E). rewrite O by exact Hi. rewrite (ra_loop_nth gain c3 mb lb false ac 0 i) by (rewrite LA; exact Hi). cbv iota. rewrite AC by exact Hi.
    destruct i as [| j]; [ring |]. rewrite (O j) by lia. rewrite AC by lia. ring.
Qed.
(** Two samples of 0.75 with one coarse bit, gain 1, c3 = 1: coarse outputs 0.75 and 0.5*(1+0.5625)+0.25. *)
Lemma c67_dynamic_ex : apply_ra_gain_error_dynamic (mkGen 2 1 1 1 0) (Some [0.75; 0.75]) 1 1 1 2 CoarsePath = Ok [0.75; 1.03125].
Proof.
  assert (M : floor_bits 1 (0.75 - 0) = 0.5) by (unfold floor_bits; replace (Zfloor _) with 1%Z by (symmetry; apply Zfloor_imp; cbn; lra); cbn; lra).
  assert (L : floor_bits 2 (0.75 - 0 - 0.5) = 0.25) by (unfold floor_bits; replace (Zfloor _) with 1%Z by (symmetry; apply Zfloor_imp; cbn; lra); cbn; lra).
  unfold apply_ra_gain_error_dynamic. cbn [resolve_signal length g_N Nat.ltb Nat.leb firstn map g_DC ra_loop]. rewrite M, L. f_equal. list_eq; lra.
Qed.
