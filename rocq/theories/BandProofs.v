(** * Brick-wall filter: the final lemmas are named c50_. *)
From Verif Require Import Base BaseLemmas Cplx FreqModel FreqProofs TiModel TiSpec TiProofs TiToneProofs SpecProofs SpecToneProofs BandModel BandSpec.
From Coq Require Import Psatz ZifyBool.
Local Open Scope R_scope.

Lemma zrange_in a b z : In z (zrange a b) <-> (a <= z <= b)%Z.
Proof.
  unfold zrange. rewrite in_map_iff. split.
  - intros (i & <- & H). apply in_seq in H. lia.
  - intros H. exists (Z.to_nat (z - a)). split; [lia|]. apply in_seq. lia.
Qed.
Lemma round_half_N N : (0 < N)%nat -> (2 * round_he (0.5 * INR N) <= Z.of_nat N + 1)%Z.
Proof.
  intros H. pose proof (round_he_half (0.5 * INR N)) as A. apply Rabs_le_inv in A. apply le_IZR. rewrite mult_IZR, plus_IZR, <- INR_IZR_INZ. lra.
Qed.
Lemma fold_id N f : (0 < N)%nat -> (0 <= f)%Z -> (2 * f <= Z.of_nat N + 1)%Z -> (2 <= N)%nat \/ f = 0%Z ->
  round_he (fold_frequency (IZR f) (INR N)) = Z.min f (Z.of_nat N - f).
Proof.
  intros HN H0 H1 H2. assert (P : 0 < INR N) by (apply lt_0_INR; lia). pose proof (fun x => proj1 (proj2 (proj2 (proj2 (proj2 (c11_fold_frequency x (INR N) P)))))) as Id.
  pose proof (c11_fold_frequency (IZR f) (INR N) P) as (_ & _ & Per & _ & _). 
  destruct (Z.le_gt_cases (2 * f) (Z.of_nat N)) as [L|L].
  - rewrite Id. + rewrite round_he_IZR. lia.
    + split; [apply IZR_le, H0|]. apply IZR_le in L. rewrite mult_IZR, <- INR_IZR_INZ in L. lra.
  - pose proof (Per (-1)%Z) as Q. pose proof (c11_fold_frequency (IZR f + IZR (-1) * INR N) (INR N) P) as (_ & _ & _ & Ng & _).
    rewrite <- Q, <- Ng. replace (- (IZR f + IZR (-1) * INR N)) with (IZR (Z.of_nat N - f)) by (rewrite minus_IZR, <- INR_IZR_INZ; ring).
    rewrite Id; [rewrite round_he_IZR; lia|]. split; [apply IZR_le; lia|].
    apply IZR_lt in L. rewrite mult_IZR, <- INR_IZR_INZ in L. rewrite minus_IZR, <- INR_IZR_INZ. lra.
Qed.
Lemma band_edges N lo hi : (0 < N)%nat -> 0 <= lo <= 0.5 -> 0 <= hi <= 0.5 ->
  (0 <= round_he (Rmin lo hi * INR N))%Z /\ (2 * round_he (Rmax lo hi * INR N) <= Z.of_nat N + 1)%Z /\ ((N = 1)%nat -> round_he (Rmax lo hi * INR N) = 0%Z).
Proof.
  intros HN Hl Hh. assert (P : 0 < INR N) by (apply lt_0_INR; lia).
  assert (B : 0 <= Rmin lo hi) by (apply Rmin_glb; lra). assert (C : 0 <= Rmax lo hi <= 0.5) by (split; [eapply Rle_trans; [|apply Rmax_l]; lra|apply Rmax_lub; lra]).
  assert (Lo : (0 <= round_he (Rmin lo hi * INR N))%Z) by (rewrite <- (round_he_IZR 0); apply round_he_mono; nra).
  assert (Hi : (round_he (Rmax lo hi * INR N) <= round_he (0.5 * INR N))%Z) by (apply round_he_mono; nra).
  split; [exact Lo|]. split; [pose proof (round_half_N N HN); lia|].
  intros ->. change (INR 1) with 1 in *. assert (round_he (0.5 * 1) = 0%Z).
  { replace (0.5 * 1) with (IZR 1 / 2) by lra. unfold round_he, Znearest. replace (Zfloor (1 / 2)) with 0%Z by (symmetry; apply Zfloor_imp; simpl; lra).
    rewrite Rcompare_Eq by (simpl; lra). reflexivity. }
  assert (0 <= round_he (Rmax lo hi * 1))%Z by (rewrite <- (round_he_IZR 0); apply round_he_mono; nra). lia.
Qed.
Lemma band_ids_in N lo hi id : (0 < N)%nat -> 0 <= lo <= 0.5 -> 0 <= hi <= 0.5 ->
  In id (band_ids N lo hi) <-> exists f, (round_he (Rmin lo hi * INR N) <= f <= round_he (Rmax lo hi * INR N))%Z /\ id = Z.min f (Z.of_nat N - f).
Proof.
  intros HN Hl Hh. destruct (band_edges N lo hi HN Hl Hh) as (E1 & E2 & E3). unfold band_ids. rewrite in_map_iff. split.
  - intros (f & <- & H). apply zrange_in in H. exists f. split; [exact H|]. apply fold_id; try lia.
  - intros (f & H & ->). exists f. split; [apply fold_id; try lia|apply zrange_in, H].
Qed.
Lemma mask_01 N bands k : mask_at N bands k = 0 \/ mask_at N bands k = 1.
Proof. unfold mask_at. destruct (existsb _ bands); [right|left]; reflexivity. Qed.
Lemma covered_minmax N bands k : covered N bands k <-> exists b, In b bands /\
  (round_he (Rmin (fst b) (snd b) * INR N) <= Z.of_nat k <= round_he (Rmax (fst b) (snd b) * INR N))%Z.
Proof.
  split.
  - intros (lo & hi & [H|H] & L & Q); [exists (lo, hi)|exists (hi, lo)]; (split; [exact H|]); cbn [fst snd].
    + rewrite Rmin_left, Rmax_right by exact L. exact Q.
    + rewrite Rmin_right, Rmax_left by exact L. exact Q.
  - intros ([a b] & H & Q). cbn [fst snd] in Q. destruct (Rle_dec a b) as [L|L].
    + rewrite Rmin_left, Rmax_right in Q by lra. exists a, b. auto.
    + rewrite Rmin_right, Rmax_left in Q by lra. exists b, a. split; [right; exact H|]. split; [lra|exact Q].
Qed.
Lemma mask_iff N bands k : (0 < N)%nat -> good_bands bands -> mask_at N bands k = 1 <->
  exists b f, In b bands /\ (round_he (Rmin (fst b) (snd b) * INR N) <= f <= round_he (Rmax (fst b) (snd b) * INR N))%Z /\
   (let id := Z.min f (Z.of_nat N - f) in id = Z.of_nat k \/ (0 < id < Z.of_nat (N / 2))%Z /\ (Z.of_nat N - id = Z.of_nat k)%Z).
Proof.
  intros HN G. unfold mask_at. split.
  - intros H. destruct (existsb (fun b => band_hits N b k) bands) eqn:E; [|lra]. apply existsb_exists in E. destruct E as (b & Hb & E).
    unfold band_hits in E. apply existsb_exists in E. destruct E as (id & Hid & E). destruct (G b Hb). apply band_ids_in in Hid; try assumption.
    destruct Hid as (f & Hf & ->). exists b, f. split; [exact Hb|]. split; [exact Hf|]. cbv zeta. lia.
  - intros (b & f & Hb & Hf & Q). replace (existsb (fun b => band_hits N b k) bands) with true; [reflexivity|]. symmetry. apply existsb_exists.
    exists b. split; [exact Hb|]. unfold band_hits. apply existsb_exists. destruct (G b Hb). exists (Z.min f (Z.of_nat N - f)). split; [apply band_ids_in; try assumption; exists f; auto|].
    cbv zeta in Q. lia.
Qed.
Lemma edges_of N bands b : (0 < N)%nat -> good_bands bands -> In b bands ->
  (0 <= round_he (Rmin (fst b) (snd b) * INR N))%Z /\ (2 * round_he (Rmax (fst b) (snd b) * INR N) <= Z.of_nat N + 1)%Z.
Proof. intros HN G Hb. destruct (G b Hb). destruct (band_edges N (fst b) (snd b) HN) as (A & B & _); auto. Qed.
(** Below the top bin the mask keeps exactly the covered bins, together with their mirror bins. *)
Lemma c50_mask N bands k : (0 < N)%nat -> good_bands bands -> (2 * k + 1 < N)%nat ->
  (mask_at N bands k = 1 <-> covered N bands k) /\ (mask_at N bands (mirror N k) = 1 <-> covered N bands k).
Proof.
  intros HN G Hk. assert (D : (2 * (N / 2) <= N < 2 * (N / 2) + 2)%nat) by (pose proof (Nat.mul_div_le N 2); pose proof (Nat.mod_upper_bound N 2); pose proof (Nat.div_mod N 2); lia).
  rewrite !mask_iff, covered_minmax by assumption. split; split.
  - intros (b & f & Hb & Hf & Q). destruct (edges_of N bands b HN G Hb). cbv zeta in Q. exists b. split; [exact Hb|]. lia.
  - intros (b & Hb & Hf). exists b, (Z.of_nat k). split; [exact Hb|]. split; [exact Hf|]. cbv zeta. lia.
  - unfold mirror. intros (b & f & Hb & Hf & Q). destruct (edges_of N bands b HN G Hb). cbv zeta in Q. exists b. split; [exact Hb|]. destruct (Nat.eqb_spec k 0); lia.
  - unfold mirror. intros (b & Hb & Hf). exists b, (Z.of_nat k). split; [exact Hb|]. split; [exact Hf|]. cbv zeta. destruct (Nat.eqb_spec k 0); lia.
Qed.
(** At even length the Nyquist bin follows the same rule. *)
Lemma c50_mask_nyquist h bands : (0 < h)%nat -> good_bands bands -> mask_at (2 * h) bands h = 1 <-> covered (2 * h) bands h.
Proof.
  intros Hh G. assert (D : (2 * h / 2 = h)%nat) by (rewrite Nat.mul_comm; apply Nat.div_mul; lia). rewrite mask_iff, covered_minmax, D by (assumption || lia). split.
  - intros (b & f & Hb & Hf & Q). destruct (edges_of (2 * h) bands b ltac:(lia) G Hb). cbv zeta in Q. exists b. split; [exact Hb|]. lia.
  - intros (b & Hb & Hf). exists b, (Z.of_nat h). split; [exact Hb|]. split; [exact Hf|]. cbv zeta. lia.
Qed.
(** At odd length 2h+1 the mirror of the top bin is never kept. *)
Lemma c50_mask_odd_top h bands : (0 < h)%nat -> good_bands bands -> mask_at (2 * h + 1) bands (h + 1) = 0.
Proof.
  intros Hh G. assert (D : ((2 * h + 1) / 2 = h)%nat) by (symmetry; apply Nat.div_unique with 1%nat; lia).
  destruct (mask_01 (2 * h + 1) bands (h + 1)) as [E|E]; [exact E|exfalso]. apply mask_iff in E; [|lia|exact G]. rewrite D in E.
  destruct E as (b & f & Hb & Hf & Q). cbv zeta in Q. lia.
Qed.
(** At even length the mask is conjugate-symmetric. *)
Lemma c50_mask_symmetric N bands k : Nat.even N = true -> good_bands bands -> (0 < k < N)%nat -> mask_at N bands (N - k) = mask_at N bands k.
Proof.
  intros Ev G Hk. apply Nat.even_spec in Ev. destruct Ev as [h Eh]. subst N.
  assert (Eq : forall a b : R, (a = 0 \/ a = 1) -> (b = 0 \/ b = 1) -> (a = 1 <-> b = 1) -> a = b) by (intros a b [-> | ->] [-> | ->] I; try reflexivity; exfalso; destruct I as [I1 I2]; [specialize (I2 eq_refl)|specialize (I1 eq_refl)]; lra).
  apply Eq; try apply mask_01. destruct (Nat.lt_trichotomy k h) as [L|[->|L]].
  - destruct (c50_mask (2 * h) bands k) as [A B]; try (assumption || lia). replace (mirror (2 * h) k) with (2 * h - k)%nat in B by (unfold mirror; destruct (Nat.eqb_spec k 0); lia). tauto.
  - replace (2 * h - h)%nat with h by lia. tauto.
  - destruct (c50_mask (2 * h) bands (2 * h - k)) as [A B]; try (assumption || lia).
    replace (mirror (2 * h) (2 * h - k)) with k in B by (unfold mirror; destruct (Nat.eqb_spec (2 * h - k) 0); lia). tauto.
Qed.
(** At odd length it is not: three samples, full band. *)
Lemma c50_symmetric_refuted : exists N bands k, good_bands bands /\ (0 < k < N)%nat /\ mask_at N bands (N - k) <> mask_at N bands k.
Proof.
  assert (G : good_bands [(0, 0.5)]) by (intros b [<-|[]]; cbn; lra).
  exists 3%nat, [(0, 0.5)], 1%nat. split; [exact G|]. split; [lia|]. change (3 - 1)%nat with (1 + 1)%nat. change 3%nat with (2 * 1 + 1)%nat.
  rewrite c50_mask_odd_top by (lia || exact G). intros E. assert (M : mask_at (2 * 1 + 1) [(0, 0.5)] 1 = 1); [|lra].
  apply mask_iff; [lia|exact G|]. exists (0, 0.5), 1%Z. split; [left; reflexivity|]. cbn [fst snd]. split; [|cbv zeta; left; reflexivity].
  rewrite Rmin_left, Rmax_right by lra. split; [rewrite Rmult_0_l, (round_he_IZR 0); lia|].
  rewrite <- (round_he_IZR 1). apply round_he_mono. cbn [Nat.mul Nat.add INR]. lra.
Qed.

(** ** What the filter does to a signal *)
Lemma filter_length bands x : length (filter_col bands x) = length x.
Proof. unfold filter_col. rewrite map_length, seq_length. reflexivity. Qed.
(** Transforming an inverse transform gives the spectrum back. *)
Lemma dft_of_inverse N (X : nat -> C) j : (j < N)%nat ->
  dft N (fun n => Cscale (/ INR N) (csum N (fun k => Cmult (X k) (cis (2 * PI * INR k * INR n / INR N))))) j = X j.
Proof.
  intros Hj. assert (HN' : INR N <> 0) by (apply not_0_INR; lia). unfold dft.
  rewrite (csum_ext N _ (fun n => Cscale (/ INR N) (csum N (fun k => Cmult (X k) (cis (2 * PI * IZR (Z.of_nat k - Z.of_nat j) * INR n / INR N)))))).
  2:{ intros n Hn. rewrite Cscale_mult, <- csum_mult_r. f_equal. apply csum_ext. intros k Hk.
      replace (Cmult (Cmult (X k) (cis (2 * PI * INR k * INR n / INR N))) (cis (- (2 * PI * INR j * INR n / INR N)))) with (Cmult (X k) (Cmult (cis (2 * PI * INR k * INR n / INR N)) (cis (- (2 * PI * INR j * INR n / INR N))))) by ring.
      rewrite <- cis_plus. do 2 f_equal. rewrite minus_IZR, <- !INR_IZR_INZ. field. exact HN'. }
  rewrite csum_scale, csum_swap, (csum_single N j); [|exact Hj|].
  - rewrite csum_mult_l, roots_sum by lia. rewrite diff_mod_zero, Nat.eqb_refl by exact Hj. rewrite !Cscale_RtoC. 
    replace (Cmult (RtoC (/ INR N)) (Cmult (X j) (RtoC (INR N)))) with (Cmult (Cmult (RtoC (/ INR N)) (RtoC (INR N))) (X j)) by ring.
    replace (Cmult (RtoC (/ INR N)) (RtoC (INR N))) with C1; [ring|]. unfold Cmult, RtoC, C1. cbn [fst snd]. f_equal; field; exact HN'.
  - intros i Hi Ne. rewrite csum_mult_l, roots_sum by lia. rewrite diff_mod_zero by assumption. destruct (Nat.eqb_spec i j); [contradiction|]. ring.
Qed.
Lemma mirror_lt N k : (k < N)%nat -> (mirror N k < N)%nat.
Proof. unfold mirror. destruct (Nat.eqb_spec k 0); lia. Qed.
Lemma dft_mirror_conj N (z : nat -> C) k : (k < N)%nat -> dft N (fun n => Cconj (z n)) k = Cconj (dft N z (mirror N k)).
Proof.
  intros Hk. assert (HN' : INR N <> 0) by (apply not_0_INR; lia). unfold dft. rewrite csum_conj. apply csum_ext. intros n Hn. rewrite Cconj_mult. f_equal. rewrite <- cis_neg.
  unfold mirror. destruct (Nat.eqb_spec k 0) as [->|H].
  - f_equal. cbn [INR]. field. exact HN'.
  - rewrite minus_INR by lia. rewrite <- (cis_period (- (2 * PI * INR k * INR n / INR N)) (Z.of_nat n)). f_equal. rewrite <- INR_IZR_INZ. field. exact HN'.
Qed.
Lemma rdft_mirror N f k : (k < N)%nat -> rdft N f (mirror N k) = Cconj (rdft N f k).
Proof.
  intros Hk. unfold mirror. destruct (Nat.eqb_spec k 0) as [->|H]; [|apply rdft_hermitian; lia].
  pose proof (dft_mirror_conj N (fun n => RtoC (f n)) 0 Hk) as Q. unfold mirror in Q. cbn [Nat.eqb] in Q. unfold rdft. rewrite <- Q. apply dft_ext. intros i _. rewrite Cconj_RtoC. reflexivity.
Qed.
(** The output spectrum is the input spectrum times the average of the mask at the bin and at
    its mirror bin, for every signal and length. *)
Lemma c50_response bands x k : (k < length x)%nat ->
  rfft (filter_col bands x) k = Cscale ((mask_at (length x) bands k + mask_at (length x) bands (mirror (length x) k)) / 2) (rfft x k).
Proof.
  intros Hk. unfold rfft at 1. rewrite filter_length. set (N := length x) in *.
  set (X := fun k => Cscale (mask_at N bands k) (rfft x k)).
  set (z := fun n => Cscale (/ INR N) (csum N (fun k => Cmult (X k) (cis (2 * PI * INR k * INR n / INR N))))).
  unfold rdft. rewrite (dft_ext N _ (fun n => Cplus (Cmult (RtoC (/ 2)) (z n)) (Cmult (RtoC (/ 2)) (Cconj (z n))))).
  2:{ intros n Hn. unfold filter_col. fold N. rewrite map_seq_nth by exact Hn. change (Cscale (/ INR N) _) with (z n). unfold Cplus, Cmult, RtoC, Cconj, Re. cbn [fst snd]. f_equal; field. }
  rewrite dft_plus, !dft_cmult, dft_mirror_conj by exact Hk. unfold z. rewrite !dft_of_inverse by (try apply mirror_lt; exact Hk). unfold X.
  assert (Hm : rfft x (mirror N k) = Cconj (rfft x k)) by (unfold rfft; apply rdft_mirror, Hk). rewrite Hm.
  unfold Cplus, Cmult, RtoC, Cconj, Cscale. cbn [fst snd]. f_equal; field.
Qed.
(** Every bin below the top one, and the Nyquist bin at even length, is passed unchanged if some
    band covers it and removed otherwise. *)
Lemma c50_brickwall bands x k : good_bands bands -> (2 * k + 1 < length x)%nat \/ (length x = 2 * k /\ 0 < k)%nat ->
  (covered (length x) bands k -> rfft (filter_col bands x) k = rfft x k) /\
  (~ covered (length x) bands k -> rfft (filter_col bands x) k = C0).
Proof.
  intros G Hk. assert (M : (mask_at (length x) bands k = 1 <-> covered (length x) bands k) /\ (mask_at (length x) bands (mirror (length x) k) = 1 <-> covered (length x) bands k)).
  { destruct Hk as [Hk|[Hk Hp]]; [apply c50_mask; (assumption || lia)|]. rewrite Hk. replace (mirror (2 * k) k) with k by (unfold mirror; destruct (Nat.eqb_spec k 0); lia).
    pose proof (c50_mask_nyquist k bands Hp G). tauto. }
  rewrite c50_response by lia. split; intros H.
  - rewrite (proj2 (proj1 M) H), (proj2 (proj2 M) H). replace ((1 + 1) / 2) with 1 by lra. apply Cscale_1.
  - destruct (mask_01 (length x) bands k) as [->|E]; [|tauto]. destruct (mask_01 (length x) bands (mirror (length x) k)) as [->|E]; [|tauto].
    replace ((0 + 0) / 2) with 0 by lra. apply Cscale_0.
Qed.
(** At odd length the top bin comes out at half its amplitude when covered. *)
Lemma c50_odd_top_halved bands x h : (0 < h)%nat -> good_bands bands -> length x = (2 * h + 1)%nat -> covered (length x) bands h ->
  rfft (filter_col bands x) h = Cscale (/ 2) (rfft x h).
Proof.
  intros Hh G L Cv. rewrite c50_response by lia. rewrite L in *. replace (mirror (2 * h + 1) h) with (h + 1)%nat by (unfold mirror; destruct (Nat.eqb_spec h 0); lia).
  rewrite c50_mask_odd_top by assumption. f_equal.
  assert (E : mask_at (2 * h + 1) bands h = 1); [|rewrite E; lra].
  apply mask_iff; [lia|exact G|]. apply covered_minmax in Cv. destruct Cv as (b & Hb & Hf). exists b, (Z.of_nat h). split; [exact Hb|]. split; [exact Hf|]. cbv zeta. lia.
Qed.
(** Two real signals with the same spectrum below Nyquist are equal. *)
Lemma rfft_injective x y : length x = length y -> (forall k, (k <= length x / 2)%nat -> rfft x k = rfft y k) -> x = y.
Proof.
  intros L H. set (N := length x) in *. assert (D : (2 * (N / 2) <= N < 2 * (N / 2) + 2)%nat) by (pose proof (Nat.mul_div_le N 2); pose proof (Nat.mod_upper_bound N 2); pose proof (Nat.div_mod N 2); lia).
  assert (All : forall k, (k < N)%nat -> rfft x k = rfft y k).
  { intros k Hk. destruct (Nat.le_gt_cases k (N / 2)) as [Q|Q]; [apply H, Q|]. unfold rfft. rewrite <- L. fold N.
    replace k with (mirror N (N - k)) by (unfold mirror; destruct (Nat.eqb_spec (N - k) 0); lia). rewrite !rdft_mirror by lia. f_equal.
    assert (Hk' : (N - k <= N / 2)%nat) by lia. specialize (H _ Hk'). unfold rfft in H. rewrite <- L in H. fold N in H. exact H. }
  apply (nth_ext _ _ 0 0 L). intros n Hn. fold N in Hn. assert (P : INR N <> 0) by (apply not_0_INR; lia).
  pose proof (dft_inverse N (fun n => RtoC (nth n x 0)) n Hn) as A. pose proof (dft_inverse N (fun n => RtoC (nth n y 0)) n Hn) as B.
  rewrite (csum_ext N _ (fun k => Cmult (dft N (fun n => RtoC (nth n y 0)) k) (cis (2 * PI * INR k * INR n / INR N)))) in A.
  - rewrite A in B. apply (f_equal Re) in B. cbv beta in B. unfold Re, Cscale, RtoC in B. cbn [fst] in B. apply Rmult_eq_reg_l in B; assumption.
  - intros k Hk. f_equal. specialize (All k Hk). unfold rfft in All. rewrite <- L in All. exact All.
Qed.
Lemma full_covered N k : (2 * k <= N)%nat -> covered N [(0, 0.5)] k.
Proof.
  intros H. exists 0, 0.5. split; [left; left; reflexivity|]. split; [lra|]. split; [rewrite Rmult_0_l, (round_he_IZR 0); lia|].
  rewrite <- (round_he_IZR (Z.of_nat k)). apply round_he_mono. rewrite <- INR_IZR_INZ. apply le_INR in H. rewrite mult_INR in H. change (INR 2) with 2 in H. lra.
Qed.
Lemma full_good : good_bands [(0, 0.5)].
Proof. intros b [<-|[]]; cbn; lra. Qed.
(** At even length the full band returns the signal itself. *)
Lemma c50_full_band_even x : Nat.even (length x) = true -> filter_col [(0, 0.5)] x = x.
Proof.
  intros Ev. apply Nat.even_spec in Ev. destruct Ev as [h Eh]. apply rfft_injective; [apply filter_length|]. rewrite filter_length, Eh. intros k Hk.
  assert (D : (2 * h / 2 = h)%nat) by (rewrite Nat.mul_comm; apply Nat.div_mul; lia). rewrite D in Hk.
  destruct (Nat.eq_dec h 0) as [->|Hh]. { destruct x; [reflexivity|simpl in Eh; lia]. }
  apply c50_brickwall; [apply full_good| |apply full_covered; lia]. destruct (Nat.eq_dec k h) as [->|]; [right; lia|left; lia].
Qed.
(** Filtering twice with the same bands is filtering once, at even length. *)
Lemma c50_idempotent bands x : Nat.even (length x) = true -> good_bands bands -> filter_col bands (filter_col bands x) = filter_col bands x.
Proof.
  intros Ev G. apply rfft_injective; [apply filter_length|]. rewrite !filter_length. intros k Hk.
  destruct (Nat.eq_dec (length x) 0) as [Z|Z]. { destruct x; [reflexivity|discriminate Z]. }
  assert (length x / 2 < length x)%nat by (apply Nat.div_lt; lia). assert (k < length x)%nat by lia.
  rewrite c50_response by (rewrite filter_length; assumption). rewrite !filter_length.
  assert (S : mask_at (length x) bands (mirror (length x) k) = mask_at (length x) bands k).
  { unfold mirror. destruct (Nat.eqb_spec k 0) as [->|]; [reflexivity|]. apply c50_mask_symmetric; try assumption. lia. }
  rewrite S, c50_response, S by assumption. rewrite Cscale_scale. f_equal. destruct (mask_01 (length x) bands k) as [-> | ->]; lra.
Qed.
Lemma tone_bins N J A ph : (2 * J < N)%nat -> forall k, (k <= N / 2)%nat -> k <> J -> rfft (map (fun n => A * cos (2 * PI * INR J * INR n / INR N + ph)) (seq 0 N)) k = C0.
Proof.
  intros HJ k Hk Ne. unfold rfft. rewrite map_length, seq_length.
  rewrite (rdft_ext N _ (fun n => A * cos (2 * PI * INR J * INR n / INR N + ph))) by (intros n Hn; apply map_seq_nth, Hn).
  rewrite tone_rdft by assumption. destruct (Nat.eqb_spec k J); [contradiction|reflexivity].
Qed.
Lemma rfft_scale c x k : rfft (map (fun v => c * v) x) k = Cscale c (rfft x k).
Proof.
  unfold rfft. rewrite map_length. unfold rdft, dft. rewrite <- csum_scale. apply csum_ext. intros i Hi. rewrite (nth_map_in _ _ _ 0) by exact Hi.
  unfold Cmult, Cscale, RtoC, cis. cbn [fst snd]. f_equal; ring.
Qed.
(** A coherent tone comes out scaled by the average of the mask at its bin and the mirror bin. *)
Lemma c50_tone bands N J A ph : (2 * J < N)%nat ->
  let x := map (fun n => A * cos (2 * PI * INR J * INR n / INR N + ph)) (seq 0 N) in
  filter_col bands x = map (fun v => (mask_at N bands J + mask_at N bands (mirror N J)) / 2 * v) x.
Proof.
  intros HJ x. assert (L : length x = N) by (unfold x; rewrite map_length, seq_length; reflexivity).
  apply rfft_injective; [rewrite filter_length, map_length; reflexivity|]. rewrite filter_length, L. intros k Hk.
  assert (N / 2 < N)%nat by (apply Nat.div_lt; lia). rewrite c50_response, rfft_scale by lia. rewrite L.
  destruct (Nat.eq_dec k J) as [->|Ne]; [reflexivity|]. unfold x. rewrite tone_bins by assumption. unfold Cscale, C0. cbn [fst snd]. f_equal; ring.
Qed.
(** With three samples the full band does not return the signal: a tone at bin 1 is halved. *)
Lemma c50_full_band_refuted : exists x y, length x = 3%nat /\ filter_col [(0, 0.5)] x = y /\ y = map (fun v => / 2 * v) x /\ y <> x.
Proof.
  set (x := map (fun n => 1 * cos (2 * PI * INR 1 * INR n / INR 3 + 0)) (seq 0 3)). exists x, (filter_col [(0, 0.5)] x).
  split; [reflexivity|]. split; [reflexivity|]. assert (E : filter_col [(0, 0.5)] x = map (fun v => / 2 * v) x).
  { unfold x. rewrite c50_tone by lia. apply map_ext. intros v. f_equal. change (mirror 3 1) with (1 + 1)%nat. change 3%nat with (2 * 1 + 1)%nat at 2. rewrite c50_mask_odd_top by (lia || apply full_good).
    replace (mask_at 3 [(0, 0.5)] 1) with 1; [lra|]. symmetry. apply mask_iff; [lia|apply full_good|]. destruct (proj1 (covered_minmax _ _ _) (full_covered 3 1 ltac:(lia))) as (b & Hb & Hf).
    exists b, 1%Z. split; [exact Hb|]. split; [exact Hf|]. cbv zeta. left. reflexivity. }
  split; [exact E|]. rewrite E. intros Q. apply (f_equal (fun l => nth 0 l 0)) in Q. unfold x in Q. cbn [seq map nth] in Q. cbn [INR] in Q.
  replace (2 * PI * 1 * 0 / (1 + 1 + 1) + 0) with 0 in Q by field. rewrite cos_0 in Q. lra.
Qed.
(** Errors: any band table that is empty, has a row without exactly two entries, or an entry
    outside [0, 0.5] raises; every other table is accepted and each column is filtered alone. *)
Lemma c50_errors din bands : (bands = [] \/ exists r, In r bands /\ (length r <> 2%nat \/ exists v, In v r /\ (v < 0 \/ 0.5 < v))) ->
  extract_freq_components din bands = Err ValueError.
Proof.
  intros H. unfold extract_freq_components, check_bands. destruct bands as [|r0 bs]; [reflexivity|]. set (B := r0 :: bs) in *.
  unfold raise_if. destruct (forallb (fun r => (length r =? 2)%nat) B) eqn:F; [|reflexivity]. cbn [negb].
  destruct H as [H|(r & Hr & H)]; [discriminate|]. rewrite forallb_forall in F. specialize (F r Hr).
  destruct H as [H|(v & Hv & H)]; [exfalso; lia|].
  replace (existsb _ B) with true; [reflexivity|]. symmetry. apply existsb_exists. exists r. split; [exact Hr|]. apply existsb_exists. exists v. split; [exact Hv|].
  destruct (Rltb_spec v 0), (Rltb_spec 0.5 v); try reflexivity. lra.
Qed.
Lemma c50_columns din bands N M : rect N M din -> (0 < M <= N)%nat -> bands <> [] ->
  (forall r, In r bands -> length r = 2%nat /\ forall v, In v r -> 0 <= v <= 0.5) ->
  exists out, extract_freq_components din bands = Ok out /\ rect N M out /\
    forall j, (j < M)%nat -> map (fun row => nth j row 0) out = filter_col (map (fun r => (nth 0 r 0, nth 1 r 0)) bands) (map (fun row => nth j row 0) din).
Proof.
  intros [Ln Lr] HM Hb Hr. unfold extract_freq_components. rewrite Ln, Lr by lia. replace (N <? M)%nat with false by (symmetry; apply Nat.ltb_ge; lia).
  rewrite Ln, Lr by lia. set (bs := map _ bands).
  assert (C : check_bands bands = Ok bs).
  { unfold check_bands. destruct bands as [|r0 b0]; [contradiction|]. set (B := r0 :: b0) in *. replace (forallb (fun r => (length r =? 2)%nat) B) with true.
    - cbn [negb]. unfold raise_if at 1. replace (existsb _ B) with false; [reflexivity|]. symmetry. apply Bool.not_true_iff_false. intros E. apply existsb_exists in E.
      destruct E as (r & Ir & E). apply existsb_exists in E. destruct E as (v & Iv & E). destruct (Hr r Ir) as [_ Q]. specialize (Q v Iv). destruct (Rltb_spec v 0), (Rltb_spec 0.5 v); cbn in E; (discriminate || lra).
    - symmetry. apply forallb_forall. intros r Ir. destruct (Hr r Ir). lia. }
  rewrite C. cbn [bind]. eexists. split; [reflexivity|].
  assert (T : transpose M din = map (fun j => map (fun row => nth j row 0) din) (seq 0 M)) by reflexivity. split.
  - apply transpose_rect. rewrite T, !map_length, seq_length. reflexivity.
  - intros j Hj. unfold transpose at 1. rewrite map_map. apply (nth_ext _ _ 0 0); [rewrite map_length, seq_length, filter_length, map_length, Ln; reflexivity|].
    rewrite map_length, seq_length. intros i Hi. rewrite map_seq_nth by exact Hi.
    rewrite (nth_map_in _ _ _ []) by (rewrite T, !map_length, seq_length; exact Hj). rewrite (nth_map_in _ _ _ []) by (rewrite T, map_length, seq_length; exact Hj).
    rewrite T, (nth_map_in _ _ _ O), seq_nth by (rewrite ?seq_length; exact Hj). reflexivity.
Qed.
(** An array with more columns than rows is taken as one record per row: the result is that of the transposed
    array, so its rows and columns come back exchanged. *)
Lemma c50_wide N M din bands : rect M N din -> (0 < M < N)%nat ->
  extract_freq_components din bands = extract_freq_components (transpose N din) bands /\
  forall out, extract_freq_components din bands = Ok out -> rect N M out /\ forall j, (j < M)%nat -> map (fun row => nth j row 0) out = filter_col (map (fun r => (nth 0 r 0, nth 1 r 0)) bands) (nth j din []).
Proof.
  intros HR HM. pose proof HR as [L1 L2]. assert (TR : rect N M (transpose N din)) by (apply transpose_rect; exact L1). pose proof TR as [T1 T2].
  assert (E : extract_freq_components din bands = extract_freq_components (transpose N din) bands).
  { unfold extract_freq_components. rewrite L1, L2, T1, T2 by lia. destruct (Nat.ltb_spec M N); [| lia]. destruct (Nat.ltb_spec N M); [lia |]. rewrite T1, T2 by lia. reflexivity. }
  split; [exact E |]. intros out O. rewrite E in O.
  assert (NE : bands <> []) by (intros ->; discriminate O).
  assert (GB : forall r, In r bands -> length r = 2%nat /\ forall v, In v r -> 0 <= v <= 0.5).
  { intros r Ir. unfold extract_freq_components, check_bands in O. destruct bands as [| r0 b0]; [contradiction |]. set (B := r0 :: b0) in *. unfold raise_if in O.
    destruct (forallb (fun r => (length r =? 2)%nat) B) eqn:F; [| discriminate O]. cbn [negb] in O. destruct (existsb _ B) eqn:X; [discriminate O |].
    rewrite forallb_forall in F. split; [apply Nat.eqb_eq, F, Ir |]. intros v Iv. destruct (Rlt_dec v 0) as [Q | Q]; [| destruct (Rlt_dec 0.5 v) as [Q2 | Q2]; [| lra]]; exfalso; apply Bool.not_true_iff_false in X; apply X; apply existsb_exists; exists r; (split; [exact Ir |]); apply existsb_exists; exists v; (split; [exact Iv |]); destruct (Rltb_spec v 0), (Rltb_spec 0.5 v); try reflexivity; lra. }
  destruct (c50_columns (transpose N din) bands N M TR ltac:(lia) NE GB) as (out' & O' & R' & F'). rewrite O' in O. injection O as ->. split; [exact R' |].
  intros j Hj. rewrite F' by exact Hj. f_equal. apply (nth_ext _ _ 0 0); [rewrite map_length, T1, L2 by exact Hj; reflexivity |]. intros i Hi. rewrite map_length, T1 in Hi.
  rewrite (nth_map_in _ _ _ []) by (rewrite T1; exact Hi). apply transpose_nth; lia.
Qed.
(** Eight samples, band [0.1, 0.3]: edges round to bins 1 and 2. *)
Lemma c50_brickwall_ex x : length x = 8%nat -> rfft (filter_col [(0.3, 0.1)] x) 2 = rfft x 2 /\ rfft (filter_col [(0.3, 0.1)] x) 3 = C0 /\ rfft (filter_col [(0.3, 0.1)] x) 0 = C0.
Proof.
  intros L. assert (G : good_bands [(0.3, 0.1)]) by (intros b [<-|[]]; cbn; lra).
  assert (R1 : round_he (0.1 * 8) = 1%Z) by (apply Znearest_imp; simpl; apply Rabs_lt; lra). assert (R2 : round_he (0.3 * 8) = 2%Z) by (apply Znearest_imp; simpl; apply Rabs_lt; lra).
  assert (Cv : forall k, covered 8 [(0.3, 0.1)] k <-> (1 <= Z.of_nat k <= 2)%Z).
  { intros k. rewrite covered_minmax. replace (INR 8) with 8 by (cbn [INR]; lra). split.
    - intros (b & [<-|[]] & H). cbn [fst snd] in H. rewrite Rmin_right, Rmax_left, R1, R2 in H by lra. exact H.
    - intros H. exists (0.3, 0.1). split; [left; reflexivity|]. cbn [fst snd]. rewrite Rmin_right, Rmax_left, R1, R2 by lra. exact H. }
  repeat split; apply (c50_brickwall [(0.3, 0.1)] x); try exact G; rewrite ?L; try rewrite Cv; lia.
Qed.
