(** * The MATLAB weight calibration against the Python one: final lemmas c174_, c175_. *)
From Coq Require Import Psatz.
From Verif Require Import Base BaseLemmas Cplx FreqModel SpecModel SpecLemmas DoutProofs FitSpec FitProofs MatModel MatProofs MsinModel MsinProofs CalModel CalSpec CalProofs CalExLemmas CalExProofs CalMoreProofs McalModel McalSpec.
Local Open Scope R_scope.

(** ** The two solves *)
Lemma vrms_norm2 n v : vrms n v = norm2 n v / sqrt (INR n).
Proof.
  unfold vrms, norm2, vmean. destruct n as [| n]; [cbn; unfold Rdiv; rewrite Rmult_0_l, sqrt_0; ring |]. apply sqrt_div_alt. apply lt_0_INR. lia.
Qed.
Lemma vrms_lt n u v : Rltb (vrms n u) (vrms n v) = Rltb (norm2 n u) (norm2 n v).
Proof.
  rewrite !vrms_norm2. destruct n as [| n].
  - unfold norm2. cbn [rsum]. repeat match goal with |- context [Rltb ?a ?b] => destruct (Rltb_spec a b); [lra |] end. reflexivity.
  - assert (P : 0 < / sqrt (INR (S n))) by (apply Rinv_0_lt_compat, sqrt_lt_R0, lt_0_INR; lia). unfold Rdiv.
    destruct (Rltb_spec (norm2 (S n) u) (norm2 (S n) v)) as [A | A]; destruct (Rltb_spec (norm2 (S n) u * / sqrt (INR (S n))) (norm2 (S n) v * / sqrt (INR (S n)))) as [B | B]; try reflexivity; exfalso; nra.
Qed.
Lemma vrms_zero n v : (forall i, (i < n)%nat -> v i = 0) -> vrms n v = 0.
Proof. intros Z. rewrite vrms_norm2, norm2_zero by exact Z. unfold Rdiv. ring. Qed.
Lemma mv_empty n x i : mv (of_cols n []) x i = 0. Proof. reflexivity. Qed.
Lemma m_two_recovers lin bits sc g xc xs tail w off c0 s0 K : least_squares lin -> scaled_of bits sc g -> (0 < m_n bits)%nat -> m_m xc = K -> m_m xs = K -> (1 <= K)%nat ->
  (forall i, (i < m_n bits)%nat -> output bits w i = off + mv xc c0 i + mv xs s0 i) -> c0 0%nat <> 0 \/ s0 0%nat <> 0 ->
  (forall u o c s t, (forall i, (i < m_n bits)%nat -> output bits u i = o + mv xc c i + mv xs s i + mv tail t i) ->
     exists k, (forall j, (j < m_m bits)%nat -> u j = k * w j) /\ o = k * off /\ (forall h, (h < K)%nat -> c h = k * c0 h) /\ (forall h, (h < K)%nat -> s h = k * s0 h) /\ (forall l, (l < m_m tail)%nat -> t l = 0)) ->
  let m := m_m bits in
  exists x sel k, m_two lin sc xc xs tail = (x, sel) /\ k <> 0 /\ (forall j, (j < m)%nat -> g j * x j = k * w j) /\ x m = - (k * off) /\
    (forall h, (h < K)%nat -> m_cosc x sel m K h = - k * c0 h) /\ (forall h, (h < K)%nat -> m_sinc x sel m K h = - k * s0 h) /\
    (forall l, (l < m_m tail)%nat -> x (m + 1 + (K - 1) + K + l)%nat = 0) /\ sqrt (1 + x (m + K)%nat ^ 2) = Rabs k * amplitude (c0 0%nat) (s0 0%nat).
Proof.
  intros L SC NP KC KS K1 T NZ ID m. pose proof SC as (SN & SM & SE). fold m in SM, SE.
  assert (G : forall j, (j < m)%nat -> g j <> 0) by (intros j J; apply (SE 0%nat j NP J)).
  set (E := hcat sc (ones (m_n sc))). assert (EM : m_m E = (m + 1)%nat) by (unfold E; cbn; rewrite SM; reflexivity). assert (EN : m_n E = m_n bits) by exact SN.
  assert (EV : forall v i, (i < m_n bits)%nat -> mv E v i = output bits (fun j => g j * v j) i + v m).
  { intros v i I. unfold E. rewrite mv_hcat, (scaled_output bits sc g _ _ SC I). f_equal. unfold mv. cbn [m_m m_at ones rsum]. rewrite SM, Nat.add_0_r. ring. }
  set (v0 := fun j => if (j <? m)%nat then w j / g j else - off).
  assert (V0m : v0 m = - off) by (unfold v0; rewrite Nat.ltb_irrefl; reflexivity).
  assert (OV : forall i, output bits (fun j => g j * v0 j) i = output bits w i).
  { intros i. unfold output. apply rsum_ext. intros j J. unfold v0. fold m in J. destruct (Nat.ltb_spec j m); [| lia]. field. apply G. exact J. }
  set (ext := fun (s : vec) j => if (j <? K)%nat then - s j else 0).
  assert (NEG : forall (A : mat) z i, mv A (fun h => - z h) i = - mv A z i) by (intros A z i; unfold mv; apply rsum_opp_eq; intros; ring).
  assert (EXT : forall (A : mat) s i, m_m A = K -> mv (hcat A tail) (ext s) i = - mv A s i).
  { intros A s i AK. rewrite mv_hcat, AK. rewrite (mv_ext A (ext s) (fun h => - s h)). 2:{ intros j J. unfold ext. destruct (Nat.ltb_spec j K); [reflexivity | lia]. }
    rewrite NEG, (mv_ext tail _ (fun _ => 0)). 2:{ intros j J. unfold ext. destruct (Nat.ltb_spec (K + j) K); [lia | reflexivity]. }
    unfold mv at 2. rewrite rsum_zero by (intros; ring). ring. }
  assert (ONE : forall B C c1 s1, m_m B = K -> m_m C = K -> (B = xc /\ C = xs /\ c1 = c0 /\ s1 = s0 \/ B = xs /\ C = xc /\ c1 = s0 /\ s1 = c0) -> one_relation E B (hcat C tail) v0 (fun h => - c1 h) (ext s1)).
  { intros B C c1 s1 BK CK CASE v c s Z.
    assert (Q : exists k, (forall j, (j < m)%nat -> g j * v j = k * w j) /\ - v m = k * off /\ (forall h, (h < K)%nat -> - c h = k * c1 h) /\ (forall h, (h < K)%nat -> - s h = k * s1 h) /\ (forall l, (l < m_m tail)%nat -> - s (K + l)%nat = 0)).
    { destruct CASE as [(-> & -> & -> & ->) | (-> & -> & -> & ->)].
      - destruct (ID (fun j => g j * v j) (- v m) (fun h => - c h) (fun h => - s h) (fun l => - s (K + l)%nat)) as (k & P1 & P2 & P3 & P4 & P5).
        { intros i I. specialize (Z i ltac:(rewrite EN; exact I)). rewrite EV, mv_hcat, KS in Z by exact I. rewrite (NEG xc c), (NEG xs s), (NEG tail (fun l => s (K + l)%nat)). lra. }
        exists k. tauto.
      - destruct (ID (fun j => g j * v j) (- v m) (fun h => - s h) (fun h => - c h) (fun l => - s (K + l)%nat)) as (k & P1 & P2 & P3 & P4 & P5).
        { intros i I. specialize (Z i ltac:(rewrite EN; exact I)). rewrite EV, mv_hcat, KC in Z by exact I. rewrite (NEG xs c), (NEG xc s), (NEG tail (fun l => s (K + l)%nat)). lra. }
        exists k. tauto. }
    destruct Q as (k & P1 & P2 & P3 & P4 & P5). exists k. rewrite EM, BK. cbn [hcat m_m]. rewrite CK. split; [| split].
    - intros j J. destruct (Nat.eq_dec j m) as [-> | N]; [rewrite V0m; lra |]. unfold v0. destruct (Nat.ltb_spec j m) as [J' | J']; [| lia].
      pose proof (G j J'). pose proof (P1 j J') as Q. apply (Rmult_eq_reg_l (g j)); [| assumption]. rewrite Q. field. assumption.
    - intros h Hh. specialize (P3 h Hh). lra.
    - intros h Hh. unfold ext. destruct (Nat.ltb_spec h K) as [Y | Y]; [specialize (P4 h Y); lra |]. specialize (P5 (h - K)%nat ltac:(lia)). replace (K + (h - K))%nat with h in P5 by lia. lra. }
  assert (R1 : forall i, (i < m_n E)%nat -> mv E v0 i + mv xc (fun h => - c0 h) i + mv (hcat xs tail) (ext s0) i = 0).
  { intros i I. rewrite EN in I. rewrite EV, OV, V0m, NEG, EXT by assumption. rewrite (T i I). ring. }
  assert (R2 : forall i, (i < m_n E)%nat -> mv E v0 i + mv xs (fun h => - s0 h) i + mv (hcat xc tail) (ext c0) i = 0).
  { intros i I. rewrite EN in I. rewrite EV, OV, V0m, NEG, EXT by assumption. rewrite (T i I). ring. }
  pose proof (unity_solve lin E xc (hcat xs tail) v0 (fun h => - c0 h) (ext s0) L ltac:(lia) R1 (ONE xc xs c0 s0 KC KS ltac:(left; auto))) as U1.
  pose proof (unity_solve lin E xs (hcat xc tail) v0 (fun h => - s0 h) (ext c0) L ltac:(lia) R2 (ONE xs xc s0 c0 KS KC ltac:(right; auto))) as U2.
  cbv zeta in U1, U2. unfold m_two. cbv zeta. fold E. rewrite vrms_lt. change (m_n sc) with (m_n E).
  set (A1 := hcat (hcat E (cols_from 1 (m_m xc - 1) xc)) (hcat xs tail)) in *. set (A2 := hcat (hcat E (cols_from 1 (m_m xs - 1) xs)) (hcat xc tail)) in *.
  set (x1 := lin A1 _) in *. set (x2 := lin A2 _) in *.
  match type of U1 with (_ -> ?e = 0) /\ _ => set (e1 := e) in * end. match type of U2 with (_ -> ?e = 0) /\ _ => set (e2 := e) in * end.
  assert (N1 : 0 <= e1) by apply norm2_nonneg. assert (N2 : 0 <= e2) by apply norm2_nonneg.
  destruct U1 as (P1 & Q1). destruct U2 as (P2 & Q2). rewrite EM, KC in Q1. rewrite EM, KS in Q2. cbn [hcat m_m] in Q1, Q2. rewrite KS in Q1. rewrite KC in Q2.
  assert (FIN : forall x k c1 s1, k * - c1 0%nat = 1 -> (forall j, (j < m + 1)%nat -> x j = k * v0 j) -> (forall h, (h < K)%nat -> with_unity x (m + 1) h = k * - c1 h) -> (forall h, (h < K + m_m tail)%nat -> x (m + 1 + (K - 1) + h)%nat = k * ext s1 h) ->
    k <> 0 /\ (forall j, (j < m)%nat -> g j * x j = k * w j) /\ x m = - (k * off) /\ (forall h, (h < K)%nat -> m_first x m h = - k * c1 h) /\ (forall h, (h < K)%nat -> m_second x m K h = - k * s1 h) /\
    (forall l, (l < m_m tail)%nat -> x (m + 1 + (K - 1) + K + l)%nat = 0) /\ sqrt (1 + x (m + K)%nat ^ 2) = Rabs k * amplitude (c1 0%nat) (s1 0%nat)).
  { intros x k c1 s1 KE X U Q. split; [intros ->; lra |]. split; [| split; [| split; [| split; [| split]]]].
    - intros j J. rewrite X by lia. unfold v0. destruct (Nat.ltb_spec j m); [| lia]. field. apply G. exact J.
    - rewrite X by lia. rewrite V0m. ring.
    - intros h Hh. specialize (U h Hh). unfold m_first. destruct h as [| h]; cbn [with_unity] in U; lra.
    - intros h Hh. unfold m_second. specialize (Q h ltac:(lia)). replace (m + 1 + (K - 1) + h)%nat with (m + K + h)%nat in Q by lia. rewrite Q. unfold ext. destruct (Nat.ltb_spec h K); [ring | lia].
    - intros l Hl. specialize (Q (K + l)%nat ltac:(lia)). rewrite Nat.add_assoc in Q. rewrite Q. unfold ext. destruct (Nat.ltb_spec (K + l) K); [lia | ring].
    - specialize (Q 0%nat ltac:(lia)). replace (m + 1 + (K - 1) + 0)%nat with (m + K)%nat in Q by lia. rewrite Q. unfold ext. destruct (Nat.ltb_spec 0 K); [| lia].
      replace (k * - s1 0%nat) with (- k * s1 0%nat) by ring. rewrite (norm_is_amplitude (- k) (c1 0%nat)) by lra. rewrite Rabs_Ropp. reflexivity. }
  destruct (Rltb_spec e1 e2) as [Lt | Ge].
  - assert (S0 : s0 0%nat = 0). { destruct (Req_dec (s0 0%nat) 0) as [Y | Y]; [exact Y |]. assert (e2 = 0) by (apply P2; lra). lra. }
    assert (e1 = 0) as Z1 by (apply P1; destruct NZ; lra). destruct (Q1 Z1) as (k & KE & X & U & Q). destruct (FIN x1 k c0 s0 KE X U Q) as (F1 & F2 & F3 & F4 & F5 & F6 & F7).
    exists x1, false, k. repeat split; assumption.
  - assert (Z2 : e2 = 0). { destruct (Req_dec (c0 0%nat) 0) as [Y | Y]; [apply P2; destruct NZ; lra |]. assert (e1 = 0) by (apply P1; lra). lra. }
    destruct (Q2 Z2) as (k & KE & X & U & Q). destruct (FIN x2 k s0 c0 KE X U Q) as (F1 & F2 & F3 & F4 & F5 & F6 & F7).
    exists x2, true, k. repeat split; try assumption. rewrite F7. f_equal. unfold amplitude. f_equal. ring.
Qed.

(** ** One matrix *)
Lemma m_patch_full rank ap bits nom : rank_correct rank -> independent (hcat bits (ones (m_n bits))) ->
  m_patch rank ap bits nom = Ok (mkPatch (map (colm bits) (seq 0 (m_m bits))) (seq 0 (m_m bits)) (map Some (seq 0 (m_m bits))) (repeat 1 (m_m bits))).
Proof.
  intros (RK & _) I. unfold m_patch. cbv zeta. apply RK in I. cbn [hcat ones m_m] in I. destruct (Nat.ltb_spec (rank (hcat bits (ones (m_n bits)))) (m_m bits + 1)) as [Y | Y]; [lia |]. rewrite andb_false_r. reflexivity.
Qed.
Definition full_eff (bits : mat) : mat := of_cols (m_n bits) (map (colm bits) (seq 0 (m_m bits))).
Definition full_patch (bits : mat) : patch_state := mkPatch (map (colm bits) (seq 0 (m_m bits))) (seq 0 (m_m bits)) (map Some (seq 0 (m_m bits))) (repeat 1 (m_m bits)).
Definition m_gain (bits : mat) : vec := fun j => powerRZ 10 (- m_mag (m_n bits) (colm (full_eff bits) j)).
Lemma m_gain_pos bits j : 0 < m_gain bits j. Proof. apply powerRZ_10_pos. Qed.
Lemma full_eff_m bits : m_m (full_eff bits) = m_m bits.
Proof. unfold full_eff. cbn. rewrite map_length, seq_length. reflexivity. Qed.
Lemma m_scale_of bits : scaled_of bits (m_scale (full_eff bits)) (m_gain bits).
Proof.
  split; [reflexivity |]. split; [exact (full_eff_m bits) |]. intros i j I J. split; [| pose proof (m_gain_pos bits j); lra].
  unfold m_scale. cbn [m_at]. unfold m_gain. change (m_n (full_eff bits)) with (m_n bits). f_equal. unfold full_eff, of_cols. cbn [m_at]. rewrite (nth_indep _ zvec (colm bits 0%nat)) by (rewrite map_length, seq_length; exact J). rewrite map_nth, seq_nth by exact J. reflexivity.
Qed.
Lemma m_weights_full x w0 bits j : (j < m_m bits)%nat -> m_weights x w0 (full_eff bits) (full_patch bits) j = m_gain bits j * x j / w0.
Proof.
  intros J. unfold m_weights, full_patch. cbn [p_map p_ratio]. rewrite (nth_indep (map Some _) None (Some 0%nat)) by (rewrite map_length, seq_length; exact J). rewrite map_nth, seq_nth by exact J.
  rewrite (nth_indep (repeat 1 _) 0 1) by (rewrite repeat_length; exact J). rewrite nth_repeat. unfold m_gain. change (m_n (full_eff bits)) with (m_n bits). cbn [Nat.add]. unfold Rdiv. ring.
Qed.
Definition flip_sign (m : nat) (w : vec) : R := if Rltb (rsum m w) 0 then -1 else 1.
Lemma m_flip_spec m c : let p := flip_sign m (mc_weight c) in
  (forall j, mc_weight (m_flip m c) j = p * mc_weight c j) /\ mc_offset (m_flip m c) = p * mc_offset c /\ mc_freq (m_flip m c) = mc_freq c /\ length (mc_sets (m_flip m c)) = length (mc_sets c) /\
  forall d k i, (k < length (mc_sets c))%nat -> ms_postcal (nth k (mc_sets (m_flip m c)) d) i = p * ms_postcal (nth k (mc_sets c) d) i /\ ms_ideal (nth k (mc_sets (m_flip m c)) d) i = p * ms_ideal (nth k (mc_sets c) d) i /\
    ms_err (nth k (mc_sets (m_flip m c)) d) i = p * ms_err (nth k (mc_sets c) d) i.
Proof.
  unfold m_flip, flip_sign. destruct (Rltb (rsum m (mc_weight c)) 0); cbn [mc_weight mc_offset mc_sets mc_freq].
  - split; [intros; ring |]. split; [ring |]. split; [reflexivity |]. split; [apply map_length |]. intros d k i K.
    assert (N : nth k (map (fun s => mkMset (fun i => - ms_postcal s i) (fun i => - ms_ideal s i) (fun i => - ms_err s i)) (mc_sets c)) d = mkMset (fun i => - ms_postcal (nth k (mc_sets c) d) i) (fun i => - ms_ideal (nth k (mc_sets c) d) i) (fun i => - ms_err (nth k (mc_sets c) d) i)).
    { rewrite (nth_indep _ d (mkMset (fun i => - ms_postcal d i) (fun i => - ms_ideal d i) (fun i => - ms_err d i))) by (rewrite map_length; exact K). rewrite (map_nth (fun s => mkMset (fun i => - ms_postcal s i) (fun i => - ms_ideal s i) (fun i => - ms_err s i))). reflexivity. }
    rewrite N. cbn [ms_postcal ms_ideal ms_err]. repeat split; ring.
  - split; [intros; ring |]. split; [ring |]. split; [reflexivity |]. split; [reflexivity |]. intros d k i K. repeat split; ring.
Qed.
Definition the_set (c : m_cal) (k : nat) : m_set := nth k (mc_sets c) (mkMset zvec zvec zvec).
(** The end of the single path when the solution is a multiple of the truth. *)
Definition m_end (bits : mat) (p : patch_state) (H : nat) (f : R) (x : vec) (sel : bool) : m_cal :=
  let n := m_n bits in let eff := of_cols n (p_eff p) in let M := m_m (m_scale eff) in
  let w0 := sqrt (1 + x (M + H)%nat ^ 2) in
  let weight := m_weights x w0 eff p in let offset := - x M / w0 in
  let ideal := fun i => - (mv (cos_block n f H) (m_cosc x sel M H) i + mv (sin_block n f H) (m_sinc x sel M H) i) / w0 in
  m_flip (m_m bits) (mkMcal weight offset [m_make_set bits weight offset ideal] [f]).
Lemma mv_cos_block n f H x i : mv (cos_block n f H) x i = rsum H (fun h => x h * cos (2 * PI * f * (INR i * INR (S h)))).
Proof. unfold mv, cos_block. cbn [m_m m_at]. apply rsum_ext. intros; ring. Qed.
Lemma mv_sin_block n f H x i : mv (sin_block n f H) x i = rsum H (fun h => x h * sin (2 * PI * f * (INR i * INR (S h)))).
Proof. unfold mv, sin_block. cbn [m_m m_at]. apply rsum_ext. intros; ring. Qed.
Lemma tone_mv n H o a b f t : tone H o a b f t = o + mv (cos_block n f H) a t + mv (sin_block n f H) b t.
Proof. rewrite mv_cos_block, mv_sin_block. reflexivity. Qed.
Lemma mv_scale A k x y i : (forall j, (j < m_m A)%nat -> x j = k * y j) -> mv A x i = k * mv A y i.
Proof. intros E. unfold mv. rewrite <- rsum_scale. apply rsum_ext. intros j J. rewrite (E j J). ring. Qed.
Lemma m_end_truth bits H f x sel k w off a b : (1 <= H)%nat -> a 0%nat <> 0 \/ b 0%nat <> 0 -> k <> 0 -> let m := m_m bits in
  (forall j, (j < m)%nat -> m_gain bits j * x j = k * w j) -> x m = - (k * off) -> (forall h, (h < H)%nat -> m_cosc x sel m H h = - k * a h) -> (forall h, (h < H)%nat -> m_sinc x sel m H h = - k * b h) ->
  sqrt (1 + x (m + H)%nat ^ 2) = Rabs k * amplitude (a 0%nat) (b 0%nat) -> true_weights bits H f w off a b ->
  let c := m_end bits (full_patch bits) H f x sel in
  exists d s, mc_sets c = [d] /\ mc_freq c = [f] /\ (s = 1 \/ s = -1) /\ (0 < rsum m w -> s = 1) /\ (rsum m w < 0 -> s = -1) /\
    (forall j, (j < m)%nat -> mc_weight c j = s * w j / amplitude (a 0%nat) (b 0%nat)) /\ mc_offset c = s * off / amplitude (a 0%nat) (b 0%nat) /\
    (forall t, (t < m_n bits)%nat -> ms_postcal d t = s * tone H off a b f t / amplitude (a 0%nat) (b 0%nat) /\ ms_ideal d t = s * tone H 0 a b f t / amplitude (a 0%nat) (b 0%nat) /\ ms_err d t = 0).
Proof.
  intros H1 NZ K0 m KW KO KC KS W0 T c. set (A0 := amplitude (a 0%nat) (b 0%nat)) in *. assert (AP : 0 < A0) by (apply amplitude_pos; exact NZ). assert (AK : Rabs k <> 0) by (apply Rabs_no_R0; exact K0).
  assert (MM : m_m (m_scale (full_eff bits)) = m) by (unfold m_scale; exact (full_eff_m bits)).
  assert (CE : c = let wt := m_weights x (Rabs k * A0) (full_eff bits) (full_patch bits) in m_flip m (mkMcal wt (- x m / (Rabs k * A0)) [m_make_set bits wt (- x m / (Rabs k * A0)) (fun i => - (mv (cos_block (m_n bits) f H) (m_cosc x sel m H) i + mv (sin_block (m_n bits) f H) (m_sinc x sel m H) i) / (Rabs k * A0))] [f])).
  { unfold c, m_end. change (of_cols (m_n bits) (p_eff (full_patch bits))) with (full_eff bits). rewrite MM, W0. reflexivity. }
  cbv zeta in CE. clearbody c.
  set (c0 := mkMcal _ _ _ _) in CE. destruct (m_flip_spec m c0) as (F1 & F2 & F3 & F4 & F5). rewrite <- CE in F1, F2, F3, F4, F5. cbv zeta in F1, F2, F5.
  assert (W' : forall j, (j < m)%nat -> mc_weight c0 j = k / Rabs k * w j / A0).
  { intros j J. unfold c0. cbn [mc_weight]. rewrite m_weights_full by exact J. rewrite (KW j J). field. split; lra. }
  destruct (polarity m (mc_weight c0) w A0 (k / Rabs k) AP (sign_of k K0) W') as (P1 & P2 & P3 & _). cbv zeta in P1, P2, P3. fold (flip_sign m (mc_weight c0)) in P1, P2, P3. set (pol := flip_sign m (mc_weight c0)) in *.
  exists (the_set c 0), (k / Rabs k * pol). split.
  { cbn [c0 mc_sets length] in F4. unfold the_set. destruct (mc_sets c) as [| d0 [| d1 l]]; cbn in F4; try discriminate. reflexivity. }
  split; [exact F3 |]. split; [exact P1 |]. split; [exact P2 |]. split; [exact P3 |]. split; [intros j J; rewrite F1, (W' j J); field; split; lra |].
  split. { rewrite F2. unfold c0. cbn [mc_offset]. rewrite KO. field. split; lra. }
  intros t Ht. unfold the_set. destruct (F5 (mkMset zvec zvec zvec) 0%nat t ltac:(cbn; lia)) as (E1 & E2 & E3). rewrite E1, E2, E3. clear E1 E2 E3. unfold c0. cbn [mc_sets nth m_make_set ms_postcal ms_ideal ms_err].
  set (wt := m_weights x (Rabs k * A0) (full_eff bits) (full_patch bits)) in *.
  assert (SIG : mv bits wt t = k / Rabs k * tone H off a b f t / A0).
  { rewrite <- (T t Ht). change (output bits w t) with (mv bits w t). rewrite (mv_scale bits (k / Rabs k / A0) wt w t); [field; split; lra |]. intros j J. etransitivity; [exact (W' j J) | field; split; lra]. }
  rewrite SIG, KO. rewrite (mv_scale (cos_block (m_n bits) f H) (- k) _ a t KC), (mv_scale (sin_block (m_n bits) f H) (- k) _ b t KS). rewrite !(tone_mv (m_n bits)). repeat split; field; split; lra.
Qed.
Lemma m_options_ok rate reltol niter order : 0 < rate < 1 -> 0 < reltol -> (0 < niter)%nat -> 0 < order -> m_bad_options rate reltol niter order = false.
Proof.
  intros (R0 & R1) RT NI OR. unfold m_bad_options. destruct (Rleb_spec rate 0); [lra |]. destruct (Rleb_spec 1 rate); [lra |]. destruct (Rleb_spec reltol 0); [lra |]. destruct (Nat.eqb_spec niter 0); [lia |]. destruct (Rleb_spec order 0); [lra |]. reflexivity.
Qed.
Lemma m_order_pos order : (1 <= m_order order)%nat. Proof. unfold m_order. lia. Qed.
Lemma m_orient_id at_ bits : (m_m bits <= m_n bits)%nat -> m_orient at_ bits = bits.
Proof. intros M. unfold m_orient. destruct (Nat.ltb_spec (m_n bits) (m_m bits)); [lia |]. rewrite andb_false_r. reflexivity. Qed.
Lemma identifiable_independent' bits H f w off a b : (1 <= H)%nat -> (0 < m_n bits)%nat -> a 0%nat <> 0 \/ b 0%nat <> 0 -> identifiable bits H f w off a b -> independent (hcat bits (ones (m_n bits))).
Proof.
  intros H1 NP NZ ID x Z. apply (identifiable_independent bits H f w off a b H1 NZ ID x). intros i I. cbn [hcat m_n stack vcat_all fold_right vcat] in I. rewrite Nat.add_0_r in I. specialize (Z i I).
  change (mv (hcat bits (ones (m_n bits))) x i = 0) in Z. change (mv (hcat (stack [bits]) (ones (m_n (stack [bits])))) x i = 0). rewrite mv_hcat in *. rewrite mv_stack_single by exact I. exact Z.
Qed.
Lemma m_solve_known lin bits H f rate reltol niter : m_solve lin bits (full_patch bits) f false H rate reltol niter =
  let '(x, sel) := m_two lin (m_scale (full_eff bits)) (cos_block (m_n bits) f H) (sin_block (m_n bits) f H) (of_cols (m_n bits) []) in m_end bits (full_patch bits) H f x sel.
Proof. unfold m_solve. cbv zeta. change (of_cols (m_n bits) (p_eff (full_patch bits))) with (full_eff bits). destruct (m_two _ _ _ _ _) as [x sel]. reflexivity. Qed.
Lemma m_solve_search lin bits H f rate reltol niter : m_solve lin bits (full_patch bits) f true H rate reltol niter =
  let '(x0, sel0) := m_two lin (m_scale (full_eff bits)) (cos_block (m_n bits) f H) (sin_block (m_n bits) f H) (of_cols (m_n bits) []) in
  let '(f', x, sel) := m_fine lin (m_scale (full_eff bits)) H rate reltol (niter - 1) f x0 sel0 in m_end bits (full_patch bits) H f' x sel.
Proof. unfold m_solve. cbv zeta. change (of_cols (m_n bits) (p_eff (full_patch bits))) with (full_eff bits). destruct (m_two _ _ _ _ _) as [x sel]. destruct (m_fine _ _ _ _ _ _ _ _ _) as [[f' x'] sel']. reflexivity. Qed.
Lemma m_wcalsin_full lin rank bits f rate reltol niter order fsearch at_ ap nom : rank_correct rank -> independent (hcat bits (ones (m_n bits))) -> 0 < f -> 0 < rate < 1 -> 0 < reltol -> (0 < niter)%nat -> 0 < order -> (0 < m_m bits <= m_n bits)%nat ->
  m_wcalsin lin rank bits f rate reltol niter order fsearch at_ ap nom = Ok (Some (m_solve lin bits (full_patch bits) f fsearch (m_order order) rate reltol niter)).
Proof.
  intros RC IN F R RT NI OR M. unfold m_wcalsin. rewrite m_options_ok by assumption. destruct (Rltb_spec f 0); [lra |]. cbn [orb raise_if]. cbv zeta. rewrite m_orient_id by lia.
  destruct (Nat.eqb_spec (m_n bits * m_m bits) 0) as [Z | _]; [apply Nat.eq_mul_0 in Z; lia |]. cbn [raise_if]. rewrite (m_patch_full rank ap bits _ RC IN). cbn [bind]. destruct (Reqb_spec f 0); [lra |]. reflexivity.
Qed.
(** At a known frequency: weights, offset and tone are recovered, all divided by the amplitude of the fundamental, with the sign
    that makes the sum of the weights non-negative; the residual is zero. *)
Lemma c174_recovers lin rank bits f rate reltol niter order at_ ap nom w off a b : let H := m_order order in
  least_squares lin -> rank_correct rank -> 0 < f -> 0 < rate < 1 -> 0 < reltol -> (0 < niter)%nat -> 0 < order -> (0 < m_m bits <= m_n bits)%nat ->
  true_weights bits H f w off a b -> identifiable bits H f w off a b -> a 0%nat <> 0 \/ b 0%nat <> 0 ->
  exists c d s, m_wcalsin lin rank bits f rate reltol niter order false at_ ap nom = Ok (Some c) /\ mc_sets c = [d] /\ mc_freq c = [f] /\
    (s = 1 \/ s = -1) /\ (0 < rsum (m_m bits) w -> s = 1) /\ (rsum (m_m bits) w < 0 -> s = -1) /\
    (forall j, (j < m_m bits)%nat -> mc_weight c j = s * w j / amplitude (a 0%nat) (b 0%nat)) /\ mc_offset c = s * off / amplitude (a 0%nat) (b 0%nat) /\
    (forall t, (t < m_n bits)%nat -> ms_postcal d t = s * tone H off a b f t / amplitude (a 0%nat) (b 0%nat) /\ ms_ideal d t = s * tone H 0 a b f t / amplitude (a 0%nat) (b 0%nat) /\ ms_err d t = 0).
Proof.
  intros H L RC F R RT NI OR M T ID NZ. assert (H1 : (1 <= H)%nat) by apply m_order_pos.
  rewrite (m_wcalsin_full lin rank bits f rate reltol niter order false at_ ap nom RC (identifiable_independent' bits H f w off a b H1 ltac:(lia) NZ ID) F R RT NI OR M). fold H. rewrite m_solve_known.
  destruct (m_two_recovers lin bits (m_scale (full_eff bits)) (m_gain bits) (cos_block (m_n bits) f H) (sin_block (m_n bits) f H) (of_cols (m_n bits) []) w off a b H L (m_scale_of bits) ltac:(lia) eq_refl eq_refl H1) as (x & sel & k & E & K0 & KW & KO & KC & KS & _ & W0).
  - intros i I. rewrite (T i I). apply tone_mv.
  - exact NZ.
  - intros u o c s t Z. destruct (ID u o c s) as (k & P1 & P2 & P3 & P4). { intros i I. rewrite (Z i I), mv_empty, (tone_mv (m_n bits)). ring. } exists k. repeat split; try assumption. intros l Hl. cbn in Hl. lia.
  - rewrite E. destruct (m_end_truth bits H f x sel k w off a b H1 NZ K0 KW KO KC KS W0 T) as (d & s & Q). cbv zeta in Q. eexists. exists d, s. split; [reflexivity | exact Q].
Qed.
(** The fine search, started at the exact frequency, finds no correction, stops at its first pass and returns the same; the Python
    search leaves the exact frequency (C80). *)
Lemma c174_search_exact lin rank bits f rate reltol niter order at_ ap nom w off a b : let H := m_order order in
  least_squares lin -> rank_correct rank -> 0 < f -> 0 < rate < 1 -> 0 < reltol -> (0 < niter)%nat -> 0 < order -> (0 < m_m bits <= m_n bits)%nat ->
  true_weights bits H f w off a b -> drift_free bits H f w off a b -> a 0%nat <> 0 \/ b 0%nat <> 0 ->
  exists c d s, m_wcalsin lin rank bits f rate reltol niter order true at_ ap nom = Ok (Some c) /\ mc_sets c = [d] /\ mc_freq c = [f] /\
    (s = 1 \/ s = -1) /\ (0 < rsum (m_m bits) w -> s = 1) /\ (rsum (m_m bits) w < 0 -> s = -1) /\
    (forall j, (j < m_m bits)%nat -> mc_weight c j = s * w j / amplitude (a 0%nat) (b 0%nat)) /\ mc_offset c = s * off / amplitude (a 0%nat) (b 0%nat) /\
    (forall t, (t < m_n bits)%nat -> ms_postcal d t = s * tone H off a b f t / amplitude (a 0%nat) (b 0%nat) /\ ms_ideal d t = s * tone H 0 a b f t / amplitude (a 0%nat) (b 0%nat) /\ ms_err d t = 0).
Proof.
  intros H L RC F R RT NI OR M T DF NZ. assert (H1 : (1 <= H)%nat) by apply m_order_pos. set (n := m_n bits). assert (NP : INR n <> 0) by (apply not_0_INR; unfold n; lia).
  assert (ID : identifiable bits H f w off a b).
  { intros u o c s Z. destruct (DF u o c s 0) as (k & P1 & P2 & P3 & P4 & _); [intros t Ht; rewrite (Z t Ht); ring | exists k; repeat split; assumption]. }
  rewrite (m_wcalsin_full lin rank bits f rate reltol niter order true at_ ap nom RC (identifiable_independent' bits H f w off a b H1 ltac:(lia) NZ ID) F R RT NI OR M). fold H. rewrite m_solve_search.
  destruct (m_two_recovers lin bits (m_scale (full_eff bits)) (m_gain bits) (cos_block (m_n bits) f H) (sin_block (m_n bits) f H) (of_cols (m_n bits) []) w off a b H L (m_scale_of bits) ltac:(lia) eq_refl eq_refl H1) as (x0 & sel0 & k0 & E0 & K0 & _ & _ & KC0 & KS0 & _ & _).
  - intros i I. rewrite (T i I). apply tone_mv.
  - exact NZ.
  - intros u o c s t Z. destruct (ID u o c s) as (k & P1 & P2 & P3 & P4). { intros i I. rewrite (Z i I), mv_empty, (tone_mv (m_n bits)). ring. } exists k. repeat split; try assumption. intros l Hl. cbn in Hl. lia.
  - rewrite E0. set (sc := m_scale (full_eff bits)) in *. assert (SM : m_m sc = m_m bits) by (unfold sc, m_scale; exact (full_eff_m bits)).
    set (d := m_dcol x0 sel0 (m_m bits) H n f).
    assert (D : forall t, d t = - (2 * PI * k0 / INR n) * (INR t * rsum H (fun h => INR (S h) * (b h * cos (2 * PI * f * (INR t * INR (S h))) - a h * sin (2 * PI * f * (INR t * INR (S h))))))).
    { intros t. unfold d, m_dcol. rewrite <- rsum_scale, <- rsum_scale. apply rsum_ext. intros h Hh. rewrite (KC0 h Hh), (KS0 h Hh). field. exact NP. }
    destruct (m_two_recovers lin bits sc (m_gain bits) (cos_block n f H) (sin_block n f H) (of_cols n [d]) w off a b H L (m_scale_of bits) ltac:(lia) eq_refl eq_refl H1) as (x & sel & k & E & KK & KW & KO & KC & KS & KT & W0).
    + intros i I. rewrite (T i I). apply tone_mv.
    + exact NZ.
    + intros u o c s t Z. destruct (DF u o c s (- (2 * PI * k0 / INR n) * t 0%nat)) as (k & P1 & P2 & P3 & P4 & P5).
      { intros i I. rewrite (Z i I), (tone_mv n). unfold mv at 3. cbn [of_cols m_m m_at length rsum nth]. rewrite D. ring. }
      exists k. repeat split; try assumption. intros l Hl. cbn in Hl. replace l with 0%nat by lia. apply Rmult_integral in P5. destruct P5 as [P5 | P5]; [exfalso | exact P5].
      pose proof PI_RGT_0. assert (Q : 2 * PI * k0 = 0) by (replace (2 * PI * k0) with (- (- (2 * PI * k0 / INR n)) * INR n) by (field; exact NP); rewrite P5; ring). apply Rmult_integral in Q. destruct Q; [lra | contradiction].
    + assert (FN : m_fine lin sc H rate reltol (niter - 1) f x0 sel0 = (f, x, sel)).
      { assert (REL : vrms n (fun t => x (m_m bits + 1 + (H - 1) + H)%nat / INR n * d t) / sqrt (1 + x (m_m bits + H)%nat ^ 2) = 0).
        { specialize (KT 0%nat ltac:(cbn; lia)). rewrite Nat.add_0_r in KT. rewrite KT. rewrite vrms_zero by (intros; unfold Rdiv; ring). unfold Rdiv. ring. }
        destruct (niter - 1)%nat; cbn [m_fine]; change (m_n sc) with n; rewrite SM; fold d; rewrite E, REL; destruct (Rltb_spec 0 reltol); [reflexivity | lra | reflexivity | lra]. }
      rewrite FN. destruct (m_end_truth bits H f x sel k w off a b H1 NZ KK KW KO KC KS W0 T) as (dd & s & Q). cbv zeta in Q. eexists. exists dd, s. split; [reflexivity | exact Q].
Qed.

(** ** Against the Python calibration *)
Section Agree.
  Context (bits : mat) (H : nat) (f : R).
  Definition gf (g x : vec) : vec := fun j => if (j <? m_m bits)%nat then g j * x j else x j.
  (** Value of the fit with the coefficients z; B is the basis whose first column is moved to the right-hand side. *)
  Definition fit_val (B C : nat -> nat -> R) (z : vec) (i : nat) : R :=
    output bits z i + z (m_m bits) + (rsum H (fun h => with_unity z (m_m bits + 1) h * B i h) - B i 0%nat) + rsum H (fun h => z (m_m bits + 1 + (H - 1) + h)%nat * C i h).
  Definition fit_cols : nat := (m_m bits + 1 + (H - 1) + H)%nat.
  Lemma gf_unity g x h : with_unity (gf g x) (m_m bits + 1) h = with_unity x (m_m bits + 1) h.
  Proof. destruct h as [| h]; [reflexivity |]. cbn [with_unity]. unfold gf. destruct (Nat.ltb_spec (m_m bits + 1 + h) (m_m bits)); [lia | reflexivity]. Qed.
  Lemma gf_high g x j : (m_m bits <= j)%nat -> gf g x j = x j.
  Proof. intros J. unfold gf. destruct (Nat.ltb_spec j (m_m bits)); [lia | reflexivity]. Qed.
  Lemma fit_val_ext B C z z' i : (1 <= H)%nat -> (forall j, (j < fit_cols)%nat -> z j = z' j) -> fit_val B C z i = fit_val B C z' i.
  Proof.
    intros H1 E. unfold fit_cols in E. unfold fit_val. f_equal; [f_equal; [f_equal |] |].
    - unfold output. apply rsum_ext. intros j J. rewrite E by lia. reflexivity.
    - apply E. lia.
    - f_equal. apply rsum_ext. intros h Hh. f_equal. destruct h as [| h]; [reflexivity |]. cbn [with_unity]. apply E. lia.
    - apply rsum_ext. intros h Hh. rewrite E by lia. reflexivity.
  Qed.
  Definition represents (A : mat) (g : vec) (B C : nat -> nat -> R) : Prop := m_n A = m_n bits /\ m_m A = fit_cols /\ (forall j, (j < m_m bits)%nat -> g j <> 0) /\ forall x i, (i < m_n bits)%nat -> mv A x i = fit_val B C (gf g x) i.
  Lemma fit_unique A A' g g' B C b x x' : (1 <= H)%nat -> represents A g B C -> represents A' g' B C -> minimises A b x -> minimises A' b x' -> forall i, (i < m_n bits)%nat -> fit_val B C (gf g x) i = fit_val B C (gf g' x') i.
  Proof.
    intros H1 (N & M & G & V) (N' & M' & G' & V') X X'. destruct A as [n m P]. destruct A' as [n' m' Q]. cbn [m_n m_m] in *. subst n n' m m'.
    set (tr := fun (g g' x' : vec) (j : nat) => if (j <? m_m bits)%nat then g' j * x' j / g j else x' j).
    assert (TR : forall g1 g2 y, (forall j, (j < m_m bits)%nat -> g1 j <> 0) -> forall j, gf g1 (tr g1 g2 y) j = gf g2 y j).
    { intros g1 g2 y G1 j. unfold gf, tr. destruct (Nat.ltb_spec j (m_m bits)) as [J | J]; [field; apply G1; exact J | reflexivity]. }
    intros i I. rewrite <- (V x i I), <- (V' x' i I).
    apply (fitted_unique (m_n bits) fit_cols fit_cols P Q b x x' (tr g g' x') (tr g' g x) X X'); [| | exact I]; intros t Ht.
    - change (mv (mkMat (m_n bits) fit_cols P) (tr g g' x') t = mv (mkMat (m_n bits) fit_cols Q) x' t). rewrite (V _ t Ht), (V' _ t Ht). apply fit_val_ext; [exact H1 |]. intros j _. apply TR. exact G.
    - change (mv (mkMat (m_n bits) fit_cols Q) (tr g' g x) t = mv (mkMat (m_n bits) fit_cols P) x t). rewrite (V _ t Ht), (V' _ t Ht). apply fit_val_ext; [exact H1 |]. intros j _. apply TR. exact G'.
  Qed.
  Definition cosf (i h : nat) : R := cos (2 * PI * f * (INR i * INR (S h))).
  Definition sinf (i h : nat) : R := sin (2 * PI * f * (INR i * INR (S h))).
  (** With separable bits the coefficients are determined. *)
  Lemma fit_determined (swap : bool) z z' : (1 <= H)%nat -> separable bits H f -> let B := if swap then sinf else cosf in let C := if swap then cosf else sinf in
    (forall i, (i < m_n bits)%nat -> fit_val B C z i = fit_val B C z' i) -> forall j, (j < fit_cols)%nat -> z j = z' j.
  Proof.
    intros H1 SP B C E. set (m := m_m bits) in *.
    set (u := fun h => - (with_unity z (m + 1) h - with_unity z' (m + 1) h)). set (q := fun h => - (z (m + 1 + (H - 1) + h)%nat - z' (m + 1 + (H - 1) + h)%nat)).
    assert (REL : forall i, (i < m_n bits)%nat -> output bits (fun j => z j - z' j) i = - (z m - z' m) + rsum H (fun h => u h * B i h) + rsum H (fun h => q h * C i h)).
    { intros i I. specialize (E i I). unfold fit_val in E. fold m in E.
      assert (O : output bits (fun j => z j - z' j) i = output bits z i - output bits z' i) by (unfold output; rewrite <- rsum_minus; apply rsum_ext; intros; ring).
      assert (U : rsum H (fun h => u h * B i h) = - (rsum H (fun h => with_unity z (m + 1) h * B i h) - rsum H (fun h => with_unity z' (m + 1) h * B i h))).
      { rewrite <- rsum_minus. apply rsum_opp_eq. intros h _. unfold u. ring. }
      assert (Q : rsum H (fun h => q h * C i h) = - (rsum H (fun h => z (m + 1 + (H - 1) + h)%nat * C i h) - rsum H (fun h => z' (m + 1 + (H - 1) + h)%nat * C i h))).
      { rewrite <- rsum_minus. apply rsum_opp_eq. intros h _. unfold q. ring. }
      rewrite O, U, Q. lra. }
    assert (U0 : u 0%nat = 0) by (unfold u; cbn [with_unity]; ring).
    assert (S : (forall j, (j < m)%nat -> z j - z' j = 0) /\ - (z m - z' m) = 0 /\ (forall h, (h < H)%nat -> u h = 0) /\ (forall h, (h < H)%nat -> q h = 0)).
    { destruct swap.
      - destruct (SP (fun j => z j - z' j) (- (z m - z' m)) q u) as (S1 & S2 & S3 & S4); [| right; exact U0 | tauto]. intros t Ht. rewrite (REL t Ht). unfold tone, B, C, cosf, sinf. ring.
      - destruct (SP (fun j => z j - z' j) (- (z m - z' m)) u q) as (S1 & S2 & S3 & S4); [| left; exact U0 | tauto]. intros t Ht. rewrite (REL t Ht). unfold tone, B, C, cosf, sinf. ring. }
    destruct S as (S1 & S2 & S3 & S4). intros j J. unfold fit_cols in J. fold m in J.
    destruct (Nat.lt_ge_cases j m) as [A | A]; [specialize (S1 j A); lra |]. destruct (Nat.eq_dec j m) as [-> | N]; [lra |].
    destruct (Nat.lt_ge_cases j (m + 1 + (H - 1))) as [A' | A'].
    - specialize (S3 (S (j - (m + 1))) ltac:(lia)). unfold u in S3. cbn [with_unity] in S3. replace (m + 1 + (j - (m + 1)))%nat with j in S3 by lia. lra.
    - specialize (S4 (j - (m + 1 + (H - 1)))%nat ltac:(lia)). unfold q in S4. replace (m + 1 + (H - 1) + (j - (m + 1 + (H - 1))))%nat with j in S4 by lia. lra.
  Qed.
  Lemma represents_of E B C (Bf Cf : nat -> nat -> R) g : (1 <= H)%nat -> (0 < m_n bits)%nat -> (forall j, (j < m_m bits)%nat -> g j <> 0) -> m_n E = m_n bits -> m_m E = (m_m bits + 1)%nat -> m_m B = H -> m_m C = H ->
    (forall v i, (i < m_n bits)%nat -> mv E v i = output bits (fun j => g j * v j) i + v (m_m bits)) -> (forall i h, (i < m_n bits)%nat -> (h < H)%nat -> m_at B i h = Bf i h) -> (forall x i, (i < m_n bits)%nat -> mv C x i = rsum H (fun h => x h * Cf i h)) ->
    represents (hcat (hcat E (cols_from 1 (m_m B - 1) B)) C) g Bf Cf.
  Proof.
    intros H1 NP G EN EM BM CM EV BV CV. split; [exact EN |]. split. { unfold fit_cols. cbn [hcat cols_from m_m]. rewrite EM, BM, CM. lia. } split; [exact G |].
    intros x i I. pose proof (mv_basis E B C x i ltac:(lia)) as Q. rewrite EM, BM in Q. rewrite BM. rewrite (EV x i I), (CV _ i I), (BV i 0%nat I ltac:(lia)) in Q.
    assert (Q2 : mv B (with_unity x (m_m bits + 1)) i = rsum H (fun h => with_unity x (m_m bits + 1) h * Bf i h)) by (unfold mv; rewrite BM; apply rsum_ext; intros h Hh; rewrite (BV i h I Hh); ring).
    rewrite Q2 in Q. unfold fit_val. rewrite gf_high by lia.
    replace (output bits (gf g x) i) with (output bits (fun j => g j * x j) i) by (unfold output; apply rsum_ext; intros j J; unfold gf; destruct (Nat.ltb_spec j (m_m bits)); [reflexivity | lia]).
    rewrite (rsum_ext H (fun h => with_unity (gf g x) (m_m bits + 1) h * Bf i h) (fun h => with_unity x (m_m bits + 1) h * Bf i h)) by (intros h _; rewrite gf_unity; reflexivity).
    rewrite (rsum_ext H (fun h => gf g x (m_m bits + 1 + (H - 1) + h)%nat * Cf i h) (fun h => x (m_m bits + 1 + (H - 1) + h)%nat * Cf i h)) by (intros h _; rewrite gf_high by lia; reflexivity). lra.
  Qed.
End Agree.
Lemma solvers_agree lin lst bits sc sc' g g' H f freqs : least_squares lin -> least_squares lst -> scaled_of bits sc g -> scaled_of bits sc' g' -> (0 < m_n bits)%nat -> (1 <= H)%nat -> freqs 0%nat = f -> separable bits H f ->
  exists x sel y, m_two lin sc (cos_block (m_n bits) f H) (sin_block (m_n bits) f H) (of_cols (m_n bits) []) = (x, sel) /\ solve_known_freq lst [sc'] freqs H = (y, if sel then 1%nat else 0%nat) /\
    forall j, (j < fit_cols bits H)%nat -> gf bits g x j = gf bits g' y j.
Proof.
  intros L L' SC SC' NP H1 F SP. pose proof SC as (SN & SM & SE). pose proof SC' as (SN' & SM' & SE'). set (n := m_n bits) in *. set (m := m_m bits) in *.
  assert (G : forall j, (j < m)%nat -> g j <> 0) by (intros j J; apply (SE 0%nat j NP J)). assert (G' : forall j, (j < m)%nat -> g' j <> 0) by (intros j J; apply (SE' 0%nat j NP J)).
  set (E := hcat sc (ones (m_n sc))). set (E' := hcat (stack [sc']) (offset_matrix [sc'])).
  assert (EV : forall v i, (i < n)%nat -> mv E v i = output bits (fun j => g j * v j) i + v m).
  { intros v i I. unfold E. rewrite mv_hcat, (scaled_output bits sc g _ _ SC I). f_equal. unfold mv. cbn [m_m m_at ones rsum]. rewrite SM, Nat.add_0_r. ring. }
  assert (EV' : forall v i, (i < n)%nat -> mv E' v i = output bits (fun j => g' j * v j) i + v m).
  { intros v i I. unfold E'. rewrite mv_hcat, mv_stack_single, mv_offset_single by (rewrite SN'; exact I). rewrite (scaled_output bits sc' g' _ _ SC' I). f_equal. f_equal. cbn. rewrite SM'. lia. }
  set (xc := cos_block n f H). set (xs := sin_block n f H). set (z0 := of_cols n []). set (yc := cos_basis [sc'] freqs H). set (ys := sin_basis [sc'] freqs H).
  assert (YC : m_m yc = H) by (cbn; lia). assert (YS : m_m ys = H) by (cbn; lia).
  assert (ADD : forall (A : mat) x i, mv (hcat A z0) x i = mv A x i) by (intros A x i; rewrite mv_hcat; unfold z0; rewrite mv_empty; ring).
  assert (EM : m_m E = (m + 1)%nat) by (unfold E; cbn [hcat ones m_m]; rewrite SM; reflexivity).
  assert (ZS : m_m (hcat xs z0) = H) by (unfold xs, z0; cbn [hcat sin_block of_cols length m_m]; apply Nat.add_0_r).
  assert (ZC : m_m (hcat xc z0) = H) by (unfold xc, z0; cbn [hcat cos_block of_cols length m_m]; apply Nat.add_0_r).
  assert (REP1 : represents bits H (hcat (hcat E (cols_from 1 (m_m xc - 1) xc)) (hcat xs z0)) g (cosf f) (sinf f)).
  { apply (represents_of bits H E xc (hcat xs z0) (cosf f) (sinf f) g H1 NP G SN EM eq_refl ZS EV); [reflexivity |]. intros x i I. rewrite ADD. apply mv_sin_block. }
  assert (REP2 : represents bits H (hcat (hcat E (cols_from 1 (m_m xs - 1) xs)) (hcat xc z0)) g (sinf f) (cosf f)).
  { apply (represents_of bits H E xs (hcat xc z0) (sinf f) (cosf f) g H1 NP G SN EM eq_refl ZC EV); [reflexivity |]. intros x i I. rewrite ADD. apply mv_cos_block. }
  assert (EN' : m_n E' = n) by (unfold E'; cbn; rewrite SN'; lia). assert (EM' : m_m E' = (m + 1)%nat) by (unfold E'; cbn; rewrite SM'; reflexivity).
  assert (REP1' : represents bits H (hcat (hcat E' (cols_from 1 (m_m yc - 1) yc)) ys) g' (cosf f) (sinf f)).
  { apply (represents_of bits H E' yc ys (cosf f) (sinf f) g' H1 NP G' EN' EM' YC YS EV'). - intros i h I Hh. unfold yc. rewrite cos_basis_single by (rewrite ?SN'; assumption). rewrite F. reflexivity. - intros x i I. unfold ys. rewrite mv_sin_single by (rewrite SN'; exact I). rewrite F. reflexivity. }
  assert (REP2' : represents bits H (hcat (hcat E' (cols_from 1 (m_m ys - 1) ys)) yc) g' (sinf f) (cosf f)).
  { apply (represents_of bits H E' ys yc (sinf f) (cosf f) g' H1 NP G' EN' EM' YS YC EV'). - intros i h I Hh. unfold ys. rewrite sin_basis_single by (rewrite ?SN'; assumption). rewrite F. reflexivity. - intros x i I. unfold yc. rewrite mv_cos_single by (rewrite SN'; exact I). rewrite F. reflexivity. }
  unfold m_two, solve_known_freq, dual_basis_lstsq. cbv zeta. fold E E' xc xs z0 yc ys. rewrite vrms_lt.
  set (A1 := hcat (hcat E (cols_from 1 (m_m xc - 1) xc)) (hcat xs z0)) in *. set (A2 := hcat (hcat E (cols_from 1 (m_m xs - 1) xs)) (hcat xc z0)) in *.
  set (A1' := hcat (hcat E' (cols_from 1 (m_m yc - 1) yc)) ys) in *. set (A2' := hcat (hcat E' (cols_from 1 (m_m ys - 1) ys)) yc) in *.
  replace (m_n (stack [sc'])) with n by (cbn; rewrite SN'; lia). rewrite SN.
  assert (B1 : forall i, (i < n)%nat -> m_at yc i 0%nat = m_at xc i 0%nat) by (intros i I; unfold yc; rewrite cos_basis_single by (rewrite ?SN'; lia); rewrite F; reflexivity).
  assert (B2 : forall i, (i < n)%nat -> m_at ys i 0%nat = m_at xs i 0%nat) by (intros i I; unfold ys; rewrite sin_basis_single by (rewrite ?SN'; lia); rewrite F; reflexivity).
  assert (BE : forall A b b' x, m_n A = n -> (forall i, (i < n)%nat -> b' i = b i) -> minimises A b' x -> minimises A b x).
  { intros A b b' x AN E0 MI z. specialize (MI z). rewrite AN in *. rewrite (rsum_ext n _ (fun i => (rsum (m_m A) (fun j => m_at A i j * x j) - b' i) ^ 2)) by (intros i I; rewrite (E0 i I); reflexivity). rewrite (rsum_ext n (fun i => (rsum (m_m A) (fun j => m_at A i j * z j) - b i) ^ 2) (fun i => (rsum (m_m A) (fun j => m_at A i j * z j) - b' i) ^ 2)) by (intros i I; rewrite (E0 i I); reflexivity). exact MI. }
  set (x1 := lin A1 _). set (x2 := lin A2 _). set (y1 := lst A1' _). set (y2 := lst A2' _).
  assert (FV1 : forall i, (i < n)%nat -> fit_val bits H (cosf f) (sinf f) (gf bits g x1) i = fit_val bits H (cosf f) (sinf f) (gf bits g' y1) i).
  { apply (fit_unique bits H A1 A1' g g' (cosf f) (sinf f) (fun i => - m_at xc i 0%nat) x1 y1 H1 REP1 REP1'); [apply ls_minimises; exact L |]. apply (BE A1' _ (fun i => - m_at yc i 0%nat)); [exact EN' | intros i I; rewrite (B1 i I); reflexivity | apply ls_minimises; exact L']. }
  assert (FV2 : forall i, (i < n)%nat -> fit_val bits H (sinf f) (cosf f) (gf bits g x2) i = fit_val bits H (sinf f) (cosf f) (gf bits g' y2) i).
  { apply (fit_unique bits H A2 A2' g g' (sinf f) (cosf f) (fun i => - m_at xs i 0%nat) x2 y2 H1 REP2 REP2'); [apply ls_minimises; exact L |]. apply (BE A2' _ (fun i => - m_at ys i 0%nat)); [exact EN' | intros i I; rewrite (B2 i I); reflexivity | apply ls_minimises; exact L']. }
  replace (norm2 n (fun i => mv A1' y1 i - - m_at yc i 0%nat)) with (norm2 n (fun i => mv A1 x1 i - - m_at xc i 0%nat)).
  2:{ unfold norm2. f_equal. apply rsum_ext. intros i I. rewrite (B1 i I), (proj2 (proj2 (proj2 REP1)) x1 i I), (proj2 (proj2 (proj2 REP1')) y1 i I), (FV1 i I). reflexivity. }
  replace (norm2 n (fun i => mv A2' y2 i - - m_at ys i 0%nat)) with (norm2 n (fun i => mv A2 x2 i - - m_at xs i 0%nat)).
  2:{ unfold norm2. f_equal. apply rsum_ext. intros i I. rewrite (B2 i I), (proj2 (proj2 (proj2 REP2)) x2 i I), (proj2 (proj2 (proj2 REP2')) y2 i I), (FV2 i I). reflexivity. }
  destruct (Rltb _ _).
  - exists x1, false, y1. split; [reflexivity |]. split; [reflexivity |]. exact (fit_determined bits H f false _ _ H1 SP FV1).
  - exists x2, true, y2. split; [reflexivity |]. split; [reflexivity |]. exact (fit_determined bits H f true _ _ H1 SP FV2).
Qed.
Lemma separable_independent bits H f : separable bits H f -> independent (hcat bits (ones (m_n bits))).
Proof.
  intros SP x Z. destruct (SP x (- x (m_m bits)) (fun _ => 0) (fun _ => 0)) as (A & B & _).
  - intros t Ht. specialize (Z t Ht). change (mv (hcat bits (ones (m_n bits))) x t = 0) in Z. rewrite mv_hcat in Z. unfold mv at 2 in Z. cbn [ones m_m m_at rsum] in Z. rewrite Nat.add_0_r in Z.
    unfold tone. rewrite !rsum_zero by (intros; ring). change (output bits x t) with (mv bits x t). lra.
  - left. reflexivity.
  - intros j J. cbn [hcat ones m_m] in J. destruct (Nat.eq_dec j (m_m bits)) as [-> | N]; [lra | apply A; lia].
Qed.
Lemma independent_stack bits : independent (hcat bits (ones (m_n bits))) -> independent (hcat (stack [bits]) (ones (m_n (stack [bits])))).
Proof.
  intros I x Z. apply (I x). intros i J. specialize (Z i ltac:(cbn [hcat m_n stack vcat_all fold_right vcat]; rewrite Nat.add_0_r; exact J)).
  change (mv (hcat (stack [bits]) (ones (m_n (stack [bits])))) x i = 0) in Z. change (mv (hcat bits (ones (m_n bits))) x i = 0). rewrite mv_hcat in *. rewrite mv_stack_single in Z by exact J. exact Z.
Qed.
(** At a known frequency both programs return the same weights, offset, signals and errors, for every record from which neither
    solve is ambiguous, whatever the two least-squares and rank routines are. *)
Lemma c174_agrees lin lst rank rank' est bits freq f fs rate reltol niter order at_ ap nom nominal lr reltol' max_iter : let H := m_order order in
  least_squares lin -> least_squares lst -> rank_correct rank -> rank_correct rank' -> freq_is freq f -> 0 < f <= 1 / 2 -> fs = None \/ fs = Some false ->
  0 < rate < 1 -> 0 < reltol -> (0 < niter)%nat -> 0 < order -> (0 < m_m bits <= m_n bits)%nat -> nominal_ok (m_m bits) nominal -> separable bits H f ->
  exists c d r d', m_wcalsin lin rank bits f rate reltol niter order false at_ ap nom = Ok (Some c) /\ mc_sets c = [d] /\ mc_freq c = [f] /\
    calibrate_weight_sine lst rank' est [bits] freq fs nominal H lr reltol' max_iter = Ok r /\ r_sets r = [d'] /\ r_freqs r 0%nat = f /\
    (forall j, (j < m_m bits)%nat -> mc_weight c j = r_weight r j) /\ mc_offset c = r_offset r /\
    (forall t, (t < m_n bits)%nat -> ms_postcal d t = r_calibrated d' t /\ ms_ideal d t = r_ideal d' t /\ ms_err d t = r_error d' t).
Proof.
  intros H L L' RC RC' FI (F0 & F) FS RA RT NI OR M NO SP. assert (H1 : (1 <= H)%nat) by apply m_order_pos. pose proof (separable_independent bits H f SP) as IN.
  rewrite (m_wcalsin_full lin rank bits f rate reltol niter order false at_ ap nom RC IN F0 RA RT NI OR M). fold H. rewrite m_solve_known.
  destruct (freq_is_facts freq f est FI ltac:(lra) F) as (G1 & G2 & fr & G3 & G4). destruct (prepare_single bits nominal M NO) as (nw & PR).
  destruct (solvers_agree lin lst bits (m_scale (full_eff bits)) (scaled_single bits) (m_gain bits) (fun j => powerRZ 10 (- bit_scales (eff_single bits) j)) H f fr L L' (m_scale_of bits) (scaled_single_of bits) ltac:(lia) H1 G4 SP) as (x & sel & y & EX & EY & XY).
  rewrite EX. set (g' := fun j => powerRZ 10 (- bit_scales (eff_single bits) j)) in *. set (m := m_m bits) in *. unfold fit_cols in XY. fold m in XY.
  assert (XYh : forall j, (m <= j < m + 1 + (H - 1) + H)%nat -> x j = y j). { intros j J. specialize (XY j ltac:(lia)). rewrite !gf_high in XY by (fold m; lia). exact XY. }
  assert (XYw : forall j, (j < m)%nat -> m_gain bits j * x j = g' j * y j). { intros j J. specialize (XY j ltac:(lia)). unfold gf in XY. fold m in XY. destruct (Nat.ltb_spec j m); [exact XY | lia]. }
  assert (PY : exists r d', calibrate_weight_sine lst rank' est [bits] freq fs nominal H lr reltol' max_iter = Ok r /\ r_sets r = [d'] /\ r_freqs r 0%nat = f /\
     let nf := sqrt (1 + y (m + H)%nat ^ 2) in let wt := fun j => g' j * y j / nf in let pol := flip_sign m wt in
     (forall j, (j < m)%nat -> r_weight r j = wt j * pol) /\ r_offset r = - y m / nf * pol /\
     (forall t, (t < m_n bits)%nat -> let id := - (mv (cos_block (m_n bits) f H) (m_cosc y sel m H) t + mv (sin_block (m_n bits) f H) (m_sinc y sel m H) t) / nf in
        r_calibrated d' t = mv bits wt t * pol /\ r_ideal d' t = id * pol /\ r_error d' t = (mv bits wt t - - y m / nf - id) * pol)).
  { unfold calibrate_weight_sine. unfold raise_if at 1. rewrite G1. rewrite PR. cbn [bind]. cbv beta iota.
    change (length [bits]) with 1%nat. rewrite (patch_single rank' bits nw RC' (independent_stack bits IN)). rewrite G3. cbn [bind p_eff].
    assert (SF : ((match fs with None => all_zero freq | Some b0 => b0 end) || existsb (fun k => Reqb (fr k) 0) (seq 0 1))%bool = false).
    { rewrite G2. cbn. rewrite G4. destruct (Reqb_spec f 0); [lra |]. destruct FS as [-> | ->]; reflexivity. }
    rewrite SF. clear SF. cbv zeta. cbn [map split_rows]. fold (eff_single bits). change (rows_from 0 (m_n bits) (scale_columns (eff_single bits))) with (scaled_single bits). rewrite EY. cbn [fst snd].
    rewrite map_length, seq_length. fold m. replace (m + 1 * H)%nat with (m + H)%nat by lia. set (nf := sqrt (1 + y (m + H)%nat ^ 2)).
    destruct (recover_identity m m (recover_columns y nf (bit_scales (eff_single bits))) (colm (stack [bits])) ltac:(lia) eq_refl) as (w' & RW & EW).
    rewrite RW. cbn [bind]. assert (W' : forall j, (j < m)%nat -> w' j = g' j * y j / nf). { intros j J. rewrite (EW j J). unfold recover_columns. fold (g' j). unfold Rdiv. ring. }
    eexists. eexists. split; [reflexivity |]. unfold post_process. cbv zeta. cbn [r_sets r_weight r_offset r_freqs length post_sets map]. split; [reflexivity |]. split; [exact G4 |].
    assert (POL : (if Rltb (rsum m w') 0 then -1 else 1) = flip_sign m (fun j => g' j * y j / nf)) by (unfold flip_sign; rewrite (rsum_ext m w' (fun j => g' j * y j / nf)) by exact W'; reflexivity).
    rewrite POL. set (pol := flip_sign m (fun j => g' j * y j / nf)). split; [intros j J; rewrite (W' j J); reflexivity |]. split; [reflexivity |].
    intros t Ht. cbn [r_calibrated r_ideal r_error].
    assert (MW : mv bits w' t = mv bits (fun j => g' j * y j / nf) t) by (apply mv_ext; exact W'). rewrite MW.
    match goal with |- context [reconstruct_sine ?a ?b ?c ?d ?e ?f ?g ?h ?i t] => assert (REF : reconstruct_sine a b c d e f g h i t = - (mv (cos_block (m_n bits) (fr 0%nat) H) (m_cosc y sel m H) t + mv (sin_block (m_n bits) (fr 0%nat) H) (m_sinc y sel m H) t) / nf) end.
    { unfold reconstruct_sine. cbv zeta. f_equal. f_equal. unfold mv. cbn [cols_from rows_from m_m m_at cos_block sin_block].
      f_equal; apply rsum_ext; intros h Hh; rewrite !Nat.mul_0_l, !Nat.add_0_l; [rewrite cos_basis_single by assumption | rewrite sin_basis_single by assumption]; f_equal; unfold m_cosc, m_sinc, m_first, m_second;
        destruct sel; cbn [Nat.eqb]; try (destruct h; [reflexivity |]); try (f_equal; lia). }
    rewrite REF, G4. repeat split; reflexivity. }
  destruct PY as (r & d' & ER & ES & EF & EWT & EO & ET). cbv zeta in EWT, EO, ET.
  set (c := m_end bits (full_patch bits) H f x sel).
  assert (MM : m_m (m_scale (full_eff bits)) = m) by (unfold m_scale; exact (full_eff_m bits)).
  set (nf := sqrt (1 + y (m + H)%nat ^ 2)) in *. set (wt := fun j => g' j * y j / nf) in *. set (pol := flip_sign m wt) in *.
  assert (CE : c = let wx := m_weights x nf (full_eff bits) (full_patch bits) in m_flip m (mkMcal wx (- y m / nf) [m_make_set bits wx (- y m / nf) (fun i => - (mv (cos_block (m_n bits) f H) (m_cosc x sel m H) i + mv (sin_block (m_n bits) f H) (m_sinc x sel m H) i) / nf)] [f])).
  { unfold c, m_end. change (of_cols (m_n bits) (p_eff (full_patch bits))) with (full_eff bits). rewrite MM, (XYh (m + H)%nat) by lia. rewrite (XYh m) by lia. reflexivity. }
  cbv zeta in CE. clearbody c. set (wx := m_weights x nf (full_eff bits) (full_patch bits)) in *.
  assert (WX : forall j, (j < m)%nat -> wx j = wt j). { intros j J. unfold wx. rewrite m_weights_full by exact J. rewrite (XYw j J). reflexivity. }
  set (c0 := mkMcal _ _ _ _) in CE. destruct (m_flip_spec m c0) as (F1 & F2 & F3 & F4 & F5). rewrite <- CE in F1, F2, F3, F4, F5. cbv zeta in F1, F2, F5.
  assert (POL : flip_sign m (mc_weight c0) = pol). { unfold pol, flip_sign. unfold c0. cbn [mc_weight]. rewrite (rsum_ext m wx wt WX). reflexivity. }
  rewrite POL in F1, F2, F5. exists c, (the_set c 0), r, d'. split; [reflexivity |]. split.
  { cbn [c0 mc_sets length] in F4. unfold the_set. destruct (mc_sets c) as [| d0 [| d1 l]]; cbn in F4; try discriminate. reflexivity. }
  split; [exact F3 |]. split; [exact ER |]. split; [exact ES |]. split; [exact EF |]. split; [intros j J; rewrite F1, (EWT j J); unfold c0; cbn [mc_weight]; rewrite (WX j J); apply Rmult_comm |]. split; [rewrite F2, EO; unfold c0; cbn [mc_offset]; apply Rmult_comm |].
  intros t Ht. destruct (ET t Ht) as (T1 & T2 & T3). rewrite T1, T2, T3. unfold the_set. destruct (F5 (mkMset zvec zvec zvec) 0%nat t ltac:(cbn; lia)) as (E1 & E2 & E3). rewrite E1, E2, E3. unfold c0. cbn [mc_sets nth m_make_set ms_postcal ms_ideal ms_err].
  rewrite (mv_ext bits wx wt t WX).
  assert (CC : forall h, (h < H)%nat -> m_cosc x sel m H h = m_cosc y sel m H h /\ m_sinc x sel m H h = m_sinc y sel m H h).
  { intros h Hh. unfold m_cosc, m_sinc, m_first, m_second. destruct sel; split; try (destruct h; [reflexivity |]); apply XYh; lia. }
  rewrite (mv_ext (cos_block (m_n bits) f H) (m_cosc x sel m H) (m_cosc y sel m H)) by (intros h Hh; apply CC; exact Hh). rewrite (mv_ext (sin_block (m_n bits) f H) (m_sinc x sel m H) (m_sinc y sel m H)) by (intros h Hh; apply CC; exact Hh). repeat split; ring.
Qed.
(** A wide matrix is transposed unless autotrans is off. *)
Lemma c174_orientation lin rank bits f rate reltol niter order fs ap nom : (m_m bits < m_n bits)%nat ->
  m_wcalsin lin rank (transpose bits) f rate reltol niter order fs true ap nom = m_wcalsin lin rank bits f rate reltol niter order fs true ap nom.
Proof.
  intros M. unfold m_wcalsin. assert (E : m_orient true (transpose bits) = m_orient true bits); [| rewrite E; reflexivity].
  unfold m_orient. cbn [transpose m_n m_m andb]. destruct (Nat.ltb_spec (m_m bits) (m_n bits)); [| lia]. destruct (Nat.ltb_spec (m_n bits) (m_m bits)); [lia |]. destruct bits; reflexivity.
Qed.
(** What is refused. *)
Lemma c174_refuses lin rank bits f rate reltol niter order fs at_ ap nom :
  f < 0 \/ ~ 0 < rate < 1 \/ reltol <= 0 \/ niter = 0%nat \/ order <= 0 \/ m_n bits = 0%nat \/ m_m bits = 0%nat -> m_wcalsin lin rank bits f rate reltol niter order fs at_ ap nom = Err RuntimeError.
Proof.
  intros C. unfold m_wcalsin, m_bad_options. destruct (Rltb_spec f 0); [reflexivity |]. destruct (Rleb_spec rate 0); [reflexivity |]. destruct (Rleb_spec 1 rate); [reflexivity |]. destruct (Rleb_spec reltol 0); [reflexivity |].
  destruct (Nat.eqb_spec niter 0); [reflexivity |]. destruct (Rleb_spec order 0); [reflexivity |]. cbn [orb raise_if]. cbv zeta.
  assert (Z : m_n bits = 0%nat \/ m_m bits = 0%nat) by (destruct C as [C | [C | [C | [C | [C | C]]]]]; try lra; try lia; exact C).
  destruct (Nat.eqb_spec (m_n (m_orient at_ bits) * m_m (m_orient at_ bits)) 0) as [_ | N]; [reflexivity |]. exfalso. apply N. unfold m_orient. destruct (at_ && _)%bool; cbn [transpose m_n m_m]; lia.
Qed.

(** ** The patch *)
Lemma mv_ones n y i : mv (ones n) y i = y 0%nat.
Proof. unfold mv. cbn [ones m_m m_at rsum]. ring. Qed.
Lemma patch_inv_append bits nominal k p : patch_inv bits nominal k p -> patch_inv bits nominal (S k) (mkPatch (p_eff p ++ [colm bits k]) (p_founder p ++ [k]) (p_map p ++ [Some (length (p_eff p))]) (p_ratio p ++ [1])).
Proof.
  intros I. destruct I as [M Ra F Rg Fo Me O]. set (L := length (p_eff p)) in *.
    assert (NM : forall j, (j < k)%nat -> nth j (p_map p ++ [Some L]) None = nth j (p_map p) None) by (intros; apply app_nth1; lia).
    assert (NR : forall j, (j < k)%nat -> nth j (p_ratio p ++ [1]) 0 = nth j (p_ratio p) 0) by (intros; apply app_nth1; lia).
    assert (NK : nth k (p_map p ++ [Some L]) None = Some L) by (rewrite app_nth2, M, Nat.sub_diag by lia; reflexivity).
    assert (NKr : nth k (p_ratio p ++ [1]) 0 = 1) by (rewrite app_nth2, Ra, Nat.sub_diag by lia; reflexivity).
    assert (NF : forall c, (c < L)%nat -> nth c (p_founder p ++ [k]) 0%nat = nth c (p_founder p) 0%nat) by (intros; apply app_nth1; lia).
    assert (NFL : nth L (p_founder p ++ [k]) 0%nat = k) by (rewrite app_nth2, F, Nat.sub_diag by lia; reflexivity).
    constructor; cbn [p_eff p_founder p_map p_ratio]; rewrite ?app_length; cbn [length]; fold L; try lia.
    + intros j c J E. destruct (Nat.eq_dec j k) as [-> | N]. { rewrite NK in E. injection E as <-. lia. } rewrite NM in E by lia. pose proof (Rg j c ltac:(lia) E). lia.
    + intros c C. destruct (Nat.eq_dec c L) as [-> | N]. { rewrite NFL. repeat split; [lia | assumption ..]. }
      rewrite NF by lia. specialize (Fo c ltac:(lia)) as (A1 & A2 & A3). rewrite NM, NR by lia. repeat split; [lia | assumption ..].
    + intros j c J E. destruct (Nat.eq_dec j k) as [-> | N]. { left. rewrite NK in E. injection E as <-. congruence. }
      rewrite NM in E by lia. rewrite NF, NR by (lia || (apply (Rg j c); [lia | exact E])). apply Me; [lia | exact E].
    + intros w i. rewrite rsum_app. cbn [rsum]. rewrite Nat.add_0_r, Rplus_0_l. rewrite app_nth2 by (fold L; lia). fold L. rewrite Nat.sub_diag. cbn [nth]. unfold colm.
      unfold rec_weight at 2. cbn [p_map p_ratio]. rewrite NK, NKr. f_equal; [| ring].
      rewrite (rsum_ext L _ (fun c => nth c (p_eff p) zvec i * w c)) by (intros c C; rewrite app_nth1 by (fold L; lia); reflexivity). rewrite O.
      apply rsum_ext. intros j J. unfold rec_weight. cbn [p_map p_ratio]. rewrite NM, NR by lia. reflexivity.
Qed.
Lemma patch_inv_merge bits nominal k p c0 : patch_inv bits nominal k p -> (c0 < length (p_eff p))%nat -> let ratio := nth k nominal 0 / nth (nth c0 (p_founder p) 0%nat) nominal 0 in
  patch_inv bits nominal (S k) (mkPatch (upd (p_eff p) c0 (fun i => nth c0 (p_eff p) zvec i + colm bits k i * ratio)) (p_founder p) (p_map p ++ [Some c0]) (p_ratio p ++ [ratio])).
Proof.
  intros I FC ratio. destruct I as [M Ra F Rg Fo Me O]. unfold ratio. set (L := length (p_eff p)) in *.
    set (ra := nth k nominal 0 / nth (nth c0 (p_founder p) 0%nat) nominal 0).
    assert (NM : forall j, (j < k)%nat -> nth j (p_map p ++ [Some c0]) None = nth j (p_map p) None) by (intros; apply app_nth1; lia).
    assert (NR : forall j, (j < k)%nat -> nth j (p_ratio p ++ [ra]) 0 = nth j (p_ratio p) 0) by (intros; apply app_nth1; lia).
    assert (NK : nth k (p_map p ++ [Some c0]) None = Some c0) by (rewrite app_nth2, M, Nat.sub_diag by lia; reflexivity).
    assert (NKr : nth k (p_ratio p ++ [ra]) 0 = ra) by (rewrite app_nth2, Ra, Nat.sub_diag by lia; reflexivity).
    constructor; cbn [p_eff p_founder p_map p_ratio]; rewrite ?upd_length, ?app_length; cbn [length]; fold L; try lia.
    + intros j c J E. destruct (Nat.eq_dec j k) as [-> | N]. { rewrite NK in E. injection E as <-. lia. } rewrite NM in E by lia. pose proof (Rg j c ltac:(lia) E). lia.
    + intros c C. specialize (Fo c ltac:(lia)) as (A1 & A2 & A3). rewrite NM, NR by lia. repeat split; [lia | assumption ..].
    + intros j c J E. destruct (Nat.eq_dec j k) as [-> | N]. { right. rewrite NK in E. injection E as <-. rewrite NKr. reflexivity. }
      rewrite NM in E by lia. rewrite NR by lia. apply Me; [lia | exact E].
    + intros w i. cbn [rsum]. unfold rec_weight at 2. cbn [p_map p_ratio]. rewrite NK, NKr.
      rewrite (rsum_update L c0 _ (fun c => nth c (p_eff p) zvec i * w c) (m_at bits i k * (w c0 * ra))).
      * f_equal. rewrite O. apply rsum_ext. intros j J. unfold rec_weight. cbn [p_map p_ratio]. rewrite NM, NR by lia. reflexivity.
      * exact FC.
      * rewrite upd_nth by exact FC. rewrite Nat.eqb_refl. unfold colm. ring.
      * intros c C N. rewrite upd_nth by exact FC. destruct (Nat.eqb_spec c c0); [contradiction | reflexivity].
Qed.
Lemma patch_inv_full bits nominal : patch_inv bits nominal (m_m bits) (full_patch bits).
Proof.
  unfold full_patch.
  constructor; cbn [p_eff p_founder p_map p_ratio]; rewrite ?map_length, ?seq_length, ?repeat_length; try reflexivity.
    + intros j c J E. rewrite (nth_indep _ None (Some 0%nat)) in E by (rewrite map_length, seq_length; exact J). rewrite map_nth, seq_nth in E by exact J. injection E as <-. exact J.
    + intros c C. rewrite seq_nth by exact C. cbn [Nat.add]. rewrite (nth_indep _ None (Some 0%nat)) by (rewrite map_length, seq_length; exact C). rewrite map_nth, seq_nth by exact C.
      repeat split; [exact C |]. apply nth_repeat_lt || (rewrite (nth_indep _ 0 1) by (rewrite repeat_length; exact C); apply nth_repeat).
    + intros j c J E. left. rewrite (nth_indep _ None (Some 0%nat)) in E by (rewrite map_length, seq_length; exact J). rewrite map_nth, seq_nth in E by exact J. injection E as <-. cbn. rewrite seq_nth by exact J. reflexivity.
    + intros w i. apply rsum_ext. intros j J. unfold rec_weight. cbn [p_map p_ratio].
      rewrite (nth_indep (map Some _) None (Some 0%nat)) by (rewrite map_length, seq_length; exact J). rewrite map_nth, seq_nth by exact J.
      rewrite (nth_indep (repeat 1 _) 0 1) by (rewrite repeat_length; exact J). rewrite nth_repeat.
      rewrite (nth_indep _ zvec (colm bits 0%nat)) by (rewrite map_length, seq_length; exact J). rewrite map_nth, seq_nth by exact J. unfold colm. cbn. ring.
Qed.
Lemma m_find_range n col eff : forall k c, m_find n col eff k = Some c -> (k <= c < k + length eff)%nat.
Proof. induction eff as [| e eff IH]; intros k c; cbn [m_find length]; [discriminate |]. destruct (m_match n col e). { intros E. injection E as <-. lia. } intros E. apply IH in E. lia. Qed.
Lemma m_patch_inv_step rank bits nominal k p : patch_inv bits nominal k p -> patch_inv bits nominal (S k) (m_patch_step rank (m_n bits) nominal p k (colm bits k)).
Proof.
  intros I. unfold m_patch_step. destruct (Reqb _ _); [apply patch_inv_drop; exact I |]. destruct (_ <? _)%nat; [apply patch_inv_append; exact I |].
  destruct (m_find (m_n bits) (colm bits k) (p_eff p) 0) as [c0 |] eqn:FC; [| apply patch_inv_drop; exact I]. apply m_find_range in FC. apply (patch_inv_merge bits nominal k p c0 I). lia.
Qed.
Lemma m_patch_fold rank bits nominal k : patch_inv bits nominal k (fold_left (fun st j => m_patch_step rank (m_n bits) nominal st j (colm bits j)) (seq 0 k) (mkPatch [] [] [] [])).
Proof.
  induction k as [| k IH]; [constructor; cbn; try reflexivity; intros; lia |]. rewrite seq_S, fold_left_app. cbn [fold_left Nat.add]. apply m_patch_inv_step. exact IH.
Qed.
Lemma m_patch_inv rank ap bits nom p : (0 < m_m bits)%nat -> m_patch rank ap bits nom = Ok p -> patch_inv bits nom (m_m bits) p /\ (0 < length (p_eff p))%nat /\ ((ap = false /\ p = full_patch bits) \/ (p = full_patch bits /\ (m_m bits + 1 <= rank (hcat bits (ones (m_n bits))))%nat) \/ (length (p_eff p) + 1 <= rank (hcat (ones (m_n bits)) (of_cols (m_n bits) (p_eff p))))%nat).
Proof.
  intros MP. unfold m_patch. cbv zeta. destruct ap; cbn [andb].
  - destruct (Nat.ltb_spec (rank (hcat bits (ones (m_n bits)))) (m_m bits + 1)) as [Y | Y].
    + match goal with |- context [fold_left ?f ?l ?x] => set (q := fold_left f l x) end. destruct (Nat.ltb_spec (rank (hcat (ones (m_n bits)) (of_cols (m_n bits) (p_eff q)))) (length (p_eff q) + 1)) as [A | A]; [intros E; discriminate E |]. destruct (Nat.eqb_spec (length (p_eff q)) 0) as [B | B]; [intros E; discriminate E |].
      cbn [orb raise_if]. intros E. apply Ok_inj in E. subst p. split; [apply m_patch_fold |]. split; [lia |]. right. right. exact A.
    + intros E. apply Ok_inj in E. subst p. split; [apply patch_inv_full |]. split; [cbn; rewrite map_length, seq_length; exact MP |]. right. left. split; [reflexivity | exact Y].
  - intros E. apply Ok_inj in E. subst p. split; [apply patch_inv_full |]. split; [cbn; rewrite map_length, seq_length; exact MP |]. left. split; reflexivity.
Qed.
(** After patching: the weights mapped back reproduce the output of the merged columns; a bit is dropped, has a column of its own or
    shares one in the nominal ratio; and with autopatch the merged columns and the constant are independent. *)
Lemma c174_patch rank ap bits nom p we : rank_correct rank -> (0 < m_m bits)%nat -> m_patch rank ap bits nom = Ok p ->
  let w := rec_weight we p in
  (forall i, output bits w i = output (of_cols (m_n bits) (p_eff p)) we i) /\ (0 < length (p_eff p))%nat /\
  (forall j, (j < m_m bits)%nat -> w j = 0 \/ exists c founder, (c < length (p_eff p))%nat /\ (founder < m_m bits)%nat /\ w founder = we c /\ (j = founder \/ w j = w founder * (nth j nom 0 / nth founder nom 0))) /\
  (ap = true -> independent (hcat (of_cols (m_n bits) (p_eff p)) (ones (m_n bits)))).
Proof.
  intros (RC & _) MP E w. destruct (m_patch_inv rank ap bits nom p MP E) as (I & LP & CASE). split; [| split; [exact LP | split]].
  - intros i. unfold output. cbn [of_cols m_m m_at]. rewrite (pi_out _ _ _ _ I). reflexivity.
  - intros j J. unfold w, rec_weight. destruct (nth j (p_map p) None) as [c |] eqn:EC; [right | left; reflexivity].
    pose proof (pi_range _ _ _ _ I j c J EC) as C. destruct (pi_founders _ _ _ _ I c C) as (F1 & F2 & F3). exists c, (nth c (p_founder p) 0%nat). split; [exact C |]. split; [exact F1 |]. rewrite F2, F3. split; [ring |].
    destruct (pi_merged _ _ _ _ I j c J EC) as [X | X]; [left; exact X | right]. rewrite X. ring.
  - intros AP. destruct CASE as [(A & _) | [(-> & R) | R]]; [congruence | |].
    + assert (R' : (m_m (hcat bits (ones (m_n bits))) <= rank (hcat bits (ones (m_n bits))))%nat) by exact R. apply RC in R'. intros x Z j J. apply (R' x); [| cbn [hcat of_cols ones m_m] in *; cbn in J; rewrite map_length, seq_length in J; exact J].
      intros i Hi. specialize (Z i Hi). change (mv (hcat (full_eff bits) (ones (m_n bits))) x i = 0) in Z. change (mv (hcat bits (ones (m_n bits))) x i = 0). rewrite mv_hcat in *. rewrite full_eff_m in Z. rewrite <- Z. f_equal.
      unfold mv. rewrite full_eff_m. apply rsum_ext. intros c C. f_equal. unfold full_eff, of_cols. cbn [m_at]. rewrite (nth_indep _ zvec (colm bits 0%nat)) by (rewrite map_length, seq_length; exact C). rewrite map_nth, seq_nth by exact C. reflexivity.
    + set (n := m_n bits) in *. set (F := of_cols n (p_eff p)) in *. assert (R' : (m_m (hcat (ones n) F) <= rank (hcat (ones n) F))%nat) by (change (1 + length (p_eff p) <= rank (hcat (ones n) F))%nat; lia).
      apply RC in R'. assert (FM : m_m F = length (p_eff p)) by reflexivity. intros x Z.
      pose proof (R' (fun j => match j with O => x (m_m F) | S j' => x j' end)) as Q.
      assert (QZ : forall i, (i < m_n (hcat (ones n) F))%nat -> rsum (m_m (hcat (ones n) F)) (fun j => m_at (hcat (ones n) F) i j * match j with O => x (m_m F) | S j' => x j' end) = 0).
      { intros i Hi. specialize (Z i Hi). change (mv (hcat F (ones n)) x i = 0) in Z. change (mv (hcat (ones n) F) (fun j => match j with O => x (m_m F) | S j' => x j' end) i = 0). rewrite mv_hcat in *. rewrite mv_ones in *. cbn [ones m_m] in *. rewrite Nat.add_0_r in Z. rewrite <- Z. change (x (m_m F) + mv F x i = mv F x i + x (m_m F)). ring. }
      specialize (Q QZ). intros j J. cbn [hcat ones m_m] in J. destruct (Nat.eq_dec j (m_m F)) as [-> | N]; [exact (Q 0%nat ltac:(cbn; lia)) | exact (Q (S j) ltac:(cbn [hcat ones m_m]; lia))].
Qed.
(** One column is treated as in Python unless it, or the product of two deviations, is below Python's thresholds of 10^-15. *)
Lemma c174_patch_step rank n nom st j col : let dev v := vrms n (fun i => v i - vmean n v) in
  vptp n col = 0 \/ 1 / 10 ^ 15 <= vptp n col -> (forall e, In e (p_eff st) -> dev col * dev e = 0 \/ 1 / 10 ^ 15 <= dev col * dev e) -> m_patch_step rank n nom st j col = patch_step rank n nom st j col.
Proof.
  intros dev CV PV. assert (E15 : 0 < 1 / 10 ^ 15) by (apply Rdiv_lt_0_compat; [lra | apply pow_lt; lra]). unfold m_patch_step, patch_step. cbv zeta.
  assert (C : Reqb (vptp n col) 0 = Rltb (vptp n col) (1 / 10 ^ 15)) by (destruct (Reqb_spec (vptp n col) 0); destruct (Rltb_spec (vptp n col) (1 / 10 ^ 15)); try reflexivity; exfalso; lra). rewrite C. destruct (Rltb _ _); [reflexivity |].
  change (hcat (hcat (ones n) (of_cols n (p_eff st))) (of_cols n [col])) with (hcat (hcat (ones n) (of_cols n (p_eff st))) (of_cols n [col])). destruct (_ <? _)%nat; [reflexivity |].
  assert (MF : forall l k, (forall e, In e l -> dev col * dev e = 0 \/ 1 / 10 ^ 15 <= dev col * dev e) -> m_find n col l k = find_correlated n col l k).
  { induction l as [| e l IH]; intros k P; [reflexivity |]. cbn [m_find find_correlated]. rewrite <- (IH (S k)) by (intros; apply P; right; assumption).
    assert (MM : m_match n col e = Rltb (Rabs (Rabs (correlation n col e) - 1)) (1 / 1000)); [| rewrite MM; reflexivity].
    unfold m_match, correlation. cbv zeta. fold (dev col) (dev e). change (sqrt (vmean n (fun i => (col i - vmean n col) ^ 2))) with (dev col). change (sqrt (vmean n (fun i => (e i - vmean n e) ^ 2))) with (dev e).
    destruct (P e (or_introl eq_refl)) as [Z | Z].
    - assert (T : (Reqb (dev col) 0 || Reqb (dev e) 0)%bool = true) by (apply Rmult_integral in Z; destruct (Reqb_spec (dev col) 0); [reflexivity |]; destruct (Reqb_spec (dev e) 0); [reflexivity | tauto]). rewrite T, Z. destruct (Rltb_spec 0 (1 / 10 ^ 15)); [| lra].
      rewrite Rabs_R0. replace (0 - 1) with (- (1)) by ring. rewrite Rabs_Ropp, Rabs_R1. destruct (Rltb_spec 1 (1 / 1000)); [lra | reflexivity].
    - assert (N1 : dev col <> 0) by (intros Q; rewrite Q in Z; lra). assert (N2 : dev e <> 0) by (intros Q; rewrite Q in Z; lra). destruct (Reqb_spec (dev col) 0); [contradiction |]. destruct (Reqb_spec (dev e) 0); [contradiction |]. cbn [orb]. destruct (Rltb_spec (dev col * dev e) (1 / 10 ^ 15)); [lra |].
      do 4 f_equal. field. split; assumption. }
  rewrite (MF (p_eff st) 0%nat PV). reflexivity.
Qed.
(** ** Every result *)
Lemma m_solve_end lin bits p freq fsearch H rate reltol niter : exists f x sel, m_solve lin bits p freq fsearch H rate reltol niter = m_end bits p H f x sel /\ (fsearch = false -> f = freq).
Proof.
  unfold m_solve. cbv zeta. destruct (m_two _ _ _ _ _) as [x0 sel0]. destruct fsearch.
  - destruct (m_fine _ _ _ _ _ _ _ _ _) as [[f x] sel]. exists f, x, sel. split; [reflexivity | discriminate].
  - exists freq, x0, sel0. split; reflexivity.
Qed.
Lemma coef_square x sel M H : m_cosc x sel M H 0%nat ^ 2 + m_sinc x sel M H 0%nat ^ 2 = 1 + x (M + H)%nat ^ 2.
Proof. unfold m_cosc, m_sinc, m_first, m_second. destruct sel; cbv beta iota; rewrite Nat.add_0_r; ring. Qed.
Lemma flip_sign_cases m w : flip_sign m w = 1 \/ flip_sign m w = -1.
Proof. unfold flip_sign. destruct (Rltb _ _); tauto. Qed.
Lemma flip_sum m w : 0 <= rsum m (fun j => flip_sign m w * w j).
Proof. rewrite rsum_scale. unfold flip_sign. destruct (Rltb_spec (rsum m w) 0); lra. Qed.
Lemma m_end_invariants bits p H f x sel : (1 <= H)%nat -> let c := m_end bits p H f x sel in
  exists d ca sb, mc_sets c = [d] /\ mc_freq c = [f] /\ 0 <= rsum (m_m bits) (mc_weight c) /\ (forall t, ms_postcal d t = output bits (mc_weight c) t) /\
    (forall t, ms_ideal d t = tone H 0 ca sb f t) /\ amplitude (ca 0%nat) (sb 0%nat) = 1 /\ forall t, ms_err d t = ms_postcal d t - mc_offset c - ms_ideal d t.
Proof.
  intros H1 c. unfold m_end in c. cbv zeta in c. set (n := m_n bits) in c. set (eff := of_cols n (p_eff p)) in c. set (M := m_m (m_scale eff)) in c.
  set (w0 := sqrt (1 + x (M + H)%nat ^ 2)) in c. set (weight := m_weights x w0 eff p) in c. set (offset := - x M / w0) in c.
  set (ideal := fun i => - (mv (cos_block n f H) (m_cosc x sel M H) i + mv (sin_block n f H) (m_sinc x sel M H) i) / w0) in c.
  set (r := mkMcal weight offset [m_make_set bits weight offset ideal] [f]) in c.
  assert (WP : 0 < w0) by (apply sqrt_lt_R0; pose proof (pow2_ge_0 (x (M + H)%nat)); lra).
  assert (W2 : w0 ^ 2 = 1 + x (M + H)%nat ^ 2) by (unfold w0; rewrite pow2_sqrt; [reflexivity | pose proof (pow2_ge_0 (x (M + H)%nat)); lra]).
  destruct (m_flip_spec (m_m bits) r) as (FW & FO & FF & FL & FS). fold c in FW, FO, FF, FL, FS. set (s := flip_sign (m_m bits) (mc_weight r)) in *. cbn [r mc_sets length] in FL, FS.
  destruct (mc_sets c) as [| d [| d' l]] eqn:ES; try (cbn in FL; lia). specialize (FS d 0%nat). cbn [nth] in FS.
  exists d, (fun h => - s / w0 * m_cosc x sel M H h), (fun h => - s / w0 * m_sinc x sel M H h).
  split; [reflexivity |]. split; [exact FF |]. split. { rewrite (rsum_ext _ _ (fun j => s * mc_weight r j)) by (intros; apply FW). apply flip_sum. }
  assert (P : forall t, ms_postcal d t = output bits (mc_weight c) t).
  { intros t. destruct (FS t ltac:(lia)) as (-> & _ & _). cbn [m_make_set ms_postcal]. unfold mv, output. rewrite <- rsum_scale. apply rsum_ext. intros j J. rewrite FW. cbn [r mc_weight]. ring. }
  split; [exact P |]. split.
  { intros t. destruct (FS t ltac:(lia)) as (_ & -> & _). cbn [m_make_set ms_ideal]. rewrite (tone_mv n). unfold ideal.
    rewrite (mv_scale (cos_block n f H) (- s / w0) (fun h => - s / w0 * m_cosc x sel M H h) (m_cosc x sel M H)) by reflexivity. rewrite (mv_scale (sin_block n f H) (- s / w0) (fun h => - s / w0 * m_sinc x sel M H h) (m_sinc x sel M H)) by reflexivity. unfold Rdiv. ring. }
  split.
  { unfold amplitude. replace ((- s / w0 * m_cosc x sel M H 0%nat) ^ 2 + (- s / w0 * m_sinc x sel M H 0%nat) ^ 2) with (s ^ 2 * / w0 ^ 2 * (m_cosc x sel M H 0%nat ^ 2 + m_sinc x sel M H 0%nat ^ 2)) by (field; lra).
    rewrite coef_square, <- W2. replace (s ^ 2) with 1 by (destruct (flip_sign_cases (m_m bits) (mc_weight r)) as [Q | Q]; fold s in Q; rewrite Q; ring). replace (1 * / w0 ^ 2 * w0 ^ 2) with 1 by (field; lra). apply sqrt_1. }
  intros t. destruct (FS t ltac:(lia)) as (-> & -> & ->). rewrite FO. cbn [m_make_set ms_postcal ms_ideal ms_err r mc_offset]. ring.
Qed.
(** Every result for one record: weights with non-negative sum, output and error from them, a tone of amplitude one, and a given
    frequency kept without a search. *)
Lemma c174_invariants lin rank bits0 freq rate reltol niter order fsearch at_ ap nom c : m_wcalsin lin rank bits0 freq rate reltol niter order fsearch at_ ap nom = Ok (Some c) ->
  let bits := m_orient at_ bits0 in let H := Z.to_nat (Z.max (m_round order) 1) in
  exists d f ca sb, mc_sets c = [d] /\ mc_freq c = [f] /\ 0 <= rsum (m_m bits) (mc_weight c) /\ (forall t, ms_postcal d t = output bits (mc_weight c) t) /\
    (forall t, ms_ideal d t = tone H 0 ca sb f t) /\ amplitude (ca 0%nat) (sb 0%nat) = 1 /\ (forall t, ms_err d t = ms_postcal d t - mc_offset c - ms_ideal d t) /\ (freq <> 0 -> fsearch = false -> f = freq).
Proof.
  intros E bits H. unfold m_wcalsin in E. fold bits in E. destruct (_ || m_bad_options _ _ _ _)%bool; [discriminate E |]. cbn [raise_if] in E. destruct (_ =? 0)%nat; [discriminate E |]. cbn [raise_if] in E. change (m_order order) with H in E.
  assert (H1 : (1 <= H)%nat) by (unfold H; lia). destruct (m_patch _ _ _ _) as [p | e]; [| discriminate E]. cbn [bind] in E.
  assert (G : exists fr fs, c = m_solve lin bits p fr fs H rate reltol niter /\ (freq <> 0 -> fsearch = false -> fr = freq /\ fs = false)).
  { destruct (Reqb_spec freq 0) as [Z | Z].
    - destruct (m_coarse _ _ _ _) as [[f |] | e]; cbn [bind] in E; try discriminate E. apply Ok_inj in E. injection E as <-. exists f, true. split; [reflexivity | intros; contradiction].
    - apply Ok_inj in E. injection E as <-. exists freq, fsearch. split; [reflexivity | intros; split; [reflexivity | assumption]]. }
  destruct G as (fr & fs & -> & G). destruct (m_solve_end lin bits p fr fs H rate reltol niter) as (f & x & sel & -> & F).
  destruct (m_end_invariants bits p H f x sel H1) as (d & ca & sb & A1 & A2 & A3 & A4 & A5 & A6 & A7). exists d, f, ca, sb. repeat (split; [assumption |]). intros NZ FS. destruct (G NZ FS) as (-> & ->). apply F. reflexivity.
Qed.
Lemma vptp_const n col v : (forall i, (i < n)%nat -> col i = v) -> vptp n col = 0.
Proof.
  intros C. unfold vptp. assert (A : forall y, In y (map col (seq 0 n)) -> y = v) by (intros y Y; apply in_map_iff in Y; destruct Y as (i & <- & I); apply in_seq in I; apply C; lia).
  destruct (map col (seq 0 n)) as [| x l]; [reflexivity |]. assert (X : x = v) by (apply A; left; reflexivity). subst x.
  assert (B : forall m : list R, (forall y, In y m -> y = v) -> lmax1 v m = v /\ lmin1 v m = v).
  { unfold lmax1, lmin1. induction m as [| y m IH]; intros Q; [split; reflexivity |]. cbn [fold_right]. destruct (IH (fun y' Y' => Q y' (or_intror Y'))) as (-> & ->). rewrite (Q y (or_introl eq_refl)). unfold Rmax, Rmin. destruct (Rle_dec v v); split; reflexivity. }
  destruct (B l (fun y Y => A y (or_intror Y))) as (-> & ->). ring.
Qed.
Lemma m_patch_constant rank bits nom : rank_correct rank -> (0 < m_n bits)%nat -> (0 < m_m bits)%nat -> (forall i j, (i < m_n bits)%nat -> (j < m_m bits)%nat -> m_at bits i j = m_at bits 0 j) -> m_patch rank true bits nom = Err RuntimeError.
Proof.
  intros (RC & _) NP MP C. unfold m_patch. cbv zeta. cbn [andb].
  assert (D : ~ independent (hcat bits (ones (m_n bits)))).
  { intros I. specialize (I (fun j => if (j =? 0)%nat then 1 else if (j =? m_m bits)%nat then - m_at bits 0 0 else 0)).
    assert (Z : forall i, (i < m_n (hcat bits (ones (m_n bits))))%nat -> rsum (m_m (hcat bits (ones (m_n bits)))) (fun j => m_at (hcat bits (ones (m_n bits))) i j * (if (j =? 0)%nat then 1 else if (j =? m_m bits)%nat then - m_at bits 0 0 else 0)) = 0).
    { intros i Hi. cbn [hcat m_n] in Hi. match goal with |- rsum _ (fun j => _ * @?x j) = 0 => change (mv (hcat bits (ones (m_n bits))) x i = 0) end. rewrite mv_hcat, mv_ones. rewrite Nat.add_0_r, Nat.eqb_refl. destruct (Nat.eqb_spec (m_m bits) 0); [lia |].
      unfold mv. rewrite (rsum_single (m_m bits) 0). 2: lia. 2: { intros j J NJ. destruct (Nat.eqb_spec j 0); [contradiction |]. destruct (Nat.eqb_spec j (m_m bits)); [lia |]. ring. }
      cbn [Nat.eqb]. rewrite (C i 0%nat Hi MP). ring. }
    specialize (I Z 0%nat ltac:(cbn; lia)). cbn in I. lra. }
  destruct (Nat.ltb_spec (rank (hcat bits (ones (m_n bits)))) (m_m bits + 1)) as [_ | Y]; [| exfalso; apply D; apply RC; cbn [hcat ones m_m]; exact Y].
  match goal with |- context [fold_left ?f ?l ?x] => set (q := fold_left f l x) end.
  assert (Q : p_eff q = []).
  { unfold q. assert (B : forall k st, p_eff st = [] -> forall s, (s + k <= m_m bits)%nat -> p_eff (fold_left (fun st j => m_patch_step rank (m_n bits) nom st j (colm bits j)) (seq s k) st) = []).
    { induction k as [| k IH]; intros st ST s SK; [exact ST |]. cbn [seq fold_left]. apply IH; [| lia]. unfold m_patch_step. rewrite (vptp_const (m_n bits) (colm bits s) (m_at bits 0 s)) by (intros i I; apply C; [exact I | lia]). destruct (Reqb_spec 0 0); [exact ST | lra]. }
    apply B; [reflexivity | lia]. }
  rewrite Q. cbn [length]. rewrite orb_true_r. reflexivity.
Qed.
(** A record in which no bit ever changes is refused when patching (Python fails with an index error, C37). *)
Lemma c174_constant_bits lin rank bits freq rate reltol niter order fsearch at_ nom : rank_correct rank -> (forall i j, (i < m_n (m_orient at_ bits))%nat -> (j < m_m (m_orient at_ bits))%nat -> m_at (m_orient at_ bits) i j = m_at (m_orient at_ bits) 0 j) ->
  m_wcalsin lin rank bits freq rate reltol niter order fsearch at_ true nom = Err RuntimeError.
Proof.
  intros RC C. unfold m_wcalsin. destruct (_ || m_bad_options _ _ _ _)%bool; [reflexivity |]. cbn [raise_if]. cbv zeta. destruct (Nat.eqb_spec (m_n (m_orient at_ bits) * m_m (m_orient at_ bits)) 0) as [Z | Z]; [reflexivity |]. cbn [raise_if].
  rewrite m_patch_constant; [reflexivity | exact RC | | | exact C]; destruct (m_n (m_orient at_ bits)); destruct (m_m (m_orient at_ bits)); lia.
Qed.
Lemma full_col bits j : (j < m_m bits)%nat -> colm (full_eff bits) j = colm bits j.
Proof. intros J. unfold full_eff. change (colm (of_cols (m_n bits) (map (colm bits) (seq 0 (m_m bits)))) j) with (nth j (map (colm bits) (seq 0 (m_m bits))) zvec). rewrite (nth_map_in (colm bits) (seq 0 (m_m bits)) j 0%nat) by (rewrite seq_length; exact J). rewrite seq_nth by exact J. reflexivity. Qed.
(** Frequency 0: the search starts from the median of the estimates from the first 1, 2, … 5 columns weighted by the nominal weights. *)
Lemma c174_automatic lin rank bits rate reltol niter order fsearch at_ ap nom e : rank_correct rank -> independent (hcat bits (ones (m_n bits))) -> 0 < rate < 1 -> 0 < reltol -> (0 < niter)%nat -> 0 < order -> (0 < m_m bits <= m_n bits)%nat -> nom <> [] ->
  let x k i := rsum k (fun j => m_at bits i j * powerRZ 10 (- m_mag (m_n bits) (colm bits j)) * nth j nom 0) in
  (forall k, (1 <= k <= Nat.min (m_m bits) 5)%nat -> m_findfreq lin (map (fun i => [x k i]) (seq 0 (m_n bits))) 1 = Ok (Fin (e k))) ->
  let f := median (map e (seq 1 (Nat.min (m_m bits) 5))) in 0 < f ->
  m_wcalsin lin rank bits 0 rate reltol niter order fsearch at_ ap nom = m_wcalsin lin rank bits f rate reltol niter order true at_ ap nom.
Proof.
  intros RC IN R RT NI OR M NN x EST f FP. rewrite (m_wcalsin_full lin rank bits f) by assumption. unfold m_wcalsin. rewrite m_options_ok by assumption. destruct (Rltb_spec 0 0); [lra |]. cbn [orb raise_if]. cbv zeta. rewrite m_orient_id by lia.
  destruct (Nat.eqb_spec (m_n bits * m_m bits) 0) as [Z | _]; [apply Nat.eq_mul_0 in Z; lia |]. cbn [raise_if]. rewrite (m_patch_full rank ap bits _ RC IN). cbn [bind]. destruct (Reqb_spec 0 0); [| lra]. fold (full_patch bits). change (of_cols (m_n bits) (p_eff (full_patch bits))) with (full_eff bits).
  change (p_founder (full_patch bits)) with (seq 0 (m_m bits)). assert (NE : m_nominal (m_m bits) nom = nom) by (destruct nom; [contradiction | reflexivity]). rewrite NE.
  unfold m_coarse. assert (MM : m_m (m_scale (full_eff bits)) = m_m bits) by (exact (full_eff_m bits)). rewrite MM.
  assert (B : forall ks, (forall k, In k ks -> (1 <= k <= Nat.min (m_m bits) 5)%nat) -> m_estimates lin (m_scale (full_eff bits)) nom (seq 0 (m_m bits)) ks = Ok (Some (map e ks))).
  { induction ks as [| k ks IH]; intros KS; [reflexivity |]. cbn [m_estimates map]. pose proof (KS k (or_introl eq_refl)) as KB. change (m_n (m_scale (full_eff bits))) with (m_n bits).
    rewrite (map_ext_in _ (fun i => [x k i])). 2: { intros i I. apply in_seq in I. f_equal. unfold x. apply rsum_ext. intros j J. rewrite seq_nth by lia. cbn [Nat.add]. f_equal. destruct (m_scale_of bits) as (_ & _ & SE). destruct (SE i j ltac:(lia) ltac:(lia)) as (-> & _). unfold m_gain. rewrite full_col by lia. reflexivity. }
    rewrite (EST k KB). cbn [bind]. rewrite IH by (intros; apply KS; right; assumption). reflexivity. }
  rewrite B by (intros k K; apply in_seq in K; lia). reflexivity.
Qed.
(** ** Several records *)
Fixpoint row_of (l : list mat) (k : nat) : nat := match l, k with s :: r, S k' => (m_n s + row_of r k')%nat | _, _ => 0%nat end.
Lemma vcat_all_at m l : forall k t j d, (k < length l)%nat -> (t < m_n (nth k l d))%nat -> m_at (vcat_all m l) (row_of l k + t) j = m_at (nth k l d) t j.
Proof.
  induction l as [| s l IH]; intros k t j d K T; [cbn in K; lia |]. destruct k as [| k]; cbn [row_of nth vcat_all fold_right] in *.
  - apply vcat_single. exact T.
  - fold (vcat_all m l). unfold vcat. cbn [m_at]. destruct (Nat.ltb_spec (m_n s + row_of l k + t) (m_n s)); [lia |]. replace (m_n s + row_of l k + t - m_n s)%nat with (row_of l k + t)%nat by lia. apply IH; [cbn in K; lia | exact T].
Qed.
Lemma vcat_all_row m l d : forall i, (i < m_n (vcat_all m l))%nat -> exists k t, (k < length l)%nat /\ (t < m_n (nth k l d))%nat /\ i = (row_of l k + t)%nat.
Proof.
  induction l as [| s l IH]; intros i I; [cbn in I; lia |]. change (m_n (vcat_all m (s :: l))) with (m_n s + m_n (vcat_all m l))%nat in I. destruct (Nat.lt_ge_cases i (m_n s)) as [A | A].
  - exists 0%nat, i. cbn. repeat split; try lia.
  - destruct (IH (i - m_n s)%nat ltac:(lia)) as (k & t & K & T & E). exists (S k), t. cbn [length nth row_of]. repeat split; try lia; exact T.
Qed.
Lemma vcat_all_lt m l d : forall k t, (k < length l)%nat -> (t < m_n (nth k l d))%nat -> (row_of l k + t < m_n (vcat_all m l))%nat.
Proof.
  induction l as [| s l IH]; intros k t K T; [cbn in K; lia |]. change (m_n (vcat_all m (s :: l))) with (m_n s + m_n (vcat_all m l))%nat. destruct k as [| k]; cbn [row_of nth] in *; [lia |]. specialize (IH k t ltac:(cbn in K; lia) T). lia.
Qed.
Lemma vcat_all_m m l : (forall s, In s l -> m_m s = m) -> m_m (vcat_all m l) = m.
Proof. destruct l as [| s l]; intros A; [reflexivity |]. exact (A s (or_introl eq_refl)). Qed.
Section Blocks.
  Context (f : nat -> R -> nat -> mat) (total H : nat) (fr : nat -> R) (FN : forall n g h, m_n (f n g h) = n) (FM : forall n g h, m_m (f n g h) = h).
  Lemma blocks_length segs : forall k0, length (blocks f total H k0 segs fr) = length segs.
  Proof. induction segs as [| s r IH]; intros k0; [reflexivity |]. cbn [blocks length]. rewrite IH. reflexivity. Qed.
  Lemma blocks_nth segs d e : forall k0 k, (k < length segs)%nat -> nth k (blocks f total H k0 segs fr) e = pad_block total (k0 + k) (f (m_n (nth k segs d)) (fr (k0 + k)%nat) H).
  Proof.
    induction segs as [| s r IH]; intros k0 k K; [cbn in K; lia |]. destruct k as [| k]; cbn [blocks nth]; [rewrite Nat.add_0_r; reflexivity |]. rewrite IH by (cbn in K; lia). replace (S k0 + k)%nat with (k0 + S k)%nat by lia. reflexivity.
  Qed.
  Lemma blocks_row segs : forall k0 k, row_of (blocks f total H k0 segs fr) k = row_of segs k.
  Proof. induction segs as [| s r IH]; intros k0 k; destruct k; try reflexivity. cbn [blocks row_of]. rewrite IH. cbn [pad_block m_n]. rewrite FN. reflexivity. Qed.
  Lemma blocks_n segs m : forall k0, m_n (vcat_all m (blocks f total H k0 segs fr)) = m_n (vcat_all m segs).
  Proof. induction segs as [| s r IH]; intros k0; [reflexivity |]. cbn [blocks]. change (m_n (vcat_all m (s :: r))) with (m_n s + m_n (vcat_all m r))%nat. rewrite <- (IH (S k0)). change (m_n (vcat_all m (pad_block total k0 (f (m_n s) (fr k0) H) :: blocks f total H (S k0) r fr))) with (m_n (f (m_n s) (fr k0) H) + m_n (vcat_all m (blocks f total H (S k0) r fr)))%nat. rewrite FN. reflexivity. Qed.
  Lemma blocks_m segs k0 : m_m (vcat_all total (blocks f total H k0 segs fr)) = total.
  Proof. destruct segs; reflexivity. Qed.
  Lemma blocks_at segs k t j d : (k < length segs)%nat -> (t < m_n (nth k segs d))%nat -> m_at (vcat_all total (blocks f total H 0 segs fr)) (row_of segs k + t) j = m_at (pad_block total k (f (m_n (nth k segs d)) (fr k) H)) t j.
  Proof.
    intros K T. rewrite <- (blocks_row segs 0 k). rewrite (vcat_all_at total (blocks f total H 0 segs fr) k t j (pad_block total k (f (m_n (nth k segs d)) (fr k) H))).
    - rewrite (blocks_nth segs d) by exact K. reflexivity.
    - rewrite blocks_length. exact K.
    - rewrite (blocks_nth segs d) by exact K. cbn [pad_block m_n]. rewrite FN. exact T.
  Qed.
  Lemma blocks_own segs k t h d : (k < length segs)%nat -> (t < m_n (nth k segs d))%nat -> (h < H)%nat -> m_at (vcat_all total (blocks f total H 0 segs fr)) (row_of segs k + t) (k * H + h) = m_at (f (m_n (nth k segs d)) (fr k) H) t h.
  Proof.
    intros K T Hh. rewrite (blocks_at segs k t (k * H + h) d K T). cbn [pad_block m_at]. rewrite FM. destruct (Nat.leb_spec (k * H) (k * H + h)); [| lia]. destruct (Nat.ltb_spec (k * H + h) ((k + 1) * H)); [| nia]. cbn [andb]. f_equal. lia.
  Qed.
  Lemma blocks_mv segs k t x d : total = (length segs * H)%nat -> (k < length segs)%nat -> (t < m_n (nth k segs d))%nat ->
    mv (vcat_all total (blocks f total H 0 segs fr)) x (row_of segs k + t)%nat = mv (f (m_n (nth k segs d)) (fr k) H) (fun h => x (k * H + h)%nat) t.
  Proof.
    intros TE K T. unfold mv. rewrite blocks_m, FM. replace total with (k * H + (H + (length segs - k - 1) * H))%nat at 1 by (rewrite TE; nia). rewrite rsum_app, rsum_app.
    rewrite (rsum_zero (k * H)). 2: { intros j J. rewrite (blocks_at segs k t j d K T). cbn [pad_block m_at]. rewrite FM. destruct (Nat.leb_spec (k * H) j); [lia |]. cbn [andb]. ring. }
    rewrite (rsum_zero ((length segs - k - 1) * H)). 2: { intros j J. rewrite (blocks_at segs k t _ d K T). cbn [pad_block m_at]. rewrite FM. destruct (Nat.ltb_spec (k * H + (H + j)) ((k + 1) * H)); [nia |]. rewrite andb_false_r. ring. }
    rewrite Rplus_0_l, Rplus_0_r. apply rsum_ext. intros h Hh. rewrite (blocks_own segs k t h d K T Hh). reflexivity.
  Qed.
End Blocks.
Lemma make_sets_length segs : forall k row H w o w0 cc sc xc xs, length (m_make_sets segs k row H w o w0 cc sc xc xs) = length segs.
Proof. induction segs as [| s r IH]; intros; [reflexivity |]. cbn [m_make_sets length]. rewrite IH. reflexivity. Qed.
Lemma make_sets_nth segs d e : forall k row H w o w0 cc sc xc xs k', (k' < length segs)%nat ->
  nth k' (m_make_sets segs k row H w o w0 cc sc xc xs) e =
  let s := nth k' segs d in let own a := cols_from ((k + k') * H) H (rows_from (row + row_of segs k') (m_n s) a) in
  m_make_set s w o (fun i => - (mv (own xc) (fun h => cc ((k + k') * H + h)%nat) i + mv (own xs) (fun h => sc ((k + k') * H + h)%nat) i) / w0).
Proof.
  induction segs as [| s r IH]; intros k row H w o w0 cc sc xc xs k' K; [cbn in K; lia |]. destruct k' as [| k']; cbn [m_make_sets nth row_of]; [rewrite !Nat.add_0_r; reflexivity |].
  rewrite IH by (cbn in K; lia). cbv zeta. replace (S k + k')%nat with (k + S k')%nat by lia. replace (row + m_n s + row_of r k')%nat with (row + (m_n s + row_of r k'))%nat by lia. reflexivity.
Qed.
Section Several.
  Context (l : list mat) (m H : nat) (fr : nat -> R) (WD : forall s, In s l -> m_m s = m) (NE : l <> []).
  Lemma stack_is : stack l = vcat_all m l.
  Proof. unfold stack. destruct l as [| s r]; [contradiction |]. rewrite (WD s (or_introl eq_refl)). reflexivity. Qed.
  Lemma stack_m : m_m (stack l) = m.
  Proof. rewrite stack_is. apply vcat_all_m. exact WD. Qed.
  Lemma nth_width k : (k < length l)%nat -> m_m (nth k l (ones 0)) = m.
  Proof. intros K. apply WD. apply nth_In. exact K. Qed.
  Lemma stack_output w k t : (k < length l)%nat -> (t < m_n (nth k l (ones 0)))%nat -> output (stack l) w (row_of l k + t) = output (nth k l (ones 0)) w t.
  Proof. intros K T. unfold output. rewrite stack_m, (nth_width k K). apply rsum_ext. intros j J. rewrite stack_is, (vcat_all_at m l k t j (ones 0) K T). reflexivity. Qed.
  Lemma basis_tone off c s k t : (k < length l)%nat -> (t < m_n (nth k l (ones 0)))%nat ->
    off + mv (cos_basis l fr H) c (row_of l k + t)%nat + mv (sin_basis l fr H) s (row_of l k + t)%nat = tone H off (fun h => c (k * H + h)%nat) (fun h => s (k * H + h)%nat) (fr k) t.
  Proof.
    intros K T. unfold cos_basis, sin_basis. rewrite (blocks_mv cos_block _ H fr (fun _ _ _ => eq_refl) (fun _ _ _ => eq_refl) l k t c (ones 0) eq_refl K T).
    rewrite (blocks_mv sin_block _ H fr (fun _ _ _ => eq_refl) (fun _ _ _ => eq_refl) l k t s (ones 0) eq_refl K T). symmetry. apply tone_mv.
  Qed.
  Lemma own_tone c s k t : (k < length l)%nat -> (t < m_n (nth k l (ones 0)))%nat ->
    mv (cols_from (k * H) H (rows_from (row_of l k) (m_n (nth k l (ones 0))) (cos_basis l fr H))) c t + mv (cols_from (k * H) H (rows_from (row_of l k) (m_n (nth k l (ones 0))) (sin_basis l fr H))) s t = tone H 0 c s (fr k) t.
  Proof.
    intros K T. rewrite (tone_mv (m_n (nth k l (ones 0)))), Rplus_0_l. unfold cos_basis, sin_basis. f_equal; unfold mv; cbn [cols_from rows_from m_m m_at]; apply rsum_ext; intros h Hh; f_equal.
    - exact (blocks_own cos_block _ H fr (fun _ _ _ => eq_refl) (fun _ _ _ => eq_refl) l k t h (ones 0) K T Hh).
    - exact (blocks_own sin_block _ H fr (fun _ _ _ => eq_refl) (fun _ _ _ => eq_refl) l k t h (ones 0) K T Hh).
  Qed.
End Several.
Lemma identifiable_all_independent l m H f w off a b : (forall s, In s l -> m_m s = m) -> l <> [] -> (0 < m_n (stack l))%nat -> (1 <= H)%nat -> a 0%nat 0%nat <> 0 \/ b 0%nat 0%nat <> 0 -> identifiable_all l m H f w off a b -> independent (hcat (stack l) (ones (m_n (stack l)))).
Proof.
  intros WD NE NP H1 NZ ID x Z. assert (SM : m_m (stack l) = m) by (apply stack_m; assumption). assert (LP : (0 < length l)%nat) by (destruct l; [contradiction | cbn; lia]).
  destruct (ID x (- x m) (fun _ _ => 0) (fun _ _ => 0)) as (k & K1 & K2 & K3).
  { intros k t K T. rewrite <- (stack_output l m WD NE x k t K T). assert (I : (row_of l k + t < m_n (stack l))%nat) by (rewrite (stack_is l m WD NE); apply (vcat_all_lt m l (ones 0)); assumption). specialize (Z _ I).
    change (mv (hcat (stack l) (ones (m_n (stack l)))) x (row_of l k + t)%nat = 0) in Z. rewrite mv_hcat, mv_ones, Nat.add_0_r, SM in Z. change (output (stack l) x (row_of l k + t)) with (mv (stack l) x (row_of l k + t)%nat).
    unfold tone. rewrite !rsum_zero by (intros; ring). lra. }
  destruct (K3 0%nat 0%nat LP ltac:(lia)) as (Q1 & Q2). assert (K0 : k = 0) by (destruct NZ as [N | N]; [symmetry in Q1; apply Rmult_integral in Q1 | symmetry in Q2; apply Rmult_integral in Q2]; tauto).
  subst k. intros j J. cbn [hcat ones m_m] in J. rewrite SM in J. destruct (Nat.eq_dec j m) as [-> | N]; [lra | rewrite (K1 j ltac:(lia)); ring].
Qed.
(** The record of the joint solve before the signs are settled. *)
Definition j_end (segs : list mat) (p : patch_state) (H : nat) (freq : list R) (x : vec) (sel : bool) : m_cal :=
  let all := stack segs in let eff := of_cols (m_n all) (p_eff p) in let M := m_m (m_scale eff) in let K := (length segs * H)%nat in
  let w0 := sqrt (1 + x (M + K)%nat ^ 2) in let weight := m_weights x w0 eff p in let offset := - x M / w0 in
  mkMcal weight offset (m_make_sets segs 0 0 H weight offset w0 (m_cosc x sel M K) (m_sinc x sel M K) (cos_basis segs (fun k => nth k freq 0) H) (sin_basis segs (fun k => nth k freq 0) H)) freq.
Lemma m_joint_end lin rank segs freq H ap nom : m_joint lin rank segs freq H ap nom = bind (m_patch rank ap (stack segs) nom) (fun p =>
  let '(x, sel) := m_two lin (m_scale (of_cols (m_n (stack segs)) (p_eff p))) (cos_basis segs (fun k => nth k freq 0) H) (sin_basis segs (fun k => nth k freq 0) H) (of_cols (m_n (stack segs)) []) in Ok (m_flip (m_m (stack segs)) (j_end segs p H freq x sel))).
Proof. unfold m_joint. cbv zeta. destruct (m_patch _ _ _ _) as [p | e]; [| reflexivity]. cbn [bind]. destruct (m_two _ _ _ _ _) as [x sel]. reflexivity. Qed.
Lemma given_freq l freq0 f : each_given l freq0 f -> match freq0 with [g] => repeat g (length l) | _ => freq0 end = f.
Proof.
  intros (L & [-> | (g & -> & ->)]); [| reflexivity]. destruct f as [| g [| g' r]]; try reflexivity. cbn in L. rewrite <- L. reflexivity.
Qed.
Lemma given_ok l freq0 f : l <> [] -> each_given l freq0 f -> (forall g, In g f -> 0 <= g) -> (length freq0 =? 0)%nat = false /\ existsb (fun f => Rltb f 0) freq0 = false.
Proof.
  intros NE (L & G) P. assert (LP : (0 < length l)%nat) by (destruct l; [contradiction | cbn; lia]). destruct G as [-> | (g & -> & ->)].
  - split; [apply Nat.eqb_neq; lia |]. apply not_true_iff_false. intros E. apply existsb_exists in E. destruct E as (g & I & E). specialize (P g I). destruct (Rltb_spec g 0); [lra | discriminate].
  - split; [reflexivity |]. cbn [existsb]. rewrite orb_false_r. destruct (Rltb_spec g 0) as [Q | Q]; [| reflexivity]. exfalso. assert (0 <= g); [| lra]. apply P. destruct (length l) as [| k]; [lia | left; reflexivity].
Qed.
Lemma m_orient_all_id at_ l m : (0 < m)%nat -> (forall s, In s l -> m_m s = m /\ (m <= m_n s)%nat) -> m_orient_all at_ l = Ok l.
Proof.
  intros MP. induction l as [| s r IH]; intros A; [reflexivity |]. destruct (A s (or_introl eq_refl)) as (A1 & A2). cbn [m_orient_all]. destruct (Nat.eqb_spec (m_n s * m_m s) 0) as [Z | _]; [apply Nat.eq_mul_0 in Z; lia |]. cbn [raise_if]. rewrite IH by (intros; apply A; right; assumption). cbn [bind]. rewrite m_orient_id by lia. reflexivity.
Qed.
Lemma m_cell_open lin rank l freq0 f m rate reltol niter order fs at_ ap nom : l <> [] -> each_given l freq0 f -> (forall g, In g f -> 0 <= g) -> 0 < rate < 1 -> 0 < reltol -> (0 < niter)%nat -> 0 < order -> (0 < m)%nat -> (forall s, In s l -> m_m s = m /\ (m <= m_n s)%nat) ->
  m_wcalsin_cell lin rank l freq0 rate reltol niter order fs at_ ap nom = bind (m_searches lin rank l f rate reltol niter order fs ap (m_nominal m nom)) (fun fr =>
    match fr with Some f => bind (m_joint lin rank l f (m_order order) ap (m_nominal m nom)) (fun c => Ok (Some c)) | None => Ok None end).
Proof.
  intros NE G P R RT NI OR MP A. unfold m_wcalsin_cell. destruct (given_ok l freq0 f NE G P) as (-> & ->). rewrite m_options_ok by assumption. assert (LZ : (length l =? 0)%nat = false) by (apply Nat.eqb_neq; destruct l; [contradiction | cbn; lia]). rewrite LZ. cbn [orb raise_if].
  rewrite (m_orient_all_id at_ l m MP A). cbn [bind]. cbv zeta. rewrite (given_freq l freq0 f G). destruct G as (L & _). rewrite L, Nat.eqb_refl. cbn [negb]. rewrite orb_false_r.
  assert (MM : match l with [] => 0%nat | s :: _ => m_m s end = m) by (destruct l as [| s r]; [contradiction | apply A; left; reflexivity]). rewrite MM.
  assert (FA : forallb (fun s => (m_m s =? m)%nat) l = true) by (apply forallb_forall; intros s I; apply Nat.eqb_eq; apply A; exact I). rewrite FA. reflexivity.
Qed.
Lemma m_searches_known lin rank rate reltol niter order ap nom : forall l f, length f = length l -> (forall g, In g f -> 0 < g) -> m_searches lin rank l f rate reltol niter order false ap nom = Ok (Some f).
Proof.
  induction l as [| s l IH]; intros f L P; destruct f as [| g f]; try (cbn in L; lia); [reflexivity |]. cbn [m_searches]. pose proof (P g (or_introl eq_refl)). destruct (Reqb_spec g 0); [lra |]. cbn [orb bind]. rewrite IH; [reflexivity | cbn in L; lia | intros; apply P; right; assumption].
Qed.
Lemma block_split H j : (1 <= H)%nat -> (j / H * H + j mod H = j)%nat.
Proof. intros H1. rewrite Nat.mul_comm. symmetry. apply Nat.div_mod. lia. Qed.
Lemma block_div H k h : (h < H)%nat -> ((k * H + h) / H = k)%nat /\ ((k * H + h) mod H = h)%nat.
Proof.
  intros Hh. split.
  - rewrite Nat.add_comm, Nat.div_add by lia. rewrite Nat.div_small by exact Hh. reflexivity.
  - rewrite Nat.add_comm, Nat.mod_add by lia. apply Nat.mod_small. exact Hh.
Qed.
(** Several records of one converter at known frequencies: the true weights and offset, all signals in units of the amplitude of the first
    record, no error. Python's scale is wrong here already for two equal records (C79). *)
Lemma c175_recovers lin rank l freq0 f m rate reltol niter order at_ ap nom w off a b : let H := m_order order in
  least_squares lin -> rank_correct rank -> l <> [] -> each_given l freq0 f -> (forall g, In g f -> 0 < g) -> 0 < rate < 1 -> 0 < reltol -> (0 < niter)%nat -> 0 < order -> (0 < m)%nat -> (forall s, In s l -> m_m s = m /\ (m <= m_n s)%nat) ->
  true_weights_all l H f w off a b -> identifiable_all l m H f w off a b -> a 0%nat 0%nat <> 0 \/ b 0%nat 0%nat <> 0 ->
  let A := amplitude (a 0%nat 0%nat) (b 0%nat 0%nat) in
  exists c s, m_wcalsin_cell lin rank l freq0 rate reltol niter order false at_ ap nom = Ok (Some c) /\ length (mc_sets c) = length l /\ mc_freq c = f /\
    (s = 1 \/ s = -1) /\ (0 < rsum m w -> s = 1) /\ (rsum m w < 0 -> s = -1) /\
    (forall j, (j < m)%nat -> mc_weight c j = s * w j / A) /\ mc_offset c = s * off / A /\
    forall k t d, (k < length l)%nat -> (t < m_n (nth k l (ones 0)))%nat -> let d := nth k (mc_sets c) d in
      ms_postcal d t = s * tone H off (a k) (b k) (nth k f 0) t / A /\ ms_ideal d t = s * tone H 0 (a k) (b k) (nth k f 0) t / A /\ ms_err d t = 0.
Proof.
  intros H L RC NE G FP R RT NI OR MP SH T ID NZ A. assert (H1 : (1 <= H)%nat) by apply m_order_pos. assert (WD : forall s, In s l -> m_m s = m) by (intros; apply SH; assumption). pose proof (stack_m l m WD NE) as SM.
  assert (LP : (0 < length l)%nat) by (destruct l; [contradiction | cbn; lia]).
  rewrite (m_cell_open lin rank l freq0 f m rate reltol niter order false at_ ap nom NE G (fun g I => Rlt_le _ _ (FP g I)) R RT NI OR MP SH). destruct G as (LF & _). rewrite m_searches_known by assumption. cbn [bind]. fold H. rewrite m_joint_end.
  assert (NP : (0 < m_n (stack l))%nat). { assert (Q : (row_of l 0 + 0 < m_n (vcat_all m l))%nat) by (apply (vcat_all_lt m l (ones 0)); [exact LP | assert (I : In (nth 0 l (ones 0)) l) by (apply nth_In; exact LP); destruct (SH _ I); lia]). rewrite (stack_is l m WD NE). lia. }
  rewrite (m_patch_full rank ap (stack l) _ RC (identifiable_all_independent l m H f w off a b WD NE NP H1 NZ ID)). cbn [bind]. fold (full_patch (stack l)). change (of_cols (m_n (stack l)) (p_eff (full_patch (stack l)))) with (full_eff (stack l)).
  set (fr := fun k => nth k f 0). set (K := (length l * H)%nat). set (c0 := fun j => a (j / H)%nat (j mod H)%nat). set (s0 := fun j => b (j / H)%nat (j mod H)%nat).
  assert (C0 : c0 0%nat = a 0%nat 0%nat) by (unfold c0; rewrite Nat.div_small, Nat.mod_small by lia; reflexivity). assert (S0 : s0 0%nat = b 0%nat 0%nat) by (unfold s0; rewrite Nat.div_small, Nat.mod_small by lia; reflexivity).
  assert (TE : forall o c c' s s' g t, (forall h, (h < H)%nat -> c h = c' h) -> (forall h, (h < H)%nat -> s h = s' h) -> tone H o c s g t = tone H o c' s' g t).
  { intros o c c' s s' g t E1 E2. unfold tone. f_equal; [f_equal |]; apply rsum_ext; intros h Hh; [rewrite (E1 h Hh) | rewrite (E2 h Hh)]; reflexivity. }
  destruct (m_two_recovers lin (stack l) (m_scale (full_eff (stack l))) (m_gain (stack l)) (cos_basis l fr H) (sin_basis l fr H) (of_cols (m_n (stack l)) []) w off c0 s0 K L (m_scale_of (stack l)) NP) as (x & sel & k & E & K0 & KW & KO & KC & KS & _ & W0).
  - apply blocks_m.
  - apply blocks_m.
  - unfold K. nia.
  - intros i I. rewrite (stack_is l m WD NE) in I. destruct (vcat_all_row m l (ones 0) i I) as (k & t & KK & TT & ->). rewrite (stack_output l m WD NE w k t KK TT), (T k t KK TT). symmetry. etransitivity; [apply (basis_tone l H fr off c0 s0 k t KK TT) |].
    apply TE; intros h Hh; unfold c0, s0; destruct (block_div H k h Hh) as (-> & ->); reflexivity.
  - rewrite C0, S0. exact NZ.
  - intros u o c s t Z. destruct (ID u o (fun k h => c (k * H + h)%nat) (fun k h => s (k * H + h)%nat)) as (k & P1 & P2 & P3).
    { intros k t' KK TT. rewrite <- (stack_output l m WD NE u k t' KK TT). rewrite (Z (row_of l k + t')%nat). 2: { rewrite (stack_is l m WD NE). apply (vcat_all_lt m l (ones 0)); assumption. } rewrite mv_empty, Rplus_0_r. apply (basis_tone l H fr o c s k t' KK TT). }
    exists k. rewrite SM. split; [exact P1 |]. split; [exact P2 |]. assert (DV : forall h, (h < K)%nat -> (h / H < length l)%nat /\ (h mod H < H)%nat) by (intros h Hh; split; [apply Nat.div_lt_upper_bound; [lia | unfold K in Hh; lia] | apply Nat.mod_upper_bound; lia]).
    split; [| split]; [intros h Hh; destruct (DV h Hh) as (D1 & D2); destruct (P3 _ _ D1 D2) as (Q & _); rewrite block_split in Q by exact H1; exact Q | intros h Hh; destruct (DV h Hh) as (D1 & D2); destruct (P3 _ _ D1 D2) as (_ & Q); rewrite block_split in Q by exact H1; exact Q |].
    intros j Hj. cbn in Hj. lia.
  - rewrite E. rewrite SM in KW, KO, KC, KS, W0 |- *. rewrite C0, S0 in W0. fold A in W0. assert (AP : 0 < A) by (apply amplitude_pos; exact NZ). assert (AK : Rabs k <> 0) by (apply Rabs_no_R0; exact K0).
    set (cc := j_end l (full_patch (stack l)) H f x sel). assert (MM : m_m (m_scale (full_eff (stack l))) = m) by (rewrite <- SM; exact (full_eff_m (stack l))).
    assert (CE : cc = let wt := m_weights x (Rabs k * A) (full_eff (stack l)) (full_patch (stack l)) in mkMcal wt (- x m / (Rabs k * A)) (m_make_sets l 0 0 H wt (- x m / (Rabs k * A)) (Rabs k * A) (m_cosc x sel m K) (m_sinc x sel m K) (cos_basis l fr H) (sin_basis l fr H)) f).
    { unfold cc, j_end. cbv zeta. change (of_cols (m_n (stack l)) (p_eff (full_patch (stack l)))) with (full_eff (stack l)). rewrite MM. fold K. rewrite W0. reflexivity. }
    cbv zeta in CE. clearbody cc. set (wt := m_weights x (Rabs k * A) (full_eff (stack l)) (full_patch (stack l))) in *.
    assert (W' : forall j, (j < m)%nat -> mc_weight cc j = k / Rabs k * w j / A).
    { intros j J. rewrite CE. cbn [mc_weight]. unfold wt. rewrite m_weights_full by (rewrite SM; exact J). rewrite (KW j J). field. split; lra. }
    destruct (m_flip_spec m cc) as (F1 & F2 & F3 & F4 & F5). cbv zeta in F1, F2, F5.
    destruct (polarity m (mc_weight cc) w A (k / Rabs k) AP (sign_of k K0) W') as (P1 & P2 & P3 & _). cbv zeta in P1, P2, P3. fold (flip_sign m (mc_weight cc)) in P1, P2, P3. set (pol := flip_sign m (mc_weight cc)) in *.
    exists (m_flip m cc), (k / Rabs k * pol). split; [reflexivity |]. split; [rewrite F4, CE; apply make_sets_length |]. split; [rewrite F3, CE; reflexivity |]. split; [exact P1 |]. split; [exact P2 |]. split; [exact P3 |].
    split; [intros j J; rewrite F1, (W' j J); field; split; lra |]. split; [rewrite F2, CE; cbn [mc_offset]; rewrite KO; field; split; lra |].
    intros q t d Q TT. cbv zeta. destruct (F5 d q t) as (E1 & E2 & E3); [rewrite CE; cbn [mc_sets]; rewrite make_sets_length; exact Q |]. rewrite E1, E2, E3. clear E1 E2 E3 F5. assert (CW : forall j, (j < m)%nat -> wt j = k / Rabs k / A * w j) by (intros j J; transitivity (mc_weight cc j); [rewrite CE; reflexivity | rewrite (W' j J); field; split; lra]).
    rewrite CE. cbn [mc_sets]. rewrite (make_sets_nth l (ones 0)) by exact Q. cbv zeta. cbn [Nat.add m_make_set ms_postcal ms_ideal ms_err].
    assert (SIG : mv (nth q l (ones 0)) wt t = k / Rabs k * tone H off (a q) (b q) (nth q f 0) t / A).
    { rewrite <- (T q t Q TT). change (output (nth q l (ones 0)) w t) with (mv (nth q l (ones 0)) w t). rewrite (mv_scale (nth q l (ones 0)) (k / Rabs k / A) wt w t); [field; split; lra |]. rewrite (nth_width l m WD q Q). exact CW. }
    assert (IDL : - (mv (cols_from (q * H) H (rows_from (row_of l q) (m_n (nth q l (ones 0))) (cos_basis l fr H))) (fun h => m_cosc x sel m K (q * H + h)%nat) t + mv (cols_from (q * H) H (rows_from (row_of l q) (m_n (nth q l (ones 0))) (sin_basis l fr H))) (fun h => m_sinc x sel m K (q * H + h)%nat) t) / (Rabs k * A) = k / Rabs k * tone H 0 (a q) (b q) (nth q f 0) t / A).
    { rewrite (own_tone l H fr _ _ q t Q TT). assert (BD : forall h, (h < H)%nat -> (q * H + h < K)%nat) by (intros h Hh; unfold K; nia).
      rewrite (TE 0 _ (fun h => - k * a q h) _ (fun h => - k * b q h)).
      - rewrite !(tone_mv 0). rewrite (mv_scale _ (- k) (fun h => - k * a q h) (a q)) by reflexivity. rewrite (mv_scale _ (- k) (fun h => - k * b q h) (b q)) by reflexivity. unfold fr. field. split; lra.
      - intros h Hh. rewrite (KC _ (BD h Hh)). unfold c0. destruct (block_div H q h Hh) as (-> & ->). reflexivity.
      - intros h Hh. rewrite (KS _ (BD h Hh)). unfold s0. destruct (block_div H q h Hh) as (-> & ->). reflexivity. }
    rewrite IDL, SIG, KO. assert (TO : tone H off (a q) (b q) (nth q f 0) t = off + tone H 0 (a q) (b q) (nth q f 0) t) by (unfold tone; ring). rewrite TO. repeat split; field; split; lra.
Qed.
(** With the search on, or frequencies 0, the records are searched one by one and the joint solve uses the frequencies found. *)
Lemma m_searches_found lin rank rate reltol niter order fs ap nom : forall l f g, length f = length l -> length g = length l ->
  (forall k, (k < length l)%nat -> if Reqb (nth k f 0) 0 || fs then exists c, m_wcalsin lin rank (nth k l (ones 0)) (nth k f 0) rate reltol niter order true false ap nom = Ok (Some c) /\ mc_freq c = [nth k g 0] else nth k g 0 = nth k f 0) ->
  m_searches lin rank l f rate reltol niter order fs ap nom = Ok (Some g).
Proof.
  induction l as [| s l IH]; intros f g LF LG A; destruct f as [| x f]; destruct g as [| y g]; try (cbn in *; lia); [reflexivity |]. cbn [m_searches].
  rewrite (IH f g); [| cbn in *; lia | cbn in *; lia | intros k K; exact (A (S k) ltac:(cbn; lia))]. pose proof (A 0%nat ltac:(cbn; lia)) as A0. cbn [nth] in A0. destruct (Reqb x 0 || fs)%bool.
  - destruct A0 as (c & -> & E). cbn [bind]. rewrite E. reflexivity.
  - rewrite A0. reflexivity.
Qed.
Lemma c175_searches lin rank l freq0 f g m rate reltol niter order fs at_ ap nom : l <> [] -> each_given l freq0 f -> (forall x, In x f -> 0 <= x) -> length g = length l -> (forall x, In x g -> 0 < x) ->
  0 < rate < 1 -> 0 < reltol -> (0 < niter)%nat -> 0 < order -> (0 < m)%nat -> (forall s, In s l -> m_m s = m /\ (m <= m_n s)%nat) -> length nom = m ->
  (forall k, (k < length l)%nat -> (nth k f 0 = 0 \/ fs = true -> exists c, m_wcalsin lin rank (nth k l (ones 0)) (nth k f 0) rate reltol niter order true false ap nom = Ok (Some c) /\ mc_freq c = [nth k g 0]) /\ (nth k f 0 <> 0 -> fs = false -> nth k g 0 = nth k f 0)) ->
  m_wcalsin_cell lin rank l freq0 rate reltol niter order fs at_ ap nom = m_wcalsin_cell lin rank l g rate reltol niter order false at_ ap nom.
Proof.
  intros NE G P LG GP R RT NI OR MP SH LN A. rewrite (m_cell_open lin rank l freq0 f m rate reltol niter order fs at_ ap nom NE G P R RT NI OR MP SH).
  rewrite (m_cell_open lin rank l g g m rate reltol niter order false at_ ap nom NE (conj LG (or_introl eq_refl)) (fun x I => Rlt_le _ _ (GP x I)) R RT NI OR MP SH). rewrite (m_searches_known lin rank rate reltol niter order ap _ l g LG GP).
  assert (NN : m_nominal m nom = nom) by (destruct nom; [cbn in LN; lia | reflexivity]). rewrite NN.
  rewrite (m_searches_found lin rank rate reltol niter order fs ap nom l f g); [reflexivity | apply G | exact LG |]. intros k K. destruct (A k K) as (A1 & A2). destruct (Reqb_spec (nth k f 0) 0) as [Z | Z]; cbn [orb]; [apply A1; left; exact Z |]. destruct fs; [apply A1; right; reflexivity | apply A2; [exact Z | reflexivity]].
Qed.
(** Every result for several records. *)
Lemma m_joint_invariants lin rank l f H ap nom c m : (1 <= H)%nat -> l <> [] -> (forall s, In s l -> m_m s = m) -> m_joint lin rank l f H ap nom = Ok c -> length (mc_sets c) = length l /\ mc_freq c = f /\ 0 <= rsum m (mc_weight c) /\
  exists ca sb, amplitude (ca 0%nat 0%nat) (sb 0%nat 0%nat) = 1 /\ forall k t d, (k < length l)%nat -> (t < m_n (nth k l (ones 0)))%nat -> let d := nth k (mc_sets c) d in
    ms_postcal d t = output (nth k l (ones 0)) (mc_weight c) t /\ ms_ideal d t = tone H 0 (ca k) (sb k) (nth k f 0) t /\ ms_err d t = ms_postcal d t - mc_offset c - ms_ideal d t.
Proof.
  intros H1 NE WD E. pose proof (stack_m l m WD NE) as SM. rewrite m_joint_end in E. destruct (m_patch _ _ _ _) as [p | e]; [| discriminate E]. cbn [bind] in E. destruct (m_two _ _ _ _ _) as [x sel]. apply Ok_inj in E. rewrite SM in E.
  set (c0 := j_end l p H f x sel) in E. unfold j_end in c0. cbv zeta in c0. set (M := m_m (m_scale (of_cols (m_n (stack l)) (p_eff p)))) in c0. set (K := (length l * H)%nat) in c0. set (w0 := sqrt (1 + x (M + K)%nat ^ 2)) in c0.
  set (wt := m_weights x w0 (of_cols (m_n (stack l)) (p_eff p)) p) in c0. set (fr := fun k => nth k f 0) in c0.
  assert (WP : 0 < w0) by (apply sqrt_lt_R0; pose proof (pow2_ge_0 (x (M + K)%nat)); lra). assert (W2 : w0 ^ 2 = 1 + x (M + K)%nat ^ 2) by (unfold w0; rewrite pow2_sqrt; [reflexivity | pose proof (pow2_ge_0 (x (M + K)%nat)); lra]).
  destruct (m_flip_spec m c0) as (F1 & F2 & F3 & F4 & F5). cbv zeta in F1, F2, F5. rewrite E in F1, F2, F3, F4, F5. set (s := flip_sign m (mc_weight c0)) in *.
  split; [rewrite F4; apply make_sets_length |]. split; [exact F3 |]. split. { rewrite (rsum_ext _ _ (fun j => s * mc_weight c0 j)) by (intros; apply F1). apply flip_sum. }
  exists (fun k h => - s / w0 * m_cosc x sel M K (k * H + h)%nat), (fun k h => - s / w0 * m_sinc x sel M K (k * H + h)%nat). split.
  { cbn [Nat.mul Nat.add]. unfold amplitude. replace ((- s / w0 * m_cosc x sel M K 0%nat) ^ 2 + (- s / w0 * m_sinc x sel M K 0%nat) ^ 2) with (s ^ 2 * / w0 ^ 2 * (m_cosc x sel M K 0%nat ^ 2 + m_sinc x sel M K 0%nat ^ 2)) by (field; lra).
    rewrite coef_square, <- W2. replace (s ^ 2) with 1 by (destruct (flip_sign_cases m (mc_weight c0)) as [Q | Q]; fold s in Q; rewrite Q; ring). replace (1 * / w0 ^ 2 * w0 ^ 2) with 1 by (field; lra). apply sqrt_1. }
  intros k t d KK TT. cbv zeta. destruct (F5 d k t) as (E1 & E2 & E3); [cbn [c0 mc_sets]; rewrite make_sets_length; exact KK |]. rewrite E1, E2, E3, F2. clear E1 E2 E3 F5. cbn [c0 mc_sets mc_offset]. rewrite (make_sets_nth l (ones 0)) by exact KK. cbv zeta. cbn [Nat.add m_make_set ms_postcal ms_ideal ms_err].
  split; [| split].
  - unfold mv, output. rewrite <- rsum_scale. apply rsum_ext. intros j J. rewrite F1. cbn [c0 mc_weight]. ring.
  - rewrite (own_tone l H fr _ _ k t KK TT). rewrite !(tone_mv 0). rewrite (mv_scale _ (- s / w0) (fun h => - s / w0 * m_cosc x sel M K (k * H + h)%nat) (fun h => m_cosc x sel M K (k * H + h)%nat)) by reflexivity. rewrite (mv_scale _ (- s / w0) (fun h => - s / w0 * m_sinc x sel M K (k * H + h)%nat) (fun h => m_sinc x sel M K (k * H + h)%nat)) by reflexivity. unfold fr. field. lra.
  - ring.
Qed.
Lemma c175_invariants lin rank l freq0 f m rate reltol niter order fs at_ ap nom c : let H := Z.to_nat (Z.max (m_round order) 1) in l <> [] -> each_given l freq0 f -> (forall g, In g f -> 0 <= g) -> 0 < rate < 1 -> 0 < reltol -> (0 < niter)%nat -> 0 < order -> (0 < m)%nat -> (forall s, In s l -> m_m s = m /\ (m <= m_n s)%nat) ->
  m_wcalsin_cell lin rank l freq0 rate reltol niter order fs at_ ap nom = Ok (Some c) -> length (mc_sets c) = length l /\ 0 <= rsum m (mc_weight c) /\ (fs = false -> (forall g, In g f -> 0 < g) -> mc_freq c = f) /\
  exists ca sb, amplitude (ca 0%nat 0%nat) (sb 0%nat 0%nat) = 1 /\ forall k t d, (k < length l)%nat -> (t < m_n (nth k l (ones 0)))%nat -> let d := nth k (mc_sets c) d in
    ms_postcal d t = output (nth k l (ones 0)) (mc_weight c) t /\ ms_ideal d t = tone H 0 (ca k) (sb k) (nth k (mc_freq c) 0) t /\ ms_err d t = ms_postcal d t - mc_offset c - ms_ideal d t.
Proof.
  intros H NE G P R RT NI OR MP SH E. rewrite (m_cell_open lin rank l freq0 f m rate reltol niter order fs at_ ap nom NE G P R RT NI OR MP SH) in E. change (m_order order) with H in E. assert (H1 : (1 <= H)%nat) by (unfold H; lia).
  destruct (m_searches _ _ _ _ _ _ _ _ _ _ _) as [[f' |] | e] eqn:ES; cbn [bind] in E; try discriminate E. destruct (m_joint _ _ _ _ _ _ _) as [c' | e] eqn:EJ; cbn [bind] in E; [| discriminate E]. apply Ok_inj in E. injection E as ->.
  destruct (m_joint_invariants lin rank l f' H ap _ c m H1 NE (fun s I => proj1 (SH s I)) EJ) as (A1 & A2 & A3 & A4). rewrite A2. split; [exact A1 |]. split; [exact A3 |]. split; [| exact A4].
  intros -> FP. rewrite (m_searches_known lin rank rate reltol niter order ap _ l f (proj1 G) FP) in ES. apply Ok_inj in ES. injection ES as ->. reflexivity.
Qed.
(** What is refused for several records. *)
Lemma c175_refuses lin rank l freq rate reltol niter order fs at_ ap nom :
  l = [] \/ freq = [] \/ (exists f, In f freq /\ f < 0) \/ ~ 0 < rate < 1 \/ reltol <= 0 \/ niter = 0%nat \/ order <= 0 \/ (exists s, In s l /\ (m_n s = 0%nat \/ m_m s = 0%nat)) \/ (2 <= length freq /\ length freq <> length l)%nat \/
  (at_ = false /\ exists s s', In s l /\ In s' l /\ m_m s <> m_m s') -> m_wcalsin_cell lin rank l freq rate reltol niter order fs at_ ap nom = Err RuntimeError.
Proof.
  intros C. unfold m_wcalsin_cell, m_bad_options. destruct (Nat.eqb_spec (length l) 0) as [? | LP]; [reflexivity |]. destruct (Nat.eqb_spec (length freq) 0) as [? | FP]; [reflexivity |]. cbn [orb].
  destruct (existsb (fun f => Rltb f 0) freq) eqn:EX; [reflexivity |]. destruct (Rleb_spec rate 0); [reflexivity |]. destruct (Rleb_spec 1 rate); [reflexivity |]. destruct (Rleb_spec reltol 0); [reflexivity |].
  destruct (Nat.eqb_spec niter 0); [reflexivity |]. destruct (Rleb_spec order 0); [reflexivity |]. cbn [orb raise_if].
  destruct C as [-> | [-> | [(f & I & N) | [C | [C | [C | [C | C]]]]]]]; try (exfalso; first [lra | lia | apply FP; reflexivity | apply LP; reflexivity]).
  { exfalso. apply not_true_iff_false in EX. apply EX. apply existsb_exists. exists f. split; [exact I |]. destruct (Rltb_spec f 0); [reflexivity | lra]. }
  assert (OA : m_orient_all at_ l = Err RuntimeError \/ (m_orient_all at_ l = Ok (map (m_orient at_) l) /\ forall s, In s l -> m_n s <> 0%nat /\ m_m s <> 0%nat)).
  { clear. induction l as [| s r IH]; [right; split; [reflexivity | intros s []] |]. cbn [m_orient_all map]. destruct (Nat.eqb_spec (m_n s * m_m s) 0) as [Z | Z]; cbn [raise_if]; [left; reflexivity |].
    destruct IH as [-> | (-> & A)]; [left; reflexivity | right; split; [reflexivity |]]. intros q [<- | I]; [split; intros Q; apply Z; rewrite Q; lia | apply A; exact I]. }
  destruct OA as [-> | (-> & NZ)]; [reflexivity |]. cbn [bind]. cbv zeta. rewrite map_length.
  destruct C as [(s & I & Q) | C]; [exfalso; destruct (NZ s I); lia |].
  match goal with |- raise_if ?b _ _ = _ => assert (B : b = true); [| rewrite B; reflexivity] end. apply orb_true_iff.
  destruct C as [(L2 & LN) | (-> & s & s' & I & I' & D)].
  - right. destruct freq as [| f [| f' r]]; cbn in L2; lia.
  - left. apply negb_true_iff. apply not_true_iff_false. intros FA. rewrite forallb_forall in FA. pose proof (FA s (in_map (m_orient false) l s I)) as A1. pose proof (FA s' (in_map (m_orient false) l s' I')) as A2. apply Nat.eqb_eq in A1. apply Nat.eqb_eq in A2. congruence.
Qed.
(** ** Examples *)
Lemma m_order_1 : m_order 1 = 1%nat.
Proof. unfold m_order, m_round. destruct (Rleb_spec 0 1); [| lra]. rewrite (floor_is (1 + 1 / 2) 1); [reflexivity |]. cbn. lra. Qed.
Lemma ex_opts : 0 < 1 / 2 < 1 /\ 0 < 1 / 10 ^ 12. Proof. split; [lra |]. apply Rdiv_lt_0_compat; [lra | apply pow_lt; lra]. Qed.
Lemma c174_recovers_ex : exists c, m_wcalsin gs_lstsq gs_rank ex_bits (1 / 4) (1 / 2) (1 / 10 ^ 12) 100 1 false true true [2; 1; 1] = Ok (Some c) /\
  mc_weight c 0%nat = 2 / sqrt (5 / 2) /\ mc_weight c 1%nat = 1 / sqrt (5 / 2) /\ mc_weight c 2%nat = 1 / sqrt (5 / 2) /\ mc_offset c = (3 / 2) / sqrt (5 / 2).
Proof.
  pose proof ex_opts as (O1 & O2).
  destruct (c174_recovers gs_lstsq gs_rank ex_bits (1 / 4) (1 / 2) (1 / 10 ^ 12) 100 1 true true [2; 1; 1] ex_w (3 / 2) ex_a ex_b) as (c & d & s & E & _ & _ & _ & P & _ & W & O & _);
    try (rewrite m_order_1); try (exact gs_least_squares || exact gs_rank_correct || exact ex_true || exact ex_identifiable || assumption || lra || (cbn; lia)).
  { left. unfold ex_a. lra. }
  exists c. split; [exact E |]. assert (s = 1) by (apply P; cbn; lra). subst s.
  unfold ex_a, ex_b in W, O. rewrite ex_amplitude in W, O. rewrite !W by (cbn; lia). rewrite O. unfold ex_w. cbn. rewrite !Rmult_1_l. repeat split; reflexivity.
Qed.
Lemma drift_bits_free : drift_free drift_bits 1 (1 / 4) drift_w 1 (fun _ => 1) (fun _ => 1).
Proof.
  intros u o c s e E. destruct (drift_id u o (c 0%nat) (s 0%nat) e (- e)) as (k & K1 & K2 & K3 & K4 & K5 & _).
  { intros t T. rewrite (E t T), tone_one. cbn [rsum]. change (INR 1) with 1. rewrite !Rmult_1_r. ring. }
  exists k. repeat split; try assumption; try (intros h Hh; replace h with 0%nat by lia; assumption).
Qed.
Lemma c174_search_exact_ex : exists c s, m_wcalsin gs_lstsq gs_rank drift_bits (1 / 4) (1 / 2) (1 / 10 ^ 12) 100 1 true true true [1] = Ok (Some c) /\ s = 1 /\ mc_freq c = [1 / 4] /\ mc_weight c 0%nat = 2 / sqrt 2 /\ mc_offset c = 1 / sqrt 2.
Proof.
  pose proof ex_opts as (O1 & O2).
  destruct (c174_search_exact gs_lstsq gs_rank drift_bits (1 / 4) (1 / 2) (1 / 10 ^ 12) 100 1 true true [1] drift_w 1 (fun _ => 1) (fun _ => 1)) as (c & d & s & E & _ & F & _ & P & _ & W & O & _);
    try (rewrite m_order_1); try (exact gs_least_squares || exact gs_rank_correct || exact drift_true || exact drift_bits_free || assumption || lra || (cbn; lia)).
  exists c, s. assert (s = 1) by (apply P; cbn; unfold drift_w; lra). subst s. split; [exact E |]. split; [reflexivity |]. split; [exact F |]. assert (A : amplitude 1 1 = sqrt 2) by (unfold amplitude; f_equal; ring). rewrite A in W, O. rewrite (W 0%nat) by (cbn; lia). rewrite O. unfold drift_w. rewrite !Rmult_1_l. split; reflexivity.
Qed.
Lemma identifiable_separable bits H f w off a b : (1 <= H)%nat -> a 0%nat <> 0 -> b 0%nat <> 0 -> identifiable bits H f w off a b -> separable bits H f.
Proof.
  intros H1 NA NB ID u o c s E Z. destruct (ID u o c s E) as (k & K1 & K2 & K3 & K4).
  assert (k = 0). { destruct Z as [Z | Z]; [rewrite (K3 0%nat ltac:(lia)) in Z | rewrite (K4 0%nat ltac:(lia)) in Z]; apply Rmult_integral in Z; tauto. } subst k.
  repeat split; [intros j J; rewrite (K1 j J); ring | rewrite K2; ring | intros h Hh; rewrite (K3 h Hh); ring | intros h Hh; rewrite (K4 h Hh); ring].
Qed.
(** The two programs on the same record, with different nominal weights. *)
Lemma c174_agrees_ex : exists c d r d', m_wcalsin gs_lstsq gs_rank ex_bits (1 / 4) (1 / 2) (1 / 10 ^ 12) 100 1 false true false [] = Ok (Some c) /\ mc_sets c = [d] /\
  calibrate_weight_sine gs_lstsq gs_rank (fun _ => 0) [ex_bits] (FScalar (1 / 4)) None (Some [2; 1; 1]) 1 (1 / 2) (1 / 10 ^ 12) 100 = Ok r /\ r_sets r = [d'] /\
  mc_weight c 0%nat = r_weight r 0%nat /\ mc_offset c = r_offset r /\ ms_err d 5%nat = r_error d' 5%nat.
Proof.
  pose proof ex_opts as (O1 & O2).
  destruct (c174_agrees gs_lstsq gs_lstsq gs_rank gs_rank (fun _ => 0) ex_bits (FScalar (1 / 4)) (1 / 4) None (1 / 2) (1 / 10 ^ 12) 100 1 true false [] (Some [2; 1; 1]) (1 / 2) (1 / 10 ^ 12) 100) as (c & d & r & d' & E & S & _ & E' & S' & _ & W & O & T);
    try (rewrite m_order_1); try (exact gs_least_squares || exact gs_rank_correct || assumption || reflexivity || (left; reflexivity) || lra || (cbn; lia)).
  { apply (identifiable_separable _ _ _ ex_w (3 / 2) ex_a ex_b); [lia | unfold ex_a; lra | unfold ex_b; lra | exact ex_identifiable]. }
  rewrite m_order_1 in E'. exists c, d, r, d'. split; [exact E |]. split; [exact S |]. split; [exact E' |]. split; [exact S' |]. split; [apply W; cbn; lia |]. split; [exact O |]. apply T. cbn. lia.
Qed.
(** Two identical bits with nominal weights 2 and 1: one column; a solved weight 4 comes back as 4 and 2. *)
Lemma dup_patch : m_patch gs_rank true dup_bits [2; 1] = Ok (mkPatch [fun i => colm dup_bits 0 i + colm dup_bits 1 i * (1 / 2)] [0%nat] [Some 0%nat; Some 0%nat] [1; 1 / 2]).
Proof.
  destruct gs_rank_correct as (R1 & R2). set (rank := gs_rank) in *. clearbody rank.
  assert (FAST : (rank (hcat dup_bits (ones (m_n dup_bits))) <? m_m dup_bits + 1)%nat = true).
  { apply Nat.ltb_lt. destruct (Nat.lt_ge_cases (rank (hcat dup_bits (ones (m_n dup_bits)))) (m_m dup_bits + 1)) as [Y | Y]; [exact Y | exfalso].
    assert (IN : independent (hcat dup_bits (ones (m_n dup_bits)))) by (apply R1; exact Y).
    assert (Z : (fun j => nth j [1; -1] 0) 0%nat = 0). { apply (IN (fun j => nth j [1; -1] 0)); [| cbn; lia]. intros t T. cbn in T. destruct t as [| [| t]]; [cbn; lra | cbn; lra | lia]. }
    cbn in Z. lra. }
  assert (PTP : forall c, (c = colm dup_bits 0 \/ c = colm dup_bits 1) -> Reqb (vptp 2 c) 0 = false).
  { intros c C. assert (V : vptp 2 c = 1) by (destruct C as [-> | ->]; unfold vptp, colm, lmax1, lmin1; cbn -[Rmax Rmin]; unfold Rmax, Rmin; repeat destruct (Rle_dec _ _); lra). rewrite V. destruct (Reqb_spec 1 0); [lra | reflexivity]. }
  assert (RNK : forall cols c, (rank (hcat (ones 2) (of_cols 2 cols)) < rank (hcat (hcat (ones 2) (of_cols 2 cols)) (of_cols 2 [c])))%nat <-> ~ in_span (hcat (ones 2) (of_cols 2 cols)) c).
  { intros cols c. apply R2; [reflexivity | reflexivity | |].
    - intros p q Q. unfold hcat at 1. cbn [m_at]. destruct (Nat.ltb_spec q (m_m (hcat (ones 2) (of_cols 2 cols)))); [reflexivity | lia].
    - intros p. unfold hcat at 1. cbn [m_at]. rewrite Nat.ltb_irrefl, Nat.sub_diag. reflexivity. }
  unfold m_patch. cbv zeta. rewrite FAST. cbn [andb]. change (m_m dup_bits) with 2%nat. change (m_n dup_bits) with 2%nat. cbn [seq fold_left].
  unfold m_patch_step at 2 4 6 8. rewrite PTP by (left; reflexivity). cbv zeta. cbn [p_eff p_founder p_map p_ratio app length].
  destruct (Nat.ltb_spec (rank (hcat (ones 2) (of_cols 2 []))) (rank (hcat (hcat (ones 2) (of_cols 2 [])) (of_cols 2 [colm dup_bits 0])))) as [_ | B1].
  2:{ exfalso. apply Nat.le_ngt in B1. apply B1. apply RNK. intros (x & X). pose proof (X 0%nat ltac:(cbn; lia)) as X0. pose proof (X 1%nat ltac:(cbn; lia)) as X1. unfold colm in X0, X1. cbn in X0, X1. lra. }
  match goal with |- context [m_patch_step ?a ?b ?c ?d ?e ?f] => assert (ST : m_patch_step a b c d e f = mkPatch [fun i => colm dup_bits 0 i + colm dup_bits 1 i * (1 / 2)] [0%nat] [Some 0%nat; Some 0%nat] [1; 1 / 2]) end.
  { unfold m_patch_step. rewrite PTP by (right; reflexivity). cbv zeta. cbn [p_eff p_founder p_map p_ratio app length].
    destruct (Nat.ltb_spec (rank (hcat (ones 2) (of_cols 2 [colm dup_bits 0]))) (rank (hcat (hcat (ones 2) (of_cols 2 [colm dup_bits 0])) (of_cols 2 [colm dup_bits 1])))) as [B2 | _].
    { exfalso. apply RNK in B2. apply B2. exists (fun q => nth q [0; 1] 0). intros t T. cbn in T. destruct t as [| [| t]]; [unfold colm; cbn; lra | unfold colm; cbn; lra | lia]. }
    cbn [m_find]. assert (MT : m_match 2 (colm dup_bits 1) (colm dup_bits 0) = true).
    { unfold m_match. cbv zeta. assert (M1 : vmean 2 (colm dup_bits 1) = 1 / 2) by (unfold vmean, colm; cbn; lra). assert (M0 : vmean 2 (colm dup_bits 0) = 1 / 2) by (unfold vmean, colm; cbn; lra). rewrite M1, M0. unfold vrms.
      replace (vmean 2 (fun i0 => (colm dup_bits 1 i0 - 1 / 2) ^ 2)) with (1 / 2 * (1 / 2)) by (unfold vmean, colm; cbn; lra).
      replace (vmean 2 (fun i0 => (colm dup_bits 0 i0 - 1 / 2) ^ 2)) with (1 / 2 * (1 / 2)) by (unfold vmean, colm; cbn; lra).
      replace (vmean 2 (fun i0 => (colm dup_bits 1 i0 - 1 / 2) * (colm dup_bits 0 i0 - 1 / 2))) with (1 / 4) by (unfold vmean, colm; cbn; lra).
      rewrite sqrt_square by lra. destruct (Reqb_spec (1 / 2) 0); [lra |]. cbn [orb]. replace (1 / 4 / (1 / 2) / (1 / 2)) with 1 by field. rewrite Rabs_R1, Rminus_diag_eq by reflexivity. rewrite Rabs_R0. destruct (Rltb_spec 0 (1 / 1000)); [reflexivity | lra]. }
    rewrite MT. cbn [nth upd]. reflexivity. }
  rewrite ST. cbn [p_eff length]. match goal with |- raise_if ?b _ _ = _ => assert (B : b = false); [| rewrite B; reflexivity] end. apply orb_false_iff. split; [| reflexivity].
  apply Nat.ltb_ge. match goal with |- (_ <= rank ?A)%nat => assert (IN : independent A) end; [| apply R1 in IN; exact IN].
  intros x Z j J. pose proof (Z 0%nat ltac:(cbn; lia)) as Z0. pose proof (Z 1%nat ltac:(cbn; lia)) as Z1. unfold colm in Z0, Z1. cbn in Z0, Z1, J. destruct j as [| [| j]]; [lra | lra | lia].
Qed.
Lemma c174_patch_ex : exists p, m_patch gs_rank true dup_bits [2; 1] = Ok p /\ rec_weight (fun _ => 4) p 0%nat = 4 /\ rec_weight (fun _ => 4) p 1%nat = 2 /\ output dup_bits (rec_weight (fun _ => 4) p) 0 = 6.
Proof. eexists. split; [exact dup_patch |]. unfold rec_weight, output. cbn. repeat split; lra. Qed.
Lemma c174_constant_bits_ex : m_wcalsin gs_lstsq gs_rank (of_rows [[1; 0]; [1; 0]; [1; 0]]) (1 / 4) (1 / 2) (1 / 10 ^ 12) 100 1 false true true [2; 1] = Err RuntimeError.
Proof.
  apply c174_constant_bits; [exact gs_rank_correct |]. intros i j I J. change (m_orient true (of_rows [[1; 0]; [1; 0]; [1; 0]])) with (of_rows [[1; 0]; [1; 0]; [1; 0]]) in *. cbn in I, J. destruct i as [| [| [| i]]]; try lia; destruct j as [| [| j]]; try lia; reflexivity.
Qed.
(** ** Examples for several records *)
Lemma identifiable_each l m H f w off a b j0 : (0 < length l)%nat -> (j0 < m)%nat -> w j0 <> 0 -> (forall s, In s l -> m_m s = m) -> (forall k, (k < length l)%nat -> identifiable (nth k l (ones 0)) H (nth k f 0) w off (a k) (b k)) -> identifiable_all l m H f w off a b.
Proof.
  intros LP JM W0 WD ID u o c s T. assert (G : forall d, (d < length l)%nat -> exists k, (forall j, (j < m)%nat -> u j = k * w j) /\ o = k * off /\ (forall h, (h < H)%nat -> c d h = k * a d h /\ s d h = k * b d h)).
  { intros d D. destruct (ID d D u o (c d) (s d) (fun t => T d t D)) as (k & K1 & K2 & K3 & K4). exists k. rewrite (nth_width l m WD d D) in K1. split; [exact K1 |]. split; [exact K2 |]. intros h Hh. split; [apply K3 | apply K4]; exact Hh. }
  destruct (G 0%nat LP) as (k & K1 & K2 & _). exists k. split; [exact K1 |]. split; [exact K2 |]. intros d h D Hh. destruct (G d D) as (k' & K1' & _ & K3'). assert (k' = k). { apply (Rmult_eq_reg_r (w j0)); [| exact W0]. rewrite <- (K1 j0 JM), <- (K1' j0 JM). reflexivity. } subst k'. apply K3'. exact Hh.
Qed.
(** The record [ex_bits] twice, at one frequency given once. *)
Lemma c175_recovers_ex : exists c, m_wcalsin_cell gs_lstsq gs_rank [ex_bits; ex_bits] [1 / 4] (1 / 2) (1 / 10 ^ 12) 100 1 false true true [] = Ok (Some c) /\
  mc_weight c 0%nat = 2 / sqrt (5 / 2) /\ mc_offset c = (3 / 2) / sqrt (5 / 2) /\ mc_freq c = [1 / 4; 1 / 4] /\ ms_err (nth 1 (mc_sets c) (mkMset zvec zvec zvec)) 7%nat = 0.
Proof.
  pose proof ex_opts as (O1 & O2).
  destruct (c175_recovers gs_lstsq gs_rank [ex_bits; ex_bits] [1 / 4] [1 / 4; 1 / 4] 3 (1 / 2) (1 / 10 ^ 12) 100 1 true true [] ex_w (3 / 2) (fun _ => ex_a) (fun _ => ex_b)) as (c & s & E & _ & F & _ & P & _ & W & O & T);
    try (rewrite m_order_1); try (exact gs_least_squares || exact gs_rank_correct || assumption || discriminate || lra || (cbn; lia)).
  - split; [reflexivity |]. right. exists (1 / 4). split; reflexivity.
  - intros g [<- | [<- | []]]; lra.
  - intros x [<- | [<- | []]]; cbn; lia.
  - intros k t K Tt. destruct k as [| [| k]]; [| | cbn in K; lia]; apply ex_true; exact Tt.
  - apply (identifiable_each _ 3 1 _ _ _ _ _ 0); [cbn; lia | lia | unfold ex_w; cbn; lra | intros x [<- | [<- | []]]; reflexivity |]. intros k K. destruct k as [| [| k]]; [| | cbn in K; lia]; exact ex_identifiable.
  - left. unfold ex_a. lra.
  - exists c. split; [exact E |]. assert (s = 1) by (apply P; cbn; lra). subst s. unfold ex_a, ex_b in W, O. rewrite ex_amplitude in W, O. rewrite (W 0%nat) by lia. rewrite O. unfold ex_w. cbn [nth]. rewrite !Rmult_1_l. repeat split; [exact F |]. destruct (T 1%nat 7%nat (mkMset zvec zvec zvec)) as (_ & _ & Q); [cbn; lia | cbn; lia | exact Q].
Qed.
(** The two equal records on which Python's weights are too small by the square root of 2 (C79). *)
Lemma c175_two_equal_records lin rank : least_squares lin -> rank_correct rank -> exists c, m_wcalsin_cell lin rank [cos_bits; cos_bits] [1 / 4] (1 / 2) (1 / 10 ^ 12) 100 1 false true true [] = Ok (Some c) /\ Rabs (mc_weight c 0%nat) = sine_w 0%nat.
Proof.
  intros L RC. pose proof ex_opts as (O1 & O2).
  destruct (c175_recovers lin rank [cos_bits; cos_bits] [1 / 4] [1 / 4; 1 / 4] 2 (1 / 2) (1 / 10 ^ 12) 100 1 true true [] sine_w 0 (fun _ _ => 1) (fun _ _ => 0)) as (c & s & E & _ & _ & S & _ & _ & W & _);
    try (rewrite m_order_1); try (assumption || discriminate || lra || (cbn; lia)).
  - split; [reflexivity |]. right. exists (1 / 4). split; reflexivity.
  - intros g [<- | [<- | []]]; lra.
  - intros x [<- | [<- | []]]; cbn; lia.
  - intros k t K Tt. destruct k as [| [| k]]; [| | cbn in K; lia]; apply cos_bits_true; exact Tt.
  - apply (identifiable_each _ 2 1 _ _ _ _ _ 0); [cbn; lia | lia | unfold sine_w; cbn; lra | intros x [<- | [<- | []]]; reflexivity |]. intros k K. destruct k as [| [| k]]; [| | cbn in K; lia]; exact cos_bits_identifiable.
  - exists c. split; [exact E |]. rewrite (W 0%nat) by lia. unfold amplitude. replace (1 ^ 2 + 0 ^ 2) with 1 by ring. rewrite sqrt_1. unfold sine_w. cbn [nth]. destruct S as [-> | ->]; unfold Rabs; destruct (Rcase_abs _); lra.
Qed.
Lemma c175_refuses_ex lin rank : m_wcalsin_cell lin rank [ex_bits; cos_bits] [1 / 4] (1 / 2) (1 / 10 ^ 12) 100 1 false false true [] = Err RuntimeError.
Proof. apply c175_refuses. do 9 right. split; [reflexivity |]. exists ex_bits, cos_bits. repeat split; [left; reflexivity | right; left; reflexivity | cbn; lia]. Qed.
