(** * Proofs about the coherent averaging, the automatic half-width, the cutoff and the label of the MATLAB spectrum analysis. *)
From Coq Require Import Lia Lra Psatz Permutation.
From Verif Require Import Base BaseLemmas Cplx FreqModel FreqSpec FreqProofs UnitsModel UnitsSpec UnitsProofs TiModel TiSpec TiProofs TiToneProofs SpecModel SpecSpec SpecLemmas SpecProofs SpecMetricProofs SpecPrepProofs SpecToneSpec SpecToneProofs SpecReportSpec SpecReportProofs CohModel CohSpec CohLemmas CohProofs MatModel MatProofs MspecModel MspecSpec MspecProofs.
Local Open Scope R_scope.

(** ** C184: coherent averaging *)
Definition unit_phasor (z : C) : C := Cconj (Cscale (/ Cmod z) z).
Lemma unit_phasor_mod z : 0 < Cmod z -> Cmod (unit_phasor z) = 1.
Proof.
  intros H. unfold unit_phasor. rewrite Cmod_conj, Cmod_scale. rewrite Rabs_pos_eq by (left; apply Rinv_0_lt_compat, H). field. lra.
Qed.
Definition aligned_bin (X : nat -> C) (k n b : nat) : C :=
  match first_order k n n b with
  | Some h => Cmult (X b) (rot (snd (landing k n h)) (cpow (unit_phasor (X k)) h))
  | None => Cmult (X b) (cpower (unit_phasor (X k)) (INR b / INR k))
  end.
Lemma aligned_loop X k n b : (0 < n)%nat -> (0 < k)%nat ->
  (let p := unit_phasor (X k) in let s := fold_left (harmonic_step k n p) (seq 1 n) (mkAlign (upd X 0 C0) (fun _ => false) p) in
   if al_done s b then al_fft s b else Cmult (al_fft s b) (cpower p (INR b / INR k))) = if (b =? 0)%nat then C0 else aligned_bin X k n b.
Proof.
  intros Hn Hk. cbv zeta. pose proof (align_loop k n (unit_phasor (X k)) (upd X 0 C0) n Hn) as [_ [Hd Hf]]. rewrite Hd, Hf. unfold upd, aligned_bin.
  destruct (Nat.eqb_spec b 0) as [->|Nb]; destruct (first_order k n n _); try reflexivity; unfold Cmult, C0; cbn [fst snd]; f_equal; ring.
Qed.
Lemma strongest_is N nb t k : length t = N -> strongest_bin N nb t k -> 0 < Cmod (rfft t k) -> (nb <= N / 2 + 1)%nat ->
  argmax (map (fun b => Cmod (upd (rfft t) 0 C0 b)) (seq 0 nb)) = k.
Proof.
  intros L (K1 & K2 & K3 & K4) P Hnb. cbv zeta in K3, K4. assert (E : forall j, rdft N (fun i => nth i t 0) j = rfft t j) by (intros j; unfold rfft; rewrite L; reflexivity).
  apply argmax_unique; [rewrite map_length, seq_length; lia| |].
  - intros j Hj. rewrite map_length, seq_length in Hj. rewrite !nth_map_seq by lia. unfold upd. destruct (Nat.eqb_spec k 0); [lia|]. destruct (Nat.eqb_spec j 0) as [->|J0]; [rewrite Cmod_0; lra|].
    rewrite <- !E. apply K3; [lia|]. apply half_bound. lia.
  - intros j Hj. rewrite !nth_map_seq by lia. unfold upd. destruct (Nat.eqb_spec k 0); [lia|]. destruct (Nat.eqb_spec j 0) as [->|J0]; [rewrite Cmod_0; lra|].
    rewrite <- !E. apply K4; lia.
Qed.
Lemma aligned_is N nb t k : length t = N -> (nb <= N / 2 + 1)%nat -> strongest_bin N nb t k -> 0 < Cmod (rfft t k) ->
  exists a, m_aligned N nb t = Some a /\ forall b, a b = if (b =? 0)%nat then C0 else aligned_bin (rfft t) k N b.
Proof.
  intros L Hnb S P. unfold m_aligned. cbv zeta. rewrite (strongest_is N nb t k L S P Hnb). destruct S as (K1 & K2 & _). destruct (Nat.eqb_spec k 0); [lia|].
  eexists. split; [reflexivity|]. intros b. cbv beta. assert (U : upd (rfft t) 0 C0 k = rfft t k) by (unfold upd; destruct (Nat.eqb_spec k 0); [lia|reflexivity]). rewrite U. apply (aligned_loop (rfft t) k N b); lia.
Qed.
Lemma aligned_inv N nb t a : length t = N -> (1 <= nb <= N / 2 + 1)%nat -> m_aligned N nb t = Some a ->
  exists k, strongest_bin N nb t k /\ 0 < Cmod (rfft t k) /\ forall b, a b = if (b =? 0)%nat then C0 else aligned_bin (rfft t) k N b.
Proof.
  intros L Hnb H. set (l := map (fun b => Cmod (upd (rfft t) 0 C0 b)) (seq 0 nb)). assert (Ll : length l = nb) by (unfold l; rewrite map_length, seq_length; reflexivity).
  destruct (argmax_spec l) as (A1 & A2 & A3); [destruct l; [simpl in Ll; lia|discriminate]|]. set (k := argmax l) in *. rewrite Ll in *.
  assert (K0 : k <> O). { intros E. unfold m_aligned in H. cbv zeta in H. fold l in H. fold k in H. rewrite E in H. discriminate. }
  assert (NL : forall j, (j < nb)%nat -> nth j l 0 = if (j =? 0)%nat then 0 else Cmod (rfft t j)).
  { intros j Hj. unfold l. rewrite nth_map_seq by exact Hj. unfold upd. destruct (j =? 0)%nat; [apply Cmod_0|reflexivity]. }
  assert (P : 0 < Cmod (rfft t k)). { specialize (A3 O ltac:(lia)). rewrite !NL in A3 by lia. destruct (Nat.eqb_spec k 0); [contradiction|]. exact A3. }
  assert (S : strongest_bin N nb t k).
  { assert (E : forall j, rdft N (fun i => nth i t 0) j = rfft t j) by (intros j; unfold rfft; rewrite L; reflexivity).
    split; [lia|]. split; [apply half_bound; lia|]. cbv zeta. split; intros j Hj; [intros _|]; rewrite !E.
    - specialize (A2 j ltac:(lia)). rewrite !NL in A2 by lia. destruct (Nat.eqb_spec k 0); [contradiction|]. destruct (Nat.eqb_spec j 0); [lia|exact A2].
    - specialize (A3 j ltac:(lia)). rewrite !NL in A3 by lia. destruct (Nat.eqb_spec k 0); [contradiction|]. destruct (Nat.eqb_spec j 0); [lia|exact A3]. }
  exists k. split; [exact S|]. split; [exact P|]. destruct (aligned_is N nb t k L (proj2 Hnb) S P) as (a' & E' & Q). rewrite E' in H. injection H as <-. exact Q.
Qed.
Lemma cpower_unit z x : Cmod z = 1 -> Cmod (cpower z x) = 1.
Proof.
  intros H. unfold cpower. destruct (Reqb x 0); [change C1 with (RtoC 1); rewrite Cmod_RtoC; apply Rabs_R1|].
  destruct (Ceqb0 z) eqn:Z. { apply Ceqb0_spec in Z. rewrite Z, Cmod_0 in H. lra. }
  rewrite Cmod_scale, Cmod_cis, H. unfold Rpower. rewrite ln_1, Rmult_0_r, exp_0, Rabs_R1. ring.
Qed.
Lemma aligned_bin_mod X k n b : 0 < Cmod (X k) -> Cmod (aligned_bin X k n b) = Cmod (X b).
Proof.
  intros H. unfold aligned_bin. pose proof (unit_phasor_mod _ H) as U. destruct (first_order k n n b) as [h|]; rewrite Cmod_mult.
  - rewrite Cmod_rot, Cmod_cpow, U, pow1. ring.
  - rewrite cpower_unit by exact U. ring.
Qed.
(** Aligning a run changes the phases only, clears bin 0, and leaves the strongest bin real and positive. *)
Lemma c184_turned N nb t a : length t = N -> (1 <= nb <= N / 2 + 1)%nat -> m_aligned N nb t = Some a ->
  a O = C0 /\ (forall b, (1 <= b)%nat -> Cmod (a b) = Cmod (rfft t b)) /\
  exists k, strongest_bin N nb t k /\ ((2 * k < N)%nat -> a k = RtoC (Cmod (rfft t k))).
Proof.
  intros L Hnb H. destruct (aligned_inv N nb t a L Hnb H) as (k & S & P & Q). split; [rewrite Q; reflexivity|]. split.
  - intros b Hb. rewrite Q. destruct (Nat.eqb_spec b 0); [lia|]. apply aligned_bin_mod, P.
  - exists k. split; [exact S|]. intros K2. rewrite Q. destruct S as (K1 & _). destruct (Nat.eqb_spec k 0); [lia|]. unfold aligned_bin.
    rewrite (first_of_one k N N k) by (rewrite ?landing_self by exact K2; reflexivity || lia). rewrite landing_self by exact K2. cbn [snd rot cpow].
    unfold unit_phasor. set (z := rfft t k) in *. pose proof (Cmod_sqr z) as M.
    destruct z as [x y]. set (m := Cmod (x, y)) in *. unfold Cmod2 in M. cbn [fst snd] in M. unfold Cmult, C1, Cconj, Cscale, RtoC. cbn [fst snd]. f_equal.
    + apply (Rmult_eq_reg_r m); [|lra]. field_simplify; [|lra]. lra.
    + field. lra.
Qed.
Lemma alignable N nb t : length t = N -> (1 <= nb <= N / 2 + 1)%nat -> (exists b, (1 <= b < nb)%nat /\ rfft t b <> C0) -> exists a, m_aligned N nb t = Some a.
Proof.
  intros L Hnb (b & Hb & Z). unfold m_aligned. cbv zeta. destruct (Nat.eqb_spec (argmax (map (fun b => Cmod (upd (rfft t) 0 C0 b)) (seq 0 nb))) 0) as [E|E]; [|eexists; reflexivity].
  exfalso. set (l := map (fun b => Cmod (upd (rfft t) 0 C0 b)) (seq 0 nb)) in *. assert (Ll : length l = nb) by (unfold l; rewrite map_length, seq_length; reflexivity).
  destruct (argmax_spec l) as (_ & A2 & _); [destruct l; [simpl in Ll; lia|discriminate]|]. rewrite E in A2. specialize (A2 b ltac:(lia)). unfold l in A2.
  rewrite !nth_map_seq in A2 by lia. unfold upd in A2. change (0 =? 0)%nat with true in A2. destruct (Nat.eqb_spec b 0); [lia|]. rewrite Cmod_0 in A2.
  apply Z. apply Cmod_eq_0. pose proof (Cmod_nonneg (rfft t b)). lra.
Qed.
Lemma aligned_all N nb runs : (1 <= nb <= N / 2 + 1)%nat -> (forall t, In t runs -> length t = N /\ exists b, (1 <= b < nb)%nat /\ rfft t b <> C0) ->
  length (m_aligned_runs N nb runs) = length runs /\
  forall b, (1 <= b)%nat -> map (fun a : nat -> C => Cmod2 (a b)) (m_aligned_runs N nb runs) = map (fun t => Cmod (rfft t b) ^ 2) runs.
Proof.
  intros Hnb. induction runs as [|t T IH]; intros H; [split; reflexivity|]. destruct (H t (or_introl eq_refl)) as [L X]. destruct (alignable N nb t L Hnb X) as [a E].
  destruct IH as [I1 I2]; [intros u Hu; apply H; right; exact Hu|]. cbn [m_aligned_runs]. rewrite E. split; [cbn [length]; rewrite I1; reflexivity|].
  intros b Hb. cbn [map]. rewrite I2 by exact Hb. f_equal. rewrite <- Cmod_sqr. destruct (c184_turned N nb t a L Hnb E) as (_ & Q & _). rewrite Q by exact Hb. ring.
Qed.
Lemma run_length fsc w r : length r = length w -> length (m_run fsc w r) = length w.
Proof. intros H. unfold m_run. rewrite map2_length; rewrite ?map_length; lia. Qed.
Lemma heard_all fsc w N d : runs_of N d -> m_heard fsc w d = map (m_run fsc w) d.
Proof.
  intros [_ Hr]. unfold m_heard. rewrite filter_all; [reflexivity|]. intros r Hi. destruct (Hr r Hi) as [_ Z]. destruct (m_silent r) eqn:Q; [|reflexivity].
  exfalso. apply Z, m_silent_iff, Q.
Qed.
Lemma aligned_zero N nb runs : (0 < N)%nat -> forall a, In a (m_aligned_runs N nb runs) -> a O = C0.
Proof.
  intros HN. induction runs as [|t T IH]; cbn [m_aligned_runs]; [intros a []|]. unfold m_aligned at 1. cbv zeta.
  destruct (Nat.eqb_spec (argmax (map (fun b => Cmod (upd (rfft t) 0 C0 b)) (seq 0 nb))) 0) as [E|E]; [exact IH|]. intros a [<-|Ha]; [|apply IH, Ha].
  set (k := argmax _) in *. assert (U : upd (rfft t) 0 C0 k = rfft t k) by (unfold upd; destruct (Nat.eqb_spec k 0); [lia|reflexivity]). rewrite U.
  apply (aligned_loop (rfft t) k N 0); lia.
Qed.
(** Coherent averaging never shows more power in a bin than power averaging does, when every run has some power in the band. *)
Lemma c184_below fsc w N nb d P Q : length w = N -> (1 <= nb <= N / 2 + 1)%nat -> runs_of N d ->
  (forall r, In r d -> exists b, (1 <= b < nb)%nat /\ rfft (m_run fsc w r) b <> C0) ->
  m_spectrum true fsc w N nb d = Some P -> m_spectrum false fsc w N nb d = Some Q ->
  forall b, (2 * b <= N)%nat -> 0 <= nth b P 0 <= nth b Q 0.
Proof.
  intros Lw Hnb RO HX EP EQ b Hb. pose proof (m_spectrum_props _ _ _ _ _ _ _ EP) as [LP PP].
  assert (HN : (0 < N)%nat). { destruct RO as [RN RR]. destruct d as [|r d']; [contradiction|]. destruct (HX r (or_introl eq_refl)) as (i & Hi & _). destruct N; [change (0/2)%nat with O in Hnb; lia|lia]. }
  apply half_bound in Hb. split; [apply PP, nth_In; lia|].
  unfold m_spectrum in EP, EQ. cbv zeta iota in EP, EQ. rewrite (heard_all fsc w N d RO) in EP, EQ. set (runs := map (m_run fsc w) d) in *. set (al := m_aligned_runs N nb runs) in *.
  destruct (aligned_all N nb runs Hnb) as [AL AM].
  { intros t Ht. apply in_map_iff in Ht. destruct Ht as (r & <- & Hr). split; [rewrite run_length; [exact Lw|]; rewrite Lw; apply (proj2 RO r Hr)|apply HX, Hr]. }
  fold al in AL, AM. destruct (_ =? 0)%nat in EP; [discriminate|]. revert EQ. rewrite map_length. destruct (Nat.eqb_spec (length runs) 0) as [|NZ]; [discriminate|]. intros EQ.
  injection EP as <-. injection EQ as <-. rewrite !nth_map_seq by exact Hb. unfold m_coherent_bin, m_power_bin. rewrite AL.
  assert (MN : forall x y, x <= y -> m_nyquist N b x <= m_nyquist N b y) by (intros x y L; unfold m_nyquist; destruct (_ && _); lra). apply MN.
  pose proof (INR_pos N HN) as PN. pose proof (INR_pos (length runs) ltac:(lia)) as PR. set (n := INR (length runs)) in *.
  destruct (Nat.eqb_spec b 0) as [->|B0].
  - assert (Z : forall acc, fold_left (fun acc (a : nat -> C) => Cplus acc (a O)) al acc = acc).
    { pose proof (aligned_zero N nb runs HN) as AZ. fold al in AZ. clear -AZ. induction al as [|a t IH]; intros acc; cbn [fold_left]; [reflexivity|].
      rewrite (AZ a (or_introl eq_refl)). rewrite IH; [destruct acc; unfold Cplus, C0; cbn [fst snd]; f_equal; ring|]. intros u Hu. apply AZ. right. exact Hu. }
    rewrite Z, Cmod_0. apply Req_le. unfold Rdiv. ring.
  - pose proof (cauchy_runs (fun a => a b) al) as CR. cbv beta in CR. rewrite AL, AM in CR by lia. fold n in CR. set (S := lsum _) in *. rewrite <- Cmod_sqr in CR. set (F := Cmod _) in *.
    assert (I2 : 0 < / INR N ^ 2) by (apply Rinv_0_lt_compat, pow_lt, PN). unfold Rdiv.
    replace (S * / INR N ^ 2 * 16 * / n) with (n * S * (/ INR N ^ 2 * 16 * / n ^ 2)) by (field; split; lra).
    replace (F ^ 2 * / INR N ^ 2 * 16 * / n ^ 2) with (F * F * (/ INR N ^ 2 * 16 * / n ^ 2)) by ring.
    apply Rmult_le_compat_r; [|exact CR]. assert (0 < / n ^ 2) by (apply Rinv_0_lt_compat, pow_lt, PR). apply Rmult_le_pos; [lra|lra].
Qed.
(** For one run coherent averaging changes nothing (the Python code attenuates harmonic h by (1 + 1e-20/|X|)^(-2h), C106). *)
Lemma c184_single fsc w N nb r : length w = N -> length r = N -> (1 <= nb <= N / 2 + 1)%nat -> ~ Forall (fun x => x = 0) r ->
  (exists b, (1 <= b < nb)%nat /\ rfft (m_run fsc w r) b <> C0) ->
  m_spectrum true fsc w N nb [r] = m_spectrum false fsc w N nb [r].
Proof.
  intros Lw Lr Hnb NZ HX. unfold m_spectrum. cbv zeta. rewrite (heard_all fsc w N [r]) by (split; [discriminate|intros x [<-|[]]; split; assumption]). cbn [map].
  set (t := m_run fsc w r) in *. assert (Lt : length t = N) by (unfold t; rewrite run_length; lia). destruct (alignable N nb t Lt Hnb HX) as [a E]. cbn [m_aligned_runs]. rewrite E. cbn [map length Nat.eqb].
  f_equal. apply map_ext_in. intros b Hb. apply in_seq in Hb. destruct (c184_turned N nb t a Lt Hnb E) as (Q0 & Q & _).
  unfold m_coherent_bin, m_power_bin. cbn [fold_left map length]. unfold lsum. cbn [fold_right fold_left].
  assert (CP : forall z, Cplus C0 z = z) by (intros [x y]; unfold Cplus, C0; cbn [fst snd]; f_equal; ring). rewrite CP. f_equal.
  destruct (Nat.eqb_spec b 0) as [->|B0]; [rewrite Q0, Cmod_0; simpl; unfold Rdiv; ring|]. rewrite Q by lia. simpl INR. unfold Rdiv. rewrite Rplus_0_r. field. 
  apply not_0_INR. intros Z. rewrite Z in Hb. change (0 / 2)%nat with O in Hb. lia.
Qed.
(** In a bin that carries a harmonic the Python alignment is this one, reduced by the guard it adds to the magnitude, once per order. *)
Lemma c184_python N nb t a x : length t = N -> (1 <= nb <= N / 2 + 1)%nat -> m_aligned N nb t = Some a ->
  exists k, strongest_bin N nb t k /\ forall b, (1 <= b)%nat -> harmonic_bin N k b ->
    exists h, (1 <= h <= N)%nat /\ appears N k h b /\
      align_spectrum (rfft t) k x N b = Cscale ((Cmod (rfft t k) / (Cmod (rfft t k) + / 10 ^ 20)) ^ h) (a b).
Proof.
  intros L Hnb H. destruct (aligned_inv N nb t a L Hnb H) as (k & S & P & Q). exists k. split; [exact S|]. intros b Hb HB. destruct S as (K1 & K2 & _).
  destruct (harmonic_first N k b ltac:(lia) ltac:(lia) HB) as [h Eh]. exists h. destruct (first_order_some _ _ _ _ _ Eh) as [Hr [Hl _]]. split; [exact Hr|].
  split. { destruct (landing_appears N k h ltac:(lia)) as [L1 L2]. rewrite Hl in L1, L2. destruct (snd (landing k N h)); [right|left]; auto. }
  rewrite align_closed by lia. rewrite Q. destruct (Nat.eqb_spec b 0); [lia|]. unfold aligned_bin. rewrite Eh. set (z := rfft t k) in *.
  assert (AP : align_phasor z = Cscale (shrink z) (unit_phasor z)).
  { unfold align_phasor, unit_phasor, shrink. destruct z as [u v]. pose proof (SpecMetricProofs.eps_pos 20). set (m := Cmod (u, v)) in *. unfold Cconj, Cscale. cbn [fst snd]. f_equal; field; lra. }
  rewrite AP, cpow_scale, rot_scale. unfold shrink. generalize ((Cmod z / (Cmod z + / 10 ^ 20)) ^ h). intros g. generalize (rot (snd (landing k N h)) (cpow (unit_phasor z) h)). intros y.
  destruct (rfft t b) as [u v], y as [y1 y2]. unfold Cmult, Cscale. cbn [fst snd]. f_equal; ring.
Qed.
Lemma map2_at (f : R -> R -> R) a b t : (t < length a)%nat -> (t < length b)%nat -> nth t (map2 f a b) 0 = f (nth t a 0) (nth t b 0).
Proof. revert b t. induction a as [|x a IH]; intros [|y b] [|t]; cbn [length map2 nth]; intros H1 H2; try lia; [reflexivity|]. apply IH; lia. Qed.
Lemma rotated_perm d r : (0 < length r)%nat -> lsum (rotated d r) = lsum r.
Proof.
  intros H. rewrite !lsum_rsum, rotated_length. 
  pose proof (csum_rotate (length r) (fun i => RtoC (nth i r 0)) d) as E.
  assert (G : forall n f, csum n (fun i => RtoC (f i)) = RtoC (rsum n f)).
  { clear. induction n as [|n IH]; intros f; cbn [csum rsum]; [reflexivity|]. rewrite IH. unfold Cplus, RtoC. cbn [fst snd]. f_equal. ring. }
  rewrite G in E. rewrite (G (length r) (fun i => nth ((i + d) mod length r) r 0)) in E. injection E as E. rewrite <- E. apply rsum_ext. intros i Hi. apply rotated_nth, Hi.
Qed.
Lemma run_rotated fsc N d r : (0 < N)%nat -> length r = N -> m_run fsc (m_window MRect N) (rotated d r) = rotated d (m_run fsc (m_window MRect N) r).
Proof.
  intros HN L. assert (Lw : length (m_window MRect N) = N) by apply repeat_length. apply (nth_ext_eq 0).
  - rewrite rotated_length, !run_length by (rewrite ?rotated_length; lia). reflexivity.
  - intros i Hi. rewrite run_length in Hi by (rewrite rotated_length; lia). rewrite Lw in Hi. rewrite rotated_nth by (rewrite run_length; lia). rewrite run_length by lia. rewrite Lw.
    assert (NM : forall l j, length l = N -> (j < N)%nat -> nth j (m_run fsc (m_window MRect N) l) 0 = (nth j l 0 / fsc - lmean (map (fun x => x / fsc) l)) * 1 / sqrt (lmean (map (fun y => y ^ 2) (m_window MRect N)))).
    { intros l j Ll Hj. unfold m_run. rewrite map2_at by (rewrite ?map_length; lia). rewrite (nth_map_in _ _ _ 0) by lia. f_equal. f_equal.
      unfold m_window. rewrite (nth_indep _ 0 1), nth_repeat by (rewrite repeat_length; lia). reflexivity. }
    rewrite !NM by (rewrite ?rotated_length; try lia; apply Nat.mod_upper_bound; lia). f_equal. f_equal. f_equal.
    + f_equal. rewrite rotated_nth by lia. rewrite L. reflexivity.
    + unfold lmean. rewrite !map_length, rotated_length. f_equal. rewrite !(map_ext (fun x => x / fsc) (fun x => / fsc * x)) by (intros; unfold Rdiv; ring).
      rewrite !(lsum_scale_map (/ fsc) (fun x => x)), !map_id. f_equal. apply rotated_perm. lia.
Qed.
(** Records that differ only in where they start (rectangular window, tone with a number of periods coprime to the record length) average
    coherently to the spectrum of one of them. *)
Lemma c184_delays fsc N nb r k ds : length r = N -> (1 <= nb <= N / 2 + 1)%nat -> ~ Forall (fun x => x = 0) r ->
  let t := m_run fsc (m_window MRect N) r in strongest_bin N nb t k -> rfft t k <> C0 -> Nat.gcd k N = 1%nat -> ds <> [] ->
  m_spectrum true fsc (m_window MRect N) N nb (map (fun d => rotated d r) ds) = m_spectrum true fsc (m_window MRect N) N nb [r].
Proof.
  intros L Hnb NZ t S XK G DS. set (w := m_window MRect N) in *. assert (Lw : length w = N) by apply repeat_length. assert (Lt : length t = N) by (unfold t; rewrite run_length; lia).
  pose proof S as (K1 & K2 & _). assert (HN : (0 < N)%nat) by lia.
  assert (PK : 0 < Cmod (rfft t k)). { destruct (Rle_lt_or_eq_dec _ _ (Cmod_nonneg (rfft t k))) as [X|X]; [exact X|]. exfalso. apply XK, Cmod_eq_0. symmetry. exact X. }
  assert (NZR : forall d, ~ Forall (fun x => x = 0) (rotated d r)).
  { intros d Z. apply NZ. assert (C : forall b, rfft (m_run fsc w (rotated d r)) b = C0).
    { intros b. apply rfft_zeros. unfold m_run. rewrite Forall_forall in Z. apply Forall_forall. intros v Hv.
      assert (MZ : lmean (map (fun x => x / fsc) (rotated d r)) = 0).
      { rewrite lmean_map. rewrite (map_ext_in _ (fun _ => 0)) by (intros u Hu; rewrite (Z u Hu); unfold Rdiv; ring). 
        rewrite lsum_const. unfold Rdiv. ring. }
      rewrite MZ in Hv. apply (In_nth _ _ 0) in Hv. destruct Hv as (i & Hi & <-). rewrite map2_length in Hi by (rewrite map_length, rotated_length; lia). rewrite map_length, rotated_length in Hi.
      rewrite map2_at by (rewrite ?map_length, ?rotated_length; lia). rewrite (nth_map_in _ _ _ 0) by (rewrite rotated_length; lia).
      rewrite (Z (nth i (rotated d r) 0)) by (apply nth_In; rewrite rotated_length; lia). unfold Rdiv. ring. }
    exfalso. apply XK. specialize (C k). unfold w in C. rewrite run_rotated in C by (assumption || lia). fold w in C. fold t in C. rewrite rfft_rotated in C. 
    apply Cmod_eq_0. pose proof (f_equal Cmod C) as C2. rewrite Cmod_mult, Cmod_cis, Cmod_0 in C2. lra. }
  assert (AR : forall d, exists a, m_aligned N nb (m_run fsc w (rotated d r)) = Some a /\ forall b, (2 * b <= N)%nat -> a b = if (b =? 0)%nat then C0 else aligned_bin (rfft t) k N b).
  { intros d. unfold w. rewrite run_rotated by (assumption || lia). fold w. fold t. destruct (aligned_is N nb (rotated d t) k) as (a & Ea & Qa).
    - rewrite rotated_length. exact Lt.
    - lia.
    - apply strongest_rotated; assumption.
    - rewrite rfft_rotated, Cmod_mult, Cmod_cis. lra.
    - exists a. split; [exact Ea|]. intros b Hb. rewrite Qa. destruct (Nat.eqb_spec b 0) as [|B0]; [reflexivity|].
      pose proof (coprime_harmonic N k b HN ltac:(lia) G Hb) as HB. pose proof (align_rotated N t k 1 d b HN Lt ltac:(lia) HB) as AE.
      destruct (harmonic_first N k b HN ltac:(lia) HB) as [h Eh]. rewrite !align_closed in AE by lia. rewrite Eh in AE. unfold aligned_bin. rewrite Eh.
      assert (AP : forall z, 0 < Cmod z -> align_phasor z = Cscale (shrink z) (unit_phasor z)).
      { intros z Hz. unfold align_phasor, unit_phasor, shrink. destruct z as [u v]. pose proof (SpecMetricProofs.eps_pos 20). set (m := Cmod (u, v)) in *. unfold Cconj, Cscale. cbn [fst snd]. f_equal; field; lra. }
      assert (PR : Cmod (rfft (rotated d t) k) = Cmod (rfft t k)) by (rewrite rfft_rotated, Cmod_mult, Cmod_cis; ring).
      rewrite !AP in AE by lra. rewrite !cpow_scale, !rot_scale in AE. replace (shrink (rfft (rotated d t) k)) with (shrink (rfft t k)) in AE by (unfold shrink; rewrite PR; reflexivity).
      set (g := shrink (rfft t k) ^ h) in *. assert (G0 : g <> 0). { apply pow_nonzero. unfold shrink. pose proof (SpecMetricProofs.eps_pos 20). apply Rgt_not_eq. apply Rdiv_lt_0_compat; lra. }
      assert (CM : forall u v, Cmult u (Cscale g v) = Cscale g (Cmult u v)) by (intros [u1 u2] [v1 v2]; unfold Cmult, Cscale; cbn [fst snd]; f_equal; ring). rewrite !CM in AE.
      assert (CI : forall u v, Cscale g u = Cscale g v -> u = v). { intros [u1 u2] [v1 v2]. unfold Cscale. cbn [fst snd]. intros E. injection E as E1 E2. f_equal; apply (Rmult_eq_reg_l g); assumption. }
      apply CI, AE. }
  assert (HE : m_heard fsc w (map (fun d => rotated d r) ds) = map (m_run fsc w) (map (fun d => rotated d r) ds)).
  { apply (heard_all fsc w N). split; [destruct ds; [contradiction|discriminate]|]. intros x Hx. apply in_map_iff in Hx. destruct Hx as (d & <- & _). split; [rewrite rotated_length; exact L|apply NZR]. }
  assert (H1 : m_heard fsc w [r] = [t]) by (apply (heard_all fsc w N); split; [discriminate|]; intros x [<-|[]]; split; assumption).
  unfold m_spectrum. cbv zeta iota. rewrite HE, H1. destruct (aligned_is N nb t k Lt (proj2 Hnb) S PK) as (a & Ea & Qa). cbn [m_aligned_runs]. rewrite Ea.
  set (al := m_aligned_runs N nb (map (m_run fsc w) (map (fun d => rotated d r) ds))).
  assert (AL : length al = length ds /\ forall u, In u al -> forall b, (2 * b <= N)%nat -> u b = a b).
  { unfold al. clear al HE DS. induction ds as [|d T IH]; cbn [map m_aligned_runs]; [split; [reflexivity|intros u []]|]. destruct IH as [I1 I2]. destruct (AR d) as (u & Eu & Qu). rewrite Eu.
    split; [cbn [length]; rewrite I1; reflexivity|]. intros v [<-|Hv] b Hb; [rewrite Qu by exact Hb; rewrite Qa; reflexivity|apply I2; assumption]. }
  destruct AL as [AL AB]. rewrite map_length, AL. cbn [map length]. destruct (Nat.eqb_spec (length ds) 0) as [Z|DN]; [destruct ds; [contradiction|discriminate]|]. change (1 =? 0)%nat with false. cbv iota.
  f_equal. apply map_ext_in. intros b Hb. apply in_seq in Hb. assert (Hb2 : (2 * b <= N)%nat) by (apply half_bound; lia). unfold m_coherent_bin. f_equal.
  rewrite (fold_const al b (a b)) by (intros u Hu; apply AB; assumption). rewrite AL. cbn [fold_left length].
  assert (CP : forall z, Cplus C0 z = z) by (intros [x y]; unfold Cplus, C0; cbn [fst snd]; f_equal; ring). rewrite !CP, Cmod_scale, Rabs_pos_eq by apply pos_INR.
  assert (INR (length ds) <> 0) by (apply not_0_INR; exact DN). assert (INR N <> 0) by (apply not_0_INR; lia). simpl (INR 1). field. split; assumption.
Qed.
(** Two records of a tone, the second one a quarter of a period later: power averaging and coherent averaging agree with one record. *)
Example c184_delays_ex : m_spectrum true 2 (m_window MRect 4) 4 3 [[1; 0; -1; 0]; [0; -1; 0; 1]] = m_spectrum true 2 (m_window MRect 4) 4 3 [[1; 0; -1; 0]] /\
  m_spectrum true 2 (m_window MRect 4) 4 3 [[1; 0; -1; 0]] = Some [0; 1; 0].
Proof.
  assert (ET : m_run 2 (m_window MRect 4) [1; 0; -1; 0] = [1 / 2; 0; - (1 / 2); 0]).
  { assert (W : lmean (map (fun y => y ^ 2) (m_window MRect 4)) = 1) by (unfold m_window, lmean, lsum; simpl; lra).
    unfold m_run. rewrite W, sqrt_1. assert (M : lmean (map (fun x => x / 2) [1; 0; -1; 0]) = 0) by (unfold lmean, lsum; simpl; lra). rewrite M. cbn [map map2 m_window repeat].
    repeat (apply (f_equal2 (@cons R)); [lra|]); reflexivity. }
  assert (F : forall k, (k <= 2)%nat -> rfft [1 / 2; 0; - (1 / 2); 0] k = RtoC (if (k =? 1)%nat then 1 else 0)).
  { intros k Hk. rewrite rfft_quarter by exact Hk. destruct k as [|[|[|k]]]; [| | |lia]; cbn; unfold RtoC; f_equal; lra. }
  assert (S : strongest_bin 4 3 [1 / 2; 0; - (1 / 2); 0] 1).
  { assert (E : forall j, rdft 4 (fun i => nth i [1 / 2; 0; - (1 / 2); 0] 0) j = rfft [1 / 2; 0; - (1 / 2); 0] j) by (intros j; reflexivity).
    split; [lia|]. split; [lia|]. cbv zeta. split; intros j Hj; [intros J2|lia]. rewrite !E, !F by lia. rewrite !Cmod_RtoC. destruct j as [|[|[|j]]]; [lia| | |lia]; cbn [Nat.eqb]; rewrite ?Rabs_R0, ?Rabs_R1; lra. }
  assert (NZ : ~ Forall (fun x => x = 0) [1; 0; -1; 0]) by (intros Z; inversion Z; lra).
  assert (X1 : rfft [1 / 2; 0; - (1 / 2); 0] 1 <> C0) by (rewrite F by lia; intros X; injection X as X; lra).
  split.
  - change [[1; 0; -1; 0]; [0; -1; 0; 1]] with (map (fun d => rotated d [1; 0; -1; 0]) [0; 1]%nat).
    apply (c184_delays 2 4 3 [1; 0; -1; 0] 1 [0; 1]%nat); [reflexivity|change (4 / 2)%nat with 2%nat; lia|exact NZ|rewrite ET; exact S|rewrite ET; exact X1|reflexivity|discriminate].
  - rewrite c184_single; [|reflexivity|reflexivity|change (4 / 2)%nat with 2%nat; lia|exact NZ|exists 1%nat; split; [lia|rewrite ET; exact X1]].
    unfold m_spectrum. cbv zeta iota. rewrite (heard_all 2 _ 4 [[1; 0; -1; 0]]) by (split; [discriminate|intros x [<-|[]]; split; [reflexivity|exact NZ]]). cbn [map length Nat.eqb]. f_equal.
    rewrite ET. change (seq 0 (4 / 2 + 1)) with [0; 1; 2]%nat. cbn [map]. unfold m_power_bin, m_nyquist. cbn [map length Nat.eqb Nat.even Nat.div Nat.divmod fst andb]. rewrite !F by lia. rewrite !Cmod_RtoC.
    cbn [Nat.eqb]. unfold lsum. cbn [fold_left fold_right]. rewrite Rabs_R0, Rabs_R1. repeat (apply (f_equal2 (@cons R)); [simpl; lra|]); reflexivity.
Qed.

(** ** C185: the cutoff, the automatic half-width and the printed frequency *)
(** The tone is looked for in the whole band, whatever the cutoff; the powers are measured in the spectrum after the cutoff. *)
Lemma c185_cutoff P0 w N nb runs fs osr side harmonic nthd nf assumed cutoff r : (1 <= nb <= N / 2 + 1)%nat -> length P0 = (N / 2 + 1)%nat ->
  m_measure P0 w N nb runs fs osr side harmonic nthd nf assumed cutoff = Ok r ->
  ms_bin r = argmax (firstn nb P0) /\ length (ms_power r) = length P0 /\
  forall i, (i < length P0)%nat -> nth i (ms_power r) 0 = if Rltb (INR i) (cutoff / fs * INR N) && Rltb 0 cutoff then 0 else nth i P0 0.
Proof.
  intros Hnb L H. destruct (measure_fields _ _ _ _ _ _ _ _ _ _ _ _ _ _ Hnb L H) as (gone & _ & EP & _ & Ef & _). split; [exact Ef|]. rewrite EP. unfold m_cut.
  destruct (Rltb_spec 0 cutoff) as [C|C]; [|split; [reflexivity|intros i Hi; rewrite andb_false_r; reflexivity]].
  split; [apply zero_range_length|]. intros i Hi. rewrite zero_range_nth. rewrite andb_true_r. set (x := cutoff / fs * INR N).
  replace ((0 <=? i)%nat && (i <? Z.to_nat (Zceil x))%nat) with (Rltb (INR i) x); [reflexivity|]. change (0 <=? i)%nat with true. cbn [andb].
  pose proof (Zceil_ub x) as U. destruct (Rltb_spec (INR i) x) as [A|A]; symmetry.
  - apply Nat.ltb_lt. assert (INR i < IZR (Zceil x)) by lra. rewrite INR_IZR_INZ in H0. apply lt_IZR in H0. lia.
  - apply Nat.ltb_ge. rewrite INR_IZR_INZ in A. assert (Zceil x <= Z.of_nat i)%Z; [|lia]. apply Zceil_glb. exact A.
Qed.
(** So with strong low-frequency noise the reported tone is a bin the cutoff has emptied, and its power is zero; the Python analysis of
    the same spectrum finds the tone above the cutoff. *)
Lemma c185_cutoff_refuted : exists P0 r Q, m_measure P0 [1] 8 5 1 8 1 (Some 0%nat) 1 1 1 None 2 = Ok r /\ ms_bin r = 1%nat /\ ms_sig r = 0 /\
  apply_cutoff P0 2 8 8 = Ok Q /\ fundamental_bin Q 5 = 3%nat /\ nth 3 Q 0 = 5.
Proof.
  assert (AM : argmax (firstn 5 [0; 7; 0; 5; 0]) = 1%nat).
  { apply argmax_unique; [cbn; lia| |]; intros j Hj; cbn [firstn length] in *; do 5 (destruct j as [|j]; [try (exfalso; lia); cbn [nth]; lra|try (exfalso; lia)]). }
  assert (C2 : Zceil (2 / 8 * INR 8) = 2%Z) by (replace (2 / 8 * INR 8) with (IZR 2) by (rewrite (INR_IZR_INZ 8); simpl; lra); apply Zceil_IZR).
  assert (CU : m_cut 2 8 8 [0; 7; 0; 5; 0] = [0; 0; 0; 5; 0]).
  { unfold m_cut. destruct (Rltb_spec 0 2); [|lra]. rewrite C2. change (Z.to_nat 2) with 2%nat. apply (nth_ext_eq 0); [rewrite zero_range_length; reflexivity|].
    intros i Hi. rewrite zero_range_length in Hi. cbn [length] in Hi. rewrite zero_range_nth. do 5 (destruct i as [|i]; [cbn; reflexivity|]). lia. }
  assert (E : exists r, m_measure [0; 7; 0; 5; 0] [1] 8 5 1 8 1 (Some 0%nat) 1 1 1 None 2 = Ok r) by (unfold m_measure; cbv zeta; unfold m_harmonics; change (Z.to_nat (- (1))) with O; cbn [Nat.leb bind]; eexists; reflexivity).
  destruct E as [r E]. exists [0; 7; 0; 5; 0], r, [/ 10 ^ 20; / 10 ^ 20; 0; 5; 0]. split; [exact E|].
  destruct (measure_fields [0; 7; 0; 5; 0] [1] 8 5 1 8 1 (Some 0%nat) 1 1 1 None 2 r ltac:(change (8 / 2)%nat with 4%nat; lia) eq_refl E) as (gone & _ & EP & _ & Ef & _ & Es & Esig & _).
  rewrite AM in Ef. rewrite CU in *. split; [exact Ef|]. split. { rewrite Esig, Ef, Es. unfold selected_power. cbn [rsum]. unfold near. cbn. ring. }
  split.
  - unfold apply_cutoff. destruct (Rltb_spec 0 2); [|lra]. destruct (Reqb_spec 8 0); [lra|]. rewrite C2. reflexivity.
  - split; [|reflexivity]. unfold fundamental_bin. cbn [firstn length Nat.ltb Nat.leb tl]. f_equal. apply argmax_unique; [cbn; lia| |]; pose proof (SpecMetricProofs.eps_pos 20) as P20; assert (/ 10 ^ 20 < 5) by (apply Rlt_trans with 1; [rewrite <- Rinv_1; apply Rinv_lt_contravar; lra|lra]);
      intros j Hj; cbn [length] in *; do 4 (destruct j as [|j]; [try (exfalso; lia); cbn [nth]; lra|try (exfalso; lia)]).
Qed.
(** Nothing else than the label: a frequency below 1 is printed one bin too high. *)
Lemma c185_printed fs frac N : (0 < N)%nat -> 0 < fs ->
  (1 <= frac / INR N * fs -> m_printed_fin fs frac N = frac / INR N * fs) /\
  (frac / INR N * fs < 1 -> m_printed_fin fs frac N = frac / INR N * fs + fs / INR N).
Proof.
  intros HN Hf. pose proof (INR_pos N HN). unfold m_printed_fin. cbv zeta. split; intros L; destruct (Rleb_spec 1 (frac / INR N * fs)); try lra.
Qed.
(** A tone at a quarter of the default rate 1 in a record of 8 is printed as 0.375. *)
Lemma c185_printed_refuted : m_printed_fin 1 2 8 = 0.375 /\ 2 / INR 8 * 1 = 0.25.
Proof. unfold m_printed_fin. cbv zeta. simpl. destruct (Rleb_spec 1 (2 / (1 + 1 + 1 + 1 + 1 + 1 + 1 + 1) * 1)); split; lra. Qed.
(** The leakage spectrum of the automatic half-width is, up to the common factor 4 that the scaling to the measured tone removes, the
    Python one outside bin 0 (which Python halves). *)
Lemma c185_ideal w N x b : (0 < N)%nat -> length w = N -> lsum w <> 0 -> (1 <= b)%nat -> (2 * b <= N)%nat ->
  nth b (m_ideal w N x) 0 =
  nth b (map (fun p => p * power_correction w) (power_average N [map2 Rmult (map (fun n => sin (2 * PI * x * INR n / INR N)) (seq 0 N)) w])) 0 * 4.
Proof.
  intros HN Lw Sw Hb Hb2. apply half_bound in Hb2. pose proof (INR_pos N HN) as PN. pose proof (mean_square_pos w Sw) as MS. pose proof (sqrt_lt_R0 _ MS) as SQ.
  unfold m_ideal, power_average. cbv zeta. rewrite map_map, !nth_map_seq by exact Hb2. unfold power_bin. cbv zeta. destruct (Nat.eqb_spec b 0); [lia|]. rewrite correction_general by exact Sw.
  set (S2 := lmean (map (fun y => y ^ 2) w)) in *. set (u := map2 Rmult (map (fun n => sin (2 * PI * x * INR n / INR N)) (seq 0 N)) w).
  replace (map2 (fun x0 v => x0 * v / sqrt S2) (map (fun n => sin (2 * PI * x / INR N * INR n)) (seq 0 N)) w) with (map (fun v => / sqrt S2 * v) u).
  - rewrite BandProofs.rfft_scale, Cmod_scale, Rpow_mult_distr, pow2_abs. cbn [map]. unfold lmean, lsum. cbn [fold_right fold_left length].
    assert (E : (/ sqrt S2) ^ 2 = / S2) by (rewrite pow_inv; f_equal; apply pow2_sqrt; lra).
    rewrite E. unfold m_nyquist. simpl (INR 1). destruct (Nat.even N && (b =? N / 2)%nat); field; split; lra.
  - unfold u. apply (nth_ext_eq 0).
    + rewrite map_length, !map2_length, !map_length by (rewrite map_length, seq_length; lia). reflexivity.
    + intros i Hi. rewrite map_length, map2_length in Hi by (rewrite map_length, seq_length; lia). rewrite map_length, seq_length in Hi.
      rewrite (nth_map_in _ _ _ 0) by (rewrite map2_length by (rewrite map_length, seq_length; lia); rewrite map_length, seq_length; lia).
      rewrite !map2_at by (rewrite ?map_length, ?seq_length; lia). rewrite !nth_map_seq by exact Hi.
      replace (2 * PI * x / INR N * INR i) with (2 * PI * x * INR i / INR N) by (field; lra). unfold Rdiv. ring.
Qed.
Lemma below_same l fl nb f left : forall sb, m_first_below l fl nb f sb left = first_below l fl nb f 0 sb left.
Proof. induction left as [|n IH]; intros sb; cbn [m_first_below first_below]; [reflexivity|]. rewrite Nat.max_0_r, IH. reflexivity. Qed.
(** The automatic half-width: with the leakage of an ideal tone scaled to the measured one and the median of the band as floor, the largest
    half-width before both edges are at or below the floor; the largest the band allows if they never are, or if the ideal tone has
    nothing in the tone's bin. *)
Lemma c185_auto P w N nb f x med : (f < nb)%nat -> (0 < Nat.min nb (length P))%nat ->
  let big := filter (fun p => Rltb (/ 10 ^ 20) p) (firstn nb P) in
  middle_of (if (3 <=? length big)%nat then big else firstn nb P) med ->
  let e k := nth k (m_ideal w N x) 0 in
  let ideal k := e k * (nth f P 0 / e f) in
  let sb := m_side_auto P w N nb f (Some x) in let mx := Nat.min f (nb - 1 - f) in
  (e f = 0 -> sb = mx) /\
  (e f <> 0 ->
   (exists s, (1 <= s <= mx)%nat /\ ideal (f - s)%nat <= med /\ ideal (f + s)%nat <= med /\
      (forall s', (1 <= s' < s)%nat -> med < ideal (f - s')%nat \/ med < ideal (f + s')%nat) /\ sb = (s - 1)%nat) \/
   ((forall s, (1 <= s <= mx)%nat -> med < ideal (f - s)%nat \/ med < ideal (f + s)%nat) /\ sb = mx)).
Proof.
  intros Hf HB big HM e ideal sb mx.
  assert (MD : (if (3 <=? length big)%nat then median big else median (firstn nb P)) = med).
  { destruct (Nat.leb_spec 3 (length big)) as [L | L]; apply median_middle; try exact HM; intros Z.
    - rewrite Z in L. cbn [length] in L. lia.
    - apply (f_equal (@length R)) in Z. rewrite firstn_len_min in Z. cbn [length] in Z. lia. }
  unfold sb, m_side_auto. cbv zeta. fold mx. fold big. rewrite MD. fold (e f). split; intros EF; destruct (Reqb_spec (e f) 0) as [Z|Z]; try contradiction; [reflexivity|].
  assert (ID : forall k, nth k (map (fun p => p * (nth f P 0 / e f)) (m_ideal w N x)) 0 = ideal k).
  { intros k. unfold ideal, e. destruct (Nat.lt_ge_cases k (length (m_ideal w N x))) as [I | I]; [rewrite (nth_map_in _ _ _ 0) by exact I; reflexivity |]. rewrite !(nth_overflow _ _ (n := k)) by (rewrite ?map_length; exact I). ring. }
  set (idl := map _ (m_ideal w N x)) in *. rewrite below_same.
  pose proof (first_below_spec idl med nb f 0 mx 1 ltac:(unfold mx; lia) ltac:(unfold mx; lia)) as H.
  destruct (first_below idl med nb f 0 1 mx) as [r |].
  - left. destruct H as (s & R1 & R2 & R3 & R4 & R5). exists s. rewrite <- !ID. split; [lia |]. split; [exact R2 |]. split; [exact R3 |]. split; [intros s' Hs'; rewrite <- !ID; apply R4; lia | rewrite R5; apply Nat.max_0_r].
  - right. split; [| reflexivity]. intros s Hs. rewrite <- !ID. apply H. lia.
Qed.
