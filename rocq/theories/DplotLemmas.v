(** * When the ENOB of a record is a number: lemmas for the ENOB sweep plot. *)
From Verif Require Import Base BaseLemmas Cplx FreqModel FreqProofs UnitsModel TiModel TiSpec TiProofs TiToneProofs SpecModel SpecSpec SpecLemmas SpecProofs SpecToneProofs BandModel BandSpec BandProofs SpecMetricProofs SpecPrepProofs CohProofs EnvProofs CalModel CalSpec CalProofs CalMoreProofs SweepModel SweepProofs DplotSpec.
From Coq Require Import Psatz.
Local Open Scope R_scope.

Lemma sweep_parts kz cz x osr wt : x <> [] -> 0 < osr -> exists row nb sp, prepare_fft_input [x] ScaleAuto = Ok [row] /\ length row = length x /\ inband_count (Z.of_nat (length x)) osr = Ok nb /\
  sweep_spectrum kz cz x osr wt = Ok sp /\ analyse_power (corrected_power [row] (create_window kz cz wt (length x)) (length x)) 1 (length x) (Z.to_nat nb) 1 osr wt (create_window kz cz wt (length x)) None 5 0 None = Ok sp.
Proof.
  intros Hx Ho. destruct (peak_one x Hx) as (p & P). destruct (prepare_fft_input [x] ScaleAuto) as [rows |] eqn:E; [| unfold prepare_fft_input in E; rewrite orient_one, P in E; discriminate].
  destruct (prepared_one _ _ E) as (row & -> & L). assert (Lx : (0 < length x)%nat) by (destruct x; [congruence | cbn; lia]).
  destruct (inband_count (Z.of_nat (length x)) osr) as [nb |] eqn:I; [| rewrite inband_eq in I by (lia || lra); discriminate]. 
  destruct (sweep_defined kz cz x osr wt Hx Ho) as (sp & S). exists row, nb, sp. split; [reflexivity |]. split; [exact L |]. split; [reflexivity |]. split; [exact S |].
  unfold sweep_spectrum, compute_spectrum in S. rewrite E in S. cbn [bind length] in S. unfold ncols in S. cbn [hd] in S. rewrite L, I in S. cbn [bind] in S. unfold apply_cutoff in S. destruct (Rltb_spec 0 0); [lra |]. cbn [bind] in S. exact S.
Qed.
Lemma enob_signal P M N nb fs osr wt w side mh nf sp : analyse_power P M N nb fs osr wt w side mh nf None = Ok sp -> (forall v, In v P -> 0 <= v) ->
  let s := selected_power nb (near (fundamental_bin P nb) (sp_side sp)) P in (0 < s -> exists v, sp_enob sp = Fin v) /\ (s = 0 -> sp_enob sp = NInf).
Proof.
  intros A NN s. destruct (analyse_fields _ _ _ _ _ _ _ _ _ _ _ _ _ A) as (_ & _ & F & _ & _ & _ & _ & Sg & _ & _ & _ & _ & Nd & _ & Sn & En & _). rewrite En, Sn, Sg, Nd, F. fold s.
  assert (D : 0 < selected_power nb (outside (fundamental_bin P nb) (sp_side sp)) P + / 10 ^ 20).
  { assert (0 < / 10 ^ 20) by (apply Rinv_0_lt_compat, pow_lt; lra). enough (0 <= selected_power nb (outside (fundamental_bin P nb) (sp_side sp)) P) by lra. apply rsum_nonneg. intros i _. destruct (outside _ _ i); [| lra]. destruct (Nat.lt_ge_cases i (length P)); [apply NN, nth_In; assumption | rewrite nth_overflow by assumption; lra]. }
  set (d := _ + / 10 ^ 20) in *. unfold sndr_of. fold d. split.
  - intros Hs. unfold db, xlog10. assert (Q : 0 < s / d) by (apply Rdiv_lt_0_compat; assumption). destruct (Rltb_spec 0 (s / d)); [| lra]. cbn [xaxpy enob_of]. eexists. reflexivity.
  - intros ->. unfold db, xlog10. replace (0 / d) with 0 by (unfold Rdiv; ring). destruct (Rltb_spec 0 0); [lra |]. destruct (Reqb_spec 0 0); [| lra]. unfold enob_of, xaxpy. destruct (Rltb_spec 0 10); [| lra]. destruct (Rltb_spec 0 (/ 6.02)) as [| X]; [reflexivity |]. exfalso. lra.
Qed.
Lemma prepared_row x row : prepare_fft_input [x] ScaleAuto = Ok [row] -> exists p, row = map (fun v => if Reqb p 0 then v - lmean x else (v - lmean x) / p) x.
Proof. unfold prepare_fft_input. rewrite orient_one. destruct (peak_of [x] ScaleAuto) as [p |]; cbn [bind map]; [| discriminate]. intros E. apply Ok_inj in E. injection E as <-. exists p. reflexivity. Qed.
Lemma rfft_zero x k : (forall v, In v x -> v = 0) -> rfft x k = C0.
Proof.
  intros Z. unfold rfft, rdft, dft. rewrite (csum_ext _ _ (fun _ => C0)); [rewrite csum_const; unfold Cscale, C0; cbn; f_equal; ring |]. intros n Hn. rewrite (Z _ (nth_In _ _ Hn)). unfold Cmult, RtoC, C0. cbn. f_equal; ring.
Qed.
Lemma windowed_zero row w v : (forall a, In a row -> a = 0) -> In v (map2 Rmult row w) -> v = 0.
Proof.
  revert w. induction row as [| a t IH]; intros w Z I; [destruct w; contradiction I |]. destruct w as [| b w]; [contradiction I |]. cbn [map2] in I. destruct I as [<- | I]; [rewrite (Z a (or_introl eq_refl)); ring |]. apply (IH w); [intros c C; apply Z; right; exact C | exact I].
Qed.
(** A constant record has the ENOB minus infinity, whatever the window and the oversampling ratio. *)
Lemma sweep_constant kz cz x osr wt : x <> [] -> 0 < osr -> constant_list x -> exists sp, sweep_spectrum kz cz x osr wt = Ok sp /\ sp_enob sp = NInf.
Proof.
  intros Hx Ho (c & Cx). destruct (sweep_parts kz cz x osr wt Hx Ho) as (row & nb & sp & P & L & I & S & A). exists sp. split; [exact S |]. destruct (prepared_row _ _ P) as (p & Er).
  assert (M : lmean x = c).
  { assert (E : x = map (fun _ => c) x) by (clear - Cx; induction x as [| a t IH]; [reflexivity |]; cbn [map]; rewrite <- IH by (intros v V; apply Cx; right; exact V); f_equal; apply Cx; left; reflexivity).
    assert (N : INR (length x) <> 0) by (apply not_0_INR; destruct x; [congruence | discriminate]). unfold lmean. rewrite E at 1. rewrite lsum_rsum, map_length. rewrite (rsum_ext _ _ (fun _ => c)) by (intros i Hi; rewrite (nth_map_in _ _ _ 0) by exact Hi; reflexivity). rewrite rsum_const. field. exact N. }
  assert (Z : forall v, In v row -> v = 0) by (intros v V; rewrite Er in V; apply in_map_iff in V; destruct V as (u & <- & U); rewrite M, (Cx u U); destruct (Reqb p 0); [ring | unfold Rdiv; ring]).
  set (w := create_window kz cz wt (length x)) in *. set (Pw := corrected_power [row] w (length x)) in *.
  assert (PZ : forall i, nth i Pw 0 = 0).
  { intros i. destruct (Nat.lt_ge_cases i (length Pw)) as [Li | Li]; [| apply nth_overflow, Li]. unfold Pw, corrected_power, power_average, windowed. cbn [map]. rewrite map_map. unfold Pw in Li. rewrite corrected_length in Li. rewrite (nth_map_in _ _ _ 0%nat) by (rewrite seq_length; exact Li).
    unfold power_bin. cbn [map]. rewrite rfft_zero by (intros v; apply windowed_zero, Z). rewrite Cmod_0. unfold lmean. cbn [lsum length INR pow]. replace ((0 * (0 * 1) + 0) / 1 / (INR (length x) * (INR (length x) * 1))) with 0 by (unfold Rdiv; ring). destruct (_ =? 0)%nat, (Nat.even _ && _)%bool; unfold Rdiv; ring. }
  destruct (enob_signal _ _ _ _ _ _ _ _ _ _ _ _ A) as (_ & Q); [intros v V; apply (corrected_nonneg _ _ _ _ V) |]. apply Q. apply rsum_zero. intros i _. rewrite PZ. destruct (near _ _ i); reflexivity.
Qed.
Lemma nth_repeat_lt' (c : R) N n : (n < N)%nat -> nth n (repeat c N) 0 = c.
Proof. revert n. induction N as [| N IH]; intros [| n] H; cbn; try lia; [reflexivity | apply IH; lia]. Qed.
(** A window that is positive, except possibly at the first sample. *)
Definition open_window (w : list R) : Prop := 0 <= nth 0 w 0 /\ forall n, (1 <= n < length w)%nat -> 0 < nth n w 0.
Lemma only_dc y : (0 < length y)%nat -> (forall k, (1 <= k <= length y / 2)%nat -> rfft y k = C0) -> forall n, (n < length y)%nat -> nth n y 0 = lsum y / INR (length y).
Proof.
  intros L H. set (N := length y) in *. set (c := lsum y / INR N). assert (P : INR N <> 0) by (apply not_0_INR; lia).
  assert (E : y = repeat c N).
  { apply rfft_injective; [rewrite repeat_length; reflexivity |]. intros k Hk. fold N in Hk. assert (Ec : rfft (repeat c N) k = rdft N (fun _ => c) k).
    { unfold rfft. rewrite repeat_length. apply rdft_ext. intros n Hn. apply nth_repeat_lt'. exact Hn. }
    rewrite Ec. destruct k as [| k].
    - unfold rfft. fold N. rewrite !rdft_0 by lia. rewrite rsum_const. f_equal. unfold c. rewrite lsum_rsum. fold N. field. exact P.
    - rewrite H by lia. rewrite rdft_const; [reflexivity |]. assert (N / 2 < N)%nat by (apply Nat.div_lt; lia). lia. }
  intros n Hn. rewrite E at 1. apply nth_repeat_lt'. exact Hn.
Qed.
Lemma no_tone row w : length w = length row -> open_window w -> lsum row = 0 -> (forall k, (1 <= k <= length row / 2)%nat -> rfft (map2 Rmult row w) k = C0) -> forall n, (n < length row)%nat -> nth n row 0 = 0.
Proof.
  intros Lw (W0 & W1) S H. set (N := length row) in *. destruct (Nat.eq_dec N 0) as [Z | Z]; [intros; lia |]. assert (Ly : length (map2 Rmult row w) = N) by (rewrite map2_length by (symmetry; exact Lw); reflexivity).
  pose proof (only_dc (map2 Rmult row w)) as D. rewrite Ly in D. specialize (D ltac:(lia) H). set (c := lsum _ / INR N) in D.
  assert (V : forall n, (n < N)%nat -> nth n row 0 * nth n w 0 = c) by (intros n Hn; rewrite <- (D n Hn); symmetry; apply map2_nth; [symmetry; exact Lw | exact Hn]).
  rewrite lsum_rsum in S. fold N in S.
  assert (Sg : forall a b : R, 0 <= b -> a * b = c -> c <> 0 -> 0 < a * c).
  { intros a b Hb E Hc. assert (b <> 0) by (intros ->; apply Hc; lra). assert (0 < b) by lra. assert (Q : a * c * b = c * c) by (rewrite <- E at 2; ring). assert (0 < c * c) by (destruct (Rtotal_order c 0) as [? | [? | ?]]; nra). nra. }
  assert (Pw : forall n, (n < N)%nat -> 0 <= nth n w 0) by (intros n Hn; destruct n; [exact W0 | apply Rlt_le, W1; lia]).
  assert (C0' : c = 0).
  { destruct (Req_dec c 0) as [E | Hc]; [exact E | exfalso]. assert (A : 0 < rsum N (fun n => c * nth n row 0)).
    { destruct N as [| n']; [lia |]. cbn [rsum]. pose proof (rsum_nonneg n' (fun n => c * nth n row 0)) as Q. pose proof (Sg _ _ (Pw n' ltac:(lia)) (V n' ltac:(lia)) Hc) as X. enough (0 <= rsum n' (fun n => c * nth n row 0)) by lra. apply Q. intros i Hi. pose proof (Sg _ _ (Pw i ltac:(lia)) (V i ltac:(lia)) Hc). lra. }
    rewrite rsum_scale, S in A. lra. }
  assert (Z1 : forall n, (1 <= n < N)%nat -> nth n row 0 = 0) by (intros n Hn; pose proof (V n ltac:(lia)) as E; rewrite C0' in E; apply Rmult_integral in E; destruct E as [E | E]; [exact E |]; pose proof (W1 n ltac:(lia)); lra).
  intros n Hn. destruct n as [| n]; [| apply Z1; lia]. destruct N as [| N']; [lia |]. rewrite rsum_shift in S. rewrite (rsum_zero N') in S by (intros i Hi; apply Z1; lia). lra.
Qed.
Lemma correction_positive w : (2 <= length w)%nat -> open_window w -> 0 < power_correction w.
Proof.
  intros L (W0 & W1). assert (N : 0 < INR (length w)) by (apply lt_0_INR; lia).
  assert (S : 0 < lsum w /\ 0 < lsum (map (fun x => x ^ 2) w)).
  { destruct w as [| a [| b t]]; [cbn in L; lia | cbn in L; lia |]. pose proof (W1 1%nat ltac:(cbn; lia)) as B. cbn [nth] in W0, B. assert (T : forall x, In x t -> 0 < x) by (intros x I; apply (In_nth _ _ 0) in I; destruct I as (n & Hn & <-); apply (W1 (S (S n))); cbn; lia).
    assert (0 <= lsum t) by (apply lsum_nonneg, Forall_forall; intros x I; apply Rlt_le, T, I). assert (0 <= lsum (map (fun x => x ^ 2) t)) by (apply lsum_nonneg, Forall_forall; intros x I; apply in_map_iff in I; destruct I as (u & <- & _); apply pow2_ge_0). cbn [lsum map]. assert (0 < b ^ 2) by (apply pow_lt, B). pose proof (pow2_ge_0 a). split; lra. }
  destruct S as (S1 & S2). unfold power_correction, window_gain, enbw_factor. apply Rdiv_lt_0_compat; [lra |]. apply Rmult_lt_0_compat; [apply pow_lt, Rdiv_lt_0_compat; lra |]. apply Rdiv_lt_0_compat; [apply Rmult_lt_0_compat; lra | apply pow_lt; lra].
Qed.
Lemma lsum_prepared x p : x <> [] -> lsum (map (fun v => if Reqb p 0 then v - lmean x else (v - lmean x) / p) x) = 0.
Proof.
  intros Hx. assert (N : INR (length x) <> 0) by (apply not_0_INR; destruct x; [congruence | discriminate]). assert (S : lsum x = INR (length x) * lmean x) by (unfold lmean; field; exact N).
  assert (G : forall k m l, lsum (map (fun v => (v - m) * k) l) = (lsum l - INR (length l) * m) * k) by (intros k m l; induction l as [| a t IH]; [cbn; ring |]; cbn [map lsum length]; rewrite IH, S_INR; ring).
  destruct (Reqb p 0).
  - rewrite (map_ext _ (fun v => (v - lmean x) * 1)) by (intros; ring). rewrite G, S. ring.
  - unfold Rdiv. rewrite G, S. ring.
Qed.
(** Over the full band, with a window that vanishes at most at the first sample, the ENOB of a record that is not constant is a number. *)
Lemma sweep_number kz cz x wt : x <> [] -> ~ constant_list x -> length (create_window kz cz wt (length x)) = length x -> open_window (create_window kz cz wt (length x)) -> exists sp v, sweep_spectrum kz cz x 1 wt = Ok sp /\ sp_enob sp = Fin v.
Proof.
  intros Hx NC Lw W. destruct (sweep_parts kz cz x 1 wt Hx ltac:(lra)) as (row & nb & sp & P & L & I & S & A). exists sp. destruct (prepared_row _ _ P) as (p & Er).
  set (w := create_window kz cz wt (length x)) in *. set (N := length x) in *. assert (L2 : (2 <= N)%nat).
  { destruct x as [| a [| b t]]; [congruence | | cbn; lia]. exfalso. apply NC. exists a. intros v [<- | []]. reflexivity. }
  assert (Nb : Z.to_nat nb = (N / 2 + 1)%nat) by (rewrite c23_full_band in I by (lia || lra); apply Ok_inj in I; subst nb; rewrite Z2Nat.inj_add, Z2Nat.inj_div by (try lia; apply Z.div_pos; lia); rewrite Nat2Z.id; reflexivity).
  set (Pw := corrected_power [row] w N) in *. assert (LP : length Pw = (N / 2 + 1)%nat) by apply corrected_length. assert (NN : forall v, In v Pw -> 0 <= v) by (intros v V; apply (corrected_nonneg _ _ _ _ V)).
  assert (H2 : (1 <= N / 2)%nat) by (apply (Nat.div_le_mono 2 N 2) in L2; [exact L2 | lia]).
  assert (PV : forall k, (k < N / 2 + 1)%nat -> nth k Pw 0 = power_bin N [map2 Rmult row w] k * power_correction w).
  { intros k Hk. unfold Pw, corrected_power, power_average, windowed. cbn [map]. rewrite map_map. rewrite (nth_map_in _ _ _ 0%nat) by (rewrite seq_length; exact Hk). rewrite seq_nth by exact Hk. reflexivity. }
  assert (KP : 0 < power_correction w) by (apply correction_positive; [lia | exact W]).
  assert (EX : exists k, (1 <= k <= N / 2)%nat /\ 0 < nth k Pw 0).
  { destruct (Classical_Prop.classic (exists k, (1 <= k <= N / 2)%nat /\ 0 < nth k Pw 0)) as [Y | Y]; [exact Y | exfalso]. apply NC.
    assert (Z : forall n, (n < length row)%nat -> nth n row 0 = 0).
    { apply (no_tone row w); [lia | exact W | rewrite Er; apply lsum_prepared, Hx |]. rewrite L. intros k Hk. assert (Q : nth k Pw 0 = 0) by (apply Rle_antisym; [apply Rnot_lt_le; intros Q; apply Y; exists k; auto | apply NN, nth_In; lia]).
      rewrite PV in Q by lia. apply Rmult_integral in Q. destruct Q as [Q | Q]; [| lra]. unfold power_bin in Q. cbn [map] in Q. unfold lmean in Q. cbn [lsum length] in Q. change (INR 1) with 1 in Q.
      assert (PN : 0 < INR N ^ 2) by (apply pow_lt, lt_0_INR; lia). set (z := Cmod (rfft (map2 Rmult row w) k)) in *. assert (E : (z ^ 2 + 0) / 1 / INR N ^ 2 = 0) by (destruct (k =? 0)%nat, (Nat.even N && (k =? N / 2))%nat; lra).
      apply Cmod_eq_0. fold z. assert (z ^ 2 = 0) by (replace (z ^ 2) with ((z ^ 2 + 0) / 1 / INR N ^ 2 * INR N ^ 2) by (field; apply not_0_INR; lia); rewrite E; ring). apply Rmult_integral in H. destruct H as [H | H]; lra. }
    exists (lmean x). intros v V. apply (In_nth _ _ 0) in V. destruct V as (n & Hn & <-). specialize (Z n ltac:(lia)). rewrite Er in Z. rewrite (nth_map_in _ _ _ 0) in Z by exact Hn. destruct (Reqb_spec p 0) as [E | E]; [lra |]. unfold Rdiv in Z. apply Rmult_integral in Z. destruct Z as [Z | Z]; [lra |]. exfalso. exact (Rinv_neq_0_compat _ E Z). }
  destruct EX as (k & Hk & Pk). destruct (enob_signal _ _ _ _ _ _ _ _ _ _ _ _ A NN) as (Q & _). rewrite Nb in Q.
  set (f := fundamental_bin Pw (N / 2 + 1)) in *. assert (F : (1 <= f < N / 2 + 1)%nat /\ nth k Pw 0 <= nth f Pw 0).
  { unfold f, fundamental_bin. cbv zeta. rewrite firstn_all2 by lia. rewrite LP. destruct (Nat.ltb_spec 1 (N / 2 + 1)); [| lia]. destruct Pw as [| a t]; [cbn [length] in LP; lia |]. cbn [length] in LP. cbn [tl]. destruct (argmax_spec t) as (A1 & A2 & _); [intros ->; cbn [length] in LP; lia |]. split; [lia |]. destruct k as [| k]; [lia |]. cbn [nth]. apply A2. lia. }
  destruct Q as (v & V); [| exists v; auto]. apply Rlt_le_trans with (nth f Pw 0); [lra |]. unfold selected_power.
  set (g := fun i => if (i =? f)%nat then nth i Pw 0 else 0). assert (G : rsum (N / 2 + 1) g = nth f Pw 0) by (rewrite (rsum_single _ f); unfold g; [rewrite Nat.eqb_refl; reflexivity | lia | intros i _ Ne; apply Nat.eqb_neq in Ne; rewrite Ne; reflexivity]).
  rewrite <- G. apply rsum_le. intros i Hi. unfold g. destruct (Nat.eqb_spec i f) as [-> | Ne].
  - unfold near. destruct (Nat.leb_spec f (f + sp_side sp)); [| lia]. cbn. lra.
  - destruct (near f (sp_side sp) i); [| lra]. apply NN, nth_In. lia.
Qed.
(** The usual windows vanish at most at their first sample. *)
Lemma usual_windows kz cz wt N : wt = Boxcar \/ wt = Hann \/ wt = Hamming -> length (create_window kz cz wt N) = N /\ open_window (create_window kz cz wt N).
Proof.
  assert (O : forall n, open_window (repeat 1 n)).
  { intros n. unfold open_window. rewrite repeat_length. split; [destruct n; cbn; lra |]. intros i Hi. rewrite nth_repeat_lt' by lia. lra. }
  assert (G : forall a b, 0 < b <= a -> open_window (cos_window [a; b] N)).
  { intros a b Hab. unfold open_window. rewrite cos_window_length. destruct (Nat.leb_spec N 1) as [L | L].
    - unfold cos_window. destruct (Nat.leb_spec N 1); [| lia]. destruct N as [| [| N]]; cbn; [split; [lra | intros; lia] | split; [lra | intros; lia] | lia].
    - assert (V : forall n, (n < N)%nat -> nth n (cos_window [a; b] N) 0 = a + b * cos (2 * PI * INR n / INR N - PI)).
      { intros n Hn. unfold cos_window. destruct (Nat.leb_spec N 1); [lia |]. rewrite (nth_map_in _ _ _ 0%nat) by (rewrite seq_length; exact Hn). rewrite seq_nth by exact Hn. cbn [length rsum nth INR]. rewrite Rmult_0_l, cos_0, Rmult_1_l, Nat.add_0_l. ring. }
      split; [rewrite V by lia; pose proof (COS_bound (2 * PI * INR 0 / INR N - PI)); nra |]. intros n Hn. rewrite V by lia.
      assert (P : 0 < INR n < INR N) by (split; [apply lt_0_INR | apply lt_INR]; lia). assert (Q : -1 < cos (2 * PI * INR n / INR N - PI)).
      { pose proof PI_RGT_0 as PP. set (q := INR n / INR N). assert (0 < q < 1) by (unfold q; split; [apply Rdiv_lt_0_compat; lra | apply (Rmult_lt_reg_r (INR N)); [lra |]; unfold Rdiv; rewrite Rmult_assoc, Rinv_l by lra; lra]).
        replace (2 * PI * INR n / INR N - PI) with (PI * (2 * q - 1)) by (unfold q; field; lra). rewrite <- cos_PI. destruct (Rle_dec 0 (2 * q - 1)) as [A | A].
        - apply cos_decreasing_1; nra.
        - rewrite <- (cos_neg (PI * (2 * q - 1))). apply cos_decreasing_1; nra. }
      nra. }
  intros [-> | [-> | ->]]; cbn [create_window]; (split; [first [apply repeat_length | apply cos_window_length] |]); [apply O | apply G; lra | apply G; lra].
Qed.

(** ** When the calibration answers *)
Lemma patch_keeps rank n nominal (col : nat -> vec) js : forall st, p_eff st <> [] -> p_eff (fold_left (fun st j => patch_step rank n nominal st j (col j)) js st) <> [].
Proof.
  induction js as [| j js IH]; intros st H; cbn [fold_left]; [exact H |]. apply IH. unfold patch_step. destruct (Rltb _ _); [exact H |]. destruct (_ <? _)%nat; [cbn; destruct (p_eff st); discriminate |].
  destruct (find_correlated _ _ _ _) as [c |]; [| exact H]. cbn [p_eff]. destruct (p_eff st) as [| a l]; [congruence |]. destruct c; cbn; discriminate.
Qed.
(** Two samples of a column differ by more than the threshold of the code. *)
Definition moving (n : nat) (v : vec) : Prop := exists i k, (i < n)%nat /\ (k < n)%nat /\ 1 / 10 ^ 15 <= Rabs (v i - v k).
Lemma patch_grows rank n nominal (col : nat -> vec) js : rank_correct rank -> forall st, (exists j, In j js /\ moving n (col j)) -> p_eff (fold_left (fun st j => patch_step rank n nominal st j (col j)) js st) <> [].
Proof.
  intros (_ & R2). induction js as [| j js IH]; intros st (j' & I & M); [contradiction I |]. cbn [fold_left]. destruct (p_eff st) as [| a l] eqn:E.
  2:{ apply (patch_keeps rank n nominal col [j]) in E || idtac. apply patch_keeps. apply (patch_keeps rank n nominal col [j] st). rewrite E. discriminate. }
  destruct I as [-> | I]; [| apply IH; exists j'; auto]. apply patch_keeps. destruct M as (i & k & Hi & Hk & D). unfold patch_step.
  destruct (Rltb_spec (vptp n (col j')) (1 / 10 ^ 15)) as [B | B]; [pose proof (vptp_bound n (col j') i k Hi Hk); lra |]. rewrite E.
  assert (Q : (rank (hcat (ones n) (of_cols n [])) < rank (hcat (hcat (ones n) (of_cols n [])) (of_cols n [col j'])))%nat).
  { apply (R2 _ _ (col j')); try reflexivity.
    - intros a b Hb. cbn in Hb. cbn. destruct b; [reflexivity | lia].
    - intros (x & X). pose proof (X i Hi) as X1. pose proof (X k Hk) as X2. cbn in X1, X2. rewrite X1, X2 in D. replace (0 + 1 * x 0%nat - (0 + 1 * x 0%nat)) with 0 in D by ring. rewrite Rabs_R0 in D. assert (0 < 1 / 10 ^ 15) by (apply Rdiv_lt_0_compat; [lra | apply pow_lt; lra]). lra. }
  apply Nat.ltb_lt in Q. rewrite Q. cbn. discriminate.
Qed.
Lemma calibrate_answers lstsq rank est bits f fs nominal H lr reltol mi : rank_correct rank -> f <= 1 / 2 -> (0 < m_m bits <= m_n bits)%nat -> nominal_ok (m_m bits) nominal ->
  (exists j, (j < m_m bits)%nat /\ moving (m_n bits) (colm bits j)) -> exists r, calibrate_weight_sine lstsq rank est [bits] (FScalar f) fs nominal H lr reltol mi = Ok r.
Proof.
  intros RC F M NO (j & Hj & MV). unfold calibrate_weight_sine, raise_if at 1. cbn [freq_list existsb]. destruct (Rltb_spec (1 / 2) f); [lra |]. cbn [orb].
  assert (P : exists nw, prepare_input [bits] nominal = Ok ([bits], m_m bits, nw)).
  { unfold prepare_input. cbn [prepare_loop]. unfold raise_if at 1. destruct (Nat.eqb_spec (m_n bits * m_m bits) 0); [nia |]. destruct (Nat.ltb_spec (m_n bits) (m_m bits)); [lia |]. unfold raise_if at 1. cbn [bind]. unfold setup_nominal_weights, raise_if. destruct nominal as [l |]; [| eexists; reflexivity]. cbn in NO. rewrite NO, Nat.eqb_refl. eexists. reflexivity. }
  destruct P as (nw & ->). cbn [bind]. assert (E : exists fr, estimate_frequencies est (length [bits]) (FScalar f) = Ok fr) by (unfold estimate_frequencies; destruct (all_zero _); eexists; reflexivity). destruct E as (fr & ->). cbn [bind].
  cbv zeta. match goal with |- exists r, match ?X with _ => _ end = _ => destruct X as [[f' co] ch] end.
  assert (NE : p_eff (patch_rank_deficiency rank (stack [bits]) nw) <> []).
  { unfold patch_rank_deficiency. assert (MM : m_m (stack [bits]) = m_m bits) by reflexivity. destruct (_ <=? _)%nat.
    - cbn [p_eff]. rewrite MM. destruct (m_m bits); [lia |]. discriminate.
    - apply patch_grows; [exact RC |]. exists j. split; [apply in_seq; rewrite MM; lia |]. destruct MV as (i & k & Hi & Hk & D). exists i, k. assert (ST : m_n (stack [bits]) = m_n bits) by (cbn; lia). rewrite ST. split; [exact Hi |]. split; [exact Hk |]. assert (V : forall t, (t < m_n bits)%nat -> colm (stack [bits]) j t = colm bits j t) by (intros t Ht; unfold colm, stack, vcat_all; cbn [fold_right vcat m_at]; destruct (Nat.ltb_spec t (m_n bits)); [reflexivity | lia]). rewrite !V by assumption. exact D. }
  unfold recover_rank_deficiency, raise_if. destruct (Nat.eqb_spec (length (p_eff (patch_rank_deficiency rank (stack [bits]) nw))) 0) as [Z | Z]; [apply length_zero_iff_nil in Z; congruence |]. cbn [andb bind]. eexists. reflexivity.
Qed.
