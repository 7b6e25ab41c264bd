(** * Metrics of compute_spectrum and quick_sndr: the final lemmas are named c26_ .. c29_. *)
From Verif Require Import Base BaseLemmas Cplx FreqModel UnitsModel UnitsSpec UnitsProofs TiModel TiProofs SpecModel SpecSpec SpecLemmas SpecProofs.
From Coq Require Import Psatz Permutation Sorted.
Local Open Scope R_scope.

Lemma eps_pos n : 0 < / 10 ^ n.
Proof. apply Rinv_0_lt_compat, pow_lt. lra. Qed.
Lemma near_range f sb nb i : (i < nb)%nat -> ((f - sb <=? i) && (i <? Nat.min (f + sb + 1) nb))%nat = near f sb i.
Proof.
  intros H. unfold near. destruct (Nat.leb_spec (f - sb) i), (Nat.ltb_spec i (Nat.min (f + sb + 1) nb)),
    (Nat.leb_spec f (i + sb)), (Nat.leb_spec i (f + sb)); simpl; try reflexivity; lia.
Qed.
Lemma dc_range sb m i : (i < m)%nat -> ((0 <=? i) && (i <? Nat.min (sb + 1) m))%nat = near_dc sb i.
Proof.
  intros H. unfold near_dc. destruct (Nat.leb_spec 0 i), (Nat.ltb_spec i (Nat.min (sb + 1) m)), (Nat.leb_spec i sb); simpl; try reflexivity; lia.
Qed.
Lemma sig_power_eq P f sb nb : lsum (slice (f - sb) (Nat.min (f + sb + 1) nb) P) = selected_power nb (near f sb) P.
Proof.
  rewrite (lsum_slice _ _ _ nb) by lia. apply rsum_ext. intros i Hi. rewrite near_range by exact Hi. reflexivity.
Qed.
Lemma zero_if lo hi l : (if (lo <? hi)%nat then zero_range lo hi l else l) = zero_range lo hi l.
Proof. destruct (Nat.ltb_spec lo hi); [reflexivity|]. symmetry. apply zero_range_empty. lia. Qed.
Lemma noise_distortion_eq P nb f sb : noise_distortion P nb f sb = selected_power nb (outside f sb) P.
Proof.
  unfold noise_distortion. rewrite zero_if, lsum_firstn. apply rsum_ext. intros i Hi.
  rewrite zero_range_nth, near_range, zero_range_nth by exact Hi. unfold outside.
  destruct (near f sb i); [rewrite andb_false_r; reflexivity|]. rewrite andb_true_r.
  destruct (Nat.lt_ge_cases i (length P)) as [L|L].
  - rewrite dc_range by exact L. destruct (near_dc sb i); reflexivity.
  - rewrite (nth_overflow P) by exact L. destruct (_ && _), (negb _); reflexivity.
Qed.
Lemma zeroed_nth P nb f sb i : (i < nb)%nat -> nth i (zeroed P nb f sb) 0 = if outside f sb i then nth i P 0 else 0.
Proof.
  intros H. unfold zeroed. rewrite zero_range_nth, near_range, zero_range_nth, dc_range, nth_firstn_lt by exact H. unfold outside.
  destruct (near f sb i), (near_dc sb i); reflexivity.
Qed.
Lemma zeroed_length P nb f sb : length (zeroed P nb f sb) = Nat.min nb (length P).
Proof. unfold zeroed. rewrite !zero_range_length. apply firstn_length. Qed.
Lemma spur_zeroed P nb f sb :
  highest_spur P sb nb (f - sb) (Nat.min (f + sb + 1) nb) =
  let b := argmax (zeroed P nb f sb) in (b, selected_power nb (fun i => near b sb i && outside f sb i) P).
Proof.
  unfold highest_spur. rewrite zero_if. fold (zeroed P nb f sb). cbv zeta. f_equal. rewrite sig_power_eq.
  apply rsum_ext. intros i Hi. rewrite zeroed_nth by exact Hi. destruct (near _ sb i), (outside f sb i); reflexivity.
Qed.
Lemma selected_le n s1 s2 P : (forall x, In x P -> 0 <= x) -> (forall i, (i < n)%nat -> s1 i = true -> s2 i = true) ->
  selected_power n s1 P <= selected_power n s2 P.
Proof.
  intros HP H. apply rsum_le. intros i Hi. specialize (H i Hi).
  assert (0 <= nth i P 0) by (destruct (Nat.lt_ge_cases i (length P)); [apply HP, nth_In; assumption|rewrite nth_overflow by assumption; lra]).
  destruct (s1 i); [rewrite H by reflexivity; lra|]. destruct (s2 i); lra.
Qed.
Lemma selected_nonneg n s P : (forall x, In x P -> 0 <= x) -> 0 <= selected_power n s P.
Proof.
  intros HP. apply rsum_nonneg. intros i Hi.
  assert (0 <= nth i P 0) by (destruct (Nat.lt_ge_cases i (length P)); [apply HP, nth_In; assumption|rewrite nth_overflow by assumption; lra]).
  destruct (s i); lra.
Qed.

(** Inversion of analyse_power and compute_spectrum. *)
Lemma analyse_fields P M N nb fs osr wt w side mh nf assumed r :
  analyse_power P M N nb fs osr wt w side mh nf assumed = Ok r ->
  sp_power r = P /\ sp_inband r = nb /\ sp_fund r = fundamental_bin P nb /\ sp_frac r = fundamental_frac P nb /\
  sp_side r = match side with Some s => s
     | None => side_bin_auto P (sp_fund r) (sp_frac r) nb N w (power_correction w) (auto_fallback wt) (default_side_bin wt) end /\
  sp_start r = (sp_fund r - sp_side r)%nat /\ sp_end r = Nat.min (sp_fund r + sp_side r + 1) nb /\
  sp_sig r = (match assumed with Some a => pow10 (a / 10) | None => selected_power nb (near (sp_fund r) (sp_side r)) P end) /\
  sp_harm_bins r = harmonic_bins (sp_frac r) (Z.to_nat mh) N /\
  sp_thd_power r = thd_power P (sp_fund r) (sp_side r) (sp_harm_bins r) /\
  sp_spur_bin r = argmax (zeroed P nb (sp_fund r) (sp_side r)) /\
  sp_spur_power r = selected_power nb (fun i => near (sp_spur_bin r) (sp_side r) i && outside (sp_fund r) (sp_side r) i) P /\
  sp_noise_dist r = selected_power nb (outside (sp_fund r) (sp_side r)) P /\
  estimate_noise P nf nb M (sp_fund r) (sp_harm_bins r) (sp_side r) = Ok (sp_noise r) /\
  sp_sndr r = sndr_of (sp_sig r) (sp_noise_dist r) /\ sp_enob r = enob_of (sp_sndr r) /\
  sp_sfdr r = (if Rltb 0 (sp_sig r) then (if Rleb (sp_spur_power r) 0 then PInf else db (sp_sig r / sp_spur_power r)) else NaN) /\
  sp_thd r = (if Rltb 0 (sp_sig r) then db (sp_thd_power r / sp_sig r) else NaN) /\
  sp_snr r = (match sp_noise r with Some v => db (sp_sig r / v) | None => NaN end) /\
  (1 <= mh)%Z.
Proof.
  unfold analyse_power. cbv zeta. unfold raise_if. destruct (Z.ltb_spec mh 1); [discriminate|].
  set (sb := match side with Some s => s | None => _ end).
  destruct (estimate_noise _ _ _ _ _ _ _) as [noise|] eqn:EN; cbn [bind]; [|discriminate].
  rewrite !spur_zeroed, !noise_distortion_eq, !sig_power_eq. cbv zeta. cbn [fst snd].
  intros H0. injection H0 as <-. cbn [sp_power sp_inband sp_fund sp_frac sp_side sp_start sp_end sp_sig sp_harm_bins sp_thd_power sp_spur_bin sp_spur_power sp_noise_dist sp_noise sp_sndr sp_enob sp_sfdr sp_thd sp_snr].
  repeat (split; [first [reflexivity|assumption|destruct assumed; reflexivity]|]). lia.
Qed.

Lemma power_bin_nonneg N rows k : 0 <= power_bin N rows k.
Proof.
  unfold power_bin. assert (H : 0 <= lmean (map (fun r => Cmod (rfft r k) ^ 2) rows) / INR N ^ 2).
  { assert (A : 0 <= lmean (map (fun r => Cmod (rfft r k) ^ 2) rows)).
    { unfold lmean. destruct rows as [|r0 rs]; [simpl; unfold Rdiv; rewrite Rmult_0_l; lra|].
      apply Rdiv_le_0_compat; [|apply lt_0_INR; simpl; lia]. apply lsum_nonneg, Forall_forall. intros x Hx.
      apply in_map_iff in Hx. destruct Hx as (r & <- & _). apply pow2_ge_0. }
    destruct (Req_dec (INR N) 0) as [->|NZ].
    - replace (0 ^ 2) with 0 by ring. unfold Rdiv. rewrite Rinv_0. lra.
    - apply Rdiv_le_0_compat; [exact A|]. apply pow_lt. pose proof (pos_INR N). lra. }
  set (p := _ / _) in *. destruct (k =? 0)%nat, (Nat.even N && _)%bool; lra.
Qed.
Lemma inv_nonneg x : 0 <= x -> 0 <= / x.
Proof. intros [H| <-]; [left; apply Rinv_0_lt_compat, H|rewrite Rinv_0; lra]. Qed.
Lemma power_correction_nonneg w : 0 <= power_correction w.
Proof.
  unfold power_correction, enbw_factor, Rdiv.
  assert (0 <= lsum (map (fun x => x ^ 2) w)).
  { apply lsum_nonneg, Forall_forall. intros x Hx. apply in_map_iff in Hx. destruct Hx as (y & <- & _). apply pow2_ge_0. }
  assert (0 <= / (lsum w ^ 2)) by (apply inv_nonneg, pow2_ge_0).
  pose proof (pos_INR (length w)). pose proof (pow2_ge_0 (window_gain w)).
  apply Rmult_le_pos; [lra|]. apply inv_nonneg. apply Rmult_le_pos; [assumption|]. apply Rmult_le_pos; [|assumption].
  apply Rmult_le_pos; assumption.
Qed.
Lemma corrected_nonneg rows w N x : In x (corrected_power rows w N) -> 0 <= x.
Proof.
  intros H. unfold corrected_power, power_average in H. apply in_map_iff in H. destruct H as (p & <- & H).
  apply in_map_iff in H. destruct H as (k & <- & _). apply Rmult_le_pos; [apply power_bin_nonneg|apply power_correction_nonneg].
Qed.
Lemma corrected_length rows w N : length (corrected_power rows w N) = (N / 2 + 1)%nat.
Proof. unfold corrected_power, power_average. rewrite !map_length, seq_length. reflexivity. Qed.

Lemma compute_inv kz cz data fs sc wt side osr mh nf assumed cutoff r :
  compute_spectrum kz cz data fs sc wt side osr mh nf assumed cutoff = Ok r ->
  exists rows nb P, let N := ncols rows in let w := create_window kz cz wt N in
    prepare_fft_input data sc = Ok rows /\ inband_count (Z.of_nat N) osr = Ok (Z.of_nat nb) /\
    apply_cutoff (corrected_power rows w N) cutoff fs N = Ok P /\
    analyse_power P (length rows) N nb fs osr wt w side mh nf assumed = Ok r /\
    (forall x, In x P -> 0 <= x) /\ length P = (N / 2 + 1)%nat /\ (1 <= nb <= N / 2 + 1)%nat /\ (0 < N)%nat.
Proof.
  unfold compute_spectrum. destruct (prepare_fft_input data sc) as [rows|] eqn:EP; cbn [bind]; [|discriminate].
  destruct (inband_count _ osr) as [nb|] eqn:EI; cbn [bind]; [|discriminate].
  set (w := create_window kz cz wt (ncols rows)). set (N := ncols rows) in *.
  destruct (apply_cutoff _ cutoff fs N) as [P|] eqn:EC; cbn [bind]; [|discriminate]. intros HA.
  pose proof (c23_range _ _ _ EI) as RI. destruct (inband_ok_pos _ _ _ EI) as [HN _].
  exists rows, (Z.to_nat nb), P. fold N. fold w. cbv zeta. rewrite Z2Nat.id by lia.
  assert (Hd : Z.of_nat (N / 2) = (Z.of_nat N / 2)%Z) by (rewrite Nat2Z.inj_div; reflexivity).
  assert (C : (forall x, In x P -> 0 <= x) /\ length P = (N / 2 + 1)%nat).
  { unfold apply_cutoff in EC. destruct (Rltb 0 cutoff).
    - destruct (Reqb fs 0); [discriminate|]. apply Ok_inj in EC. subst P. rewrite map_length, seq_length, corrected_length. split; [|reflexivity].
      intros x Hx. apply in_map_iff in Hx. destruct Hx as (i & <- & Hi). apply in_seq in Hi. destruct (i <? _)%nat.
      + apply Rlt_le, eps_pos.
      + eapply corrected_nonneg, nth_In. rewrite corrected_length. lia.
    - apply Ok_inj in EC. subst P. split; [apply corrected_nonneg|apply corrected_length]. }
  repeat split; try assumption; try tauto; lia.
Qed.

(** ** C26 *)
(** In-band power = signal window + DC window (outside the signal window) + noise and
    distortion, and the SNDR is their ratio. *)
Lemma c26_partition kz cz data fs sc wt side osr mh nf cutoff r :
  compute_spectrum kz cz data fs sc wt side osr mh nf None cutoff = Ok r ->
  let f := sp_fund r in let sb := sp_side r in let n := sp_inband r in let P := sp_power r in
  sp_sig r = selected_power n (near f sb) P /\
  sp_noise_dist r = selected_power n (outside f sb) P /\
  selected_power n (fun _ => true) P =
    sp_sig r + selected_power n (fun i => near_dc sb i && negb (near f sb i)) P + sp_noise_dist r /\
  (0 < sp_sig r -> sp_sndr r = Fin (10 * lg (sp_sig r / (sp_noise_dist r + / 10 ^ 20)))).
Proof.
  intros H. apply compute_inv in H. destruct H as (rows & nb & P & _ & _ & _ & HA & Pn & _).
  apply analyse_fields in HA. destruct HA as (-> & -> & Ef & _ & Es & _ & _ & Esig & _ & _ & _ & _ & End & _ & Esn & _).
  cbv zeta. split; [exact Esig|]. split; [exact End|]. split.
  - rewrite Esig, End. unfold selected_power. rewrite <- !rsum_plus. apply rsum_ext. intros i _. unfold outside.
    destruct (near _ _ i), (near_dc _ i); simpl; ring.
  - intros Hs. rewrite Esn. unfold sndr_of, db, xlog10. assert (D : 0 < sp_sig r / (sp_noise_dist r + / 10 ^ 20)).
    { apply Rdiv_lt_0_compat; [exact Hs|]. rewrite End. pose proof (eps_pos 20). pose proof (selected_nonneg nb (outside (sp_fund r) (sp_side r)) P Pn). lra. }
    destruct (Rltb_spec 0 (sp_sig r / (sp_noise_dist r + / 10 ^ 20))) as [A|A]; [|lra]. cbn [xaxpy]. f_equal. unfold lg. ring.
Qed.
(** The reported spur: in band; whenever some bin outside both windows has power, the spur bin
    is such a bin, none of them has more power, and the spur power is that of the bins around
    it outside both windows. *)
Lemma c26_spur_is_maximal kz cz data fs sc wt side osr mh nf assumed cutoff r :
  compute_spectrum kz cz data fs sc wt side osr mh nf assumed cutoff = Ok r ->
  let f := sp_fund r in let sb := sp_side r in let n := sp_inband r in let P := sp_power r in
  (sp_spur_bin r < n)%nat /\
  (forall i, (i < n)%nat -> outside f sb i = true -> 0 < nth i P 0 ->
     outside f sb (sp_spur_bin r) = true /\ nth i P 0 <= nth (sp_spur_bin r) P 0) /\
  sp_spur_power r = selected_power n (fun i => near (sp_spur_bin r) sb i && outside f sb i) P /\
  sp_spur_power r <= sp_noise_dist r.
Proof.
  intros H. apply compute_inv in H. destruct H as (rows & nb & P & _ & _ & _ & HA & Pn & LP & Hnb & _).
  apply analyse_fields in HA. destruct HA as (-> & -> & Ef & _ & Es & _ & _ & _ & _ & _ & Eb & Ep & End & _).
  cbv zeta. set (f := sp_fund r) in *. set (sb := sp_side r) in *. set (z := zeroed P nb f sb) in *.
  assert (Lz : length z = nb) by (unfold z; rewrite zeroed_length; lia).
  destruct (argmax_spec z) as (A1 & A2 & _); [intros E; rewrite E in Lz; simpl in Lz; lia|]. rewrite <- Eb in A1, A2. rewrite Lz in *.
  split; [exact A1|]. split.
  - intros i Hi Ho Hp. specialize (A2 i Hi). unfold z in A2. rewrite !zeroed_nth in A2 by assumption. rewrite Ho in A2.
    destruct (outside f sb (sp_spur_bin r)); [split; [reflexivity|exact A2]|lra].
  - split; [exact Ep|]. rewrite Ep, End. apply selected_le; [exact Pn|]. intros i _ Hi. apply andb_true_iff in Hi. apply Hi.
Qed.
(** SFDR is never below SNDR. *)
Lemma c26_sfdr_ge_sndr kz cz data fs sc wt side osr mh nf assumed cutoff r :
  compute_spectrum kz cz data fs sc wt side osr mh nf assumed cutoff = Ok r ->
  0 < sp_sig r -> xle (sp_sndr r) (sp_sfdr r).
Proof.
  intros H Hs. pose proof (c26_spur_is_maximal _ _ _ _ _ _ _ _ _ _ _ _ _ H) as (_ & _ & _ & Le).
  apply compute_inv in H. destruct H as (rows & nb & P & _ & _ & _ & HA & Pn & LP & Hnb & _).
  apply analyse_fields in HA. destruct HA as (_ & _ & _ & _ & _ & _ & _ & _ & _ & _ & _ & Ep & End & _ & Esn & _ & Esf & _).
  rewrite Esn, Esf. destruct (Rltb_spec 0 (sp_sig r)) as [A|A]; [|lra].
  pose proof (eps_pos 20) as E20. pose proof (selected_nonneg nb (outside (sp_fund r) (sp_side r)) P Pn) as N0. rewrite <- End in N0.
  assert (D : 0 < sp_sig r / (sp_noise_dist r + / 10 ^ 20)) by (apply Rdiv_lt_0_compat; lra).
  unfold sndr_of, db at 1, xlog10 at 1. destruct (Rltb_spec 0 (sp_sig r / (sp_noise_dist r + / 10 ^ 20))); [|lra]. cbn [xaxpy].
  destruct (Rleb_spec (sp_spur_power r) 0) as [B|B]; [exact I|].
  assert (D2 : 0 < sp_sig r / sp_spur_power r) by (apply Rdiv_lt_0_compat; lra).
  unfold db, xlog10. destruct (Rltb_spec 0 (sp_sig r / sp_spur_power r)); [|lra]. cbn [xaxpy xle].
  assert (L : lg (sp_sig r / (sp_noise_dist r + / 10 ^ 20)) <= lg (sp_sig r / sp_spur_power r)).
  { apply Rlt_le, lg_lt; [exact D|]. unfold Rdiv. apply Rmult_lt_compat_l; [exact Hs|]. apply Rinv_lt_contravar; [apply Rmult_lt_0_compat; lra|lra]. }
  unfold lg in L. lra.
Qed.
Lemma c26_windows_ex :
  let P := [9; 1; 2; 50; 100; 40; 3; 1; 8; 2; 5] in
  fundamental_bin P 11 = 4%nat /\ noise_distortion P 11 4 1 = 2 + 3 + 1 + 8 + 2 + 5 /\
  lsum (slice 3 6 P) = 190 /\ highest_spur P 1 11 3 6 = (8%nat, 11).
Proof.
  intros P. split; [|split; [|split]].
  - unfold P, fundamental_bin. cbn [firstn length tl]. change (1 <? 11)%nat with true. cbv iota. apply (f_equal S).
    apply argmax_unique; cbn [length]; [lia| |]; intros j Hj; cases_lt j; cbn [nth]; lra.
  - rewrite noise_distortion_eq. unfold selected_power, P. cbn [rsum nth].
    repeat match goal with |- context [outside ?a ?b ?c] => let r := eval compute in (outside a b c) in change (outside a b c) with r end. cbv iota. ring.
  - unfold P, slice. simpl. lra.
  - change (highest_spur P 1 11 3 6) with (highest_spur P 1 11 (4 - 1) (Nat.min (4 + 1 + 1) 11)). rewrite spur_zeroed.
    assert (E : argmax (zeroed P 11 4 1) = 8%nat).
    { apply argmax_unique; rewrite ?zeroed_length; change (Nat.min 11 (length P)) with 11%nat; [lia| |]; intros j Hj; rewrite !zeroed_nth by lia;
      cases_lt j; unfold P; cbn [nth];
      repeat match goal with |- context [outside ?a ?b ?c] => let r := eval compute in (outside a b c) in change (outside a b c) with r end; cbv iota; lra. }
    rewrite E. cbv zeta. f_equal. unfold selected_power, P. cbn [rsum nth].
    repeat match goal with |- context [outside ?a ?b ?c] => let r := eval compute in (outside a b c) in change (outside a b c) with r end.
    repeat match goal with |- context [near ?a ?b ?c] => let r := eval compute in (near a b c) in change (near a b c) with r end.
    cbn [andb]. ring.
Qed.

(** ** THD against noise-and-distortion (more of C25) *)
(** Full band, no harmonic window reaching into the DC window: the distortion counted in THD
    is part of the noise-and-distortion power, so |THD| is at least SNDR up to the floors. *)
Lemma c25_thd_within_noise P f sb hs : (forall x, In x P -> 0 <= x) ->
  (forall h, In h hs -> clear_of f sb h = true -> (2 * Z.of_nat sb < h)%Z) ->
  thd_power P f sb hs <= Rmax (noise_distortion P (length P) f sb) (/ 10 ^ 15).
Proof.
  intros HP Hh. rewrite c25_thd_is_union_power, noise_distortion_eq. apply Rle_max_compat_r.
  apply selected_le; [exact HP|]. intros i Hi E. apply existsb_exists in E. destruct E as (h & Ih & E).
  apply andb_true_iff in E. destruct E as [C Nr]. destruct (c25_excludes_fundamental _ _ _ _ C Nr) as [F _].
  specialize (Hh h Ih C). unfold outside. rewrite F. unfold near_dc, nearZ in *. apply Z.leb_le in Nr.
  destruct (Nat.leb_spec i sb); [lia|reflexivity].
Qed.
(** With oversampling (fewer in-band bins than the spectrum has) the THD also counts
    harmonics beyond the band, which the noise-and-distortion power leaves out. *)
Lemma c25_out_of_band_refuted : exists P f sb hs nb,
  (nb < length P)%nat /\ (f < nb)%nat /\ thd_power P f sb hs = 7 /\ noise_distortion P nb f sb = 0.
Proof.
  exists [0; 100; 0; 0; 7], 1%nat, 0%nat, [4%Z], 3%nat. split; [simpl; lia|]. split; [lia|]. split.
  - rewrite c25_thd_is_union_power. unfold selected_power. cbn [length rsum existsb nth].
    repeat match goal with |- context [clear_of ?a ?b ?c] => let r := eval compute in (clear_of a b c) in change (clear_of a b c) with r end.
    repeat match goal with |- context [nearZ ?a ?b ?c] => let r := eval compute in (nearZ a b c) in change (nearZ a b c) with r end.
    cbn [andb orb]. assert (0 < / 10 ^ 15 <= 1) by (split; [apply Rinv_0_lt_compat; lra|rewrite <- Rinv_1; apply Rinv_le_contravar; lra]).
    rewrite Rmax_left; lra.
  - rewrite noise_distortion_eq. unfold selected_power. cbn [rsum nth].
    repeat match goal with |- context [outside ?a ?b ?c] => let r := eval compute in (outside a b c) in change (outside a b c) with r end. cbv iota. ring.
Qed.

(** ** C27 *)
(** quick_sndr returns the SNDR and ENOB of compute_spectrum at osr=1 without cutoff and
    assumed power, for every capture and explicit side_bin. *)
Lemma c27_same_sndr kz cz data fs sc wt (sb : nat) mh nf r :
  compute_spectrum kz cz data fs sc wt (Some sb) 1 mh nf None 0 = Ok r ->
  quick_sndr kz cz data wt (Some (Z.of_nat sb)) sc = Ok (sp_sndr r, sp_enob r).
Proof.
  intros H. apply compute_inv in H. destruct H as (rows & nb & P & EP & EI & EC & HA & Pn & LP & Hnb & _).
  unfold quick_sndr. rewrite EP. cbn [bind]. rewrite EI. cbn [bind]. rewrite Nat2Z.id.
  unfold apply_cutoff in EC. destruct (Rltb_spec 0 0) as [L|L]; [lra|]. apply Ok_inj in EC. rewrite EC.
  apply analyse_fields in HA. destruct HA as (_ & _ & Ef & _ & Es & _ & _ & Esig & _ & _ & _ & _ & End & _ & Esn & Een & _).
  rewrite Z.max_l by lia. rewrite Nat2Z.id, sig_power_eq. rewrite <- Ef. rewrite Es in *. rewrite Een, Esn, Esig, End.
  rewrite <- zero_if, <- noise_distortion_eq. reflexivity.
Qed.
(** Conversely, whenever quick_sndr answers, compute_spectrum with valid options answers too,
    and both reject the same captures. *)
Lemma c27_same_domain kz cz data fs sc wt (sb : nat) mh nf : (1 <= mh)%Z -> (0 <= nf <= 4)%Z ->
  ((exists r, compute_spectrum kz cz data fs sc wt (Some sb) 1 mh nf None 0 = Ok r) <->
   (exists q, quick_sndr kz cz data wt (Some (Z.of_nat sb)) sc = Ok q)) /\
  (forall e, compute_spectrum kz cz data fs sc wt (Some sb) 1 mh nf None 0 = Err e <->
             quick_sndr kz cz data wt (Some (Z.of_nat sb)) sc = Err e).
Proof.
  intros Hm Hnf. unfold compute_spectrum, quick_sndr.
  destruct (prepare_fft_input data sc) as [rows|e0]; cbn [bind].
  2:{ split; [split; intros [x Hx]; discriminate|]. intros e. split; intros E; injection E as <-; reflexivity. }
  destruct (inband_count _ 1) as [nb|e0]; cbn [bind].
  2:{ split; [split; intros [x Hx]; discriminate|]. intros e. split; intros E; injection E as <-; reflexivity. }
  unfold apply_cutoff. destruct (Rltb_spec 0 0) as [L|L]; [lra|]. cbn [bind].
  assert (A : forall P M N nbn fs osr w assumed, exists r, analyse_power P M N nbn fs osr wt w (Some sb) mh nf assumed = Ok r).
  { intros P M N nbn fs0 osr w assumed. unfold analyse_power, raise_if. cbv zeta. destruct (Z.ltb_spec mh 1); [lia|].
    unfold estimate_noise. cbv zeta.
    destruct (Z.eqb_spec nf 4); [destruct (candidate_bins _ _ _ _); cbn [bind]; eexists; reflexivity|].
    destruct (Z.eqb_spec nf 0); [cbn [bind]; eexists; reflexivity|].
    destruct (Z.eqb_spec nf 1); [cbn [bind]; eexists; reflexivity|].
    destruct (Z.eqb_spec nf 2); [cbn [bind]; eexists; reflexivity|].
    destruct (Z.eqb_spec nf 3); [cbn [bind]; eexists; reflexivity|]. lia. }
  destruct (A (corrected_power rows (create_window kz cz wt (ncols rows)) (ncols rows)) (length rows) (ncols rows) (Z.to_nat nb) fs 1 (create_window kz cz wt (ncols rows)) None) as [r E].
  rewrite E. split; [split; intros _; eexists; reflexivity|]. intros e; split; discriminate.
Qed.

(** ** C28 *)
Lemma first_below_range ideal fl nb f mn left : forall sb r,
  first_below ideal fl nb f mn sb left = Some r -> (r <= Nat.max (sb + left - 2) mn)%nat.
Proof.
  induction left as [|l IH]; intros sb r; cbn [first_below]; [discriminate|].
  destruct (_ && _ && _)%bool.
  - intros E. injection E as <-. lia.
  - intros E. apply IH in E. lia.
Qed.
Lemma first_below_min ideal fl nb f mn left : forall sb r,
  first_below ideal fl nb f mn sb left = Some r -> (mn <= r)%nat.
Proof.
  induction left as [|l IH]; intros sb r; cbn [first_below]; [discriminate|].
  destruct (_ && _ && _)%bool; [|apply IH]. intros E. injection E as <-. lia.
Qed.
(** The scan stops at the first half-width s at which both edges of the ideal leakage are at
    or below the floor, and answers s-1 (or the minimum); it fails iff there is none. *)
Lemma first_below_spec ideal fl nb f mn left : forall sb, (sb + left <= S f)%nat -> (f + sb + left <= nb)%nat ->
  match first_below ideal fl nb f mn sb left with
  | Some r => exists s, (sb <= s < sb + left)%nat /\ nth (f - s) ideal 0 <= fl /\ nth (f + s) ideal 0 <= fl /\
      (forall s', (sb <= s' < s)%nat -> fl < nth (f - s') ideal 0 \/ fl < nth (f + s') ideal 0) /\ r = Nat.max (s - 1) mn
  | None => forall s, (sb <= s < sb + left)%nat -> fl < nth (f - s) ideal 0 \/ fl < nth (f + s) ideal 0
  end.
Proof.
  induction left as [|l IH]; intros sb H1 H2; cbn [first_below]; [intros s Hs; lia|].
  destruct (Nat.leb_spec sb f); [|lia]. destruct (Nat.ltb_spec (f + sb) nb); [|lia]. cbn [andb].
  destruct (Rleb_spec (nth (f - sb) ideal 0) fl) as [A|A]; cbn [andb].
  1: destruct (Rleb_spec (nth (f + sb) ideal 0) fl) as [B|B].
  - exists sb. repeat split; try assumption; try lia.
  - specialize (IH (S sb) ltac:(lia) ltac:(lia)). destruct (first_below ideal fl nb f mn (S sb) l) as [r|].
    + destruct IH as (s & R1 & R2 & R3 & R4 & R5). exists s. repeat split; try assumption; try lia.
      intros s' Hs'. destruct (Nat.eq_dec s' sb) as [->|]; [right; exact B|apply R4; lia].
    + intros s Hs. destruct (Nat.eq_dec s sb) as [->|]; [right; exact B|apply IH; lia].
  - specialize (IH (S sb) ltac:(lia) ltac:(lia)). destruct (first_below ideal fl nb f mn (S sb) l) as [r|].
    + destruct IH as (s & R1 & R2 & R3 & R4 & R5). exists s. repeat split; try assumption; try lia.
      intros s' Hs'. destruct (Nat.eq_dec s' sb) as [->|]; [left; exact A|apply R4; lia].
    + intros s Hs. destruct (Nat.eq_dec s sb) as [->|]; [left; exact A|apply IH; lia].
Qed.
(** The chosen half-width keeps the window [f-sb, f+sb] inside the band. *)
Lemma c28_inside_band P f frac nb N w corr fallback minimum :
  (f < nb)%nat -> let sb := side_bin_auto P f frac nb N w corr fallback minimum in
  (sb <= f)%nat /\ (f + sb < nb)%nat /\ (Nat.min minimum (Nat.min f (nb - 1 - f)) <= sb)%nat.
Proof.
  intros Hf. cbv zeta. unfold side_bin_auto. cbv zeta.
  match goal with |- context [first_below ?a ?b ?c ?d ?e ?g ?h] => destruct (first_below a b c d e g h) as [r|] eqn:E end.
  - pose proof (first_below_range _ _ _ _ _ _ _ _ E) as H.
    pose proof (first_below_min _ _ _ _ _ _ _ _ E) as L.
    lia.
  - lia.
Qed.
(** What the choice means: with ideal leakage spectrum [ideal] (a unit sine at the interpolated
    position, windowed and scaled to the measured peak) and floor [fl], the answer is the
    largest half-width before both edges drop to the floor, at least the window's minimum;
    the fallback is used when they never do. *)
Lemma c28_first_crossing P f frac nb N w corr fallback minimum : (f < nb)%nat ->
  exists ideal fl,
    let sb := side_bin_auto P f frac nb N w corr fallback minimum in
    let mx := Nat.min f (nb - 1 - f) in let mn := Nat.min minimum mx in
    (exists scale, 0 < scale /\ ideal = map (fun p => p * scale)
       (map (fun p => p * corr) (power_average N [map2 Rmult (map (fun n => sin (2 * PI * frac * INR n / INR N)) (seq 0 N)) w]))) /\
    Rmax (nth f P 0) (/ 10 ^ 30) * / 10 ^ 24 <= fl /\
    ((exists s, (1 <= s <= mx)%nat /\ nth (f - s) ideal 0 <= fl /\ nth (f + s) ideal 0 <= fl /\
        (forall s', (1 <= s' < s)%nat -> fl < nth (f - s') ideal 0 \/ fl < nth (f + s') ideal 0) /\ sb = Nat.max (s - 1) mn) \/
     ((forall s, (1 <= s <= mx)%nat -> fl < nth (f - s) ideal 0 \/ fl < nth (f + s) ideal 0) /\ sb = Nat.min (Nat.max fallback mn) mx)).
Proof.
  intros Hf. unfold side_bin_auto. cbv zeta.
  set (sp0 := map (fun p => p * corr) _). set (peak := Rmax (nth f P 0) (/ 10 ^ 30)).
  set (k := peak / Rmax (nth f sp0 0) (/ 10 ^ 30)). set (ideal := map (fun p => p * k) sp0).
  match goal with |- context [Rmax ?m (peak * / 10 ^ 24)] => set (fl := Rmax m (peak * / 10 ^ 24)) end.
  exists ideal, fl. split.
  { exists k. split; [|reflexivity]. pose proof (eps_pos 30). unfold k, peak.
    pose proof (Rmax_r (nth f P 0) (/ 10 ^ 30)). pose proof (Rmax_r (nth f sp0 0) (/ 10 ^ 30)). apply Rdiv_lt_0_compat; lra. }
  split; [apply Rmax_r|].
  pose proof (first_below_spec ideal fl nb f (Nat.min minimum (Nat.min f (nb - 1 - f))) (Nat.min f (nb - 1 - f)) 1 ltac:(lia) ltac:(lia)) as H.
  destruct (first_below _ _ _ _ _ _ _) as [r|].
  - left. destruct H as (s & R1 & R2 & R3 & R4 & R5). exists s. repeat split; try assumption; lia.
  - right. split; [|reflexivity]. intros s Hs. apply H. lia.
Qed.
(** So with automatic side_bin the signal window is complete: no bin is clipped away. *)
Lemma c28_window_complete kz cz data fs sc wt osr mh nf assumed cutoff r :
  compute_spectrum kz cz data fs sc wt None osr mh nf assumed cutoff = Ok r ->
  (sp_side r <= sp_fund r)%nat /\ (sp_fund r + sp_side r < sp_inband r)%nat /\
  (sp_start r + sp_side r)%nat = sp_fund r /\ sp_end r = (sp_fund r + sp_side r + 1)%nat.
Proof.
  intros H. apply compute_inv in H. destruct H as (rows & nb & P & EP & EI & EC & HA & Pn & LP & Hnb & HN).
  apply analyse_fields in HA. destruct HA as (_ & -> & Ef & _ & Es & Est & Een & _).
  assert (F : (sp_fund r < nb)%nat).
  { rewrite Ef. destruct (Nat.le_gt_cases 2 (Nat.min nb (length P))) as [L|L].
    - pose proof (proj1 (c54_fundamental_is_peak P nb L)). lia.
    - destruct (c54_single_bin P nb ltac:(lia)) as [-> _]. lia. }
  destruct (c28_inside_band P (sp_fund r) (sp_frac r) nb (ncols rows) (create_window kz cz wt (ncols rows))
     (power_correction (create_window kz cz wt (ncols rows))) (auto_fallback wt) (default_side_bin wt) F) as (A & B & _).
  rewrite <- Es in A, B. rewrite Est, Een. lia.
Qed.
Lemma c28_auto_ex :
  first_below [9; 1; 5; 20; 100; 20; 5; 1; 9] 2 9 4 0 1 4 = Some 2%nat /\
  first_below [9; 1; 5; 20; 100; 20; 5; 3; 9] 2 9 4 0 1 4 = None.
Proof.
  split; cbn [first_below Nat.leb Nat.ltb Nat.sub Nat.add nth];
  repeat (match goal with |- context [Rleb ?a ?b] => destruct (Rleb_spec a b); [try lra|try lra] end; cbn [andb]); reflexivity.
Qed.

(** ** C29 *)
Lemma fold_zero_nth (cond : Z -> bool) (a b : Z -> nat) hs : forall s i,
  nth i (fold_left (fun s h => if cond h then zero_range (a h) (b h) s else s) hs s) 0 =
  if existsb (fun h => cond h && ((a h <=? i) && (i <? b h))%nat) hs then 0 else nth i s 0.
Proof.
  induction hs as [|h t IH]; intros s i; [reflexivity|]. cbn [fold_left existsb]. rewrite IH.
  destruct (existsb _ t); [rewrite orb_true_r; reflexivity|]. rewrite orb_false_r.
  destruct (cond h); cbn [andb]; [apply zero_range_nth|reflexivity].
Qed.
Lemma fold_zero_length (cond : Z -> bool) (a b : Z -> nat) hs : forall s,
  length (fold_left (fun s h => if cond h then zero_range (a h) (b h) s else s) hs s) = length s.
Proof.
  induction hs as [|h t IH]; intros s; [reflexivity|]. cbn [fold_left]. rewrite IH. destruct (cond h); [apply zero_range_length|reflexivity].
Qed.
Lemma exclude_noise_eq P nb f sb hs : (nb <= length P)%nat ->
  exclude_noise (zeroed P nb f sb) hs nb =
  selected_power nb (fun i => outside f sb i && negb (existsb (Z.eqb (Z.of_nat i)) hs)) P.
Proof.
  intros H. unfold exclude_noise. rewrite lsum_rsum, fold_zero_length, zeroed_length.
  replace (Nat.min nb (length P)) with nb by lia. apply rsum_ext. intros i Hi. rewrite fold_zero_nth, zeroed_nth by exact Hi.
  replace (existsb (fun h => (0 <=? h)%Z && (h <? Z.of_nat nb)%Z && ((Z.to_nat h <=? i) && (i <? S (Z.to_nat h)))%nat) hs)
    with (existsb (Z.eqb (Z.of_nat i)) hs).
  - destruct (existsb _ hs), (outside f sb i); reflexivity.
  - induction hs as [|h t IH]; [reflexivity|]. cbn [existsb]. rewrite IH. f_equal.
    destruct (Z.eqb_spec (Z.of_nat i) h), (Z.leb_spec 0 h), (Z.ltb_spec h (Z.of_nat nb)), (Nat.leb_spec (Z.to_nat h) i), (Nat.ltb_spec i (S (Z.to_nat h))); simpl; try reflexivity; lia.
Qed.
Lemma forallb_existsb {A} (p : A -> bool) l : forallb (fun x => negb (p x)) l = negb (existsb p l).
Proof. induction l; [reflexivity|]. simpl. rewrite IHl. destruct (p a); reflexivity. Qed.
Lemma harm_in_window nb sb h i : (i < nb)%nat -> (1 <= h)%Z ->
  ((harm_start sb h <=? i) && (i <? harm_end nb sb h))%nat = nearZ h sb i.
Proof.
  intros Hi Hh. apply eq_true_iff_eq. rewrite andb_true_iff, Nat.leb_le, Nat.ltb_lt, (harm_window_in nb sb h i) by lia. tauto.
Qed.
Lemma near0_dc sb i : near 0 sb i = near_dc sb i.
Proof. unfold near, near_dc. reflexivity. Qed.
Lemma exclude_bins_eq P nb f sb hs : (nb <= length P)%nat -> (f < nb)%nat ->
  lsum (exclude_bins P f hs sb nb) = selected_power nb (left_over f sb nb hs) P.
Proof.
  intros H Hf. unfold exclude_bins. cbv zeta.
  assert (Lz : length (zero_range 0 (sb + 1) (firstn nb P)) = nb) by (rewrite zero_range_length, firstn_length; lia). rewrite Lz.
  rewrite lsum_rsum, fold_zero_length.
  assert (L2 : length (if (1 <=? f)%nat && (f <? nb)%nat then zero_range (f - sb) (Nat.min (f + sb + 1) nb) (zero_range 0 (sb + 1) (firstn nb P)) else zero_range 0 (sb + 1) (firstn nb P)) = nb)
    by (destruct (_ && _)%bool; [rewrite zero_range_length; exact Lz|exact Lz]).
  rewrite L2. apply rsum_ext. intros i Hi. rewrite fold_zero_nth. unfold left_over.
  rewrite forallb_existsb.
  replace (existsb (fun h => ((1 <=? h)%Z && (h <? Z.of_nat nb)%Z) && ((harm_start sb h <=? i) && (i <? harm_end nb sb h))%nat) hs)
    with (existsb (fun h => (1 <=? h)%Z && (h <? Z.of_nat nb)%Z && nearZ h sb i) hs).
  2:{ clear - Hi. induction hs as [|h t IH]; [reflexivity|]. cbn [existsb]. rewrite IH. f_equal.
      destruct (Z.leb_spec 1 h); [|reflexivity]. rewrite harm_in_window by (assumption || lia). reflexivity. }
  destruct (existsb _ hs); cbn [negb]; [rewrite andb_false_r; reflexivity|]. rewrite andb_true_r.
  assert (Z0 : nth i (zero_range 0 (sb + 1) (firstn nb P)) 0 = if near_dc sb i then 0 else nth i P 0).
  { rewrite zero_range_nth, nth_firstn_lt by exact Hi. unfold near_dc.
    destruct (Nat.leb_spec 0 i), (Nat.ltb_spec i (sb + 1)), (Nat.leb_spec i sb); simpl; try reflexivity; lia. }
  unfold outside. destruct (Nat.leb_spec 1 f) as [F|F]; cbn [andb].
  - destruct (Nat.ltb_spec f nb); [|lia]. rewrite zero_range_nth, near_range, Z0 by exact Hi. destruct (near f sb i), (near_dc sb i); reflexivity.
  - replace f with O by lia. change (near O sb i) with (near_dc sb i). rewrite Z0. destruct (near_dc sb i); reflexivity.
Qed.
Lemma candidate_in nb f hs sb i : (f < nb)%nat -> In i (candidate_bins nb f hs sb) <-> (i < nb)%nat /\ left_over f sb nb hs i = true.
Proof.
  intros Hf. unfold candidate_bins. rewrite filter_In, in_seq. split.
  - intros [Hi H]. assert (Hi' : (i < nb)%nat) by lia. split; [exact Hi'|]. apply andb_true_iff in H. destruct H as [H1 H3].
    apply andb_true_iff in H1. destruct H1 as [H1 H2]. unfold left_over. apply andb_true_iff. split.
    + unfold outside, near_dc, near. apply negb_true_iff in H1. apply Nat.ltb_ge in H1. apply negb_true_iff in H2.
      destruct (Nat.leb_spec i sb); [lia|]. cbn [negb andb].
      destruct (Nat.leb_spec f (i + sb)), (Nat.leb_spec i (f + sb)); cbn [andb negb]; try reflexivity. exfalso.
      rewrite !andb_false_iff in H2. rewrite !Nat.leb_gt, !Nat.ltb_ge in H2. lia.
    + rewrite forallb_forall in *. intros h Hh. specialize (H3 h Hh). destruct (Z.leb_spec 1 h); [|reflexivity].
      destruct (Z.ltb_spec h (Z.of_nat nb)); [|reflexivity]. cbn [andb] in *. rewrite harm_in_window in H3 by (assumption || lia). exact H3.
  - intros [Hi H]. split; [lia|]. unfold left_over, outside in H. apply andb_true_iff in H. destruct H as [H1 H3].
    apply andb_true_iff in H1. destruct H1 as [H1 H2]. apply andb_true_iff. split; [apply andb_true_iff; split|].
    + unfold near_dc in H1. apply negb_true_iff in H1. apply Nat.leb_gt in H1. apply negb_true_iff, Nat.ltb_ge. lia.
    + unfold near in H2. apply negb_true_iff in H2. apply negb_true_iff. rewrite andb_false_iff, !Nat.leb_gt in H2.
      rewrite !andb_false_iff, !Nat.leb_gt, !Nat.ltb_ge. lia.
    + rewrite forallb_forall in *. intros h Hh. specialize (H3 h Hh). destruct (Z.leb_spec 1 h); [|reflexivity].
      destruct (Z.ltb_spec h (Z.of_nat nb)); [|reflexivity]. cbn [andb] in *. rewrite harm_in_window by (assumption || lia). exact H3.
Qed.
(** Methods 0-3 always return a value of at least 1e-15; method 4 also, except that it returns
    nan exactly when no bin is left over; every other method number raises ValueError. *)
Lemma c29_positive P nf nb M f hs sb r : estimate_noise P nf nb M f hs sb = Ok (Some r) -> / 10 ^ 15 <= r.
Proof.
  unfold estimate_noise. cbv zeta. intros H.
  destruct (nf =? 4)%Z; [destruct (candidate_bins _ _ _ _); [discriminate|]|
    destruct (nf =? 0)%Z; [|destruct (nf =? 1)%Z; [|destruct (nf =? 2)%Z; [|destruct (nf =? 3)%Z; [|discriminate]]]]];
  apply Ok_inj in H; apply (f_equal (fun o => match o with Some v => v | None => 0 end)) in H; cbv beta iota in H; rewrite <- H; apply Rmax_r.
Qed.
Lemma c29_domain P nf nb M f hs sb : (f < nb)%nat ->
  (estimate_noise P nf nb M f hs sb = Err ValueError <-> ~ (0 <= nf <= 4)%Z) /\
  (estimate_noise P nf nb M f hs sb = Ok None <-> nf = 4%Z /\ forall i, (i < nb)%nat -> left_over f sb nb hs i = false).
Proof.
  intros Hf. unfold estimate_noise. cbv zeta.
  destruct (Z.eqb_spec nf 4) as [->|N4].
  - destruct (candidate_bins nb f hs sb) as [|x t] eqn:E.
    + split; [split; [discriminate|lia]|]. split; [|reflexivity]. intros _. split; [reflexivity|]. intros i Hi.
      apply Bool.not_true_iff_false. intros L. pose proof (proj2 (candidate_in nb f hs sb i Hf) (conj Hi L)) as I. rewrite E in I. contradiction.
    + split; [split; [discriminate|lia]|]. split; [discriminate|]. intros [_ A].
      assert (I : In x (candidate_bins nb f hs sb)) by (rewrite E; left; reflexivity). apply candidate_in in I; [|exact Hf].
      destruct I as [I1 I2]. rewrite A in I2 by exact I1. discriminate.
  - destruct (Z.eqb_spec nf 0); [split; split; try discriminate; intros; try lia|].
    destruct (Z.eqb_spec nf 1); [split; split; try discriminate; intros; try lia|].
    destruct (Z.eqb_spec nf 2); [split; split; try discriminate; intros; try lia|].
    destruct (Z.eqb_spec nf 3); [split; split; try discriminate; intros; try lia|].
    split; [split; [lia|reflexivity]|split; [discriminate|intros [? _]; lia]].
Qed.
(** The two exclusion methods: method 3 sums the bins outside both windows other than the
    harmonic bins themselves, method 4 the left-over bins. *)
Lemma c29_exclusion_sums P nb M f hs sb : (nb <= length P)%nat -> (f < nb)%nat ->
  estimate_noise P 3 nb M f hs sb =
    Ok (Some (Rmax (selected_power nb (fun i => outside f sb i && negb (existsb (Z.eqb (Z.of_nat i)) hs)) P) (/ 10 ^ 15))) /\
  ((exists i, (i < nb)%nat /\ left_over f sb nb hs i = true) ->
   estimate_noise P 4 nb M f hs sb = Ok (Some (Rmax (selected_power nb (left_over f sb nb hs) P) (/ 10 ^ 15)))).
Proof.
  intros H Hf. split.
  - unfold estimate_noise. cbv zeta. change (3 =? 4)%Z with false. change (3 =? 0)%Z with false. change (3 =? 1)%Z with false.
    change (3 =? 2)%Z with false. change (3 =? 3)%Z with true. cbv iota. rewrite exclude_noise_eq by exact H. reflexivity.
  - intros (i & Hi & L). pose proof (proj2 (candidate_in nb f hs sb i Hf) (conj Hi L)) as I.
    unfold estimate_noise. cbv zeta. change (4 =? 4)%Z with true. cbv iota. rewrite exclude_bins_eq by assumption.
    destruct (candidate_bins nb f hs sb); [contradiction|reflexivity].
Qed.
(** The estimate does not depend on the power inside the DC and fundamental windows. *)
Lemma c29_ignores_windows P Q nf nb M f hs sb : (nb <= length P)%nat -> (nb <= length Q)%nat -> (f < nb)%nat ->
  (forall i, (i < nb)%nat -> outside f sb i = true -> nth i P 0 = nth i Q 0) ->
  estimate_noise P nf nb M f hs sb = estimate_noise Q nf nb M f hs sb.
Proof.
  intros HP HQ Hf H.
  assert (Z : zeroed P nb f sb = zeroed Q nb f sb).
  { apply (nth_ext_eq 0); [rewrite !zeroed_length; lia|]. intros i Hi. rewrite zeroed_length in Hi.
    rewrite !zeroed_nth by lia. destruct (outside f sb i) eqn:E; [apply H; [lia|exact E]|reflexivity]. }
  unfold estimate_noise. cbv zeta. rewrite Z, !exclude_bins_eq by assumption.
  replace (selected_power nb (left_over f sb nb hs) P) with (selected_power nb (left_over f sb nb hs) Q); [reflexivity|].
  apply rsum_ext. intros i Hi. unfold left_over. destruct (outside f sb i) eqn:E; [|reflexivity]. rewrite H by assumption. reflexivity.
Qed.
Lemma median3 a b c : median [a; b; c] = Rmax (Rmin a b) (Rmin (Rmax a b) c).
Proof.
  unfold median. cbn [length]. change (Nat.even 3) with false. change (3 / 2)%nat with 1%nat. cbv iota.
  unfold sortR. cbn [fold_right insR].
  destruct (Rleb_spec b c); cbn [insR]; [destruct (Rleb_spec a b)|destruct (Rleb_spec a c)]; cbn [nth];
    try (destruct (Rleb_spec a c)); try (destruct (Rleb_spec a b)); cbn [nth];
    unfold Rmax, Rmin; repeat destruct (Rle_dec _ _); lra.
Qed.
(** Method 0 is the middle one of methods 1-3. *)
Lemma c29_auto_is_middle P nb M f hs sb n1 n2 n3 :
  estimate_noise P 1 nb M f hs sb = Ok (Some n1) -> estimate_noise P 2 nb M f hs sb = Ok (Some n2) ->
  estimate_noise P 3 nb M f hs sb = Ok (Some n3) ->
  estimate_noise P 0 nb M f hs sb = Ok (Some (Rmax (Rmin n1 n2) (Rmin (Rmax n1 n2) n3))).
Proof.
  unfold estimate_noise. cbv zeta. change (1 =? 4)%Z with false. change (2 =? 4)%Z with false. change (3 =? 4)%Z with false. change (0 =? 4)%Z with false.
  change (1 =? 0)%Z with false. change (2 =? 0)%Z with false. change (3 =? 0)%Z with false. change (0 =? 0)%Z with true.
  change (1 =? 1)%Z with true. change (2 =? 1)%Z with false. change (3 =? 1)%Z with false. change (2 =? 2)%Z with true.
  change (3 =? 2)%Z with false. change (3 =? 3)%Z with true. cbv iota.
  assert (I : forall a b : R, Ok (Some a) = Ok (Some b) -> a = b) by (intros a b E; apply Ok_inj in E; apply (f_equal (fun o => match o with Some v => v | None => 0 end)) in E; exact E).
  intros H1 H2 H3. apply I in H1. apply I in H2. apply I in H3. subst n1 n2 n3. do 2 f_equal. rewrite median3.
  unfold Rmax, Rmin. repeat destruct (Rle_dec _ _); lra.
Qed.
Lemma zeroed_list P nb f sb : (nb <= length P)%nat -> zeroed P nb f sb = map (fun i => if outside f sb i then nth i P 0 else 0) (seq 0 nb).
Proof.
  intros H. apply (nth_ext_eq 0).
  - rewrite zeroed_length, map_length, seq_length. lia.
  - intros i Hi. rewrite zeroed_length in Hi. rewrite zeroed_nth, map_seq_nth by lia. reflexivity.
Qed.
Lemma used_floor P nb f sb u : (nb <= length P)%nat -> used_bins P nb f sb u -> Permutation u (floor_bins (zeroed P nb f sb)).
Proof.
  intros H. rewrite zeroed_list by exact H. unfold used_bins, floor_bins. cbv zeta.
  set (band := map _ (seq 0 nb)). destruct (filter _ band) as [|x t]; intros [[A B]|[A B]]; try contradiction; try discriminate; exact B.
Qed.
Lemma used_sorted P nb f sb u : (nb <= length P)%nat -> used_bins P nb f sb u -> StronglySorted Rle u -> sortR (floor_bins (zeroed P nb f sb)) = u.
Proof.
  intros H U S. apply sorted_unique; [apply sortR_sorted|exact S|]. rewrite sortR_perm. symmetry. apply used_floor; assumption.
Qed.
(** Method 1: the middle of the sorted used bins (mean of the two middle ones for an even
    count), divided by the bias factor of an M-average, times the number of bins. *)
Lemma c29_median_method P nb M f hs sb u : (nb <= length P)%nat ->
  used_bins P nb f sb u -> StronglySorted Rle u ->
  let n := length u in
  let mid := if Nat.even n then (nth (n / 2 - 1) u 0 + nth (n / 2) u 0) / 2 else nth (n / 2) u 0 in
  let bias := if (M =? 1)%nat then 0.72 else (1 - 2 / (9 * INR M)) ^ 3 in
  estimate_noise P 1 nb M f hs sb = Ok (Some (Rmax (mid / bias * INR nb) (/ 10 ^ 15))).
Proof.
  intros H U S. unfold estimate_noise. cbv zeta. change (1 =? 4)%Z with false. change (1 =? 0)%Z with false. change (1 =? 1)%Z with true. cbv iota.
  unfold median_noise, median. cbv zeta. rewrite (used_sorted P nb f sb u H U S).
  rewrite <- (Permutation_length (used_floor P nb f sb u H U)). reflexivity.
Qed.
(** The 5%-95% trim keeps a non-empty part. *)
Lemma c29_trim_nonempty n : (0 < n)%nat -> (fst (trimmed_indices n) < snd (trimmed_indices n) <= n)%nat.
Proof.
  intros H. unfold trimmed_indices. cbn [fst snd].
  assert (A : (Zfloor (INR n * 0.05) <= Z.of_nat n)%Z).
  { apply le_IZR. eapply Rle_trans; [apply Zfloor_lb|]. rewrite <- INR_IZR_INZ. pose proof (pos_INR n). nra. }
  lia.
Qed.
(** Method 2: the mean of the sorted used bins between the 5% and 95% positions, times the
    number of bins. *)
Lemma c29_trimmed_method P nb M f hs sb u : (nb <= length P)%nat ->
  used_bins P nb f sb u -> StronglySorted Rle u ->
  let n := length u in
  let a := (Z.to_nat (Z.max 1 (Zfloor (INR n * 0.05)) - 1))%nat in
  let b := Nat.min n (Z.to_nat (Z.max (Z.max 1 (Zfloor (INR n * 0.05))) (Z.max 1 (Zfloor (INR n * 0.95))))) in
  estimate_noise P 2 nb M f hs sb =
  Ok (Some (Rmax (rsum (b - a) (fun i => nth (a + i) u 0) / INR (b - a) * INR nb) (/ 10 ^ 15))).
Proof.
  intros H U S n a b. unfold estimate_noise. cbv zeta. change (2 =? 4)%Z with false. change (2 =? 0)%Z with false. change (2 =? 1)%Z with false. change (2 =? 2)%Z with true. cbv iota.
  unfold trimmed_noise. cbv zeta. rewrite (used_sorted P nb f sb u H U S).
  rewrite <- (Permutation_length (used_floor P nb f sb u H U)). fold n.
  assert (E : trimmed_indices n = (a, b)).
  { unfold trimmed_indices, a, b. f_equal. lia. }
  rewrite E. cbn [fst snd]. unfold lmean. rewrite slice_length. fold n.
  replace (Nat.min (b - a) (n - a)) with (b - a)%nat by (unfold b; lia).
  unfold slice. rewrite lsum_firstn. rewrite (rsum_ext _ _ (fun i => nth (a + i) u 0)); [reflexivity|]. intros i _. apply nth_skipn.
Qed.
Lemma c29_noise_ex :
  let P := [9; 1; 2; 50; 100; 40; 3; 1; 8; 2; 5] in
  estimate_noise P 3 11 1 4 [8%Z; 1%Z] 1 = Ok (Some 13) /\
  estimate_noise P 4 11 1 4 [8%Z; 1%Z] 1 = Ok (Some 8) /\
  estimate_noise P 1 11 1 4 [8%Z; 1%Z] 1 = Ok (Some (2.5 / 0.72 * 11)) /\
  estimate_noise P 4 11 1 4 [8%Z] 4 = Ok None.
Proof.
  intros P. assert (T : 0 < / 10 ^ 15 <= 1) by (split; [apply Rinv_0_lt_compat; lra|rewrite <- Rinv_1; apply Rinv_le_contravar; lra]).
  assert (T2 : 0 < / 10 ^ 20 < 1) by (split; [apply Rinv_0_lt_compat; lra|rewrite <- Rinv_1; apply Rinv_lt_contravar; lra]).
  destruct (c29_exclusion_sums P 11 1 4 [8%Z; 1%Z] 1 ltac:(simpl; lia) ltac:(lia)) as [E3 E4].
  split; [|split; [|split]].
  - rewrite E3. do 2 f_equal. unfold selected_power, P. cbn [rsum nth].
    repeat match goal with |- context [outside ?a ?b ?c] => let r := eval compute in (outside a b c) in change (outside a b c) with r end.
    repeat match goal with |- context [existsb ?a ?b] => let r := eval compute in (existsb a b) in change (existsb a b) with r end.
    cbn [andb negb]. rewrite Rmax_left; lra.
  - rewrite E4 by (exists 6%nat; split; [lia|reflexivity]). do 2 f_equal. unfold selected_power, P. cbn [rsum nth].
    repeat match goal with |- context [left_over ?a ?b ?c ?d ?e] => let r := eval compute in (left_over a b c d e) in change (left_over a b c d e) with r end.
    cbv iota. rewrite Rmax_left; lra.
  - rewrite (c29_median_method P 11 1 4 [8%Z; 1%Z] 1 [1; 2; 2; 3; 5; 8]).
    + cbn [length]. change (Nat.even 6) with true. change (6 / 2 - 1)%nat with 2%nat. change (6 / 2)%nat with 3%nat.
      change (1 =? 1)%nat with true. cbv iota. cbn [nth]. do 2 f_equal. change (INR 11) with (1+1+1+1+1+1+1+1+1+1+1). rewrite Rmax_left by lra. lra.
    + simpl. lia.
    + unfold used_bins, P. cbn [seq map nth].
      repeat match goal with |- context [outside ?a ?b ?c] => let r := eval compute in (outside a b c) in change (outside a b c) with r end. cbv iota.
      assert (F : filter (fun x => Rltb (/ 10 ^ 20) (Rabs x)) [0; 0; 2; 0; 0; 0; 3; 1; 8; 2; 5] = [2; 3; 1; 8; 2; 5]).
      { cbn [filter]. rewrite Rabs_R0. rewrite !Rabs_pos_eq by lra.
        repeat (match goal with |- context [Rltb ?a ?b] => destruct (Rltb_spec a b); [try lra|try lra] end). reflexivity. }
      rewrite F. left. split; [discriminate|].
      transitivity (1 :: [2; 3; 8; 2; 5]); [|apply (Permutation_middle [2; 3] [8; 2; 5] 1)].
      apply perm_skip, perm_skip. transitivity (2 :: [3; 8; 5]); [|apply (Permutation_middle [3; 8] [5] 2)].
      apply perm_skip, perm_skip. apply perm_swap.
    + repeat (constructor; [|repeat (constructor; [lra|]); constructor]). constructor.
  - apply (proj2 (proj2 (c29_domain P 4 11 1 4 [8%Z] 4 ltac:(lia)))). split; [reflexivity|]. intros i Hi. cases_lt i; reflexivity.
Qed.
