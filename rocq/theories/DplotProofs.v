(** * Plots of the digital-output analyses: the final lemmas are named c150_ - c153_. *)
From Verif Require Import Base BaseLemmas FreqProofs UnitsModel SpecModel SpecLemmas SpecProofs SineHistModel SineHistProofs SiggenModel SiggenProofs PlotModel PlotSpec PlotProofs DoutModel DoutSpec DoutProofs TiToneProofs CalModel SweepModel SweepProofs.
From Verif Require Import CalSpec CalProofs CalExLemmas CalExProofs SweepSpec OsrSpec DrawModel DrawSpec DrawProofs PanelModel PanelSpec PanelProofs DplotModel DplotSpec DplotLemmas.
From Coq Require Import Psatz ZifyBool Permutation Sorted.
Local Open Scope R_scope.

(* ---------- C150: bit activity ---------- *)
Lemma map_seq_nth {A} (f : nat -> A) n i d : (i < n)%nat -> nth i (map f (seq 0 n)) d = f i.
Proof. intros H. rewrite (nth_map_in _ _ _ 0%nat) by (rewrite seq_length; exact H). rewrite seq_nth by exact H. reflexivity. Qed.
Lemma place_INR i : INR (i + 1) = place i. Proof. unfold place. rewrite plus_INR. reflexivity. Qed.
Lemma activity_inv bits B u g : analyze_bit_activity bits B true = Ok (u, Some g) -> u = bit_activity bits B /\ (0 < B)%nat /\
  let k := argmax (map (fun v => Rabs (v - 50)) u) in
  g = mkAct (map (fun i => (INR (i + 1), nth i u 0)) (seq 0 B)) bar_default k (INR (k + 1), nth k u 0 + 8 / 10) (fixed 2 (nth k u 0 - 50)) 50 (1 / 2, INR B + 1 / 2) (40, 60).
Proof.
  unfold analyze_bit_activity, plot_activity. assert (L : length (bit_activity bits B) = B) by (unfold bit_activity; rewrite map_length, seq_length; reflexivity). rewrite L.
  destruct (Nat.eqb_spec B 0) as [E | E]; [discriminate |]. cbn [raise_if bind]. intros H. apply Ok_inj in H. injection H as <- <-. split; [reflexivity |]. split; [lia | reflexivity].
Qed.
(** Bar j stands at j + 1 and is as high as the activity of bit j.  All bars, 0.8 wide, are inside the axis and do not touch
    each other; the line of the ideal value is inside it too. *)
Lemma c150_bars bits B u g : analyze_bit_activity bits B true = Ok (u, Some g) -> u = bit_activity bits B /\ length u = B /\
  ac_bars g = bit_points (seq 0 B) (fun j => nth j u 0) /\
  (forall j, (j < B)%nat -> bar_within (ac_xlim g) (ac_width g) (place j)) /\ (forall i j, (i < j)%nat -> place i + ac_width g / 2 < place j - ac_width g / 2) /\
  ac_width g = 8 / 10 /\ ac_ideal g = 50 /\ within (ac_ylim g) 50.
Proof.
  intros H. destruct (activity_inv _ _ _ _ H) as (U & B0 & ->). cbn [ac_bars ac_xlim ac_width ac_ideal ac_ylim]. split; [exact U |]. split; [rewrite U; unfold bit_activity; rewrite map_length, seq_length; reflexivity |].
  split; [apply map_ext; intros i; rewrite place_INR; reflexivity |]. unfold bar_within, within, bar_default, place. cbn [fst snd]. split.
  { intros j Hj. pose proof (pos_INR j). apply (le_INR (S j)) in Hj. rewrite S_INR in Hj. lra. }
  split; [intros i j Hj; apply (le_INR (S i)) in Hj; rewrite S_INR in Hj; lra |]. lra.
Qed.
(** The coloured bar is the first one of those that differ most from 50; the text above it gives its difference from 50 to
    half a hundredth, and stands 0.8 above its top. *)
Lemma c150_marked bits B u g : analyze_bit_activity bits B true = Ok (u, Some g) ->
  first_peak B (fun j => Rabs (nth j u 0 - 50)) (ac_marked g) /\ ac_text_at g = (place (ac_marked g), nth (ac_marked g) u 0 + 0.8) /\ names 2 (ac_text g) 1 (nth (ac_marked g) u 0 - 50).
Proof.
  intros H. destruct (activity_inv _ _ _ _ H) as (U & B0 & ->). cbn [ac_marked ac_text_at ac_text]. set (l := map (fun v => Rabs (v - 50)) u).
  assert (L : length u = B) by (rewrite U; unfold bit_activity; rewrite map_length, seq_length; reflexivity).
  assert (N : l <> []) by (intros E; apply (f_equal (@length R)) in E; unfold l in E; rewrite map_length, L in E; cbn in E; lia).
  destruct (argmax_spec l N) as (A1 & A2 & A3). fold l. set (k := argmax l) in *. assert (Ll : length l = B) by (unfold l; rewrite map_length; exact L).
  assert (Q : forall j, (j < B)%nat -> nth j l 0 = Rabs (nth j u 0 - 50)) by (intros j Hj; unfold l; rewrite (nth_map_in _ _ _ 0) by lia; reflexivity).
  rewrite Ll in *. split.
  { split; [exact A1 |]. split; intros i Hi; [specialize (A2 i Hi); rewrite !Q in A2 by lia; exact A2 | specialize (A3 i Hi); rewrite !Q in A3 by lia; exact A3]. }
  split; [rewrite place_INR; f_equal; lra |]. pose proof (fixed_names 2 (nth k u 0 - 50) 1 ltac:(lra)) as F. unfold Rdiv in F at 1. rewrite Rinv_1, Rmult_1_r in F. exact F.
Qed.
(** The vertical axis always goes from 40 to 60: the tops of all bars are inside it exactly when the coloured bar differs from
    50 by no more than 10, and the text starts inside it exactly when the bar is between 39.2 and 59.2 percent. *)
Lemma c150_visible bits B u g : analyze_bit_activity bits B true = Ok (u, Some g) ->
  ((forall p, In p (ac_bars g) -> within (ac_ylim g) (snd p)) <-> Rabs (nth (ac_marked g) u 0 - 50) <= 10) /\
  (within (ac_ylim g) (snd (ac_text_at g)) <-> 39.2 <= nth (ac_marked g) u 0 <= 59.2).
Proof.
  intros H. destruct (c150_bars _ _ _ _ H) as (_ & L & Bs & _). destruct (c150_marked _ _ _ _ H) as ((K1 & K2 & _) & Tx & _). destruct (activity_inv _ _ _ _ H) as (_ & _ & Hg).
  assert (Y : ac_ylim g = (40, 60)) by (rewrite Hg; reflexivity). rewrite Y, Tx, Bs. unfold within. cbn [fst snd]. split; [| split; intros; lra]. split.
  - intros A. specialize (A (place (ac_marked g), nth (ac_marked g) u 0)). cbn [snd] in A. apply Rabs_le. enough (40 <= nth (ac_marked g) u 0 <= 60) by lra. apply A. unfold bit_points. apply in_map_iff. exists (ac_marked g). split; [reflexivity |]. apply in_seq. lia.
  - intros A p I. unfold bit_points in I. apply in_map_iff in I. destruct I as (j & <- & J). apply in_seq in J. cbn [snd]. specialize (K2 j ltac:(lia)). assert (X : Rabs (nth j u 0 - 50) <= 10) by lra. apply Rabs_le_inv in X. lra.
Qed.
(** A matrix without columns is refused by the plot only. *)
Lemma c150_errors bits B : analyze_bit_activity bits B false = Ok (bit_activity bits B, None) /\
  ((0 < B)%nat -> exists g, analyze_bit_activity bits B true = Ok (bit_activity bits B, Some g)) /\ (B = 0%nat -> analyze_bit_activity bits B true = Err ValueError).
Proof.
  split; [reflexivity |]. unfold analyze_bit_activity, plot_activity. assert (L : length (bit_activity bits B) = B) by (unfold bit_activity; rewrite map_length, seq_length; reflexivity). rewrite L. split.
  - intros P. destruct (Nat.eqb_spec B 0); [lia |]. cbn [raise_if bind]. eexists. reflexivity.
  - intros ->. reflexivity.
Qed.
(** The plot does not always show the bars it draws: for the codes 11, 01, 00, 01 (activities 25 and 75) the first bar ends
    below the axis, the second above it, and the text is outside. *)
Lemma c150_visible_refuted : exists bits B u g, binary_of B bits /\ analyze_bit_activity bits B true = Ok (u, Some g) /\ u = [25; 75] /\
  (forall p, In p (ac_bars g) -> ~ within (ac_ylim g) (snd p)) /\ ~ within (ac_ylim g) (snd (ac_text_at g)).
Proof.
  exists [[1;1];[0;1];[0;0];[0;1]], 2%nat. destruct (proj1 (proj2 (c150_errors [[1;1];[0;1];[0;0];[0;1]] 2)) ltac:(lia)) as (g & E). exists [25; 75], g. rewrite c72_values_ex in E.
  split; [split; [intros r I; cbn in I; repeat (destruct I as [<- | I]; [reflexivity |]); contradiction |] |].
  { intros r j I. cbn in I. repeat (destruct I as [<- | I]; [destruct j as [| [| [| j]]]; cbn; auto |]); contradiction. }
  split; [exact E |]. split; [reflexivity |]. destruct (c150_bars _ _ _ _ E) as (_ & _ & Bs & _). destruct (c150_marked _ _ _ _ E) as ((K & _) & T & _). destruct (activity_inv _ _ _ _ E) as (_ & _ & Hg).
  assert (Y : ac_ylim g = (40, 60)) by (rewrite Hg; reflexivity). rewrite Y, Bs, T. unfold within. cbn [fst snd bit_points map seq nth In]. split.
  - intros p [<- | [<- | []]]; cbn [snd]; lra.
  - destruct (ac_marked g) as [| [| k]]; cbn [nth]; try lra; lia.
Qed.
(** Three bits with activities 50, 45 and 55: the second is coloured and its text reads -5.00. *)
Lemma c150_marked_ex : exists g, plot_activity [50; 45; 55] = Ok g /\ ac_marked g = 1%nat /\ ac_text g = Num 2 (-500) /\ ac_text_at g = (2, 45.8) /\ ac_bars g = [(1, 50); (2, 45); (3, 55)] /\ ac_xlim g = (0.5, 3.5).
Proof.
  unfold plot_activity. cbn [length Nat.eqb raise_if]. eexists. split; [reflexivity |]. cbn [ac_marked ac_text ac_text_at ac_bars ac_xlim].
  assert (K : argmax (map (fun v => Rabs (v - 50)) [50; 45; 55]) = 1%nat).
  { cbn [map]. replace (50 - 50) with 0 by lra. replace (45 - 50) with (-5) by lra. replace (55 - 50) with 5 by lra. rewrite Rabs_R0, Rabs_left, Rabs_right by lra. unfold argmax. cbn [argmax_from]. destruct (Rltb_spec 0 (- -5)); [| lra]. destruct (Rltb_spec (- -5) 5); [lra |]. reflexivity. }
  rewrite K. cbn [nth]. split; [reflexivity |]. split; [apply fixed_exact; lra |]. split; [f_equal; cbn; lra |]. split; [cbn [seq map nth Nat.add INR]; repeat f_equal; lra | f_equal; cbn; lra].
Qed.

(* ---------- C151: overflow plot ---------- *)
Lemma pick_filter {A} (p : A -> bool) l (f : A -> R) : pick (map p l) (map f l) = map f (filter p l).
Proof. induction l as [| x t IH]; [reflexivity |]. cbn [map pick filter]. destruct (p x); cbn [map]; rewrite IH; reflexivity. Qed.
Lemma samples_map {A B} (l : list A) d (p : A -> bool) (f : A -> B) : map f (filter p l) = map (fun t => f (nth t l d)) (samples (length l) (fun t => p (nth t l d))).
Proof.
  unfold samples. induction l as [| x t IH] using rev_ind; [reflexivity |]. rewrite app_length, seq_app, !filter_app, !map_app. cbn [length seq Nat.add]. f_equal.
  - rewrite IH. rewrite (filter_ext_in _ (fun k => p (nth k (t ++ [x]) d)) (seq 0 (length t))).
    + apply map_ext_in. intros k I. apply filter_In in I. destruct I as (I & _). apply in_seq in I. rewrite app_nth1 by lia. reflexivity.
    + intros k I. apply in_seq in I. rewrite app_nth1 by lia. reflexivity.
  - cbn [filter seq]. rewrite app_nth2, Nat.sub_diag by lia. cbn [nth]. destruct (p x); [| reflexivity]. cbn [map]. rewrite app_nth2, Nat.sub_diag by lia. reflexivity.
Qed.
Lemma column_residue codes m w ii : length w = m -> matrix_of m codes -> residue_column codes w ii = map (fun row => rest_value row w ii m / rest_weight w ii m) codes.
Proof.
  intros L M. unfold residue_column. apply map_ext_in. intros row I. rewrite (rest_dot row w ii m) by (auto). rewrite (rest_lsum w ii m L). reflexivity.
Qed.
Lemma overflow_plot_inv codes m w ofb st g : analyze_overflow_plot codes m w ofb true = Ok (st, Some g) ->
  analyze_overflow codes m w ofb = Ok st /\ g = plot_overflow codes m w (Z.of_nat m - match ofb with None => Z.of_nat m | Some b => b end) st.
Proof.
  unfold analyze_overflow_plot. destruct (analyze_overflow codes m w ofb) as [s |]; [| discriminate]. cbn [bind]. intros H. apply Ok_inj in H. injection H as -> <-. split; reflexivity.
Qed.
Lemma checked_index codes m w ofb st : analyze_overflow codes m w ofb = Ok st ->
  column_index m (Z.of_nat m - match ofb with None => Z.of_nat m | Some b => b end) = checked m ofb /\ (checked m ofb < m)%nat.
Proof.
  intros E. destruct (overflow_inv _ _ _ _ _ E) as (L & M & C & _). destruct (c41_errors codes m w ofb) as (_ & _ & X). specialize (X L M C). unfold column_index, checked. destruct ofb as [b |].
  - destruct X as (_ & X). destruct (Z_le_dec 1 b) as [B1 |]; [destruct (Z_le_dec b (2 * Z.of_nat m)) as [B2 |] |]; try (rewrite X in E by lia; discriminate E).
    clear X E. destruct (Z.ltb_spec (Z.of_nat m - b) 0), (Z.leb_spec b (Z.of_nat m)); lia.
  - rewrite Z.sub_diag. cbn. lia.
Qed.
(** For every bit, each sample is drawn exactly once at its residue: in blue above the place of the bit when its residue at the
    checked bit is strictly between 0 and 1, in red 0.2 to the left when that is at least 1, in yellow 0.2 to the right when it
    is at most 0. *)
Lemma c151_points codes m w ofb st g ii : analyze_overflow_plot codes m w ofb true = Ok (st, Some g) -> matrix_of m codes -> (ii < m)%nat ->
  let n := length codes in let c t := residue codes w m (checked m ofb) t in let r t := residue codes w m ii t in
  nth ii (of_normal g) [] = map (fun t => (place ii, r t)) (samples n (fun t => Rltb 0 (c t) && Rltb (c t) 1)) /\
  nth ii (of_over g) [] = map (fun t => (place ii - 0.2, r t)) (samples n (fun t => Rleb 1 (c t))) /\
  nth ii (of_under g) [] = map (fun t => (place ii + 0.2, r t)) (samples n (fun t => Rleb (c t) 0)) /\
  (length (nth ii (of_normal g) []) + length (nth ii (of_over g) []) + length (nth ii (of_under g) []) = n)%nat /\
  length (of_normal g) = m /\ length (of_over g) = m /\ length (of_under g) = m.
Proof.
  intros H M Hi n c r. destruct (overflow_plot_inv _ _ _ _ _ _ H) as (E & ->). destruct (overflow_inv _ _ _ _ _ E) as (L & M0 & C & _). destruct (checked_index _ _ _ _ _ E) as (K & Kl).
  unfold plot_overflow. rewrite K. cbn [of_normal of_over of_under]. rewrite !map_length, !seq_length, !map_seq_nth by exact Hi. rewrite place_INR.
  rewrite !(column_residue codes m w) by assumption. set (k := checked m ofb) in *. set (h := fun row : list R => rest_value row w k m / rest_weight w k m). set (q := fun row : list R => rest_value row w ii m / rest_weight w ii m).
  rewrite !map_map. assert (Z2 : map2 (fun a b => negb (a || b)) (map (fun x => Rleb (h x) 0) codes) (map (fun x => Rleb 1 (h x)) codes) = map (fun x => negb (Rleb (h x) 0 || Rleb 1 (h x))) codes) by (generalize codes; intros l; induction l as [| x t IH]; [reflexivity |]; cbn [map map2]; rewrite IH; reflexivity).
  change (map (fun x => Rleb (rest_value x w k m / rest_weight w k m) 0) codes) with (map (fun x => Rleb (h x) 0) codes). change (map (fun x => Rleb 1 (rest_value x w k m / rest_weight w k m)) codes) with (map (fun x => Rleb 1 (h x)) codes). rewrite Z2.
  rewrite !pick_filter, !map_map, !(samples_map codes []). fold n.
  assert (X : samples n (fun t => negb (Rleb (h (nth t codes [])) 0 || Rleb 1 (h (nth t codes [])))) = samples n (fun t => Rltb 0 (c t) && Rltb (c t) 1)).
  { apply filter_ext. intros t. unfold c, residue. fold k. fold (h (nth t codes [])). destruct (Rleb_spec (h (nth t codes [])) 0), (Rleb_spec 1 (h (nth t codes []))), (Rltb_spec 0 (h (nth t codes []))), (Rltb_spec (h (nth t codes [])) 1); try reflexivity; lra. }
  rewrite X. split; [reflexivity |]. split; [apply map_ext; intros t; f_equal; lra |]. split; [apply map_ext; intros t; f_equal; lra |]. split; [| repeat split; reflexivity].
  rewrite !map_length. unfold samples. replace n with (length (seq 0 n)) at 4 by apply seq_length. generalize (seq 0 n). intros l.
  induction l as [| t l IH]; [reflexivity |]. cbn [filter length]. unfold c, residue in IH |- *. fold k in IH |- *. fold (h (nth t codes [])).
  destruct (Rleb_spec 1 (h (nth t codes []))), (Rltb_spec 0 (h (nth t codes []))), (Rltb_spec (h (nth t codes [])) 1), (Rleb_spec (h (nth t codes [])) 0); cbn [andb length]; try lra; unfold h in *; lia.
Qed.
Lemma drawn_points codes m w ofb st g ii p : analyze_overflow_plot codes m w ofb true = Ok (st, Some g) -> matrix_of m codes -> (ii < m)%nat ->
  In p (nth ii (of_normal g) [] ++ nth ii (of_over g) [] ++ nth ii (of_under g) []) -> exists t, (t < length codes)%nat /\ snd p = residue codes w m ii t /\ Rabs (fst p - place ii) <= 0.2.
Proof.
  intros H M Hi I. destruct (c151_points _ _ _ _ _ _ ii H M Hi) as (P1 & P2 & P3 & _). cbv zeta in *. rewrite P1, P2, P3 in I. rewrite !in_app_iff, !in_map_iff in I.
  destruct I as [(t & <- & T) | [(t & <- & T) | (t & <- & T)]]; exists t; unfold samples in T; apply filter_In in T; destruct T as (T & _); apply in_seq in T; cbn [fst snd]; (split; [lia |]); (split; [reflexivity |]); apply Rabs_le; lra.
Qed.
Lemma stats_nth codes m w ofb st ii v : analyze_overflow codes m w ofb = Ok st -> nth_error st ii = Some v -> forall d, nth ii st d = v.
Proof. intros _ N d. apply nth_error_nth, N. Qed.
(** The two red curves enclose the points of every bit whose remaining weight is positive, and each touches one of them. *)
Lemma c151_envelope codes m w ofb st g ii : analyze_overflow_plot codes m w ofb true = Ok (st, Some g) -> matrix_of m codes -> (ii < m)%nat -> 0 < rest_weight w ii m ->
  exists lo hi, nth ii (of_min g) (0, 0) = (place ii, lo) /\ nth ii (of_max g) (0, 0) = (place ii, hi) /\ length (of_min g) = m /\ length (of_max g) = m /\
    (forall t, (t < length codes)%nat -> lo <= residue codes w m ii t <= hi) /\
    (exists t, (t < length codes)%nat /\ residue codes w m ii t = lo) /\ (exists t, (t < length codes)%nat /\ residue codes w m ii t = hi).
Proof.
  intros H M Hi W. destruct (overflow_plot_inv _ _ _ _ _ _ H) as (E & Hg). destruct (c41_stats _ _ _ _ _ ii E M Hi W) as (mn & mx & pz & po & _ & N & A & (r1 & I1 & E1) & (r2 & I2 & E2) & _). exists mn, mx. rewrite Hg. unfold plot_overflow. cbn [of_min of_max].
  rewrite !map_seq_nth by exact Hi. rewrite (nth_error_nth _ _ _ N), place_INR, !map_length, !seq_length. cbn [fst snd]. do 4 (split; [reflexivity |]). unfold residue. split; [intros t T; apply A, nth_In, T |].
  apply (In_nth _ _ []) in I1. destruct I1 as (t1 & T1 & <-). apply (In_nth _ _ []) in I2. destruct I2 as (t2 & T2 & <-). split; [exists t1 | exists t2]; split; auto.
Qed.
(** The texts below and above the bit give the percentages of samples with a residue of at most 0 and of at least 1, to half a
    tenth; the tick below it is labelled m - ii. *)
Lemma c151_texts codes m w ofb st g ii : analyze_overflow_plot codes m w ofb true = Ok (st, Some g) -> matrix_of m codes -> (ii < m)%nat -> 0 < rest_weight w ii m ->
  exists low high, nth ii (of_low_texts g) (0, 0, NA) = (place ii, -0.05, low) /\ nth ii (of_high_texts g) (0, 0, NA) = (place ii, 1.05, high) /\
    names 1 low 1 (percent_of (fun row => Rleb (rest_value row w ii m) 0) codes) /\ names 1 high 1 (percent_of (fun row => Rleb (rest_weight w ii m) (rest_value row w ii m)) codes) /\
    nth ii (of_ticks g) (0, 0%Z) = (place ii, (Z.of_nat m - Z.of_nat ii)%Z) /\ length (of_low_texts g) = m /\ length (of_high_texts g) = m /\ length (of_ticks g) = m.
Proof.
  intros H M Hi W. destruct (overflow_plot_inv _ _ _ _ _ _ H) as (E & Hg). destruct (c41_stats _ _ _ _ _ ii E M Hi W) as (mn & mx & pz & po & _ & N & _ & _ & _ & Pz & Po). rewrite Hg. unfold plot_overflow. cbn [of_low_texts of_high_texts of_ticks].
  rewrite !map_seq_nth by exact Hi. rewrite (nth_error_nth _ _ _ N), place_INR, !map_length, !seq_length. cbn [fst snd]. exists (fixed 1 pz), (fixed 1 po). split; [repeat f_equal; lra |]. split; [repeat f_equal; lra |].
  rewrite <- Pz, <- Po. pose proof (fixed_names 1 pz 1 ltac:(lra)) as F1. pose proof (fixed_names 1 po 1 ltac:(lra)) as F2. unfold Rdiv in F1, F2 at 1. rewrite Rinv_1, Rmult_1_r in F1, F2. auto 8.
Qed.
(** Binary codes and positive weights: every point, both curves, both reference lines and the texts are inside the axes; the
    points of different bits do not overlap sideways. *)
Lemma c151_inside codes m w ofb st g ii : analyze_overflow_plot codes m w ofb true = Ok (st, Some g) -> binary_of m codes -> (forall j, (j < m)%nat -> 0 < nth j w 0) -> (ii < m)%nat ->
  (forall p, In p (nth ii (of_normal g) [] ++ nth ii (of_over g) [] ++ nth ii (of_under g) []) -> within (of_xlim g) (fst p) /\ 0 <= snd p <= 1 /\ within (of_ylim g) (snd p) /\ place ii - 0.5 < fst p < place ii + 0.5) /\
  (forall p, In p [nth ii (of_min g) (0, 0); nth ii (of_max g) (0, 0); fst (nth ii (of_low_texts g) (0, 0, NA)); fst (nth ii (of_high_texts g) (0, 0, NA))] -> within (of_xlim g) (fst p) /\ within (of_ylim g) (snd p)) /\
  of_refs g = [1; 0] /\ within (of_ylim g) 0 /\ within (of_ylim g) 1.
Proof.
  intros H HB Hw Hi. pose proof (rest_weight_pos m w Hw ii Hi) as W. destruct (overflow_plot_inv _ _ _ _ _ _ H) as (E & Hg).
  assert (X : of_xlim g = (0, INR m + 1)) by (rewrite Hg; reflexivity). assert (Y : of_ylim g = (- (1 / 10), 1 + 1 / 10)) by (rewrite Hg; reflexivity). rewrite X, Y. unfold within. cbn [fst snd].
  assert (Pl : 1 <= place ii <= INR m) by (unfold place; pose proof (pos_INR ii); apply (le_INR (S ii)) in Hi; rewrite S_INR in Hi; lra).
  assert (Rs : forall t, (t < length codes)%nat -> 0 <= residue codes w m ii t <= 1).
  { intros t T. pose proof (rest_bounds codes m w HB Hw ii (nth t codes []) (nth_In _ _ T)) as B. unfold residue. split; [apply Rdiv_le_0_compat; lra | apply Rdiv_le_upper; lra]. }
  split.
  { intros p I. destruct (drawn_points _ _ _ _ _ _ ii p H (proj1 HB) Hi I) as (t & T & -> & D). apply Rabs_le_inv in D. specialize (Rs t T). lra. }
  destruct (c151_envelope _ _ _ _ _ _ ii H (proj1 HB) Hi W) as (lo & hi & E1 & E2 & _ & _ & _ & (t1 & T1 & <-) & (t2 & T2 & <-)). destruct (c151_texts _ _ _ _ _ _ ii H (proj1 HB) Hi W) as (low & high & E3 & E4 & _).
  split; [| split; [rewrite Hg; reflexivity | lra]]. rewrite E1, E2, E3, E4. cbn [fst]. pose proof (Rs t1 T1). pose proof (Rs t2 T2). intros p [<- | [<- | [<- | [<- | []]]]]; cbn [fst snd]; lra.
Qed.
(** The plot adds no error of its own; the default is to check the most significant bit, whose tick is labelled m. *)
Lemma c151_default codes m w st : analyze_overflow codes m w None = Ok st ->
  analyze_overflow_plot codes m w None false = Ok (st, None) /\ (exists g, analyze_overflow_plot codes m w None true = Ok (st, Some g) /\ nth (checked m None) (of_ticks g) (0, 0%Z) = (1, Z.of_nat m)) /\
  analyze_overflow_plot codes m w (Some (Z.of_nat m)) true = analyze_overflow_plot codes m w None true.
Proof.
  intros E. destruct (overflow_inv _ _ _ _ _ E) as (L & M & C & _). unfold analyze_overflow_plot. rewrite E. cbn [bind]. split; [reflexivity |]. split.
  - eexists. split; [reflexivity |]. unfold plot_overflow. cbn [of_ticks checked]. rewrite map_seq_nth by exact M. rewrite place_INR. unfold place. cbn [INR]. f_equal; [lra | lia].
  - unfold analyze_overflow in *. rewrite E. reflexivity.
Qed.
(** The opacity of the points is 10/n, but at least 1/100 and at most 1. *)
Lemma c151_opacity codes m w ofb st g : analyze_overflow_plot codes m w ofb true = Ok (st, Some g) ->
  let n := INR (length codes) in (n <= 10 -> of_alpha g = 1) /\ (10 <= n <= 1000 -> of_alpha g = 10 / n) /\ (1000 <= n -> of_alpha g = 0.01).
Proof.
  intros H n. destruct (overflow_plot_inv _ _ _ _ _ _ H) as (E & ->). destruct (overflow_inv _ _ _ _ _ E) as (_ & _ & C & _). unfold plot_overflow. cbn [of_alpha]. fold n.
  assert (P : 0 < n) by (unfold n; apply lt_0_INR; destruct codes; [congruence | cbn; lia]). assert (Q : 10 / n * n = 10) by (field; lra). set (q := 10 / n) in *.
  unfold Rmin, Rmax. repeat split; intros; destruct (Rle_dec q (1 / 100)); destruct (Rle_dec _ 1); try lra; nra.
Qed.
(** With a negative weight, as a calibration may return, samples are drawn outside the axes: weights 2 and -1, code 10. *)
Lemma c151_inside_refuted : exists codes m w st g p, binary_of m codes /\ (forall ii, (ii < m)%nat -> nth ii w 0 <> 0 /\ rest_weight w ii m <> 0) /\
  analyze_overflow_plot codes m w None true = Ok (st, Some g) /\ In p (nth 0 (of_over g) []) /\ ~ within (of_ylim g) (snd p).
Proof.
  exists [[1; 0]], 2%nat, [2; -1]. destruct (proj2 (proj2 (c41_errors [[1; 0]] 2 [2; -1] None)) eq_refl ltac:(lia) ltac:(discriminate)) as (st & E). destruct (c151_default _ _ _ _ E) as (_ & (g & G & _) & _). exists st, g, (0.8, 2).
  assert (HB : binary_of 2 [[1; 0]]) by (split; [intros r [<- | []]; reflexivity | intros r j [<- | []]; destruct j as [| [| [| j]]]; cbn; auto]).
  split; [exact HB |]. split; [intros [| [| ii]] Hi; [| | lia]; unfold rest_weight; cbn [Nat.sub rsum nth Nat.add]; lra |]. split; [exact G |].
  assert (R2 : residue [[1; 0]] [2; -1] 2 0 0 = 2) by (unfold residue, rest_value, rest_weight; cbn [Nat.sub rsum nth Nat.add]; lra).
  destruct (c151_points _ _ _ _ _ _ 0 G (proj1 HB) ltac:(lia)) as (_ & -> & _). cbn [checked length]. unfold samples. cbn [seq filter]. rewrite R2. destruct (Rleb_spec 1 2); [| lra]. cbn [map]. rewrite R2. split.
  - left. unfold place. cbn [INR]. f_equal. lra.
  - destruct (overflow_plot_inv _ _ _ _ _ _ G) as (_ & ->). unfold within, plot_overflow. cbn [of_ylim fst snd]. lra.
Qed.
Lemma round_he_near x k : Rabs (x - IZR k) < / 2 -> round_he x = k.
Proof.
  intros H. pose proof (round_he_half x) as A. apply Rabs_def2 in H. apply Rabs_le_inv in A. assert (L : IZR (round_he x - k) < 1) by (rewrite minus_IZR; lra). assert (U : -1 < IZR (round_he x - k)) by (rewrite minus_IZR; lra).
  change 1 with (IZR 1) in L. change (-1) with (IZR (-1)) in U. apply lt_IZR in L, U. lia.
Qed.
(** Codes 11, 00, 01 with weights 2 and 1: one sample in each class at both bits, residues 1, 0, 1/3 and 1, 0, 1. *)
Lemma c151_points_ex : exists st g, analyze_overflow_plot [[1;1];[0;0];[0;1]] 2 [2;1] None true = Ok (st, Some g) /\
  of_over g = [[(0.8, 1)]; [(1.8, 1)]] /\ of_under g = [[(1.2, 0)]; [(2.2, 0)]] /\ of_normal g = [[(1, 1 / 3)]; [(2, 1)]] /\ of_ticks g = [(1, 2%Z); (2, 1%Z)] /\
  map snd (of_low_texts g) = [Num 1 333; Num 1 333] /\ map snd (of_high_texts g) = [Num 1 333; Num 1 667] /\ of_alpha g = 1.
Proof.
  destruct (c151_default _ _ _ _ c41_values_ex) as (_ & (g & G & _) & _). do 2 eexists. split; [exact G |]. assert (M : matrix_of 2 [[1;1];[0;0];[0;1]]) by (intros r I; cbn in I; repeat (destruct I as [<- | I]; [reflexivity |]); contradiction).
  assert (Q0 : forall t, residue [[1;1];[0;0];[0;1]] [2;1] 2 0 t = nth t [1; 0; 1 / 3] 0) by (intros [| [| [| [| t]]]]; unfold residue, rest_value, rest_weight; cbn [Nat.sub rsum nth Nat.add]; lra).
  assert (Q1 : forall t, residue [[1;1];[0;0];[0;1]] [2;1] 2 1 t = nth t [1; 0; 1] 0) by (intros [| [| [| [| t]]]]; unfold residue, rest_value, rest_weight; cbn [Nat.sub rsum nth Nat.add]; lra).
  assert (S1 : samples 3 (fun t => Rltb 0 (nth t [1; 0; 1 / 3] 0) && Rltb (nth t [1; 0; 1 / 3] 0) 1) = [2%nat]) by (unfold samples; cbn [seq filter nth]; repeat (match goal with |- context [Rltb ?a ?b] => destruct (Rltb_spec a b); try lra end; cbn [andb]); reflexivity).
  assert (S2 : samples 3 (fun t => Rleb 1 (nth t [1; 0; 1 / 3] 0)) = [0%nat]) by (unfold samples; cbn [seq filter nth]; repeat (match goal with |- context [Rleb ?a ?b] => destruct (Rleb_spec a b); try lra end); reflexivity).
  assert (S3 : samples 3 (fun t => Rleb (nth t [1; 0; 1 / 3] 0) 0) = [1%nat]) by (unfold samples; cbn [seq filter nth]; repeat (match goal with |- context [Rleb ?a ?b] => destruct (Rleb_spec a b); try lra end); reflexivity).
  destruct (c151_points _ _ _ _ _ _ 0 G M ltac:(lia)) as (A1 & A2 & A3 & _ & L1 & L2 & L3). destruct (c151_points _ _ _ _ _ _ 1 G M ltac:(lia)) as (B1 & B2 & B3 & _). cbn [checked length] in *.
  assert (T2 : forall l : list (list (R * R)), length l = 2%nat -> l = [nth 0 l []; nth 1 l []]) by (intros [| a [| b [| c l]]] Q; try discriminate Q; reflexivity).
  assert (F : forall p, samples 3 p = samples 3 p) by reflexivity. clear F.
  assert (SX : forall c, (forall t, c t = nth t [1; 0; 1 / 3] 0) -> samples 3 (fun t => Rltb 0 (c t) && Rltb (c t) 1) = [2%nat] /\ samples 3 (fun t => Rleb 1 (c t)) = [0%nat] /\ samples 3 (fun t => Rleb (c t) 0) = [1%nat]).
  { intros c Hc. rewrite <- S1, <- S2, <- S3. repeat split; apply filter_ext; intros t; rewrite Hc; reflexivity. }
  destruct (SX _ Q0) as (X1 & X2 & X3). rewrite X1 in A1, B1. rewrite X2 in A2, B2. rewrite X3 in A3, B3. cbn [map] in *. rewrite Q0 in A1, A2, A3. rewrite Q1 in B1, B2, B3. cbn [nth] in *.
  rewrite (T2 _ L1), (T2 _ L2), (T2 _ L3), A1, A2, A3, B1, B2, B3. unfold place. cbn [INR]. split; [repeat f_equal; lra |]. split; [repeat f_equal; lra |]. split; [repeat f_equal; lra |].
  destruct (overflow_plot_inv _ _ _ _ _ _ G) as (_ & ->). unfold plot_overflow. cbn [of_ticks of_low_texts of_high_texts of_alpha seq map nth fst snd length]. split; [cbn; repeat f_equal; lra |].
  assert (F1 : fixed 1 (1 / 3 * 100) = Num 1 333) by (unfold fixed; f_equal; apply round_he_near, Rabs_def1; lra). assert (F2 : fixed 1 (2 / 3 * 100) = Num 1 667) by (unfold fixed; f_equal; apply round_he_near, Rabs_def1; lra).
  rewrite F1, F2. split; [reflexivity |]. split; [reflexivity |]. unfold Rmin, Rmax. cbn [INR]. destruct (Rle_dec (10 / (1 + 1 + 1)) (1 / 100)); destruct (Rle_dec _ 1); lra.
Qed.

(* ---------- C152: weight and radix plot ---------- *)
Lemma radix_plot_inv argsort w r sca er g : analyze_radix_plot argsort w true = Ok (r, sca, er, Some g) -> analyze_weight_radix w = Ok (r, sca, er) /\ w <> [] /\ g = plot_weight_radix argsort w r er.
Proof.
  unfold analyze_radix_plot. destruct (analyze_weight_radix w) as [[[r' s'] e'] |] eqn:E; [| discriminate]. cbn [bind]. intros H. apply Ok_inj in H. injection H as -> -> -> <-. split; [reflexivity |]. split; [| reflexivity]. intros ->. discriminate E.
Qed.
Lemma radix_values w r sca er : analyze_weight_radix w = Ok (r, sca, er) -> r = radix_list (map Rabs w) /\ er = effres_of (significant (map Rabs w)).
Proof. unfold analyze_weight_radix. destruct w as [| x t]; [discriminate |]. generalize (map Rabs (x :: t)). intros a H. apply Ok_inj in H. injection H as <- _ <-. split; reflexivity. Qed.
Lemma fixed_names1 d v : names d (fixed d v) 1 v.
Proof. pose proof (fixed_names d v 1 ltac:(lra)) as F. unfold Rdiv in F at 1. rewrite Rinv_1, Rmult_1_r in F. exact F. Qed.
Lemma filter_split {A} (p : A -> bool) l : (length (filter (fun x => negb (p x)) l) + length (filter p l) = length l)%nat.
Proof. induction l as [| x t IH]; [reflexivity |]. cbn [filter]. destruct (p x); cbn [negb length]; lia. Qed.
Lemma abs_nth w i : Rabs (nth i w 0) = nth i (map Rabs w) 0.
Proof. rewrite <- Rabs_R0 at 2. symmetry. apply map_nth. Qed.
Lemma points_abs w l : map (fun i => (INR (i + 1), nth i (map Rabs w) 0)) l = bit_points l (fun i => Rabs (nth i w 0)).
Proof. apply map_ext. intros i. rewrite place_INR, abs_nth. reflexivity. Qed.
(** The line goes through the magnitudes of all weights; each has one marker, in red exactly when the weight is negative, and
    the legend appears exactly when there is a red one.  All are inside the horizontal limits. *)
Lemma c152_points argsort w r sca er g : analyze_radix_plot argsort w true = Ok (r, sca, er, Some g) ->
  let n := length w in let h i := Rabs (nth i w 0) in
  rf_line g = bit_points (seq 0 n) h /\ rf_neg g = bit_points (filter (fun i => Rltb (nth i w 0) 0) (seq 0 n)) h /\ rf_pos g = bit_points (filter (fun i => Rleb 0 (nth i w 0)) (seq 0 n)) h /\
  (length (rf_pos g) + length (rf_neg g) = n)%nat /\ (rf_legend g = true <-> exists v, In v w /\ v < 0) /\
  (forall i, (i < n)%nat -> fst (rf_xlim g) + 0.5 <= place i <= snd (rf_xlim g) - 0.5).
Proof.
  intros H n h. destruct (radix_plot_inv _ _ _ _ _ _ H) as (_ & _ & ->). unfold plot_weight_radix. cbn [rf_line rf_neg rf_pos rf_legend rf_xlim]. fold n. rewrite !points_abs. fold h.
  assert (P : filter (fun i => negb (Rltb (nth i w 0) 0)) (seq 0 n) = filter (fun i => Rleb 0 (nth i w 0)) (seq 0 n)) by (apply filter_ext; intros i; destruct (Rltb_spec (nth i w 0) 0), (Rleb_spec 0 (nth i w 0)); try reflexivity; lra).
  split; [reflexivity |]. split; [reflexivity |]. split; [rewrite P; reflexivity |]. split; [unfold bit_points; rewrite !map_length, filter_split, seq_length; reflexivity |]. split.
  - rewrite existsb_exists. split.
    + intros (i & I & B). apply in_seq in I. destruct (Rltb_spec (nth i w 0) 0) as [N |]; [| discriminate]. exists (nth i w 0). split; [apply nth_In; unfold n in I; lia | exact N].
    + intros (v & I & N). apply (In_nth _ _ 0) in I. destruct I as (i & Hi & E). exists i. split; [apply in_seq; unfold n; lia |]. rewrite E. destruct (Rltb_spec v 0); [reflexivity | lra].
  - intros i Hi. unfold place. cbn [fst snd]. pose proof (pos_INR i). apply (le_INR (S i)) in Hi. rewrite S_INR in Hi. fold n. lra.
Qed.
(** Every bit but the first has a text above its marker that gives the ratio of the preceding weight to its own, to half a
    hundredth. *)
Lemma c152_texts argsort w r sca er g i : analyze_radix_plot argsort w true = Ok (r, sca, er, Some g) -> (forall x, In x w -> x <> 0) -> (S i < length w)%nat ->
  exists t, nth i (rf_radix g) (0, 0, NA) = (place (S i), 1.5 * Rabs (nth (S i) w 0), t) /\ names 2 t 1 (Rabs (nth i w 0) / Rabs (nth (S i) w 0)) /\ Rabs (nth (S i) w 0) < 1.5 * Rabs (nth (S i) w 0) /\
  length (rf_radix g) = (length w - 1)%nat.
Proof.
  intros H NZ Hi. destruct (radix_plot_inv _ _ _ _ _ _ H) as (E & _ & ->). assert (Z : nth (S i) w 0 <> 0) by (apply NZ, nth_In, Hi). destruct (c42_radix _ _ _ _ i E) as (_ & _ & Q). destruct (Q Hi Z) as (q & Nq & Eq). pose proof (Rabs_pos_lt _ Z) as P.
  exists (fixed 2 q). unfold plot_weight_radix. cbn [rf_radix]. rewrite map_length, seq_length. rewrite (nth_map_in _ _ _ 0%nat) by (rewrite seq_length; lia). rewrite seq_nth by lia. cbn [Nat.add]. rewrite (nth_error_nth _ _ _ Nq). cbn [fmt2].
  change (S (i + 1)) with (S i + 1)%nat. rewrite place_INR, <- abs_nth. split; [do 2 f_equal; lra |]. split; [| split; [lra | reflexivity]]. replace (Rabs (nth i w 0) / Rabs (nth (S i) w 0)) with q by (rewrite <- Eq; field; lra). apply fixed_names1.
Qed.
Lemma sorted_le l o : StronglySorted (fun i j => nth i l 0 <= nth j l 0) o -> forall i j, (i <= j)%nat -> (j < length o)%nat -> nth (nth i o 0%nat) l 0 <= nth (nth j o 0%nat) l 0.
Proof.
  induction 1 as [| a t S IH F]; intros i j L J; [cbn in J; lia |]. destruct i as [| i], j as [| j]; try lia.
  - apply Rle_refl.
  - cbn [nth]. rewrite Forall_forall in F. apply F, nth_In. cbn in J. lia.
  - cbn [nth]. apply IH; cbn in J; lia.
Qed.
Lemma order_desc a o : sorts a o -> map (fun i => nth i a 0) (rev o) = sort_desc a /\ length o = length a /\ NoDup o /\ (forall i, In i o -> (i < length a)%nat).
Proof.
  intros (P & S). assert (L : length o = length a) by (rewrite (Permutation_length P), seq_length; reflexivity).
  assert (N : NoDup o) by (apply (Permutation_NoDup (Permutation_sym P)), seq_NoDup). assert (B : forall i, In i o -> (i < length a)%nat) by (intros i I; apply (Permutation_in _ P) in I; apply in_seq in I; lia).
  split; [| auto]. assert (P2 : Permutation (map (fun i => nth i a 0) (rev o)) a).
  { apply (Permutation_trans (Permutation_map (fun i => nth i a 0) (Permutation_sym (Permutation_rev o)))). apply (Permutation_trans (Permutation_map (fun i => nth i a 0) P)). apply Permutation_refl'. change (map (fun i => nth i a 0) (seq 0 (length a)) = a). apply (nth_ext _ _ 0 0); [rewrite map_length, seq_length; reflexivity |]. intros i Hi. rewrite map_length, seq_length in Hi. apply (map_seq_nth (fun i => nth i a 0)), Hi. }
  assert (D : decreasing (map (fun i => nth i a 0) (rev o))).
  { intros i j Lij Hj. rewrite map_length, rev_length in Hj. rewrite !(nth_map_in _ _ _ 0%nat) by (rewrite rev_length; lia). rewrite !rev_nth by lia. apply (sorted_le a o S); lia. }
  rewrite <- (sort_desc_id _ D). unfold sort_desc. f_equal. apply rsort_perm_eq, P2.
Qed.
(** Whatever order numpy's argsort gives equal weights: MSB stands below a weight of the largest magnitude; LSB stands below
    the smallest significant one, and is left out exactly when only one weight is significant.  The effective resolution shown
    is the one of these significant weights, to half a hundredth. *)
Lemma c152_labels argsort w r sca er g : analyze_radix_plot argsort w true = Ok (r, sca, er, Some g) -> sorts (map Rabs w) (argsort (map Rabs w)) ->
  exists s k msb lsb, Permutation (map Rabs w) s /\ decreasing s /\ cut_at s k /\ (msb < length w)%nat /\ (lsb < length w)%nat /\ Rabs (nth msb w 0) = nth 0 s 0 /\ Rabs (nth lsb w 0) = nth k s 0 /\
    rf_msb g = (place msb, Rabs (nth msb w 0) / 1.5) /\ rf_lsb g = (if (k =? 0)%nat then None else Some (place lsb, Rabs (nth lsb w 0) / 1.5)) /\ (k <> 0%nat -> lsb <> msb) /\
    names 2 (rf_effres g) 1 (lg2 (lsum (firstn (S k) s) / nth k s 0 + 1)).
Proof.
  intros H S. destruct (radix_plot_inv _ _ _ _ _ _ H) as (E & W & ->). set (a := map Rabs w) in *. destruct (order_desc a _ S) as (O1 & O2 & O3 & O4). set (o := argsort a) in *. set (s := sort_desc a) in *.
  assert (La : length a = length w) by apply map_length. assert (Ln : (0 < length a)%nat) by (rewrite La; destruct w; [congruence | cbn; lia]). assert (Ls : length s = length a) by apply sort_desc_length.
  destruct (sig_index_spec (neighbour_ratios s)) as (K1 & K2 & K3). set (k := sig_index (neighbour_ratios s)) in *. rewrite ratios_length in K1, K3.
  assert (V : forall i, (i < length a)%nat -> nth (nth i (rev o) 0%nat) a 0 = nth i s 0) by (intros i Hi; rewrite <- O1; rewrite (nth_map_in _ _ _ 0%nat) by (rewrite rev_length; lia); reflexivity).
  assert (I : forall i, (i < length a)%nat -> (nth i (rev o) 0 < length w)%nat) by (intros i Hi; rewrite <- La; apply O4, in_rev, nth_In; rewrite rev_length; lia).
  exists s, k, (nth 0 (rev o) 0%nat), (nth k (rev o) 0%nat). split; [apply sort_desc_perm |]. split; [apply sort_desc_decreasing |]. split.
  { split; [lia |]. split; [intros i Hi; rewrite <- ratios_nth by lia; apply K2, Hi | intros Hk; rewrite <- ratios_nth by lia; apply K3; lia]. }
  split; [apply I; lia |]. split; [apply I; lia |]. rewrite !abs_nth. fold a. rewrite !V by lia. split; [reflexivity |]. split; [reflexivity |].
  unfold plot_weight_radix. cbn [rf_msb rf_lsb rf_effres]. fold a. fold o. rewrite O1. fold s. fold k. rewrite !place_INR, !V by lia.
  assert (ND : k <> 0%nat -> nth k (rev o) 0%nat <> nth 0 (rev o) 0%nat) by (intros Hk Q; apply (proj1 (NoDup_nth (rev o) 0%nat)) in Q; [lia | apply NoDup_rev, O3 | rewrite rev_length; lia | rewrite rev_length; lia]).
  split; [f_equal; lra |]. split.
  { destruct (Nat.eqb_spec k 0) as [-> | Hk]; [rewrite Nat.eqb_refl; reflexivity |]. destruct (Nat.eqb_spec (nth k (rev o) 0%nat) (nth 0 (rev o) 0%nat)) as [Q | _]; [exfalso; exact (ND Hk Q) |]. do 2 f_equal; lra. }
  split; [exact ND |]. destruct (significant_prefix a) as (S1 & S2 & S3); [intros Q; rewrite Q in Ln; cbn in Ln; lia |]. cbv zeta in *. fold s in S1, S2, S3. fold k in S1, S2, S3.
  replace (lg2 (lsum (firstn (Datatypes.S k) s) / nth k s 0 + 1)) with er; [apply fixed_names1 |]. assert (Er : er = effres_of (significant a)) by apply (radix_values _ _ _ _ E). rewrite Er. unfold effres_of, lg2. rewrite last_nth, S2, S1. replace (Datatypes.S k - 1)%nat with k by lia. rewrite firstn_nth by lia. reflexivity.
Qed.
(** Nothing but an empty list of weights is refused. *)
Lemma c152_errors argsort w b : (w = [] -> analyze_radix_plot argsort w b = Err IndexError) /\
  (w <> [] -> exists r sca er, analyze_weight_radix w = Ok (r, sca, er) /\ analyze_radix_plot argsort w false = Ok (r, sca, er, None) /\ exists g, analyze_radix_plot argsort w true = Ok (r, sca, er, Some g)).
Proof.
  split; [intros ->; reflexivity |]. intros N. unfold analyze_radix_plot. destruct w as [| x t]; [congruence |]. cbn [analyze_weight_radix bind]. do 3 eexists. split; [reflexivity |]. split; [reflexivity |]. eexists. reflexivity.
Qed.
(** Which of several equally large weights is labelled MSB is not determined by the weights: two orders that both sort the
    two equal weights 1 and -1 label different bits. *)
Lemma c152_labels_refuted : exists w o1 o2 r sca er g1 g2, sorts (map Rabs w) (o1 (map Rabs w)) /\ sorts (map Rabs w) (o2 (map Rabs w)) /\
  analyze_radix_plot o1 w true = Ok (r, sca, er, Some g1) /\ analyze_radix_plot o2 w true = Ok (r, sca, er, Some g2) /\ rf_msb g1 <> rf_msb g2.
Proof.
  exists [1; -1], (fun _ => [0; 1]%nat), (fun _ => [1; 0]%nat). destruct (proj2 (c152_errors (fun _ => [0; 1]%nat) [1; -1] true) ltac:(discriminate)) as (r & sca & er & E & _). exists r, sca, er. unfold analyze_radix_plot. rewrite E. cbn [bind]. do 2 eexists.
  assert (A : map Rabs [1; -1] = [1; 1]) by (cbn [map]; rewrite Rabs_right, Rabs_left by lra; repeat f_equal; lra). rewrite A.
  split; [split; [apply Permutation_refl | repeat constructor; cbn [nth]; lra] |]. split; [split; [apply perm_swap | repeat constructor; cbn [nth]; lra] |]. split; [reflexivity |]. split; [reflexivity |].
  unfold plot_weight_radix. cbn [rf_msb rev app nth]. cbn [Nat.add INR]. intros Q. injection Q as Q _. lra.
Qed.
(** Weights 4, -2, 1, 0.1: one red marker at bit 2; MSB below bit 1, LSB below bit 3 (the last weight is not significant); the
    texts read 2.00, 2.00 and 10.00, the resolution 3.00. *)
Lemma c152_labels_ex : exists r sca er g, analyze_radix_plot (fun _ => [3; 2; 1; 0]%nat) [4; -2; 1; 0.1] true = Ok (r, sca, er, Some g) /\
  rf_neg g = [(2, 2)] /\ rf_pos g = [(1, 4); (3, 1); (4, 0.1)] /\ rf_msb g = (1, 4 / 1.5) /\ rf_lsb g = Some (3, 1 / 1.5) /\ rf_legend g = true /\
  map snd (rf_radix g) = [Num 2 200; Num 2 200; Num 2 1000] /\ rf_effres g = Num 2 300.
Proof.
  destruct (proj2 (c152_errors (fun _ => [3; 2; 1; 0]%nat) [4; -2; 1; 0.1] true) ltac:(discriminate)) as (r & sca & er & E & _ & (g & G)). exists r, sca, er, g. split; [exact G |]. destruct (radix_plot_inv _ _ _ _ _ _ G) as (_ & _ & Hg).
  assert (A : map Rabs [4; -2; 1; 0.1] = [4; 2; 1; 0.1]) by (cbn [map]; rewrite (Rabs_right 4), (Rabs_left (-2)), (Rabs_right 1), (Rabs_right 0.1) by lra; list_eq; lra).
  assert (D : decreasing [4; 2; 1; 0.1]) by (intros [| [| [| [| i]]]] [| [| [| [| j]]]] L J; cbn [length] in J; cbn [nth]; try lia; lra).
  assert (K : sig_index (neighbour_ratios [4; 2; 1; 0.1]) = 2%nat) by (unfold neighbour_ratios; cbn [removelast tl map2 sig_index]; destruct (Rleb_spec 3 (4 / 2)); [lra |]; destruct (Rleb_spec 3 (2 / 1)); [lra |]; destruct (Rleb_spec 3 (1 / 0.1)); [reflexivity | lra]).
  assert (Er : er = 3).
  { rewrite (proj2 (radix_values _ _ _ _ E)), A. unfold significant. rewrite (sort_desc_id _ D), K. cbn [firstn]. unfold effres_of. cbn [last lsum]. replace ((4 + (2 + (1 + 0))) / 1 + 1) with (2 ^ 3) by lra. rewrite ln_pow by lra. cbn [INR]. field. pose proof ln2_pos. lra. }
  assert (Rx : r = [NaN; Fin 2; Fin 2; Fin 10]) by (rewrite (proj1 (radix_values _ _ _ _ E)), A; unfold radix_list; cbn [removelast tl map2]; replace (4 / 2) with 2 by lra; replace (2 / 1) with 2 by lra; replace (1 / 0.1) with 10 by lra; reflexivity).
  destruct (c152_points _ _ _ _ _ _ G) as (_ & Ng & Ps & _). cbv zeta in *. cbn [length seq filter] in Ng, Ps. cbn [nth] in Ng, Ps. destruct (Rltb_spec 4 0); [lra |]. destruct (Rltb_spec (-2) 0); [| lra]. destruct (Rltb_spec 1 0); [lra |]. destruct (Rltb_spec 0.1 0); [lra |].
  destruct (Rleb_spec 0 4); [| lra]. destruct (Rleb_spec 0 (-2)); [lra |]. destruct (Rleb_spec 0 1); [| lra]. destruct (Rleb_spec 0 0.1); [| lra]. cbn [bit_points map nth] in Ng, Ps.
  split; [rewrite Ng; unfold place; cbn [INR]; rewrite Rabs_left by lra; repeat f_equal; lra |]. split; [rewrite Ps; unfold place; cbn [INR]; rewrite (Rabs_right 4), (Rabs_right 1), (Rabs_right 0.1) by lra; repeat f_equal; lra |].
  rewrite Hg. unfold plot_weight_radix. cbn [rf_msb rf_lsb rf_legend rf_radix rf_effres]. rewrite A, Rx, Er. cbn [rev app map nth]. rewrite K. cbn [nth Nat.eqb]. split; [f_equal; cbn; lra |]. split; [do 2 f_equal; cbn; lra |]. split.
  { apply existsb_exists. exists 1%nat. split; [cbn; auto |]. cbn [nth]. destruct (Rltb_spec (-2) 0); [reflexivity | lra]. }
  cbn [length Nat.sub seq map nth snd fmt2]. split; [repeat f_equal; apply fixed_exact; lra | apply fixed_exact; lra].
Qed.

(* ---------- C153: ENOB sweep plot ---------- *)
Definition finite_or_nan (e : list xr) : Prop := forall x, In x e -> x <> PInf /\ x <> NInf.
Lemma enob_plot_inv e g : plot_enob_sweep e = Ok g -> finite_or_nan e /\ e <> [] /\
  let v := map (fun x => match x with Fin r => r | _ => 0 end) (filter not_nan e) in
  let some := negb (length (filter not_nan e) =? 0)%nat in
  let offset := if some then (rmax_list v - rmin_list v) * (6 / 100) else 1 / 10 in
  g = mkEF (combine (seq 1 (length e)) e) (1 / 2, INR (length e) + 1 / 2) (seq 1 (length e)) (if some then Some (rmin_list v - 1 / 2, rmax_list v + 2) else None)
       (flat_map (fun i => match nth i e NaN, delta_enob e i with
                 | Fin y, Fin d => [mkNote (i + 1) (y + offset) (negb (i =? 0)%nat) (fixed 2 d) (if (i =? 0)%nat then 0 else 1 - Rmax 0 (Rmin 1 d))]
                 | _, _ => []
                 end) (seq 0 (length e))).
Proof.
  unfold plot_enob_sweep. destruct (existsb (fun x => negb (xfinite x)) (filter not_nan e)) eqn:X; [discriminate |]. cbn [raise_if]. destruct (Nat.eqb_spec (length e) 0) as [Z | Z]; [discriminate |]. cbn [raise_if]. cbv zeta. intros H. apply Ok_inj in H. split.
  - intros x I. split; intros ->; assert (Q : existsb (fun x => negb (xfinite x)) (filter not_nan e) = true) by (apply existsb_exists; eexists; split; [apply filter_In; split; [exact I | reflexivity] | reflexivity]); congruence.
  - split; [intros ->; apply Z; reflexivity |]. symmetry. exact H.
Qed.
(** It draws exactly when there is at least one value and none is infinite; an infinite one makes it raise ValueError. *)
Lemma c153_accepts e : ((exists g, plot_enob_sweep e = Ok g) <-> e <> [] /\ forall x, In x e -> x <> PInf /\ x <> NInf) /\
  (In PInf e \/ In NInf e -> plot_enob_sweep e = Err ValueError) /\ plot_enob_sweep [] = Err IndexError.
Proof.
  split; [split |].
  - intros (g & H). destruct (enob_plot_inv _ _ H) as (F & N & _). auto.
  - intros (N & F). unfold plot_enob_sweep. destruct (existsb (fun x => negb (xfinite x)) (filter not_nan e)) eqn:X.
    { apply existsb_exists in X. destruct X as (x & I & B). apply filter_In in I. destruct I as (I & B'). destruct (F x I). destruct x; cbn in B, B'; congruence. }
    cbn [raise_if]. destruct (Nat.eqb_spec (length e) 0) as [Z | Z]; [destruct e; [congruence | discriminate Z] |]. eexists. reflexivity.
  - split; [| reflexivity]. intros I. unfold plot_enob_sweep. assert (Q : existsb (fun x => negb (xfinite x)) (filter not_nan e) = true) by (apply existsb_exists; destruct I as [I | I]; eexists; (split; [apply filter_In; split; [exact I | reflexivity] | reflexivity])).
    rewrite Q. reflexivity.
Qed.
Lemma valid_numbers e : finite_or_nan e -> map (fun x => match x with Fin r => r | _ => 0 end) (filter not_nan e) = numbers e.
Proof.
  intros F. induction e as [| x t IH]; [reflexivity |]. assert (Ft : finite_or_nan t) by (intros y I; apply F; right; exact I). destruct (F x (or_introl eq_refl)). destruct x; try congruence; cbn [filter not_nan map numbers flat_map app]; [f_equal |]; apply IH, Ft.
Qed.
Lemma valid_length e : finite_or_nan e -> length (filter not_nan e) = length (numbers e).
Proof. intros F. rewrite <- (valid_numbers e F), map_length. reflexivity. Qed.
(** Point i is at i + 1 and the value; the vertical limits are half a bit below the smallest and 2 bits above the largest
    value; all values and all bit counts are inside the limits. *)
Lemma c153_points e g : plot_enob_sweep e = Ok g -> length (ef_points g) = length e /\ (forall i, (i < length e)%nat -> nth i (ef_points g) (0%nat, NaN) = (S i, nth i e NaN) /\ fst (ef_xlim g) + 0.5 <= INR (S i) <= snd (ef_xlim g) - 0.5) /\
  ef_ticks g = map fst (ef_points g) /\
  ((forall v, ~ In (Fin v) e) -> ef_ylim g = None) /\
  forall lo hi, extremes (numbers e) lo hi -> ef_ylim g = Some (lo - 0.5, hi + 2) /\ forall v, In (Fin v) e -> lo - 0.5 < v < hi + 2.
Proof.
  intros H. destruct (enob_plot_inv _ _ H) as (F & N & ->). cbn [ef_points ef_xlim ef_ticks ef_ylim]. rewrite (valid_numbers e F), (valid_length e F). rewrite combine_length, seq_length, Nat.min_id. split; [reflexivity |]. split.
  { intros i Hi. rewrite combine_nth by (rewrite seq_length; reflexivity). rewrite seq_nth by exact Hi. split; [reflexivity |]. cbn [fst snd]. rewrite S_INR. pose proof (pos_INR i). apply (le_INR (S i)) in Hi. rewrite S_INR in Hi. lra. }
  split. { clear. generalize 1%nat. induction e as [| x t IH]; intros k; [reflexivity |]. cbn [length seq combine map fst]. rewrite <- IH. reflexivity. }
  split. { intros A. destruct (numbers e) as [| a l] eqn:E; [reflexivity |]. exfalso. apply (A a), numbers_In. rewrite E. left. reflexivity. }
  intros lo hi X. destruct X as (I1 & I2 & C). assert (NE : numbers e <> []) by (intros Q; rewrite Q in I1; exact I1). destruct (extremes_unique _ _ _ _ _ (rlist_extremes _ NE) (conj I1 (conj I2 C))) as (-> & ->).
  replace (length (numbers e) =? 0)%nat with false by (destruct (numbers e); [congruence | reflexivity]). cbn [negb]. split; [do 2 f_equal; lra |]. intros v I. apply numbers_In in I. apply C in I. cbn [fst snd] in I. lra.
Qed.
(** The notes: one for every value that is a number and, from the second on, whose predecessor is one too.  It stands 6
    percent of the range above the point and gives, to half a hundredth, the first value or the increase over the preceding
    one, the latter with a plus sign in front. *)
Lemma c153_notes e g lo hi : plot_enob_sweep e = Ok g -> extremes (numbers e) lo hi -> forall nt, In nt (ef_notes g) <->
  exists i y d, (i < length e)%nat /\ nth i e NaN = Fin y /\ (i = 0%nat /\ d = y \/ exists j z, i = S j /\ nth j e NaN = Fin z /\ d = y - z) /\
    nt = mkNote (S i) (y + 0.06 * (hi - lo)) (negb (i =? 0)%nat) (fixed 2 d) (if (i =? 0)%nat then 0 else if Rleb d 0 then 1 else if Rleb 1 d then 0 else 1 - d).
Proof.
  intros H X nt. destruct (enob_plot_inv _ _ H) as (F & N & ->). cbn [ef_notes]. rewrite (valid_numbers e F), (valid_length e F). destruct X as (I1 & I2 & C). assert (NE : numbers e <> []) by (intros Q; rewrite Q in I1; exact I1). destruct (extremes_unique _ _ _ _ _ (rlist_extremes _ NE) (conj I1 (conj I2 C))) as (-> & ->).
  replace (length (numbers e) =? 0)%nat with false by (destruct (numbers e); [congruence | reflexivity]). cbn [negb]. rewrite in_flat_map.
  assert (R1 : forall d, 1 - Rmax 0 (Rmin 1 d) = if Rleb d 0 then 1 else if Rleb 1 d then 0 else 1 - d) by (intros d; destruct (Rleb_spec d 0), (Rleb_spec 1 d); unfold Rmax, Rmin; destruct (Rle_dec 1 d); destruct (Rle_dec 0 _); lra).
  split.
  - intros (i & Hi & I). apply in_seq in Hi. destruct (nth i e NaN) as [y | | |] eqn:Ey; try contradiction. destruct (delta_enob e i) as [d | | |] eqn:Ed; try contradiction. destruct I as [<- | []]. exists i, y, d. split; [lia |]. split; [exact Ey |]. split.
    + destruct i as [| j]; cbn [delta_enob] in Ed; [left; split; [reflexivity | congruence] |]. right. rewrite Ey in Ed. exists j. assert (Ij : In (nth j e NaN) e) by (apply nth_In; lia). destruct (F _ Ij). destruct (nth j e NaN) as [z | | |]; try congruence; cbn in Ed; try discriminate. exists z. split; [reflexivity |]. split; [reflexivity |]. injection Ed as <-. lra.
    + rewrite R1, Nat.add_1_r. f_equal; lra.
  - intros (i & y & d & Hi & Ey & D & ->). exists i. split; [apply in_seq; lia |]. rewrite Ey. assert (Ed : delta_enob e i = Fin d) by (destruct D as [(-> & ->) | (j & z & -> & Ez & ->)]; cbn [delta_enob]; [exact Ey | rewrite Ey, Ez; cbn; f_equal; lra]).
    rewrite Ed. left. rewrite R1, Nat.add_1_r. f_equal; lra.
Qed.
(** What a note says: the numbers are right to half a hundredth, and so is the sign shown when the ENOB does not fall. *)
Lemma c153_note_text e g lo hi i y : plot_enob_sweep e = Ok g -> extremes (numbers e) lo hi -> nth i e NaN = Fin y -> (i < length e)%nat ->
  (i = 0%nat -> exists nt, In nt (ef_notes g) /\ nt_x nt = S i /\ nt_plus nt = false /\ names 2 (nt_num nt) 1 y /\ nt_y nt = y + 0.06 * (hi - lo)) /\
  (forall j z, i = S j -> nth j e NaN = Fin z -> exists nt k, In nt (ef_notes g) /\ nt_x nt = S i /\ nt_plus nt = true /\ nt_num nt = Num 2 k /\ names 2 (nt_num nt) 1 (y - z) /\ nt_y nt = y + 0.06 * (hi - lo) /\ (z <= y -> (0 <= k)%Z)).
Proof.
  intros H X Ey Hi. pose proof (c153_notes _ _ _ _ H X) as A. split.
  - intros ->. eexists. split; [apply A; exists 0%nat, y, y; split; [exact Hi |]; split; [exact Ey |]; split; [left; auto | reflexivity] |]. cbn [nt_x nt_plus nt_num nt_y]. repeat (split; [reflexivity |]). split; [apply fixed_names1 | reflexivity].
  - intros j z -> Ez. do 2 eexists. split; [apply A; exists (S j), y, (y - z); split; [exact Hi |]; split; [exact Ey |]; split; [right; eauto | reflexivity] |]. cbn [nt_x nt_plus nt_num nt_y]. repeat (split; [reflexivity |]). split; [apply fixed_names1 |]. split; [reflexivity |].
    intros L. rewrite <- (round_he_near 0 0) by (rewrite Rminus_0_r, Rabs_R0; lra). apply round_he_mono. cbn [pow]. nra.
Qed.
(** The notes are inside the vertical limits when the values span at most 100/3 bits. *)
Lemma c153_notes_inside e g lo hi nt lim : plot_enob_sweep e = Ok g -> extremes (numbers e) lo hi -> hi - lo <= 100 / 3 -> In nt (ef_notes g) -> ef_ylim g = Some lim -> within lim (nt_y nt) /\ within (ef_xlim g) (INR (nt_x nt)).
Proof.
  intros H X D I Y. destruct (c153_points _ _ H) as (_ & P & _ & _ & L). destruct (L _ _ X) as (Y' & V). rewrite Y in Y'. injection Y' as ->. apply (c153_notes _ _ _ _ H X) in I. destruct I as (i & y & d & Hi & Ey & _ & ->). cbn [nt_x nt_y].
  assert (Iy : In (Fin y) e) by (rewrite <- Ey; apply nth_In, Hi). destruct (P i Hi) as (_ & Q). unfold within. cbn [fst snd]. destruct X as (_ & _ & C). apply numbers_In in Iy. apply C in Iy. cbn [fst snd] in Iy. lra.
Qed.
(** A falling ENOB is marked with a plus sign and a minus sign: after 8 and 7.5 bits the note reads +-0.50. *)
Lemma c153_sign_refuted : exists e g nt k, plot_enob_sweep e = Ok g /\ In nt (ef_notes g) /\ nt_plus nt = true /\ nt_num nt = Num 2 k /\ (k < 0)%Z.
Proof.
  exists [Fin 8; Fin 7.5]. destruct (proj2 (proj1 (c153_accepts [Fin 8; Fin 7.5]))) as (g & G). { split; [discriminate |]. intros x [<- | [<- | []]]; split; discriminate. }
  assert (X : extremes (numbers [Fin 8; Fin 7.5]) 7.5 8) by (split; [right; left; reflexivity |]; split; [left; reflexivity |]; intros v [<- | [<- | []]]; cbn [fst snd]; lra).
  exists g. eexists. exists (-50)%Z. split; [exact G |]. split; [apply (c153_notes _ _ _ _ G X); exists 1%nat, 7.5, (7.5 - 8); split; [cbn; lia |]; split; [reflexivity |]; split; [right; exists 0%nat, 8; auto | reflexivity] |].
  cbn [nt_plus nt_num]. split; [reflexivity |]. split; [apply fixed_exact; lra | lia].
Qed.
(** 4, 6.5 and 7 bits: limits 3.5 and 9; the notes read 4.00, +2.50, +0.50. *)
Lemma c153_notes_ex : exists g, plot_enob_sweep [Fin 4; Fin 6.5; Fin 7] = Ok g /\ ef_ylim g = Some (3.5, 9) /\ map nt_num (ef_notes g) = [Num 2 400; Num 2 250; Num 2 50] /\ map nt_plus (ef_notes g) = [false; true; true] /\ map nt_x (ef_notes g) = [1; 2; 3]%nat.
Proof.
  destruct (proj2 (proj1 (c153_accepts [Fin 4; Fin 6.5; Fin 7]))) as (g & G). { split; [discriminate |]. intros x [<- | [<- | [<- | []]]]; split; discriminate. }
  assert (X : extremes (numbers [Fin 4; Fin 6.5; Fin 7]) 4 7) by (split; [left; reflexivity |]; split; [right; right; left; reflexivity |]; intros v [<- | [<- | [<- | []]]]; cbn [fst snd]; lra).
  exists g. split; [exact G |]. destruct (c153_points _ _ G) as (_ & _ & _ & _ & L). destruct (L _ _ X) as (-> & _). split; [do 2 f_equal; lra |]. destruct (enob_plot_inv _ _ G) as (_ & _ & ->). cbn [ef_notes length seq flat_map delta_enob nth xsub xsub_l xaxpy map nt_num nt_plus nt_x app Nat.eqb negb Nat.add].
  split; [| split; reflexivity]. list_eq; apply fixed_exact; lra.
Qed.

(** With the default oversampling ratio and the usual windows: after a successful sweep the plot is drawn exactly when no
    leading group of bits contributes a constant; otherwise the call raises ValueError. *)
Lemma c153_drawn kz cz lstsq rank est bits freq H wt e ns r : wt = Boxcar \/ wt = Hann \/ wt = Hamming ->
  enob_sweep kz cz lstsq rank est bits freq H 1 wt = Ok (e, ns) -> calibrate_weight_sine lstsq rank est [bits] freq None None H 0.5 (1 / 10 ^ 12) 100 = Ok r ->
  ((forall n, (1 <= n <= m_m bits)%nat -> ~ constant_list (contribution (m_n bits) (m_at bits) (r_weight r) n)) <-> exists g, analyze_enob_sweep kz cz lstsq rank est bits freq H 1 wt true = Ok (e, ns, Some g)) /\
  ((exists n, (1 <= n <= m_m bits)%nat /\ constant_list (contribution (m_n bits) (m_at bits) (r_weight r) n)) <-> analyze_enob_sweep kz cz lstsq rank est bits freq H 1 wt true = Err ValueError).
Proof.
  intros U E C. destruct (c122_entries _ _ _ _ _ _ _ _ _ _ _ _ E) as (M & L & _ & _ & r' & C' & V). rewrite C in C'. apply Ok_inj in C'. subst r'.
  assert (NN : forall n, contribution (m_n bits) (m_at bits) (r_weight r) n <> []) by (intros n; unfold contribution; destruct (m_n bits); [lia | discriminate]).
  assert (A : analyze_enob_sweep kz cz lstsq rank est bits freq H 1 wt true = bind (plot_enob_sweep e) (fun g => Ok (e, ns, Some g))) by (unfold analyze_enob_sweep; rewrite E; reflexivity). rewrite A. clear A.
  destruct (c153_accepts e) as (P1 & P2 & _). assert (Ne : e <> []) by (intros ->; cbn in L; lia).
  assert (K : forall n, (1 <= n <= m_m bits)%nat -> constant_list (contribution (m_n bits) (m_at bits) (r_weight r) n) -> plot_enob_sweep e = Err ValueError).
  { intros n Hn K. apply P2. right. destruct (V n Hn) as (sp & S & W). destruct (sweep_constant kz cz _ 1 wt (NN n) ltac:(lra) K) as (sp' & S' & W'). rewrite S in S'. apply Ok_inj in S'. subst sp'. rewrite <- W', <- W. apply nth_In. lia. }
  assert (D : (forall n, (1 <= n <= m_m bits)%nat -> ~ constant_list (contribution (m_n bits) (m_at bits) (r_weight r) n)) -> exists g, plot_enob_sweep e = Ok g).
  { intros Q. apply P1. split; [exact Ne |]. intros x I. apply (In_nth _ _ NaN) in I. destruct I as (i & Hi & <-). destruct (V (S i) ltac:(lia)) as (sp & Sp & W). replace (S i - 1)%nat with i in W by lia. rewrite W. set (x := contribution _ _ _ _) in Sp.
    destruct (sweep_number kz cz x wt (NN _) (Q (S i) ltac:(lia))) as (sp' & v & S' & W'); try (apply usual_windows, U). rewrite Sp in S'. apply Ok_inj in S'. subst sp'. rewrite W'. split; discriminate. }
  split; split.
  - intros Q. destruct (D Q) as (g & ->). exists g. reflexivity.
  - intros (g & G) n Hn K'. rewrite (K n Hn K') in G. discriminate.
  - intros (n & Hn & K'). rewrite (K n Hn K'). reflexivity.
  - intros G. destruct (Classical_Prop.classic (exists n, (1 <= n <= m_m bits)%nat /\ constant_list (contribution (m_n bits) (m_at bits) (r_weight r) n))) as [Y | Y]; [exact Y | exfalso]. destruct D as (g & Eg); [intros n Hn Q; apply Y; eauto |]. rewrite Eg in G. discriminate.
Qed.
(** If the first bit never changes, the sweep can be computed, but asking for its plot raises ValueError, for every window and
    oversampling ratio. *)
Lemma c153_stuck kz cz lstsq rank est bits freq H osr wt e ns c : enob_sweep kz cz lstsq rank est bits freq H osr wt = Ok (e, ns) -> (forall t, (t < m_n bits)%nat -> m_at bits t 0%nat = c) ->
  analyze_enob_sweep kz cz lstsq rank est bits freq H osr wt false = Ok (e, ns, None) /\ analyze_enob_sweep kz cz lstsq rank est bits freq H osr wt true = Err ValueError.
Proof.
  intros E K. destruct (c122_entries _ _ _ _ _ _ _ _ _ _ _ _ E) as (M & L & _ & O & r & C & V). unfold analyze_enob_sweep. rewrite E. cbn [bind]. split; [reflexivity |]. destruct (c153_accepts e) as (_ & P2 & _). rewrite P2; [reflexivity |]. right.
  destruct (V 1%nat ltac:(lia)) as (sp & S & W). destruct (sweep_constant kz cz (contribution (m_n bits) (m_at bits) (r_weight r) 1) osr wt) as (sp' & S' & W'); [unfold contribution; destruct (m_n bits); [lia | discriminate] | exact O | |].
  - exists (c * r_weight r 0%nat). intros v I. unfold contribution in I. apply in_map_iff in I. destruct I as (t & <- & T). apply in_seq in T. cbn [rsum]. rewrite K by lia. ring.
  - rewrite S in S'. apply Ok_inj in S'. subst sp'. rewrite <- W', <- W. apply nth_In. lia.
Qed.
(** Four samples of two bits, the first of them stuck at 0, at the quarter of the sampling rate: the sweep is computed, its
    plot raises ValueError. *)
Lemma c153_stuck_refuted kz cz : exists bits e ns, enob_sweep kz cz gs_lstsq gs_rank (fun _ => 0) bits (FScalar (1 / 4)) 1 1 Hamming = Ok (e, ns) /\
  analyze_enob_sweep kz cz gs_lstsq gs_rank (fun _ => 0) bits (FScalar (1 / 4)) 1 1 Hamming true = Err ValueError.
Proof.
  set (bits := mkMat 4 2 (fun t j => if ((t =? 1) && (j =? 1))%nat then 1 else 0)). exists bits.
  destruct (calibrate_answers gs_lstsq gs_rank (fun _ => 0) bits (1 / 4) None None 1 0.5 (1 / 10 ^ 12) 100) as (r & C); [apply gs_rank_correct | lra | cbn; lia | exact I | |].
  - exists 1%nat. split; [cbn; lia |]. exists 1%nat, 0%nat. split; [cbn; lia |]. split; [cbn; lia |]. unfold colm. cbn [bits m_at Nat.eqb andb]. rewrite Rabs_right by lra. lra.
  - pose proof (c122_errors kz cz gs_lstsq gs_rank (fun _ => 0) bits (FScalar (1 / 4)) 1 1 Hamming) as Q. rewrite C in Q. destruct (Rlt_dec 0 1); [| lra]. cbn [bits m_m m_n Nat.leb] in Q. destruct Q as (e & Q). exists e. eexists. split; [exact Q |].
    apply (c153_stuck _ _ _ _ _ _ _ _ _ _ _ _ 0 Q). intros t _. cbn [bits m_at]. rewrite andb_false_r. reflexivity.
Qed.
(** Eight samples of a three-bit converter with weights 2, 1, 1: the plot is drawn, with three points. *)
Lemma c153_drawn_ex kz cz : exists e g, analyze_enob_sweep kz cz gs_lstsq gs_rank (fun _ => 0) ex_bits (FScalar (1 / 4)) 1 1 Hamming true = Ok (e, [1; 2; 3]%nat, Some g) /\ length (ef_points g) = 3%nat.
Proof.
  destruct (c55_recovers gs_lstsq gs_rank (fun _ => 0) ex_bits (FScalar (1 / 4)) (1 / 4) None None 1 0.5 (1 / 10 ^ 12) 100 ex_w (3 / 2) ex_a ex_b) as (r & d & s & E & _ & _ & Sg & _ & _ & W & _);
    try (exact gs_least_squares || exact gs_rank_correct || exact ex_true || exact ex_identifiable || exact I || (left; reflexivity) || lra || (cbn; lia)).
  { unfold ex_a. left. lra. }
  pose proof (c122_errors kz cz gs_lstsq gs_rank (fun _ => 0) ex_bits (FScalar (1 / 4)) 1 1 Hamming) as Q. rewrite E in Q. destruct (Rlt_dec 0 1); [| lra]. destruct Q as [e Q]. exists e.
  destruct (c153_drawn kz cz _ _ _ _ _ _ Hamming _ _ _ (or_intror (or_intror eq_refl)) Q E) as ((D & _) & _). destruct D as (g & G).
  - set (am := amplitude (ex_a 0%nat) (ex_b 0%nat)) in *. assert (Pa : 0 < am) by (unfold am, amplitude, ex_a, ex_b; apply sqrt_lt_R0; lra).
    assert (Wt : forall j, (j < 3)%nat -> r_weight r j = s / am * ex_w j) by (intros j Hj; rewrite W by exact Hj; field; lra). assert (NZ : s / am <> 0) by (apply Rmult_integral_contrapositive_currified; [destruct Sg; lra | apply Rinv_neq_0_compat; lra]).
    intros n Hn (c & K). change (m_m ex_bits) with 3%nat in Hn. pose proof (K (rsum n (fun j => m_at ex_bits 0 j * r_weight r j))) as K0. pose proof (K (rsum n (fun j => m_at ex_bits 2 j * r_weight r j))) as K2.
    rewrite <- K0 in K2; [| apply in_map_iff; exists 0%nat; split; [reflexivity | apply in_seq; cbn; lia]]. specialize (K2 ltac:(apply in_map_iff; exists 2%nat; split; [reflexivity | apply in_seq; cbn; lia])).
    apply NZ. destruct n as [| [| [| [| n]]]]; try lia; cbn [rsum] in K2; rewrite !Wt in K2 by lia; cbn in K2; lra.
  - exists g. split; [exact G |]. unfold analyze_enob_sweep in G. rewrite Q in G. cbn [bind] in G. destruct (plot_enob_sweep e) as [g' |] eqn:P; [| discriminate]. cbn [bind] in G. injection G as ->. destruct (c153_points _ _ P) as (-> & _). destruct (c122_entries _ _ _ _ _ _ _ _ _ _ _ _ Q) as (_ & L & _). exact L.
Qed.
