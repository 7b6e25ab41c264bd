(** * Proofs for the phase plane, error and residual plots. *)
From Coq Require Import Sorted Permutation.
From Verif Require Import Base BaseLemmas Cplx SpecModel SpecLemmas SineHistModel SineHistProofs DoutModel DoutSpec DoutProofs SiggenModel SiggenSpec SiggenProofs CalModel CalSpec CalProofs CalExLemmas CohLemmas FitModel FitSpec FitProofs HarmProofs NonlinModel NonlinSpec NonlinProofs AcfModel AcfSpec AcfProofs RearProofs AoutMoreProofs EpdfModel EpdfSpec EpdfProofs EnvModel EnvSpec EnvProofs PlaneModel PlaneSpec PlaneProofs EplaneModel EplaneSpec EplaneProofs PlotModel PlotProofs DrawModel DrawSpec PanelModel PanelSpec PanelProofs DplotProofs EplotModel EplotSpec.
Local Open Scope R_scope.

(* ---------- C154: phase plane ---------- *)
Lemma select_filter {A} (f : nat -> A) (b : nat -> bool) n : forall s, select (map f (seq s n)) (map b (seq s n)) = map f (filter b (seq s n)).
Proof. induction n as [| n IH]; intros s; [reflexivity |]. cbn [seq map select filter]. rewrite IH. destruct (b s); reflexivity. Qed.
Lemma combine_maps {A B C} (f : A -> B) (g : A -> C) l : combine (map f l) (map g l) = map (fun x => (f x, g x)) l.
Proof. induction l as [| a l IH]; [reflexivity |]. cbn [map combine]. rewrite IH. reflexivity. Qed.
Lemma existsb_filter (b : nat -> bool) l : existsb (fun x => x) (map b l) = match filter b l with [] => false | _ => true end.
Proof. induction l as [| a l IH]; [reflexivity |]. cbn [map existsb filter]. destruct (b a); [reflexivity | exact IH]. Qed.
Lemma lag_usable data lag det thr k out : phase_plane data lag det thr = Ok (k, out) ->
  exists n, k = Z.of_nat n /\ (0 < n < length data)%nat /\ phase_plane data (Some (Z.of_nat n)) det thr = Ok (k, out).
Proof.
  destruct lag as [z |].
  - intros E. destruct (c112_lags data z thr) as (_ & L1 & _ & _ & L2).
    destruct (Z.le_gt_cases (Z.of_nat (length data)) z) as [G | G]; [rewrite L1 in E by exact G; discriminate |].
    destruct (Z.lt_ge_cases z 0) as [G0 | G0]; [rewrite L2 in E by exact G0; discriminate |].
    destruct (Z.eq_dec z 0) as [-> | NZ].
    { exfalso. destruct (c112_lags data 0 thr) as (_ & _ & L3 & L4 & _). destruct det; [| rewrite L4 in E by lia; discriminate].
      destruct (Nat.le_gt_cases 2 (length data)) as [Q | Q]; [rewrite L3 in E by exact Q; discriminate |]. destruct data as [| a [| b l]]; cbn [length] in *; try lia. cbn in E. discriminate E. }
    assert (K : k = z). { unfold phase_plane in E. cbn [bind] in E. unfold raise_if in E. destruct (_ <=? _)%Z; [discriminate |]. destruct (if det then _ else _) as [m |]; [| discriminate]. cbn [bind] in E. destruct (mask_index _ m); [| discriminate]. cbn [bind] in E. congruence. }
    exists (Z.to_nat z). replace (Z.of_nat (Z.to_nat z)) with z by lia. split; [exact K |]. split; [lia | exact E].
  - intros E. destruct (Nat.le_gt_cases (length data) 1) as [S1 | S1]; [rewrite c113_short in E by exact S1; discriminate |].
    destruct (c113_auto data det thr S1) as (p & n & _ & _ & R & Same & out' & E'). rewrite E in E'. injection E' as -> ->. exists n. split; [reflexivity |]. split; [lia |]. rewrite <- Same. exact E.
Qed.
Lemma plane_pieces data det thr n k out : (0 < n < length data)%nat -> phase_plane data (Some (Z.of_nat n)) det thr = Ok (k, out) ->
  exists b, (if det then outlier_mask (drop_last_k data (Z.of_nat n)) (from_k data (Z.of_nat n)) thr else Ok (map (fun _ => false) (drop_last_k data (Z.of_nat n)))) = Ok (map b (seq 0 (length data - n))) /\
  out = map (fun j => Z.of_nat (n + j)) (filter b (seq 0 (length data - n))).
Proof.
  intros Hn E. destruct det.
  - exists (mask_at data n thr). split; [apply outlier_mask_closed; exact Hn |]. rewrite phase_plane_closed in E by exact Hn. apply Ok_inj in E. injection E as _ <-. rewrite select_filter. apply map_ext. intros; lia.
  - exists (fun _ => false). split.
    + f_equal. transitivity (repeat false (length data - n)); [| symmetry]; [rewrite <- (drop_last_length data n) by lia; generalize (drop_last_k data (Z.of_nat n)) | generalize (length data - n)%nat; intros m; generalize 0%nat; induction m as [| m IH]; intros s; cbn [seq map repeat]; [reflexivity | rewrite IH; reflexivity]].
      intros l. induction l as [| a l IH]; cbn [map length repeat]; [reflexivity | rewrite IH; reflexivity].
    + rewrite (proj1 (c112_lags data (Z.of_nat n) thr)) in E by lia. injection E as _ <-. generalize 0%nat as s. induction (length data - n)%nat as [| m IH]; intros s; [reflexivity | cbn [seq filter]; apply IH].
Qed.
(** Drawing never fails where the analysis succeeds, and it does not change the result. *)
Lemma c154_same data lag det thr cp :
  (forall k out, phase_plane data lag det thr = Ok (k, out) -> exists g, analyze_phase_plane data lag det thr cp = Ok (k, out, g) /\ (g = None <-> cp = false)) /\
  (forall e, phase_plane data lag det thr = Err e -> analyze_phase_plane data lag det thr cp = Err e).
Proof.
  split; [| intros e E; unfold analyze_phase_plane; rewrite E; reflexivity].
  intros k out E. destruct (lag_usable _ _ _ _ _ _ E) as (n & K & Hn & E'). destruct (plane_pieces _ _ _ _ _ _ Hn E') as (b & M & _).
  unfold analyze_phase_plane. rewrite E. cbn [bind fst snd]. rewrite K, M. cbn [bind]. eexists. split; [reflexivity |]. destruct cp; split; congruence.
Qed.
Lemma filter_not_in (b : nat -> bool) m n i : In i (filter (fun j => negb (b j)) (seq 0 m)) <-> (i < m)%nat /\ ~ In (Z.of_nat (n + i)) (map (fun j => Z.of_nat (n + j)) (filter b (seq 0 m))).
Proof.
  rewrite filter_In, in_seq. split.
  - intros [H B]. split; [lia |]. intros C. apply in_map_iff in C. destruct C as (j & Ej & Hj). apply filter_In in Hj. assert (j = i) by lia. subst j. destruct Hj as [_ Hj]. rewrite Hj in B. discriminate.
  - intros [H B]. split; [lia |]. destruct (b i) eqn:Bi; [| reflexivity]. exfalso. apply B. apply (in_map (fun j => Z.of_nat (n + j))). apply filter_In. split; [apply in_seq; lia | exact Bi].
Qed.
Lemma filter_seq_sorted (b : nat -> bool) m : forall s, StronglySorted lt (filter b (seq s m)).
Proof.
  induction m as [| m IH]; intros s; [constructor |]. cbn [seq filter]. destruct (b s); [constructor; [apply IH |] | apply IH].
  apply Forall_forall. intros x Hx. apply filter_In in Hx. destruct Hx as [Hx _]. apply in_seq in Hx. lia.
Qed.
(** What is drawn.  With the lag n, sample i stands at (x[i-n], x[i]).  The trajectory consists of the samples that are not listed
    as outliers, in order; the listed ones are drawn as crosses (none is drawn if there are none), and the first three of them carry their
    sample number; title and text box show the lag and the number of outliers; above 20000 points the trajectory
    is drawn as a density. *)
Lemma c154_drawn data lag det thr k out g : analyze_phase_plane data lag det thr true = Ok (k, out, Some g) ->
  exists n, k = Z.of_nat n /\ (0 < n < length data)%nat /\ let point i := (nth (i - n) data 0, nth i data 0) in
  (exists normal, StronglySorted lt normal /\ (forall i, In i normal <-> (n <= i < length data)%nat /\ ~ In (Z.of_nat i) out) /\ pl_points g = map point normal) /\
  pl_outliers g = match out with [] => None | _ => Some (map (fun z => point (Z.to_nat z)) out) end /\
  pl_notes g = map (fun z => (z, point (Z.to_nat z))) (firstn 3 out) /\
  pl_lag g = k /\ pl_count g = length out /\ (pl_density g = true <-> (20000 < Z.of_nat (length data - n))%Z).
Proof.
  intros E. destruct (phase_plane data lag det thr) as [[k' out'] | e] eqn:EP; [| rewrite (proj2 (c154_same data lag det thr true) e EP) in E; discriminate].
  destruct (lag_usable _ _ _ _ _ _ EP) as (n & K & Hn & E'). destruct (plane_pieces _ _ _ _ _ _ Hn E') as (b & M & O).
  unfold analyze_phase_plane in E. rewrite EP in E. cbn [bind fst snd] in E. rewrite K, M in E. cbn [bind] in E. apply Ok_inj in E. injection E as <- <- <-.
  exists n. split; [reflexivity |]. split; [exact Hn |]. intros point. set (m := (length data - n)%nat) in *.
  assert (X : drop_last_k data (Z.of_nat n) = map (fun j => nth j data 0) (seq 0 m)).
  { rewrite (list_as_map (drop_last_k data (Z.of_nat n)) m) by (apply drop_last_length; lia). apply map_ext_in. intros j Hj. apply in_seq in Hj. apply drop_last_nth; [lia | unfold m in *; lia]. }
  assert (Y : from_k data (Z.of_nat n) = map (fun j => nth (j + n) data 0) (seq 0 m)).
  { rewrite (list_as_map (from_k data (Z.of_nat n)) m) by apply from_k_length. apply map_ext. intros j. apply from_k_nth. }
  assert (PT : forall j, (nth j data 0, nth (j + n) data 0) = point (n + j)%nat) by (intros j; unfold point; f_equal; f_equal; lia).
  unfold plot_phase_plane. rewrite X, Y. cbn [pl_points pl_outliers pl_notes pl_lag pl_count pl_density]. rewrite !map_map, !select_filter, !combine_maps, !existsb_filter. split; [| split; [| split; [| split; [| split]]]].
  - exists (map (fun j => (n + j)%nat) (filter (fun j => negb (b j)) (seq 0 m))). split; [| split].
    + generalize (filter_seq_sorted (fun j => negb (b j)) m 0). generalize (filter (fun j => negb (b j)) (seq 0 m)). intros l. induction 1 as [| a l S1 IH F]; cbn [map]; constructor; [exact IH |].
      apply Forall_forall. intros x Hx. apply in_map_iff in Hx. destruct Hx as (y & <- & Hy). rewrite Forall_forall in F. specialize (F y Hy). lia.
    + intros i. rewrite in_map_iff. split.
      * intros (j & <- & Hj). apply (filter_not_in b m n) in Hj. rewrite <- O in Hj. split; [unfold m in Hj; lia | apply Hj].
      * intros [H1 H2]. exists (i - n)%nat. split; [lia |]. apply (filter_not_in b m n). split; [unfold m; lia |]. rewrite <- O. replace (n + (i - n))%nat with i by lia. exact H2.
    + rewrite map_map. apply map_ext. intros j. apply PT.
  - rewrite O. destruct (filter b (seq 0 m)) as [| a l]; [reflexivity |]. cbn [map]. do 2 f_equal; [rewrite Nat2Z.id; apply PT |]. rewrite map_map. apply map_ext. intros j. rewrite Nat2Z.id. apply PT.
  - rewrite O, map_length. destruct (filter b (seq 0 m)) as [| a l] eqn:EF; [reflexivity |]. rewrite <- EF. set (L := filter b (seq 0 m)). transitivity (map (fun j => (Z.of_nat (n + j), point (n + j)%nat)) (firstn 3 L)).
    2:{ rewrite <- firstn_map, <- firstn_map, map_map. f_equal. apply map_ext. intros j. rewrite Nat2Z.id. reflexivity. }
    clear. assert (G : forall c, map (fun i => (nth i (map (fun j => Z.of_nat (n + j)) L) 0%Z, (nth i (map (fun j => nth j data 0) L) 0, nth i (map (fun j => nth (j + n) data 0) L) 0))) (seq 0 (Nat.min c (length L))) = map (fun j => (Z.of_nat (n + j), point (n + j)%nat)) (firstn c L)).
    { induction L as [| a L IH]; intros c; [destruct c; reflexivity |]. destruct c as [| c]; [reflexivity |]. cbn [length Nat.min seq map firstn nth]. f_equal; [unfold point; do 2 f_equal; f_equal; lia |]. rewrite <- seq_shift, map_map. apply IH. }
    apply G.
  - reflexivity.
  - reflexivity.
  - rewrite map_length, seq_length. apply Z.ltb_lt.
Qed.
(** Every sample from the lag on is drawn exactly once, as trajectory or as cross. *)
Lemma c154_total data lag det thr k out g : analyze_phase_plane data lag det thr true = Ok (k, out, Some g) ->
  Permutation (pl_points g ++ match pl_outliers g with Some l => l | None => [] end) (map (fun i => (nth (i - Z.to_nat k) data 0, nth i data 0)) (seq (Z.to_nat k) (length data - Z.to_nat k))).
Proof.
  intros E. pose proof E as E0. destruct (c154_drawn _ _ _ _ _ _ _ E) as (n & K & Hn & (normal & S1 & IN & ->) & -> & _). rewrite K, Nat2Z.id.
  destruct (phase_plane data lag det thr) as [[k' out'] | e] eqn:EP; [| rewrite (proj2 (c154_same data lag det thr true) e EP) in E; discriminate].
  destruct (proj1 (c154_same data lag det thr true) _ _ EP) as (g' & Eg & _). rewrite E0 in Eg. apply Ok_inj in Eg. injection Eg as <- <- _.
  destruct (lag_usable _ _ _ _ _ _ EP) as (n' & K' & Hn' & E'). assert (n' = n) by lia. subst n'. destruct (plane_pieces _ _ _ _ _ _ Hn E') as (b & M & O).
  assert (OUT : match match out with [] => None | _ => Some (map (fun z => (nth (Z.to_nat z - n) data 0, nth (Z.to_nat z) data 0)) out) end with Some l => l | None => [] end = map (fun i => (nth (i - n) data 0, nth i data 0)) (map Z.to_nat out)).
  { destruct out; [reflexivity |]. rewrite map_map. reflexivity. }
  rewrite OUT, <- map_app. apply (Permutation_map (fun i => (nth (i - n) data 0, nth i data 0))). apply NoDup_Permutation.
  - assert (ND : NoDup (map Z.to_nat out)).
    { rewrite O, map_map. assert (Q : forall l, NoDup l -> NoDup (map (fun j => Z.to_nat (Z.of_nat (n + j))) l)).
      { induction 1 as [| a l H1 H2 IH]; cbn [map]; constructor; [| exact IH]. intros C. apply in_map_iff in C. destruct C as (j & Ej & Hj). assert (j = a) by lia. subst j. contradiction. }
      apply Q. apply NoDup_filter, seq_NoDup. }
    assert (NN : NoDup normal). { clear - S1. induction S1 as [| a l S1 IH F]; constructor; [| exact IH]. intros C. rewrite Forall_forall in F. specialize (F a C). lia. }
    assert (D : forall x, In x normal -> ~ In x (map Z.to_nat out)).
    { intros x Hx C. apply IN in Hx. destruct Hx as [_ Hx]. apply Hx. apply in_map_iff in C. destruct C as (z & Ez & Hz). rewrite O in Hz |- *. apply in_map_iff in Hz. destruct Hz as (j & Ej & Hj). apply in_map_iff. exists j. split; [lia | exact Hj]. }
    clear - ND NN D. induction NN as [| a l H1 H2 IH]; [exact ND |]. cbn [app]. constructor.
    + intros C. apply in_app_or in C. destruct C as [C | C]; [contradiction |]. exact (D a (or_introl eq_refl) C).
    + apply IH. intros x Hx. apply D. right. exact Hx.
  - apply seq_NoDup.
  - intros i. rewrite in_app_iff, in_seq, IN, in_map_iff. split.
    + intros [[H _] | (z & <- & Hz)]; [lia |]. rewrite O in Hz. apply in_map_iff in Hz. destruct Hz as (j & <- & Hj). apply filter_In in Hj. destruct Hj as [Hj _]. apply in_seq in Hj. lia.
    + intros H. destruct (in_dec Z.eq_dec (Z.of_nat i) out) as [I1 | I1]; [right; exists (Z.of_nat i); split; [lia | exact I1] | left; split; [lia | exact I1]].
Qed.
Lemma c154_drawn_ex : exists g, analyze_phase_plane [0; 0; 0; 0; 9] (Some 1%Z) true 4 true = Ok (1%Z, [4%Z], Some g) /\
  pl_points g = [(0, 0); (0, 0); (0, 0)] /\ pl_outliers g = Some [(0, 9)] /\ pl_notes g = [(4%Z, (0, 9))] /\ pl_density g = false.
Proof.
  destruct (proj1 (c154_same [0; 0; 0; 0; 9] (Some 1%Z) true 4 true) _ _ c112_outliers_ex) as (g & E & G). destruct g as [g |]; [| destruct G as [G _]; specialize (G eq_refl); discriminate].
  exists g. split; [exact E |]. destruct (c154_drawn _ _ _ _ _ _ _ E) as (n & K & _ & (normal & S1 & IN & P) & O & N & _ & _ & D). assert (n = 1%nat) by lia. subst n. cbn [length] in *.
  assert (NM : normal = [1; 2; 3]%nat).
  { assert (SU : forall l, StronglySorted lt l -> forall l', StronglySorted lt l' -> (forall i, In i l <-> In i l') -> l = l').
    { clear. induction 1 as [| a l S1 IH F]; intros l' S2 H.
      - destruct l' as [| b l']; [reflexivity |]. exfalso. apply (proj2 (H b)). left. reflexivity.
      - destruct S2 as [| b l' S2 F2]; [exfalso; apply (proj1 (H a)); left; reflexivity |]. rewrite Forall_forall in F, F2.
        assert (a = b). { destruct (proj1 (H a) (or_introl eq_refl)) as [-> | A]; [reflexivity |]. destruct (proj2 (H b) (or_introl eq_refl)) as [-> | B]; [reflexivity |]. specialize (F b B). specialize (F2 a A). lia. }
        subst b. f_equal. apply IH; [exact S2 |]. intros i. split; intros I1.
        + destruct (proj1 (H i) (or_intror I1)) as [-> | ?]; [specialize (F i I1); lia | assumption].
        + destruct (proj2 (H i) (or_intror I1)) as [-> | ?]; [specialize (F2 i I1); lia | assumption]. }
    apply SU; [exact S1 | repeat constructor; lia |]. intros i. rewrite IN. cbn [In]. split; [intros [H1 H2]; assert (i <> 4)%nat by (intros ->; apply H2; left; reflexivity); lia | intros H; split; [lia |]; intros [C | []]; lia]. }
  subst normal. split; [exact P |]. split; [exact O |]. split; [exact N |]. destruct (pl_density g); [| reflexivity]. destruct D as [D _]. specialize (D eq_refl). cbn in D. lia.
Qed.

(* ---------- C155: error phase plane ---------- *)
Lemma list_map_nth (f : R -> R) data : map f data = map (fun t => f (nth t data 0)) (seq 0 (length data)).
Proof. rewrite (list_as_map data (length data) eq_refl) at 1. rewrite map_map. reflexivity. Qed.
Lemma plane_flat lstsq data order detect mode r : error_phase_plane lstsq data order detect mode = Ok r -> (2 <= length data)%nat /\ mode <> UnitOther /\ (0 <= order)%Z.
Proof.
  intros E. destruct (c115_errors lstsq data order detect mode) as (H & _). repeat split.
  - destruct (Nat.le_gt_cases (length data) 1) as [Q | Q]; [rewrite H in E by auto; discriminate | exact Q].
  - intros ->. rewrite H in E by auto. discriminate.
  - destruct (Z.lt_ge_cases order 0) as [Q | Q]; [rewrite H in E by auto; discriminate | exact Q].
Qed.
Lemma edge_flat lstsq data residual order detect lo hi : (2 <= length data)%nat -> length residual = length data ->
  is_percentile (length data) (fun t => nth t data 0) 2 lo -> is_percentile (length data) (fun t => nth t data 0) 98 hi ->
  let n := length data in let d := fun t => nth t data 0 in let vr := fun t => (rises d n t && inside d lo hi t)%bool in let vf := fun t => (falls d n t && inside d lo hi t)%bool in
  let fit m := polyfit lstsq (masked data m) (masked residual m) (Z.to_nat order) in
  (both_edges data lo hi detect -> edge_trends lstsq data residual order detect = (Some (fit vr), Some (fit vf))) /\
  (~ both_edges data lo hi detect -> forall p q, edge_trends lstsq data residual order detect <> (Some p, Some q)).
Proof.
  intros Hn LR Q1 Q2 n d vr vf fit. assert (ND : data <> []) by (intros ->; cbn [length] in Hn; lia).
  destruct (percentile_is data 2 ND ltac:(lra)) as (lo' & P1 & Q1'). destruct (percentile_is data 98 ND ltac:(lra)) as (hi' & P2 & Q2').
  assert (lo' = lo) by (eapply percentile_unique; eassumption). assert (hi' = hi) by (eapply percentile_unique; eassumption). subst lo' hi'.
  unfold edge_trends. cbv zeta. rewrite P1, P2. fold n.
  rewrite (positions_ext n (fun t => Rltb 0 (gradient data t)) (rises d n)) by (intros t Ht; apply rise_is; assumption).
  rewrite (positions_ext n (fun t => Rltb (gradient data t) 0) (falls d n)) by (intros t Ht; apply fall_is; assumption).
  assert (EV : forall t, (Rltb lo (nth t data 0) && Rltb (nth t data 0) hi)%bool = inside d lo hi t) by (intros t; apply valid_inside).
  assert (ER : forall t, (t < n)%nat -> (Rltb 0 (gradient data t) && (Rltb lo (nth t data 0) && Rltb (nth t data 0) hi))%bool = vr t) by (intros t Ht; unfold vr; rewrite EV, rise_is by assumption; reflexivity).
  assert (EF : forall t, (t < n)%nat -> (Rltb (gradient data t) 0 && (Rltb lo (nth t data 0) && Rltb (nth t data 0) hi))%bool = vf t) by (intros t Ht; unfold vf; rewrite EV, fall_is by assumption; reflexivity).
  pose proof ER as ER'. pose proof EF as EF'. fold n in LR. rewrite <- LR in ER', EF'.
  rewrite (positions_ext n _ vr ER), (positions_ext n _ vf EF), (masked_ext data _ vr ER), (masked_ext data _ vf EF), (masked_ext residual _ vr ER'), (masked_ext residual _ vf EF').
  rewrite !positions_count. unfold both_edges. cbv zeta. fold n d vr vf. unfold fit. split.
  - intros (-> & C1 & C2 & C3 & C4). rewrite (proj2 (Nat.ltb_lt _ _) C1), (proj2 (Nat.ltb_lt _ _) C2), (proj2 (Nat.ltb_lt _ _) C3), (proj2 (Nat.ltb_lt _ _) C4). reflexivity.
  - intros H p q. destruct detect; cbn [andb]; [| discriminate].
    destruct (Nat.ltb_spec 100 (count_of n (rises d n))) as [C1 | C1]; cbn [andb]; [| discriminate]. destruct (Nat.ltb_spec 100 (count_of n (falls d n))) as [C2 | C2]; [| discriminate].
    destruct (Nat.ltb_spec 50 (count_of n vr)) as [C3 | C3]; [| discriminate]. destruct (Nat.ltb_spec 50 (count_of n vf)) as [C4 | C4]; [| discriminate]. exfalso. apply H. repeat split; assumption.
Qed.
Lemma gap_flat lstsq data residual deg detect lo hi : let valid := inside (fun t => nth t data 0) lo hi in
  (~ both_edges data lo hi detect -> eplane_gap lstsq data residual deg valid detect = 0).
Proof.
  intros valid H. unfold eplane_gap. cbv zeta. unfold both_edges in H. cbv zeta in H. fold valid in H. destruct detect; cbn [andb]; [| reflexivity].
  repeat match goal with |- context [(?a <? ?b)%nat] => destruct (Nat.ltb_spec a b); cbn [andb]; [| reflexivity] end. exfalso. apply H. repeat split; assumption.
Qed.
(** Every sample is drawn once, at (sample, residual in the display unit).  The lines run over all samples in ascending order.  With
    enough rising and falling samples there are two, the best polynomials for the rising and for the falling samples of the central range, and the reported
    gap is their mean distance; otherwise there is one, the reported trend, and the gap is zero. *)
Lemma c155_drawn lstsq data order detect mode r g : least_squares lstsq -> analyze_error_phase_plane lstsq data order detect mode true = Ok (r, Some g) ->
  let n := length data in let d := fun t => nth t data 0 in let e := fun t => nth t (ep_residual r) 0 in let deg := Z.to_nat order in
  exists s xs, s = (match er_unit g with Lsb => 1 | _ => 1000000 end) /\ er_points g = map (fun t => (d t, s * e t)) (seq 0 n) /\
  Permutation xs data /\ ascending xs /\ let curve c := map (fun x => (x, s * poly deg c x)) xs in
  forall lo hi, is_percentile n d 2 lo -> is_percentile n d 98 hi ->
  let up := fun t => (rises d n t && inside d lo hi t)%bool in let down := fun t => (falls d n t && inside d lo hi t)%bool in
  let some_nonzero := fun m => exists t, (t < n)%nat /\ m t = true /\ d t <> 0 in
  (~ both_edges data lo hi detect -> er_trends g = [curve (fun i => ep_trend r (deg - i)%nat)] /\ ep_gap r = 0) /\
  (both_edges data lo hi detect -> exists p q, er_trends g = [curve p; curve q] /\ ep_gap r = average n (fun t => Rabs (poly deg p (d t) - poly deg q (d t))) /\
     (some_nonzero up -> best_polynomial n up d e deg p) /\ (some_nonzero down -> best_polynomial n down d e deg q)).
Proof.
  intros L E n d e deg. unfold analyze_error_phase_plane in E. destruct (error_phase_plane lstsq data order detect mode) as [r' | x] eqn:EP; [| discriminate E]. cbn [bind] in E. apply Ok_inj in E. injection E as <- <-.
  destruct (plane_flat _ _ _ _ _ _ EP) as (Hn & HM & HO). destruct (eplane_flat lstsq data order detect mode Hn HM) as (fit & lo0 & hi0 & F & LR & RD & Q1 & Q2 & Fl). cbv zeta in Fl. rewrite EP in Fl.
  destruct (Z.ltb_spec order 0); [lia |]. destruct (Nat.eqb_spec (count_of (length data) (inside (fun t => nth t data 0) lo0 hi0)) 0); [discriminate |]. apply Ok_inj in Fl. subst r'. cbn [ep_residual] in e.
  set (residual := f_residuals fit) in *. set (s := display_scale (display_unit mode data)).
  exists s, (rsort data). split; [unfold s; cbn [er_unit plot_error_phase_plane]; destruct (display_unit mode data); cbn [display_scale]; lra |]. split.
  { cbn [er_points plot_error_phase_plane]. fold s. rewrite (list_as_map data n eq_refl) at 1. cbn [ep_residual]. rewrite (list_map_nth (fun v => v * s) residual), LR. fold n. rewrite combine_maps. apply map_ext. intros t. unfold d, e. f_equal. ring. }
  split; [symmetry; apply rsort_perm |]. split; [apply rsort_ascending |]. intros curve lo hi Q1' Q2' up down some_nonzero. cbn [ep_trend ep_gap].
  assert (lo0 = lo) by (eapply percentile_unique; eassumption). assert (hi0 = hi) by (eapply percentile_unique; eassumption). subst lo0 hi0.
  destruct (edge_flat lstsq data residual order detect lo hi Hn LR Q1 Q2) as (T1 & T2). cbv zeta in T1, T2. fold n d up down in T1.
  assert (CV : forall c, map (fun x => (x, polyval c deg x * s)) (rsort data) = curve (fun i => c (deg - i)%nat)) by (intros c; unfold curve; apply map_ext; intros x; rewrite polyval_poly; f_equal; ring).
  split.
  - intros NB. split; [| apply gap_flat; exact NB]. cbn [er_trends plot_error_phase_plane ep_residual ep_trend]. specialize (T2 NB). fold s deg. rewrite <- CV. destruct (edge_trends lstsq data residual order detect) as [[p |] [q |]]; try reflexivity. exfalso. exact (T2 p q eq_refl).
  - intros BE. do 2 eexists. split; [| split; [| split]].
    + cbn [er_trends plot_error_phase_plane ep_residual ep_trend]. rewrite (T1 BE). fold s deg. rewrite !CV. reflexivity.
    + unfold eplane_gap. cbv zeta. fold n d. destruct BE as (-> & C1 & C2 & C3 & C4). fold n d in C1, C2, C3, C4. fold up in C3 |- *. fold down in C4 |- *.
      rewrite (proj2 (Nat.ltb_lt _ _) C1), (proj2 (Nat.ltb_lt _ _) C2), (proj2 (Nat.ltb_lt _ _) C3), (proj2 (Nat.ltb_lt _ _) C4). cbn [andb]. rewrite gap_average. fold n. unfold average. f_equal. apply rsum_ext. intros t _. rewrite !polyval_poly. reflexivity.
    + intros NZ. apply masked_best; [exact L | symmetry; exact LR | exact NZ].
    + intros NZ. apply masked_best; [exact L | symmetry; exact LR | exact NZ].
Qed.
(** Drawing never fails where the analysis succeeds, does not change the result, and the numbers shown: the standard deviation and the largest magnitude of the
    drawn residuals, and the gap in the same unit if (and only if) it is positive, each to one decimal. *)
Lemma c155_texts lstsq data order detect mode r : error_phase_plane lstsq data order detect mode = Ok r -> exists g, analyze_error_phase_plane lstsq data order detect mode true = Ok (r, Some g) /\
  analyze_error_phase_plane lstsq data order detect mode false = Ok (r, None) /\
  (exists sd pk, names 1 (er_rms g) 1 sd /\ 0 <= sd /\ sd ^ 2 = average (length data) (fun t => (snd (nth t (er_points g) (0, 0)) - average (length data) (fun u => snd (nth u (er_points g) (0, 0)))) ^ 2) /\
     names 1 (er_peak g) 1 pk /\ (forall p, In p (er_points g) -> Rabs (snd p) <= pk) /\ (exists p, In p (er_points g) /\ Rabs (snd p) = pk)) /\
  (er_gap g = None <-> ep_gap r = 0) /\ (forall t, er_gap g = Some t -> names 1 t 1 (ep_gap r * match er_unit g with Lsb => 1 | _ => 1000000 end)).
Proof.
  intros E. unfold analyze_error_phase_plane. rewrite E. cbn [bind]. eexists. split; [reflexivity |]. split; [reflexivity |].
  destruct (plane_flat _ _ _ _ _ _ E) as (Hn & HM & _). destruct (eplane_flat lstsq data order detect mode Hn HM) as (fit & lo0 & hi0 & F & LR & RD & Q1 & Q2 & Fl). cbv zeta in Fl. rewrite E in Fl.
  destruct (Z.ltb_spec order 0); [discriminate |]. destruct (Nat.eqb_spec (count_of (length data) (inside (fun t => nth t data 0) lo0 hi0)) 0); [discriminate |]. apply Ok_inj in Fl.
  assert (LE : length (ep_residual r) = length data) by (rewrite Fl; exact LR).
  pose proof (c115_nonnegative _ _ _ _ _ _ E) as GN. clear Fl. unfold plot_error_phase_plane. cbn [er_points er_rms er_peak er_gap er_unit].
  set (s := display_scale (display_unit mode data)). assert (SS : match display_unit mode data with Lsb => 1 | _ => 1000000 end = s) by (unfold s; destruct (display_unit mode data); cbn [display_scale]; lra). rewrite SS.
  set (sh := map (fun v => v * s) (ep_residual r)). assert (LS : length sh = length data) by (unfold sh; rewrite map_length; exact LE).
  assert (NS : sh <> []) by (intros Z; rewrite Z in LS; cbn [length] in LS; lia).
  assert (IN : forall p, In p (combine data sh) -> In (snd p) sh) by (intros [a b] Hc; apply in_combine_r in Hc; exact Hc).
  assert (NT : forall t, (t < length data)%nat -> snd (nth t (combine data sh) (0, 0)) = nth t sh 0) by (intros t Ht; rewrite combine_nth by (symmetry; exact LS); reflexivity).
  assert (PK : forall p, In p (combine data sh) -> Rabs (snd p) <= rmax_list (map Rabs sh)) by (intros p Hp; apply fold_rmax_ge, in_map, IN; exact Hp).
  split; [| split].
  - exists (std0 sh), (rmax_list (map Rabs sh)). split; [apply fixed_names1 |]. split; [apply sqrt_pos |]. split; [| split; [apply fixed_names1 |]; split; [exact PK |]].
    + assert (AV : forall f h, (forall t, (t < length data)%nat -> f t = h (nth t sh 0)) -> average (length data) f = lmean (map h sh)).
      { intros f h Hf. unfold average, lmean. rewrite lsum_rsum, map_length, LS. f_equal. apply rsum_ext. intros t Ht. rewrite (nth_map_in h _ t 0) by (rewrite LS; exact Ht). apply Hf. exact Ht. }
      rewrite (AV (fun u => snd (nth u (combine data sh) (0, 0))) (fun v => v)) by exact NT. rewrite map_id.
      rewrite (AV _ (fun v => (v - lmean sh) ^ 2)) by (intros t Ht; rewrite NT by exact Ht; reflexivity).
      unfold std0. rewrite <- Rsqr_pow2, Rsqr_sqrt; [reflexivity |]. unfold lmean at 1. apply Rdiv_le_0_compat; [| apply lt_0_INR; rewrite map_length, LS; lia]. apply lsum_nonneg, Forall_forall. intros x Hx. apply in_map_iff in Hx. destruct Hx as (v & <- & _). apply pow2_ge_0.
    + pose proof (rmax_list_in (map Rabs sh)) as HI. specialize (HI ltac:(destruct sh; [contradiction | discriminate])). apply in_map_iff in HI. destruct HI as (v & Ev & Hv). destruct (In_nth _ _ 0 Hv) as (t & Ht & Et). rewrite LS in Ht.
      exists (nth t (combine data sh) (0, 0)). split; [apply nth_In; rewrite combine_length; lia |]. rewrite NT by exact Ht. rewrite Et. exact Ev.
  - destruct (Rltb_spec 0 (ep_gap r)) as [G | G]; split; intros HG; try discriminate; try reflexivity; lra.
  - intros t Ht. destruct (Rltb_spec 0 (ep_gap r)); [| discriminate]. injection Ht as <-. apply fixed_names1.
Qed.

(** The unit: as asked for, and with 'auto' microvolts when every sample is below 50 in magnitude, LSB otherwise; microvolts and
    millionths of full scale give the same figure apart from the unit, and in LSB the residuals are drawn as they are. *)
Lemma c155_units lstsq data order detect mode r g : analyze_error_phase_plane lstsq data order detect mode true = Ok (r, Some g) ->
  (mode = UnitVoltage -> er_unit g = MicroVolt) /\ (mode = UnitNormalized -> er_unit g = MicroFS) /\ (mode = UnitCode -> er_unit g = Lsb) /\
  (mode = UnitAuto -> (forall x, In x data -> Rabs x < 50) -> er_unit g = MicroVolt) /\ (mode = UnitAuto -> (exists x, In x data /\ 50 <= Rabs x) -> er_unit g = Lsb) /\
  (mode = UnitVoltage -> exists g', analyze_error_phase_plane lstsq data order detect UnitNormalized true = Ok (r, Some g') /\ er_unit g' = MicroFS /\
     er_points g' = er_points g /\ er_trends g' = er_trends g /\ er_rms g' = er_rms g /\ er_peak g' = er_peak g /\ er_gap g' = er_gap g).
Proof.
  intros E. unfold analyze_error_phase_plane in E. destruct (error_phase_plane lstsq data order detect mode) as [r' | x] eqn:EP; [| discriminate E]. cbn [bind] in E. apply Ok_inj in E. injection E as <- <-.
  destruct (plane_flat _ _ _ _ _ _ EP) as (Hn & HM & HO). assert (NN : map Rabs data <> []) by (destruct data; [cbn [length] in Hn; lia | discriminate]).
  cbn [er_unit plot_error_phase_plane]. split; [intros ->; reflexivity |]. split; [intros ->; reflexivity |]. split; [intros ->; reflexivity |]. split; [| split].
  - intros -> H. cbn [display_unit]. destruct (Rltb_spec (rmax_list (map Rabs data)) 50) as [Q | Q]; [reflexivity |]. exfalso. pose proof (rmax_list_in _ NN) as I1. apply in_map_iff in I1. destruct I1 as (v & Ev & Hv). specialize (H v Hv). lra.
  - intros -> (v & Hv & V). cbn [display_unit]. destruct (Rltb_spec (rmax_list (map Rabs data)) 50) as [Q | Q]; [| reflexivity]. exfalso. pose proof (fold_rmax_ge (hd 0 (map Rabs data)) _ _ (in_map Rabs _ _ Hv)). unfold rmax_list in Q. lra.
  - intros ->. exists (plot_error_phase_plane lstsq data order detect UnitNormalized r'). split; [| repeat split; reflexivity].
    unfold analyze_error_phase_plane. rewrite (proj2 (proj2 (c115_errors lstsq data order detect UnitNormalized)) ltac:(discriminate)). rewrite (proj2 (proj2 (c115_errors lstsq data order detect UnitVoltage)) ltac:(discriminate)) in EP. rewrite EP. reflexivity.
Qed.
(** So the automatic unit is wrong for the codes of a converter with few bits: the codes 0, 1, 2 are taken for volts,
    and a residual of one code is shown as a million microvolts. *)
Lemma three_inside lo hi : is_percentile 3 (fun t => nth t [0; 1; 2] 0) 2 lo -> is_percentile 3 (fun t => nth t [0; 1; 2] 0) 98 hi -> lo < 1 < hi.
Proof.
  intros Q1 Q2. assert (RS : rsort [0; 1; 2] = [0; 1; 2]) by (unfold rsort; cbn [fold_right rinsert]; repeat (match goal with |- context [Rleb ?a ?b] => destruct (Rleb_spec a b); try lra end; cbn [rinsert]); reflexivity).
  assert (ND : [0; 1; 2] <> []) by discriminate. assert (N3 : INR (length [0; 1; 2]) - 1 = 2) by (cbn; lra).
  destruct (percentile_is [0; 1; 2] 2 ND ltac:(lra)) as (lo' & P1 & Q1'). destruct (percentile_is [0; 1; 2] 98 ND ltac:(lra)) as (hi' & P2 & Q2').
  pose proof (percentile_unique _ _ _ _ _ Q1 Q1') as ->. pose proof (percentile_unique _ _ _ _ _ Q2 Q2') as ->.
  rewrite percentile_ok, RS, N3 in P1, P2 by lra. apply Ok_inj in P1. apply Ok_inj in P2. unfold order_at in P1, P2. cbv zeta in P1, P2.
  replace (Zfloor (2 * (2 / 100))) with 0%Z in P1 by (symmetry; apply Zfloor_imp; simpl; lra). replace (Zfloor (2 * (98 / 100))) with 1%Z in P2 by (symmetry; apply Zfloor_imp; simpl; lra).
  change (Z.to_nat 0) with 0%nat in P1. change (Z.to_nat 1) with 1%nat in P2. cbn [Nat.add nth] in P1, P2. lra.
Qed.
Lemma c155_auto_refuted : exists codes : list R, (forall x, In x codes -> exists z, x = IZR z) /\ forall lstsq order detect, (0 <= order)%Z ->
  exists r g, analyze_error_phase_plane lstsq codes order detect UnitAuto true = Ok (r, Some g) /\ er_unit g = MicroVolt /\
  er_points g = map (fun t => (nth t codes 0, 1000000 * nth t (ep_residual r) 0)) (seq 0 (length codes)).
Proof.
  exists [0; 1; 2]. split; [intros x H; cbn [In] in H; destruct H as [<- | [<- | [<- | []]]]; [exists 0%Z | exists 1%Z | exists 2%Z]; reflexivity |]. intros lstsq order detect HO.
  destruct (eplane_flat lstsq [0; 1; 2] order detect UnitAuto ltac:(cbn; lia) ltac:(discriminate)) as (fit & lo & hi & F & LR & RD & Q1 & Q2 & Fl). cbv zeta in Fl. destruct (three_inside lo hi Q1 Q2) as [I1 I2].
  destruct (Z.ltb_spec order 0); [lia |]. match type of Fl with context [(?c =? 0)%nat] => assert (C : c <> 0%nat) end.
  { cbn [length count_of]. unfold inside at 2. cbn [nth]. destruct (Rlt_dec lo 1); [| contradiction]. destruct (Rlt_dec 1 hi); [| contradiction]. lia. }
  destruct (Nat.eqb_spec (count_of (length [0; 1; 2]) (inside (fun t => nth t [0; 1; 2] 0) lo hi)) 0) as [Z0 |]; [contradiction |].
  destruct (c155_texts _ _ _ _ _ _ Fl) as (g & E & _). eexists. exists g. split; [exact E |].
  destruct (c155_units _ _ _ _ _ _ _ E) as (_ & _ & _ & U & _). assert (SM : forall x, In x [0; 1; 2] -> Rabs x < 50) by (intros x Hx; cbn [In] in Hx; unfold Rabs; destruct Hx as [<- | [<- | [<- | []]]]; destruct (Rcase_abs _); lra). specialize (U eq_refl SM). rewrite U.
  split; [reflexivity |]. unfold analyze_error_phase_plane in E. rewrite Fl in E. cbn [bind] in E. apply Ok_inj in E. injection E as <-. cbn [ep_residual].
  cbn [er_unit plot_error_phase_plane] in U. cbn [er_points plot_error_phase_plane]. rewrite U. cbn [display_scale ep_residual]. rewrite (list_map_nth (fun v => v * 10 ^ 6) (f_residuals fit)), LR.
  cbn [length seq map combine nth]. repeat (apply f_equal2; [f_equal; lra |]). reflexivity.
Qed.
Lemma c155_drawn_ex : exists r g p q, analyze_error_phase_plane gs_lstsq (eighth 34) 2 true UnitAuto true = Ok (r, Some g) /\ er_unit g = MicroVolt /\
  length (er_points g) = 272%nat /\ length p = 272%nat /\ length q = 272%nat /\ er_trends g = [p; q] /\ er_peak g = Num 1 0 /\ er_gap g = None.
Proof.
  destruct c115_pure_sine_ex as (r & E & Z & G). destruct (c155_texts _ _ _ _ _ _ E) as (g & EG & _ & (sd & pk & _ & _ & _ & PK & _ & (p0 & I0 & PV)) & GN & _). exists r, g.
  assert (U : er_unit g = MicroVolt).
  { apply (c155_units _ _ _ _ _ _ _ EG); [reflexivity |]. intros x Hx. destruct (In_nth _ _ 0 Hx) as (t & Ht & <-). rewrite eighth_length in Ht. destruct (eighth_bounds 34 t Ht). apply Rabs_def1; lra. }
  destruct (c155_drawn _ _ _ _ _ _ _ gs_least_squares EG) as (s & xs & Es & EP & PX & _ & D). cbv zeta in D. rewrite eighth_length in *.
  destruct (percentile_is (eighth 34) 2) as (lo & _ & Q1); [intros Y; apply (f_equal (@length R)) in Y; rewrite eighth_length in Y; cbn in Y; lia | lra |].
  destruct (percentile_is (eighth 34) 98) as (hi & _ & Q2); [intros Y; apply (f_equal (@length R)) in Y; rewrite eighth_length in Y; cbn in Y; lia | lra |]. rewrite eighth_length in Q1, Q2.
  destruct (D lo hi Q1 Q2) as [_ D2]. destruct (eighth_limits 34 lo hi ltac:(lia) Q1 Q2) as [-> ->]. destruct (eighth_counts 34) as (C1 & C2 & C3 & C4).
  destruct D2 as (p & q & T & _); [unfold both_edges; cbv zeta; rewrite eighth_length; repeat split; [clear - C3 | clear - C4 | clear - C1 | clear - C2]; lia |].
  assert (LX : length xs = 272%nat) by (rewrite (Permutation_length PX), eighth_length; reflexivity).
  do 2 eexists. split; [exact EG |]. split; [exact U |]. split; [rewrite EP, map_length, seq_length; reflexivity |]. split; [| split; [| split; [exact T |]]]; [rewrite map_length; exact LX | rewrite map_length; exact LX |].
  split; [| apply GN; exact G]. assert (PZ : pk = 0). { rewrite EP in I0. apply in_map_iff in I0. destruct I0 as (t & <- & Ht). apply in_seq in Ht. cbn [snd] in PV. rewrite Z, Rmult_0_r, Rabs_R0 in PV by lia. lra. }
  subst pk. destruct (er_peak g) as [dd z | |]; try contradiction. destruct PK as [-> PK]. f_equal. apply Rabs_le_inv in PK. assert (Rabs (IZR z) <= 1 / 2) by (apply Rabs_le; lra). rewrite <- abs_IZR in H. assert (Z1 : (Z.abs z < 1)%Z) by (apply lt_IZR; lra). lia.
Qed.
Lemma c155_texts_ex : exists r g, analyze_error_phase_plane gs_lstsq (eighth 34) 2 true UnitAuto true = Ok (r, Some g) /\ er_rms g = Num 1 0.
Proof.
  destruct c115_pure_sine_ex as (r & E & Z & G). destruct (c155_texts _ _ _ _ _ _ E) as (g & EG & _ & (sd & pk & SD & S0 & S2 & _) & _ & _). exists r, g. split; [exact EG |].
  destruct (c155_drawn _ _ _ _ _ _ _ gs_least_squares EG) as (s & xs & _ & EP & _). rewrite eighth_length in *.
  assert (ZP : forall t, (t < 8 * 34)%nat -> snd (nth t (er_points g) (0, 0)) = 0) by (intros t Ht; rewrite EP, (nth_map_in _ _ t 0%nat) by (rewrite seq_length; exact Ht); rewrite seq_nth by exact Ht; cbn [snd Nat.add]; rewrite Z by exact Ht; ring).
  assert (A0 : average (8 * 34) (fun u => snd (nth u (er_points g) (0, 0))) = 0) by (unfold average; rewrite rsum_zero by exact ZP; unfold Rdiv; ring). rewrite A0 in S2.
  assert (S3 : sd ^ 2 = 0) by (rewrite S2; unfold average; rewrite rsum_zero; [unfold Rdiv; ring | intros t Ht; rewrite ZP by exact Ht; ring]). assert (sd = 0) by nra. subst sd.
  destruct (er_rms g) as [dd z | |]; try contradiction. destruct SD as [-> PK]. f_equal. apply Rabs_le_inv in PK. assert (Rabs (IZR z) <= 1 / 2) by (apply Rabs_le; lra). rewrite <- abs_IZR in H. assert (Z1 : (Z.abs z < 1)%Z) by (apply lt_IZR; lra). lia.
Qed.

(* ---------- C156: error density and autocorrelation ---------- *)
(** Both densities are drawn over the same 200 equally spaced points from -X to X, which cover every error, with the returned
    values; if the errors do not vary nothing can be drawn; the mean and the deviation are shown to three, the divergence to four decimals. *)
Lemma c156_density lstsq signal res fs freq mi tol r g : analyze_error_pdf lstsq signal res fs freq true mi tol = Ok (Numbers r, Some g) ->
  error_pdf lstsq signal res fs freq mi tol = Ok (Numbers r) /\ analyze_error_pdf lstsq signal res fs freq false mi tol = Ok (Numbers r, None) /\
  names 3 (pd_mu g) 1 (p_mu r) /\
  (exists X, 0.5 <= X /\ (forall e, In e (p_err r) -> Rabs e <= X) /\
    forall s, p_sigma r = Fin s -> 0 < s -> exists f q kl, p_pdf r = Some f /\ p_gauss r = Some q /\ p_kl r = Some kl /\
      pd_kde g = Some (map (fun i => (X * (2 * INR i / 199 - 1), nth i f 0)) (seq 0 200)) /\ pd_gauss g = Some (map (fun i => (X * (2 * INR i / 199 - 1), nth i q 0)) (seq 0 200)) /\
      names 3 (pd_sigma g) 1 s /\ names 4 (pd_kl g) 1 kl) /\
  (p_sigma r = Fin 0 -> pd_kde g = None /\ pd_gauss g = None /\ pd_sigma g = Num 3 0 /\ pd_kl g = Word NaN) /\
  (p_sigma r = NaN -> pd_kde g = None /\ pd_gauss g = None /\ pd_sigma g = Word NaN /\ pd_kl g = Word NaN).
Proof.
  intros E. unfold analyze_error_pdf in *. destruct (error_pdf lstsq signal res fs freq mi tol) as [v | x] eqn:EP; [| discriminate]. cbn [bind] in *. destruct v as [v |]; [| discriminate E]. apply Ok_inj in E. injection E as -> <-.
  split; [reflexivity |]. split; [reflexivity |]. destruct (c116_values _ _ _ _ _ _ _ _ EP) as (fit & full & X & _ & _ & _ & LE & _ & _ & _ & _ & LX & XI & X5 & XE & _ & ZZ & D). cbv zeta in *.
  assert (PX : p_x r = map (fun i => X * (2 * INR i / 199 - 1)) (seq 0 200)) by (rewrite (list_as_map (p_x r) 200 LX); apply map_ext_in; intros i Hi; apply in_seq in Hi; apply XI; lia).
  split; [apply fixed_names1 |]. split; [| split].
  - exists X. split; [exact X5 |]. split; [intros e He; destruct (In_nth _ _ 0 He) as (t & Ht & <-); apply XE; rewrite <- LE; exact Ht |]. intros s S0 SP. destruct (D s S0 SP) as (h & f & q & kl & _ & F & Q & K & LF & LQ & _).
    exists f, q, kl. split; [exact F |]. split; [exact Q |]. split; [exact K |]. unfold plot_error_pdf. rewrite F, Q, K, S0, PX. cbn [option_map pd_kde pd_gauss pd_sigma pd_kl fixed_x].
    split; [| split; [| split; apply fixed_names1]]; f_equal; [rewrite (list_as_map f 200 LF) at 1 | rewrite (list_as_map q 200 LQ) at 1]; apply combine_maps.
  - intros S0. destruct (ZZ (or_introl S0)) as (F & Q & K). unfold plot_error_pdf. rewrite F, Q, K, S0. cbn [option_map pd_kde pd_gauss pd_sigma pd_kl fixed_x]. repeat split. apply fixed_exact. ring.
  - intros S0. destruct (ZZ (or_intror S0)) as (F & Q & K). unfold plot_error_pdf. rewrite F, Q, K, S0. repeat split.
Qed.
Lemma acf_all_length e lags vs : acf_all e lags = Ok vs -> length vs = length lags.
Proof. revert vs. induction lags as [| k r IH]; intros vs E; cbn [acf_all] in E; [apply Ok_inj in E; subst; reflexivity |]. destruct (acf_at e k); [| discriminate]. cbn [bind] in E. destruct (acf_all e r) as [w |]; [| discriminate]. cbn [bind] in E. apply Ok_inj in E. subst vs. cbn [length]. rewrite (IH w eq_refl). reflexivity. Qed.
(** A stem for every lag from -max_lag to max_lag, in order, at the returned value, and the axis ends at the outermost ones; with
    a lag range inside the record the stems are symmetric, and normalised ones of a varying error have height 1 at lag 0. *)
Lemma c156_stems lstsq signal f L normalize mi tol acf lags error g : analyze_acf lstsq signal f (Z.of_nat L) normalize true mi tol = Ok (acf, lags, error, Some g) ->
  analyze_acf lstsq signal f (Z.of_nat L) normalize false mi tol = Ok (acf, lags, error, None) /\ length acf = (2 * L + 1)%nat /\
  af_stems g = map (fun i => ((Z.of_nat i - Z.of_nat L)%Z, nth i acf NaN)) (seq 0 (2 * L + 1)) /\ af_xlim g = (- Z.of_nat L, Z.of_nat L)%Z /\
  ((L < length signal)%nat -> not_constant error \/ normalize = false -> forall k v, In (k, v) (af_stems g) -> In ((- k)%Z, v) (af_stems g) /\ (k = 0%Z -> normalize = true -> v = Fin 1)).
Proof.
  intros E. unfold analyze_acf in *. destruct (analyze_error_autocorr lstsq signal f (Z.of_nat L) normalize mi tol) as [[[a l] e] | x] eqn:EA; [| discriminate]. cbn [bind fst snd] in *. apply Ok_inj in E. injection E as -> -> -> <-.
  split; [reflexivity |]. destruct (c33_analysis _ _ _ _ _ _ _ _ _ _ EA) as (fit & _ & LE & _ & LL & NL & EC). replace (Z.to_nat (2 * Z.of_nat L + 1)) with (2 * L + 1)%nat in * by lia.
  assert (LA : length acf = (2 * L + 1)%nat).
  { unfold error_acf in EC. destruct (acf_all _ (lag_list (Z.of_nat L))) as [w |] eqn:EW; [| discriminate]. cbn [bind] in EC. apply Ok_inj in EC. apply acf_all_length in EW. rewrite lag_list_length in EW. subst acf. destruct normalize; rewrite ?map_length; lia. }
  assert (ST : combine lags acf = map (fun i => ((Z.of_nat i - Z.of_nat L)%Z, nth i acf NaN)) (seq 0 (2 * L + 1))).
  { apply (nth_ext _ _ (0%Z, NaN) (0%Z, NaN)); [rewrite combine_length, map_length, seq_length; lia |]. intros i Hi. rewrite combine_length in Hi. rewrite combine_nth by lia. rewrite (nth_map_in _ _ i 0%nat) by (rewrite seq_length; lia). rewrite seq_nth by lia. cbn [Nat.add]. f_equal. rewrite <- NL by lia. apply nth_indep. lia. }
  split; [exact LA |]. split; [exact ST |]. split; [reflexivity |]. intros HL NC k v I0. unfold plot_acf in I0 |- *. cbn [af_stems] in *. rewrite ST in I0 |- *. apply in_map_iff in I0. destruct I0 as (i & Ei & Hi). apply in_seq in Hi. injection Ei as Ek Ev.
  assert (V : exists c, forall lag, (- Z.of_nat L <= lag <= Z.of_nat L)%Z -> nth (Z.to_nat (lag + Z.of_nat L)) acf NaN = Fin (autocov error (Z.abs_nat lag) * c)).
  { assert (RG : (0 <= Z.of_nat L < Z.of_nat (length error))%Z) by lia. destruct NC as [NC | ->].
    - destruct normalize.
      + destruct (c33_values error (Z.of_nat L) RG NC) as (acf' & E' & _ & V & _). rewrite EC in E'. apply Ok_inj in E'. subst acf'. exists (/ autocov error 0). exact V.
      + destruct (c33_unnormalised error (Z.of_nat L) RG) as (acf' & E' & _ & V). rewrite EC in E'. apply Ok_inj in E'. subst acf'. exists 1. intros lag HB. rewrite Rmult_1_r. apply V. exact HB.
    - destruct (c33_unnormalised error (Z.of_nat L) RG) as (acf' & E' & _ & V). rewrite EC in E'. apply Ok_inj in E'. subst acf'. exists 1. intros lag HB. rewrite Rmult_1_r. apply V. exact HB. }
  destruct V as (c & V). split.
  - apply in_map_iff. exists (2 * L - i)%nat. split; [| apply in_seq; lia]. f_equal; [lia |]. rewrite <- Ev. replace i with (Z.to_nat (k + Z.of_nat L)) at 2 by lia. replace (2 * L - i)%nat with (Z.to_nat (- k + Z.of_nat L)) by lia. rewrite !V by lia. replace (Z.abs_nat (- k)) with (Z.abs_nat k) by lia. reflexivity.
  - intros K0 NM. destruct NC as [NC | NF]; [| congruence]. rewrite NM in *. destruct (c33_values error (Z.of_nat L) ltac:(lia) NC) as (acf' & E' & _ & _ & O & _). rewrite EC in E'. apply Ok_inj in E'. subst acf'. rewrite Nat2Z.id in O. rewrite <- Ev, <- O. f_equal. lia.
Qed.
(** The spectrum of the error and of its envelope: the returned metrics are those of the analysis, the figure is the one the
    spectrum analysis draws for the error (its envelope), and for records of even length drawing fails only if the
    analysis does. *)
Lemma c156_spectra kz cz xa lstsq signal fs f mi tol :
  (forall sp g e, analyze_error_spectrum kz cz xa lstsq signal fs f mi tol = Ok (sp, g, e) -> error_spectrum kz cz lstsq signal fs f mi tol = Ok (sp, e) /\ analyze_spectrum kz cz xa [e] fs ScaleAuto Hann None 1 5 0 None true true false 3 = Ok (sp, g)) /\
  (forall sp g e v, analyze_error_envelope_spectrum kz cz xa lstsq signal fs f mi tol = Ok (sp, g, e, v) -> error_envelope_spectrum kz cz lstsq signal fs f mi tol = Ok (sp, e, v) /\ analyze_spectrum kz cz xa [v] fs ScaleAuto Hann None 1 5 0 None true true false 3 = Ok (sp, g)) /\
  (Nat.Even (length signal) -> (forall sp e, error_spectrum kz cz lstsq signal fs f mi tol = Ok (sp, e) -> exists g, analyze_error_spectrum kz cz xa lstsq signal fs f mi tol = Ok (sp, Some g, e)) /\
    (forall sp e v, error_envelope_spectrum kz cz lstsq signal fs f mi tol = Ok (sp, e, v) -> exists g, analyze_error_envelope_spectrum kz cz xa lstsq signal fs f mi tol = Ok (sp, Some g, e, v))).
Proof.
  assert (AS : forall x sp g, analyze_spectrum kz cz xa [x] fs ScaleAuto Hann None 1 5 0 None true true false 3 = Ok (sp, g) -> analyze_default kz cz x fs = Ok sp).
  { intros x sp g E. unfold analyze_spectrum in E. unfold analyze_default. destruct (compute_spectrum _ _ _ _ _ _ _ _ _ _ _ _) as [s |]; [| discriminate]. cbn [bind] in E. destruct (prepare_fft_input _ _); [| discriminate]. cbn [bind] in E. destruct (plot_spectrum _ _ _ _ _); [| discriminate]. cbn [bind] in E. congruence. }
  assert (DR : forall x sp, Nat.Even (length x) -> analyze_default kz cz x fs = Ok sp -> exists g, analyze_spectrum kz cz xa [x] fs ScaleAuto Hann None 1 5 0 None true true false 3 = Ok (sp, Some g)).
  { intros x sp EV E. unfold analyze_default in E. assert (PR : exists rows, prepare_fft_input [x] ScaleAuto = Ok rows) by (pose proof E as E'; unfold compute_spectrum in E'; destruct (prepare_fft_input [x] ScaleAuto) as [rows |]; [exists rows; reflexivity | discriminate E']).
    destruct PR as (rows & PR). apply (c139_drawable _ _ xa _ _ _ _ _ _ _ _ _ _ true false 3%Z rows E PR). left. unfold prepare_fft_input in PR. replace (orient [x]) with [x] in PR by (unfold orient; cbn [length]; change (1 <? 1)%nat with false; rewrite andb_false_r; reflexivity).
    destruct (peak_of [x] ScaleAuto) as [pk |]; [| discriminate PR]. cbn [bind map] in PR. apply Ok_inj in PR. subst rows. unfold ncols. cbn [hd]. rewrite map_length. exact EV. }
  split; [| split].
  - intros sp g e E. unfold analyze_error_spectrum, error_spectrum in *. destruct (fit_core lstsq signal f mi tol) as [fit |]; [| discriminate]. cbn [bind] in *. destruct (analyze_spectrum _ _ _ _ _ _ _ _ _ _ _ _ _ _ _ _) as [[s h] |] eqn:ES; [| discriminate]. cbn [bind fst snd] in E. apply Ok_inj in E. injection E as <- <- <-.
    rewrite (AS _ _ _ ES). split; [reflexivity | exact ES].
  - intros sp g e v E. unfold analyze_error_envelope_spectrum, error_envelope_spectrum in *. destruct (fit_core lstsq signal f mi tol) as [fit |]; [| discriminate]. cbn [bind] in *. destruct (envelope _) as [w |] eqn:EW; [| discriminate]. cbn [bind] in *. destruct (analyze_spectrum _ _ _ _ _ _ _ _ _ _ _ _ _ _ _ _) as [[s h] |] eqn:ES; [| discriminate]. cbn [bind fst snd] in E. apply Ok_inj in E. injection E as <- <- <- <-.
    rewrite (AS _ _ _ ES). split; [reflexivity | exact ES].
  - intros EV. split.
    + intros sp e E. unfold analyze_error_spectrum, error_spectrum in *. destruct (fit_core lstsq signal f mi tol) as [fit |] eqn:EF; [| discriminate]. cbn [bind] in *. destruct (analyze_default _ _ _ _) as [s |] eqn:ES; [| discriminate]. cbn [bind] in E. apply Ok_inj in E. injection E as <- <-.
      apply DR in ES; [| rewrite map2_length; [exact EV | symmetry; apply (fitted_length _ _ _ _ _ _ EF)]]. destruct ES as (g & ES). exists g. rewrite ES. reflexivity.
    + intros sp e v E. unfold analyze_error_envelope_spectrum, error_envelope_spectrum in *. destruct (fit_core lstsq signal f mi tol) as [fit |] eqn:EF; [| discriminate]. cbn [bind] in *. destruct (envelope _) as [w |] eqn:EW; [| discriminate]. cbn [bind] in *. destruct (analyze_default _ _ _ _) as [s |] eqn:ES; [| discriminate]. cbn [bind] in E. apply Ok_inj in E. injection E as <- <- <-.
      apply DR in ES; [| unfold envelope in EW; destruct (_ =? 0)%nat; [discriminate EW |]; cbn [raise_if] in EW; apply Ok_inj in EW; rewrite <- EW, map_length, seq_length, map2_length; [exact EV | symmetry; apply (fitted_length _ _ _ _ _ _ EF)]]. destruct ES as (g & ES). exists g. rewrite ES. reflexivity.
Qed.
Lemma c156_density_ex : exists r g, analyze_error_pdf gs_lstsq [1; -1] 12 None (Some 0) true 0 (1 / 10 ^ 9) = Ok (Numbers r, Some g) /\ pd_mu g = Num 3 0 /\
  (exists l, pd_kde g = Some l /\ length l = 200%nat /\ fst (nth 199 l (0, 0)) = fst (nth 0 l (0, 0)) + 2 * 2048) /\ exists z, pd_sigma g = Num 3 z /\ (2896000 < z < 2897000)%Z.
Proof.
  destruct (two_samples gs_lstsq (1 / 10 ^ 9) gs_least_squares) as (r & f & q & kl & E & E0 & E1 & MU & SG & PF & _). exists r. unfold analyze_error_pdf. rewrite E. cbn [bind]. eexists. split; [reflexivity |]. split; [cbn; rewrite MU; apply fixed_exact; ring |]. split.
  - exists (combine (p_x r) f). split; [cbn; rewrite PF; reflexivity |]. destruct (c116_values _ _ _ _ _ _ _ _ E) as (fit & full & X & _ & _ & _ & LE & _ & _ & _ & _ & LX & XI & X5 & XB & XA & _ & D). cbv zeta in *. rewrite SG in D.
    destruct (D _ eq_refl) as (h & f' & q' & kl' & _ & F & _ & _ & LF & _); [apply Rmult_lt_0_compat; [lra | apply sqrt_lt_R0; lra] |]. assert (f' = f) by congruence. subst f'.
    split; [rewrite combine_length; lia |]. rewrite !combine_nth by lia. cbn [fst]. rewrite !XI by lia.
    assert (XE : X = 2048). { pose proof (XB 0%nat ltac:(cbn [length]; lia)) as B0. cbv beta in B0. rewrite E0 in B0. rewrite Rabs_right in B0 by lra. cbn [length] in *. destruct XA as [XA | (t & T & XA)]; [lra |]. assert (TT : (t = 0 \/ t = 1)%nat) by lia. destruct TT as [-> | ->]; rewrite ?E0, ?E1 in XA; [rewrite Rabs_right in XA by lra | rewrite Rabs_left in XA by lra]; lra. }
    rewrite XE, INR_IZR_INZ. change (IZR (Z.of_nat 199)) with 199. cbn [INR]. lra.
  - pose proof (fixed_names1 3 (2048 * sqrt 2)) as NM. cbn [plot_error_pdf pd_sigma]. rewrite SG. cbn [fixed_x]. destruct (fixed 3 (2048 * sqrt 2)) as [d z | |]; try contradiction. destruct NM as [-> NM]. exists z. split; [reflexivity |].
    assert (S2 : 1.4141 < sqrt 2 < 1.4143). { split; [rewrite <- (sqrt_square 1.4141) by lra; apply sqrt_lt_1_alt; lra | rewrite <- (sqrt_square 1.4143) by lra; apply sqrt_lt_1_alt; lra]. }
    apply Rabs_le_inv in NM. split; apply lt_IZR; lra.
Qed.
Lemma c156_stems_ex : exists g acf, analyze_acf gs_lstsq acf_record (Some (1 / 4)) 2 true true 0 (1 / 10 ^ 9) = Ok (acf, [-2; -1; 0; 1; 2]%Z, acf_record, Some g) /\
  af_stems g = [(-2, Fin 0); (-1, Fin (2 / 7)); (0, Fin 1); (1, Fin (2 / 7)); (2, Fin 0)]%Z /\ af_xlim g = (-2, 2)%Z.
Proof.
  destruct c33_values_ex as (acf & E & ->). do 2 eexists. unfold analyze_acf. rewrite E. cbn [bind fst snd]. split; [reflexivity |]. split; reflexivity.
Qed.
Lemma c156_spectra_ex kz cz xa lstsq : least_squares lstsq -> exists sp e g, analyze_error_spectrum kz cz xa lstsq [1; 1; 1; 0] 1 (Some (1 / 4)) 0 0 = Ok (sp, Some g, e) /\ length e = 4%nat.
Proof.
  intros HL. destruct (c119_bins_ex kz cz lstsq HL) as (sp & e & E & L & _). destruct (c156_spectra kz cz xa lstsq [1; 1; 1; 0] 1 (Some (1 / 4)) 0 0) as (_ & _ & D). destruct D as [D _]; [exists 2%nat; reflexivity |].
  destruct (D _ _ E) as (g & EG). exists sp, e, g. split; assumption.
Qed.

(* ---------- C157: residual scatter plots ---------- *)
Lemma scatter_flat signal bits m w pairs alpha ps rx ry g : residual_scatter signal bits m w pairs alpha true = Ok (ps, rx, ry, Some g) ->
  plot_residual_scatter signal bits m w pairs (match alpha with None => true | _ => false end) = Ok (ps, rx, ry) /\ plot_scatter (scatter_alpha alpha (length bits)) ps rx ry = Ok g.
Proof.
  unfold residual_scatter. destruct (plot_residual_scatter _ _ _ _ _ _) as [[[ps' rx'] ry'] |] eqn:E; [| discriminate]. cbn [bind]. destruct (plot_scatter _ _ _ _) as [f |] eqn:F; [| discriminate]. cbn [bind].
  intros H. apply Ok_inj in H. injection H as <- <- <- <-. split; [reflexivity | exact F].
Qed.
(** Plotting never changes the result, and it fails only if the computation fails or there is no pair. *)
Lemma c157_same signal bits m w pairs alpha : let auto := match alpha with None => true | _ => false end in
  (forall e, plot_residual_scatter signal bits m w pairs auto = Err e -> forall cp, residual_scatter signal bits m w pairs alpha cp = Err e) /\
  (forall ps rx ry, plot_residual_scatter signal bits m w pairs auto = Ok (ps, rx, ry) -> residual_scatter signal bits m w pairs alpha false = Ok (ps, rx, ry, None) /\
    (ps <> [] -> exists g, residual_scatter signal bits m w pairs alpha true = Ok (ps, rx, ry, Some g)) /\ (ps = [] -> residual_scatter signal bits m w pairs alpha true = Err ZeroDivisionError)).
Proof.
  intros auto. unfold residual_scatter. fold auto. split; [intros e ->; reflexivity |]. intros ps rx ry ->. cbn [bind]. split; [reflexivity |]. split.
  - intros H. unfold plot_scatter. destruct ps as [| p ps]; [contradiction |]. change (Nat.min (length (p :: ps)) 4 =? 0)%nat with false. cbv iota. eexists. reflexivity.
  - intros ->. reflexivity.
Qed.
(** Without a pair (an empty list, or the default for a record of no bits) the call succeeds without plot and raises with it. *)
Lemma c157_no_pairs_refuted : exists signal bits m w pairs alpha, (exists ps rx ry, residual_scatter signal bits m w pairs alpha false = Ok (ps, rx, ry, None)) /\
  residual_scatter signal bits m w pairs alpha true = Err ZeroDivisionError.
Proof. exists [1; 2], [[1]; [0]], 1%nat, None, (Some []), None. split; [do 3 eexists; reflexivity | reflexivity]. Qed.
(** The panels fill a grid of at most four columns row by row, in the order of the pairs: panel k stands in the cell with number k.
    Every cell is either a panel or hidden, none is used twice, and less than one row is hidden. *)
Lemma c157_grid signal bits m w pairs alpha ps rx ry g : residual_scatter signal bits m w pairs alpha true = Ok (ps, rx, ry, Some g) ->
  (0 < length ps)%nat /\ length (sc_panels g) = length ps /\ (sc_cols g <= 4)%nat /\ (sc_cols g = 4 \/ sc_rows g = 1)%nat /\
  (forall k d, (k < length ps)%nat -> exists r c, sp_cell (nth k (sc_panels g) d) = (r, c) /\ (c < sc_cols g)%nat /\ (r < sc_rows g)%nat /\ k = (r * sc_cols g + c)%nat) /\
  NoDup (map sp_cell (sc_panels g) ++ sc_hidden g) /\ (forall r c, (r < sc_rows g)%nat /\ (c < sc_cols g)%nat <-> In (r, c) (map sp_cell (sc_panels g) ++ sc_hidden g)) /\
  (length (sc_hidden g) < sc_cols g)%nat.
Proof.
  intros E. apply scatter_flat in E. destruct E as [_ E]. unfold plot_scatter in E. set (n := length ps) in *. set (cols := Nat.min n 4) in *. destruct (Nat.eqb_spec cols 0) as [C0 | C0]; [discriminate |]. apply Ok_inj in E.
  set (rows := ((n + cols - 1) / cols)%nat) in *. set (cell := fun k => (k / cols, k mod cols)%nat) in *. assert (EG : g = mkSF rows cols (scatter_alpha alpha (length bits)) (map (fun k => mkSP (cell k) (combine (nth k rx []) (nth k ry [])) (label_of (fst (nth k ps (0, 0)%Z))) (label_of (snd (nth k ps (0, 0)%Z)))) (seq 0 n)) (map cell (seq n (rows * cols - n)))) by (symmetry; exact E). rewrite EG. clear E EG. cbn [sc_panels sc_cols sc_rows sc_hidden].
  assert (N0 : (0 < n)%nat) by lia. pose proof (Nat.div_mod_eq (n + cols - 1) cols) as DM. pose proof (Nat.mod_upper_bound (n + cols - 1) cols C0) as MB. fold rows in DM.
  assert (RB : (n <= rows * cols < n + cols)%nat) by nia.
  assert (CL : forall k, (k < rows * cols)%nat -> (k / cols < rows)%nat /\ (k mod cols < cols)%nat /\ k = (k / cols * cols + k mod cols)%nat).
  { intros k Hk. split; [apply Nat.div_lt_upper_bound; lia |]. split; [apply Nat.mod_upper_bound; exact C0 |]. pose proof (Nat.div_mod_eq k cols). lia. }
  assert (AP : map sp_cell (map (fun k => mkSP (cell k) (combine (nth k rx []) (nth k ry [])) (label_of (fst (nth k ps (0, 0)%Z))) (label_of (snd (nth k ps (0, 0)%Z)))) (seq 0 n)) ++ map cell (seq n (rows * cols - n)) = map cell (seq 0 (rows * cols))).
  { rewrite map_map. cbn [sp_cell]. rewrite <- map_app. f_equal. rewrite <- seq_app. f_equal. lia. }
  split; [exact N0 |]. split; [rewrite map_length, seq_length; reflexivity |]. split; [apply Nat.le_min_r |]. split.
  { destruct (Nat.le_gt_cases n 4) as [H4 | H4]; [right | left; unfold cols; lia]. assert (EC : cols = n) by (unfold cols; lia). nia. }
  split. { intros k d Hk. rewrite (nth_map_in _ _ k 0%nat) by (rewrite seq_length; exact Hk). rewrite seq_nth by exact Hk. cbn [Nat.add sp_cell]. destruct (CL k ltac:(lia)) as (A & B & C). do 2 eexists. split; [reflexivity |]. repeat split; assumption. }
  rewrite AP. split; [| split].
  - assert (Q : forall l, NoDup l -> (forall k, In k l -> (k < rows * cols)%nat) -> NoDup (map cell l)).
    { induction 1 as [| a l H1 H2 IH]; intros B; cbn [map]; constructor; [| apply IH; intros k Hk; apply B; right; exact Hk]. intros C. apply in_map_iff in C. destruct C as (k & Ek & Hk). unfold cell in Ek. injection Ek as E1 E2.
      destruct (CL k (B k (or_intror Hk))) as (_ & _ & Q1). destruct (CL a (B a (or_introl eq_refl))) as (_ & _ & Q2). rewrite E1, E2, <- Q2 in Q1. subst k. contradiction. }
    apply Q; [apply seq_NoDup |]. intros k Hk. apply in_seq in Hk. lia.
  - intros r c. rewrite in_map_iff. split.
    + intros [Hr Hc]. exists (r * cols + c)%nat. split; [| apply in_seq; nia]. unfold cell. f_equal; [rewrite Nat.div_add_l by exact C0; rewrite Nat.div_small by exact Hc; lia | rewrite Nat.add_comm, Nat.mod_add by exact C0; apply Nat.mod_small; exact Hc].
    + intros (k & Ek & Hk). apply in_seq in Hk. destruct (CL k ltac:(lia)) as (A & B & _). unfold cell in Ek. injection Ek as <- <-. split; assumption.
  - rewrite map_length, seq_length. lia.
Qed.
(** Panel k draws one point per sample: the signal without the bits before the first index of the pair against the signal without
    those before the second; an axis is called signal exactly when its index is 0, and otherwise names the index. *)
Lemma c157_points signal bits m w pairs alpha ps rx ry g k x y d : residual_scatter signal bits m (Some w) pairs alpha true = Ok (ps, rx, ry, Some g) -> length w = m -> matrix_of m bits ->
  nth_error ps k = Some (Z.of_nat x, Z.of_nat y) -> (x <= m)%nat -> (y <= m)%nat ->
  sp_points (nth k (sc_panels g) d) = map (fun i => (nth i signal 0 - bits_between (nth i bits []) w 0 x, nth i signal 0 - bits_between (nth i bits []) w 0 y)) (seq 0 (length signal)) /\
  (sp_xlabel (nth k (sc_panels g) d) = LSignal <-> x = 0%nat) /\ (sp_ylabel (nth k (sc_panels g) d) = LSignal <-> y = 0%nat) /\
  (x <> 0%nat -> sp_xlabel (nth k (sc_panels g) d) = LResidual (Z.of_nat x)) /\ (y <> 0%nat -> sp_ylabel (nth k (sc_panels g) d) = LResidual (Z.of_nat y)).
Proof.
  intros E LW HM Np Hx Hy. destruct (scatter_flat _ _ _ _ _ _ _ _ _ _ E) as [E1 E2]. destruct (scatter_inv _ _ _ _ _ _ _ _ _ E1) as (Ls & _ & RP). destruct (pairs_nth _ _ _ _ _ _ _ RP) as (_ & _ & V). destruct (V k _ _ Np) as (a & b & Na & Nb & Ra & Rb).
  assert (Hk : (k < length ps)%nat) by (apply nth_error_Some; rewrite Np; discriminate). unfold plot_scatter in E2. destruct (Nat.eqb_spec (Nat.min (length ps) 4) 0) as [C0 | C0]; [discriminate |]. apply Ok_inj in E2. subst g. cbn [sc_panels].
  rewrite (nth_map_in _ _ k 0%nat) by (rewrite seq_length; exact Hk). rewrite seq_nth by exact Hk. cbn [Nat.add sp_points sp_xlabel sp_ylabel]. rewrite (nth_error_nth _ _ [] Na), (nth_error_nth _ _ [] Nb), (nth_error_nth _ _ (0, 0)%Z Np). cbn [fst snd].
  split.
  - assert (G : forall z res, (z <= m)%nat -> residual signal bits m w (Z.of_nat z) = Ok res -> res = map (fun i => nth i signal 0 - bits_between (nth i bits []) w 0 z) (seq 0 (length signal))).
    { intros z res Hz Rz. destruct (Nat.eq_dec (length signal) 0) as [L0 | L0].
      - destruct signal; [| discriminate L0]. unfold residual in Rz. destruct (Z.of_nat z =? 0)%Z; [apply Ok_inj in Rz; subst; reflexivity |]. destruct (negb _); [discriminate |]. apply Ok_inj in Rz. subst. reflexivity.
      - destruct (residual_nat _ _ _ _ _ _ 0%nat Rz LW HM Ls Hz ltac:(lia)) as (LR & _). rewrite (list_as_map res (length signal) LR). apply map_ext_in. intros i Hi. apply in_seq in Hi. destruct (residual_nat _ _ _ _ _ _ i Rz LW HM Ls Hz ltac:(lia)) as (_ & VI). exact VI. }
    rewrite (G _ _ Hx Ra), (G _ _ Hy Rb). apply combine_maps.
  - unfold label_of. destruct (Z.eqb_spec (Z.of_nat x) 0), (Z.eqb_spec (Z.of_nat y) 0); repeat split; intros; try reflexivity; try lia; try discriminate; try congruence.
Qed.
(** The points are as transparent as asked for; by default fully opaque up to 1000 samples and then fainter in proportion to their
    number, but never below 0.1. *)
Lemma c157_alpha signal bits m w pairs alpha ps rx ry g : residual_scatter signal bits m w pairs alpha true = Ok (ps, rx, ry, Some g) ->
  match alpha with
  | Some a => sc_alpha g = a
  | None => (0 < length signal)%nat /\ (INR (length signal) <= 1000 -> sc_alpha g = 1) /\ (1000 <= INR (length signal) <= 10000 -> sc_alpha g * INR (length signal) = 1000) /\ (10000 <= INR (length signal) -> sc_alpha g = 1 / 10)
  end.
Proof.
  intros E. destruct (scatter_flat _ _ _ _ _ _ _ _ _ _ E) as [E1 E2]. unfold plot_scatter in E2. destruct (Nat.eqb_spec (Nat.min (length ps) 4) 0) as [C0 | C0]; [discriminate |]. apply Ok_inj in E2. subst g. cbn [sc_alpha]. destruct alpha as [a |]; [reflexivity |]. cbn [scatter_alpha].
  destruct (scatter_inv _ _ _ _ _ _ _ _ _ E1) as (Ls & _ & _). rewrite Ls. assert (N0 : (0 < length bits)%nat).
  { unfold plot_residual_scatter in E1. destruct (negb _); [discriminate |]. destruct (Nat.eqb_spec (length bits) 0); [discriminate | lia]. }
  split; [exact N0 |]. apply lt_INR in N0. cbn [INR] in N0. set (v := INR (length bits)) in *. assert (Q : 1000 / v * v = 1000) by (field; lra). set (u := 1000 / v) in *. clearbody u.
  split; [| split]; intros H.
  - rewrite Rmax_left by nra. apply Rmin_right. nra.
  - rewrite Rmax_left by nra. rewrite Rmin_left by nra. exact Q.
  - rewrite Rmax_right by nra. apply Rmin_left. lra.
Qed.
(** Five bits: five panels in two rows of four, three cells hidden; the last panel shows the signal without the four leading bits against the
    remainder after all. *)
Lemma c157_grid_ex : exists rx ry g, residual_scatter [21.5] [[1; 0; 1; 0; 1]] 5 None None None true = Ok ([(0, 5); (1, 5); (2, 5); (3, 5); (4, 5)]%Z, rx, ry, Some g) /\
  sc_rows g = 2%nat /\ sc_cols g = 4%nat /\ map sp_cell (sc_panels g) = [(0, 0); (0, 1); (0, 2); (0, 3); (1, 0)]%nat /\ sc_hidden g = [(1, 1); (1, 2); (1, 3)]%nat /\
  map sp_xlabel (sc_panels g) = [LSignal; LResidual 1; LResidual 2; LResidual 3; LResidual 4] /\ map sp_ylabel (sc_panels g) = repeat (LResidual 5) 5.
Proof. do 3 eexists. split; [reflexivity |]. repeat split. Qed.
Lemma c157_points_ex : exists rx ry g, residual_scatter [21.5; 3] [[1; 1]; [0; 1]] 2 (Some [16; 5]) (Some [(0, 1); (1, 2)]%Z) None true = Ok ([(0, 1); (1, 2)]%Z, rx, ry, Some g) /\
  map sp_points (sc_panels g) = [[(21.5, 5.5); (3, 3)]; [(5.5, 0.5); (3, -2)]] /\ map sp_ylabel (sc_panels g) = [LResidual 1; LResidual 2].
Proof.
  destruct (c157_same [21.5; 3] [[1; 1]; [0; 1]] 2 (Some [16; 5]) (Some [(0, 1); (1, 2)]%Z) None) as [_ H]. cbv zeta in H. destruct (H _ _ _ eq_refl) as (_ & D & _). destruct D as (g & E); [discriminate |]. do 2 eexists. exists g. split; [exact E |].
  destruct (c157_grid _ _ _ _ _ _ _ _ _ _ E) as (_ & LP & _). cbn [length] in LP. destruct g as [rw cl al pn hd]. cbn [sc_panels] in *. destruct pn as [| p0 [| p1 [| p2 pn]]]; try discriminate LP.
  assert (HM : matrix_of 2 [[1; 1]; [0; 1]]) by (intros row [<- | [<- | []]]; reflexivity).
  destruct (c157_points _ _ _ _ _ _ _ _ _ _ 0%nat 0%nat 1%nat p0 E eq_refl HM eq_refl ltac:(lia) ltac:(lia)) as (P0 & _ & _ & _ & Y0). destruct (c157_points _ _ _ _ _ _ _ _ _ _ 1%nat 1%nat 2%nat p0 E eq_refl HM eq_refl ltac:(lia) ltac:(lia)) as (P1 & _ & _ & _ & Y1).
  cbn [sc_panels nth] in *. cbn [map]. rewrite P0, P1, Y0, Y1 by lia. split; [| reflexivity]. cbn [length seq map nth]. unfold bits_between. cbn [Nat.sub rsum nth Nat.add]. repeat f_equal; lra.
Qed.
Lemma c157_alpha_ex : exists ps rx ry g, residual_scatter [1; 2] [[0; 1]; [1; 0]] 2 None None None true = Ok (ps, rx, ry, Some g) /\ sc_alpha g = 1.
Proof.
  do 3 eexists. eexists. split; [reflexivity |]. cbn [sc_alpha scatter_alpha length]. change (INR 2) with 2. rewrite Rmax_left by lra. apply Rmin_right. lra.
Qed.
