(** * Further theorems about the MATLAB functions, each added because a wrong program passed the earlier ones. *)
From Coq Require Import Psatz.
From Verif Require Import Base BaseLemmas Cplx FreqModel SpecModel SpecLemmas FitSpec FitProofs MatModel MsinModel MsinProofs MerrModel MerrProofs CalModel CalSpec CalProofs CalExLemmas McalModel McalProofs SineHistModel SineHistProofs DrawProofs MgenModel MgenProofs MbitModel MbitProofs.
Local Open Scope R_scope.

(** The frequency found is that of the fit, in units of the sampling rate: it scales with the rate. *)
Lemma c168_findfreq_scales lin rows fs : 0 < fs ->
  (forall v, m_findfreq lin rows 1 = Ok (Fin v) -> m_findfreq lin rows fs = Ok (Fin (v * fs))) /\
  (forall r, m_sinfit lin rows 0 (1 / 10 ^ 12) (1 / 2) false 100 = Ok (Some r) -> m_findfreq lin rows fs = Ok (Fin (mf_freq r * fs))) /\
  (m_sinfit lin rows 0 (1 / 10 ^ 12) (1 / 2) false 100 = Ok None -> m_findfreq lin rows fs = Ok NaN).
Proof.
  intros F. unfold m_findfreq. destruct (Rleb_spec fs 0); [lra|]. destruct (Rleb_spec 1 0); [lra|]. cbn [raise_if].
  destruct (m_sinfit lin rows 0 (1 / 10 ^ 12) (1 / 2) false 100) as [[s|]|e]; cbn [bind]; (split; [intros v HH; try discriminate|split; [intros r HH; try discriminate|intros HH; try discriminate; try reflexivity]]).
  - injection HH as <-. do 2 f_equal. ring.
  - injection HH as ->. reflexivity.
Qed.
(** A constant record: sorting its errors by phase stops with an error, sorting them by value returns NaN throughout. *)
Lemma c170_constant lin sig v bin er osr hann : (0 < bin)%Z -> 1 <= osr -> (2 <= length sig)%nat -> is_record sig (fun _ => v) ->
  m_errsin lin sig bin None false er osr hann = Err RuntimeError /\ m_errsin lin sig bin None true er osr hann = Ok None.
Proof.
  intros B O L RC.
  assert (E : m_sinfit lin (map (fun x => [x]) sig) 0 (1 / 10 ^ 12) (1 / 2) false 100 = Ok None).
  { apply (c168_constant lin _ v); rewrite ?column_single; try assumption; [apply Rdiv_lt_0_compat; [lra|apply pow_lt; lra]|lra|lia]. }
  unfold m_errsin. destruct (Z.leb_spec bin 0); [lia|]. destruct (Rltb_spec osr 1); [lra|]. cbn [orb raise_if]. rewrite E. cbn [bind]. split; reflexivity.
Qed.
Example c170_constant_ex lin : m_errsin lin [3; 3; 3; 3] 100 None false None 1 true = Err RuntimeError.
Proof.
  apply (c170_constant lin [3; 3; 3; 3] 3); [lia|lra|cbn; lia|]. intros t T. cbn in T. do 4 (destruct t as [|t]; [reflexivity|]). lia.
Qed.
Lemma rsum_derivable H (g g' : nat -> R -> R) x : (forall h, (h < H)%nat -> derivable_pt_lim (g h) x (g' h x)) ->
  derivable_pt_lim (fun y => rsum H (fun h => g h y)) x (rsum H (fun h => g' h x)).
Proof.
  intros D. induction H as [|k IH]; cbn [rsum]; [apply derivable_pt_lim_const|].
  apply (derivable_pt_lim_plus (fun y => rsum k (fun h => g h y)) (g k)); [apply IH; intros h Hh; apply D; lia|apply D; lia].
Qed.
(** The extra column of the fine search is, over n, the derivative of the fitted harmonics by the frequency. *)
Lemma c174_derivative x sel M H n f t : (0 < n)%nat ->
  derivable_pt_lim (fun g => rsum H (fun h => m_cosc x sel M H h * cos (g * (2 * PI * (INR t * INR (S h)))) + m_sinc x sel M H h * sin (g * (2 * PI * (INR t * INR (S h)))))) f
    (INR n * m_dcol x sel M H n f t).
Proof.
  intros HN. apply lt_0_INR in HN. unfold m_dcol. rewrite <- rsum_scale.
  match goal with |- derivable_pt_lim _ _ (rsum H ?u) => set (u0 := u) end.
  replace (rsum H u0) with (rsum H (fun h => (fun h (y : R) => m_cosc x sel M H h * (- sin (y * (2 * PI * (INR t * INR (S h)))) * (2 * PI * (INR t * INR (S h)))) + m_sinc x sel M H h * (cos (y * (2 * PI * (INR t * INR (S h)))) * (2 * PI * (INR t * INR (S h))))) h f)).
  - apply (rsum_derivable H (fun h g => m_cosc x sel M H h * cos (g * (2 * PI * (INR t * INR (S h)))) + m_sinc x sel M H h * sin (g * (2 * PI * (INR t * INR (S h))))) (fun h (y : R) => m_cosc x sel M H h * (- sin (y * (2 * PI * (INR t * INR (S h)))) * (2 * PI * (INR t * INR (S h)))) + m_sinc x sel M H h * (cos (y * (2 * PI * (INR t * INR (S h)))) * (2 * PI * (INR t * INR (S h)))))).
    intros h Hh. set (c := 2 * PI * (INR t * INR (S h))).
    assert (L : derivable_pt_lim (fun g => g * c) f c).
    { clearbody c. assert (LL : derivable_pt_lim (id * fct_cte c)%F f (1 * fct_cte c f + id f * 0)) by (apply derivable_pt_lim_mult; [apply derivable_pt_lim_id|apply derivable_pt_lim_const]). unfold fct_cte, id in LL. replace (1 * c + f * 0) with c in LL by ring. exact LL. }
    apply (derivable_pt_lim_plus (fun g => m_cosc x sel M H h * cos (g * c)) (fun g => m_sinc x sel M H h * sin (g * c))).
    + apply (derivable_pt_lim_scal (fun g => cos (g * c))). apply (derivable_pt_lim_comp (fun g => g * c) cos); [exact L|apply derivable_pt_lim_cos].
    + apply (derivable_pt_lim_scal (fun g => sin (g * c))). apply (derivable_pt_lim_comp (fun g => g * c) sin); [exact L|apply derivable_pt_lim_sin].
  - apply rsum_ext. intros h Hh. unfold u0. replace (2 * PI * f * (INR t * INR (S h))) with (f * (2 * PI * (INR t * INR (S h)))) by ring. field. lra.
Qed.
(** One pass of the fine search: the bits, the offset and the harmonics are fitted together with that column; the fitted change of
    frequency is the column's coefficient over n, and unless it is negligible the search goes on from the frequency moved by [rate] times
    this change. *)
Lemma c174_step lin sc H rate reltol l freq x sel x' sel' : let n := m_n sc in let M := m_m sc in
  let d := m_dcol x sel M H n freq in
  m_two lin sc (cos_block n freq H) (sin_block n freq H) (of_cols n [d]) = (x', sel') ->
  let change := x' (M + 2 * H)%nat / INR n in (1 <= H)%nat ->
  let size := vrms n (fun t => change * d t) / sqrt (1 + x' (M + H)%nat ^ 2) in
  (size < reltol -> m_fine lin sc H rate reltol (S l) freq x sel = (freq, x', sel')) /\
  (reltol <= size -> m_fine lin sc H rate reltol (S l) freq x sel = m_fine lin sc H rate reltol l (freq + rate * change) x' sel').
Proof.
  intros n M d E change H1 size. cbn [m_fine]. fold n M d. rewrite E. replace (M + 1 + (H - 1) + H)%nat with (M + 2 * H)%nat by lia. fold change. fold size.
  split; intros S; destruct (Rltb_spec size reltol); try lra; [reflexivity|]. f_equal. unfold change, Rdiv. ring.
Qed.
(** Weights not given are taken to be binary: the last is 1 and each is twice the next. *)
Lemma c174_default_weights lin rank bits freq rate reltol niter order fsearch at_ ap nom : let m := m_m (m_orient at_ bits) in
  length nom = m -> (0 < m)%nat -> nth (m - 1) nom 0 = 1 -> (forall j, (S j < m)%nat -> nth j nom 0 = 2 * nth (S j) nom 0) ->
  m_wcalsin lin rank bits freq rate reltol niter order fsearch at_ ap [] = m_wcalsin lin rank bits freq rate reltol niter order fsearch at_ ap nom.
Proof.
  intros m L M1 E1 E2.
  assert (P : forall k, (k < m)%nat -> nth (m - 1 - k) nom 0 = 2 ^ k).
  { induction k as [|k IH]; intros Hk; [rewrite Nat.sub_0_r; exact E1|]. rewrite E2 by lia. replace (S (m - 1 - S k)) with (m - 1 - k)%nat by lia. rewrite IH by lia. reflexivity. }
  assert (Q : m_nominal m [] = m_nominal m nom).
  { unfold m_nominal. destruct nom as [|v nom']; [cbn in L; lia|]. apply (nth_ext_eq 0); [rewrite map_length, seq_length; lia|].
    intros i Hi. rewrite map_length, seq_length in Hi. rewrite (nth_map_in _ _ _ 0%nat), seq_nth by (rewrite ?seq_length; exact Hi). cbn [Nat.add]. rewrite <- P by lia. f_equal. lia. }
  unfold m_wcalsin. cbv zeta. fold m. rewrite Q. reflexivity.
Qed.
Example c174_default_weights_ex lin rank bits : m_m bits = 3%nat -> (3 <= m_n bits)%nat ->
  m_wcalsin lin rank bits (1 / 4) (1 / 2) (1 / 10 ^ 12) 100 1 false true true [] = m_wcalsin lin rank bits (1 / 4) (1 / 2) (1 / 10 ^ 12) 100 1 false true true [4; 2; 1].
Proof.
  intros M N. assert (O : m_orient true bits = bits) by (apply m_orient_id; lia).
  apply c174_default_weights; rewrite O, M; [reflexivity|lia|reflexivity|]. intros j Hj. destruct j as [|[|j]]; [cbn; lra|cbn; lra|lia].
Qed.
(** The axis leaves a factor of four below the smallest and above the largest magnitude; the bits are numbered from the number of
    weights down to 1. *)
Lemma c177_room w radix er : w <> [] -> (forall x, In x w -> x <> 0) -> let g := m_plotwgt_figure w radix er in
  (exists i j, (i < length w)%nat /\ (j < length w)%nat /\ mw_ylim g = (Rabs (nth i w 0) / 4, Rabs (nth j w 0) * 4) /\ forall k, (k < length w)%nat -> Rabs (nth i w 0) <= Rabs (nth k w 0) <= Rabs (nth j w 0)) /\
  length (mw_index g) = length w /\ forall i, (i < length w)%nat -> nth i (mw_index g) (0, 0%Z) = (INR (i + 1), Z.of_nat (length w - i)).
Proof.
  intros N NZ. unfold m_plotwgt_figure. cbn [mw_ylim mw_index]. set (a := map Rabs w). assert (AN : a <> []) by (unfold a; destruct w; [congruence | discriminate]).
  assert (FA : filter (fun v => Rltb 0 v) a = a). { assert (PA : forall v, In v a -> 0 < v) by (intros v I; unfold a in I; apply in_map_iff in I; destruct I as (x & <- & I); apply Rabs_pos_lt, NZ, I). clearbody a. clear AN N NZ. induction a as [| v a IH]; [reflexivity |]. cbn [filter]. destruct (Rltb_spec 0 v) as [Q | Q]; [rewrite IH; [reflexivity | intros u U; apply PA; right; exact U] | specialize (PA v (or_introl eq_refl)); lra]. }
  rewrite FA. destruct (rlist_extremes a AN) as (I1 & I2 & B). split.
  - assert (GA : forall v, In v a -> exists k, (k < length w)%nat /\ v = Rabs (nth k w 0)). { intros v I. unfold a in I. apply in_map_iff in I. destruct I as (x & <- & I). apply (In_nth _ _ 0) in I. destruct I as (k & K & <-). exists k. auto. }
    destruct (GA _ (rmin_list_in a AN)) as (i & I & E1). destruct (GA _ (rmax_list_in a AN)) as (j & J & E2). exists i, j. split; [exact I |]. split; [exact J |]. rewrite E1, E2. split; [reflexivity |]. intros k K. specialize (B (Rabs (nth k w 0)) ltac:(unfold a; apply in_map, nth_In; exact K)). cbn [fst snd] in B. rewrite <- E1, <- E2. exact B.
  - split; [rewrite map_length, seq_length; reflexivity |]. intros i I. rewrite (nth_map_in _ _ _ 0%nat) by (rewrite seq_length; exact I). rewrite seq_nth by exact I. cbn [Nat.add]. f_equal. lia.
Qed.
Example c177_room_ex radix er : mw_index (m_plotwgt_figure [4; -2; 1] radix er) = [(1, 3%Z); (2, 2%Z); (3, 1%Z)].
Proof.
  destruct (c177_room [4; -2; 1] radix er) as (_ & L & H); [discriminate | intros x [<- | [<- | [<- | []]]]; lra |]. apply (nth_ext _ _ (0, 0%Z) (0, 0%Z)); [exact L |]. intros i I. rewrite L in I. rewrite H by exact I. cbn [length] in I. destruct i as [| [| [| i]]]; [cbn; f_equal; lra | cbn; f_equal; lra | cbn; f_equal; lra | lia].
Qed.
(** Without weights the stages count as powers of two, the last one as 1. *)
Lemma c186_default_weights sig bits m xy alpha w : length w = m -> (forall i, (i < m)%nat -> nth i w 0 = 2 ^ (m - 1 - i)) ->
  m_plotres sig bits m None xy alpha = m_plotres sig bits m (Some (w, true)) xy alpha.
Proof.
  intros L H. unfold m_plotres. replace (map (fun i => 2 ^ (m - 1 - i)) (seq 0 m)) with w; [reflexivity |]. apply (nth_ext _ _ 0 0); [rewrite map_length, seq_length; exact L |]. intros i I. rewrite (nth_map_in _ _ i 0%nat) by (rewrite seq_length; lia). rewrite seq_nth by lia. apply H. lia.
Qed.
Example c186_default_weights_ex : m_plotres [[7]] [[1; 1; 0]] 3 None (XGiven [[0; 3]]%Z) None = m_plotres [[7]] [[1; 1; 0]] 3 (Some ([4; 2; 1], true)) (XGiven [[0; 3]]%Z) None.
Proof. apply c186_default_weights; [reflexivity |]. intros i I. do 3 (destruct i as [| i]; [cbn; lra |]). lia. Qed.
