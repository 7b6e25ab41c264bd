(** * Proofs about the MATLAB bit-level plots. *)
From Coq Require Import Lia Lra Psatz FunctionalExtensionality.
From Verif Require Import Base BaseLemmas Cplx SpecModel SpecLemmas DoutModel DoutSpec DoutProofs PlotModel PlotProofs SineHistModel SineHistProofs CalModel CalSpec CalProofs CalExLemmas CalExProofs SweepModel DplotModel DplotProofs EplotModel EplotProofs MatModel McalModel McalSpec McalProofs MspecModel MspecSpec MspecProofs MbitModel MbitSpec.
Local Open Scope R_scope.

(** ** C186: plotres *)
Lemma m_signal_samples sig s N : samples sig s -> (0 < N)%nat -> m_signal sig N = if (length s =? N)%nat then Ok s else Err RuntimeError.
Proof.
  intros [-> | ->] HN; unfold m_signal.
  - cbn [ncols hd length]. unfold ncols. cbn [hd length]. destruct (Nat.eqb_spec (length s) 1) as [L|L].
    + rewrite L. destruct (Nat.eqb_spec 1 N); [|reflexivity]. cbn [negb raise_if map]. destruct s as [|x [|y s]]; try discriminate L. reflexivity.
    + cbn [Nat.eqb negb orb]. destruct (Nat.eqb_spec (length s) N); reflexivity.
  - rewrite map_length. destruct s as [|x s].
    + cbn. destruct N; [lia|reflexivity].
    + unfold ncols. cbn [map hd length]. change (1 =? 1)%nat with true. cbv iota. rewrite map_map. cbn [hd]. rewrite map_id. destruct (S (length s) =? N)%nat; reflexivity.
Qed.
Lemma m_residual_is s bits m w z : matrix_of m bits -> length s = length bits ->
  m_residual s bits m w true z = if ((m <? Z.to_nat z) || (length w <? Z.to_nat z))%nat then Err RuntimeError else Ok (stage s bits w z).
Proof.
  intros HM L. unfold m_residual. cbv zeta. set (k := Z.to_nat z). destruct (Nat.ltb_spec m k) as [A|A]; cbn [orb raise_if]; [reflexivity|].
  destruct (Nat.ltb_spec (length w) k) as [B|B]; cbn [raise_if negb andb]; [reflexivity|]. f_equal. unfold stage. fold k.
  apply (nth_ext_eq 0); [rewrite map2_length, map_length, seq_length by exact L; reflexivity|].
  intros i Hi. rewrite map2_length in Hi by exact L. rewrite (map2_nth _ _ _ i 0 []) by lia. rewrite (nth_map_in _ _ _ 0%nat), seq_nth by (rewrite ?seq_length; lia). cbn [Nat.add]. f_equal.
  assert (Lr : length (nth i bits []) = m) by (apply HM, nth_In; lia). rewrite dot_rsum by (rewrite !firstn_length; lia). rewrite firstn_length, Lr, Nat.min_l by lia.
  unfold bits_between. rewrite Nat.sub_0_r. apply rsum_ext. intros j Hj. rewrite !SpecLemmas.nth_firstn_lt by lia. reflexivity.
Qed.
Lemma residual_same s bits m w z : length w = m -> length s = length bits -> (0 <= z <= Z.of_nat m)%Z -> residual s bits m w z = m_residual s bits m w true z.
Proof.
  intros Lw L Hz. unfold residual, m_residual. cbv zeta. set (k := Z.to_nat z). destruct (Nat.ltb_spec m k); [lia|]. rewrite Lw. destruct (Nat.ltb_spec m k); [lia|]. cbn [orb raise_if negb andb].
  destruct (Z.eqb_spec z 0) as [->|NZ].
  - f_equal. apply (nth_ext_eq 0); [rewrite map2_length by exact L; reflexivity|]. intros i Hi. rewrite (map2_nth _ _ _ i 0 []) by lia. change k with O. cbn [firstn dot]. ring.
  - assert (S : forall A (l : list A), slice_to z l = firstn k l) by (intros A l; unfold slice_to; destruct (Z.ltb_spec z 0); [lia|reflexivity]).
    rewrite !S, !firstn_length, repeat_length, Lw, Nat.eqb_refl. cbn [negb]. f_equal. f_equal. apply functional_extensionality. intros v. apply functional_extensionality. intros row. rewrite !S. reflexivity.
Qed.
Lemma list_as_map_d {A} (l : list A) d : l = map (fun i => nth i l d) (seq 0 (length l)).
Proof.
  apply (nth_ext_eq d); [rewrite map_length, seq_length; reflexivity|]. intros i Hi. rewrite (nth_map_in _ _ _ 0%nat), seq_nth by (rewrite ?seq_length; exact Hi). reflexivity.
Qed.
Definition fits (m : nat) (w : list R) (p : Z * Z) : bool :=
  ((Z.to_nat (fst p) <=? m) && (Z.to_nat (fst p) <=? length w) && ((Z.to_nat (snd p) <=? m) && (Z.to_nat (snd p) <=? length w)))%nat.
Lemma m_panels_is s bits m w ps : matrix_of m bits -> length s = length bits ->
  m_panels s bits m w true ps = if forallb (fits m w) ps then Ok (map (panel_of s bits w) ps) else Err RuntimeError.
Proof.
  intros HM L. induction ps as [|[x y] t IH]; [reflexivity|]. cbn [m_panels forallb map]. rewrite !m_residual_is by assumption. rewrite IH. change (fits m w (x, y)) with ((Z.to_nat x <=? m) && (Z.to_nat x <=? length w) && ((Z.to_nat y <=? m) && (Z.to_nat y <=? length w)))%nat.
  rewrite !Nat.ltb_antisym. destruct (Z.to_nat x <=? m)%nat, (Z.to_nat x <=? length w)%nat; cbn [negb orb andb bind]; try reflexivity.
  destruct (Z.to_nat y <=? m)%nat, (Z.to_nat y <=? length w)%nat; cbn [negb orb andb bind]; try reflexivity.
  destruct (forallb (fits m w) t); reflexivity.
Qed.
Lemma m_pairs_given m rows ps : pairs_given rows ps -> m_pairs m (XGiven rows) = Ok ps.
Proof.
  intros [[NE ->]|[L2 ->]]; unfold m_pairs.
  - destruct ps as [|p ps]; [contradiction|]. cbn [map hd length]. cbn [Nat.eqb]. rewrite orb_true_r. cbn [negb raise_if]. f_equal. change (map (fun r => (nth 0 r 0%Z, nth 1 r 0%Z)) (map (fun p0 => [fst p0; snd p0]) (p :: ps)) = p :: ps).
    rewrite map_map. rewrite <- (map_id (p :: ps)) at 2. apply map_ext. intros [a b]. reflexivity.
  - cbn [length hd nth Nat.eqb]. cbn [orb negb raise_if]. rewrite map_length. destruct (Nat.eqb_spec (length ps) 2); [contradiction|]. f_equal.
    clear. induction ps as [|[a b] t IH]; [reflexivity|]. cbn [map combine]. rewrite IH. reflexivity.
Qed.
Lemma m_alpha_valid alpha N : alpha_valid alpha <-> m_alpha alpha N = Ok (scatter_alpha alpha N).
Proof.
  destruct alpha as [a|]; cbn [alpha_valid m_alpha scatter_alpha]; [|split; intros; reflexivity || exact I].
  destruct (Rleb_spec a 0), (Rltb_spec 1 a); cbn [orb raise_if]; split; intros HH; try reflexivity; try discriminate; lra.
Qed.
(** The figure: one panel for each pair, with the residual of the second stage over that of the first, and the two labels. *)
Lemma c186_drawn sig s bits m w xy ps alpha : matrix_of m bits -> (0 < length bits)%nat -> samples sig s -> length s = length bits ->
  (match xy with XGiven rows => pairs_given rows ps | _ => m_pairs m xy = Ok ps end) -> alpha_valid alpha ->
  (forall x y, In (x, y) ps -> (x <= Z.of_nat (Nat.min m (length w)))%Z /\ (y <= Z.of_nat (Nat.min m (length w)))%Z) ->
  m_plotres sig bits m (Some (w, true)) xy alpha = Ok (scatter_alpha alpha (length bits), map (panel_of s bits w) ps).
Proof.
  intros HM HN SS L HP HA HR. unfold m_plotres. cbv zeta. rewrite (m_signal_samples sig s) by assumption. rewrite (proj2 (Nat.eqb_eq _ _) L). cbn [bind].
  assert (EP : m_pairs m xy = Ok ps) by (destruct xy; try exact HP; apply m_pairs_given, HP). rewrite EP. cbn [bind]. rewrite (proj1 (m_alpha_valid alpha _) HA). cbn [bind].
  rewrite m_panels_is by assumption. replace (forallb (fits m w) ps) with true; [reflexivity|]. symmetry. apply forallb_forall. intros [x y] Hp. destruct (HR x y Hp) as [A B]. unfold fits. cbn [fst snd].
  repeat (apply andb_true_iff; split); apply Nat.leb_le; lia.
Qed.
(** The presets: the signal against every stage, every stage against the last, every stage against the next. *)
Lemma c186_presets m : exists a b c, m_pairs m XSig = Ok a /\ m_pairs m XRes = Ok b /\ m_pairs m XBit = Ok c /\ length a = m /\ length b = m /\ length c = m /\
  forall k, (k < m)%nat -> nth k a (0, 0)%Z = (0, Z.of_nat k + 1)%Z /\ nth k b (0, 0)%Z = (Z.of_nat k, Z.of_nat m) /\ nth k c (0, 0)%Z = (Z.of_nat k, Z.of_nat k + 1)%Z.
Proof.
  do 3 eexists. cbn [m_pairs]. split; [reflexivity|]. split; [reflexivity|]. split; [reflexivity|]. rewrite !map_length, seq_length. repeat split;
  (rewrite (nth_map_in _ _ _ 0%nat), seq_nth by (rewrite ?seq_length; assumption); cbn [Nat.add]; f_equal; lia).
Qed.
(** Nothing is drawn, and the call fails, exactly when the lengths differ, a stage does not exist or the transparency is out of range. *)
Lemma c186_refuses sig s bits m w rows ps alpha : matrix_of m bits -> (0 < length bits)%nat -> samples sig s -> pairs_given rows ps ->
  (m_plotres sig bits m (Some (w, true)) (XGiven rows) alpha = Err RuntimeError <->
   length s <> length bits \/ (exists x y, In (x, y) ps /\ (Z.of_nat (Nat.min m (length w)) < Z.max x y)%Z) \/ ~ alpha_valid alpha).
Proof.
  intros HM HN SS PG. unfold m_plotres. cbv zeta. rewrite (m_signal_samples sig s) by assumption. destruct (Nat.eqb_spec (length s) (length bits)) as [L|L]; cbn [bind]; [|split; intros; [left; exact L|reflexivity]].
  rewrite (m_pairs_given m rows ps PG). cbn [bind]. destruct (m_alpha alpha (length bits)) as [a|e] eqn:EA; cbn [bind].
  - rewrite m_panels_is by assumption. destruct (forallb (fits m w) ps) eqn:F; cbn [bind]; split; intros H; try discriminate; try reflexivity.
    + exfalso. destruct H as [H|[(x & y & I & Hm)|H]]; [contradiction| |].
      * rewrite forallb_forall in F. specialize (F _ I). unfold fits in F. cbn [fst snd] in F. repeat rewrite andb_true_iff in F. rewrite !Nat.leb_le in F. lia.
      * apply H. destruct alpha as [v|]; cbn [alpha_valid m_alpha] in *; [|exact I]. destruct (Rleb_spec v 0), (Rltb_spec 1 v); cbn [orb raise_if] in EA; try discriminate; lra.
    + right. left. assert (E : existsb (fun p => negb (fits m w p)) ps = true).
      { clear -F. induction ps as [|p t IH]; [discriminate F|]. cbn [forallb existsb] in *. destruct (fits m w p); cbn [negb andb orb] in *; [apply IH, F|reflexivity]. }
      apply existsb_exists in E. destruct E as ([x y] & I & E). exists x, y. split; [exact I|]. apply negb_true_iff in E. unfold fits in E. cbn [fst snd] in E.
      destruct (Nat.leb_spec (Z.to_nat x) m), (Nat.leb_spec (Z.to_nat x) (length w)), (Nat.leb_spec (Z.to_nat y) m), (Nat.leb_spec (Z.to_nat y) (length w)); cbn [andb] in E; try discriminate; lia.
  - assert (e = RuntimeError) as -> by (destruct alpha as [v|]; cbn [m_alpha] in EA; [destruct (_ || _)%bool; [injection EA as <-; reflexivity|discriminate]|discriminate]).
    split; [intros _; right; right|reflexivity]. intros V. apply (m_alpha_valid alpha (length bits)) in V. rewrite V in EA. discriminate.
Qed.
(** Weights given as a column of two or more numbers work for the first stage only. *)
Lemma c186_column_weights sig s bits m w x y t alpha : (0 < length bits)%nat -> samples sig s -> (Z.to_nat x <> 1%nat \/ Z.to_nat y <> 1%nat) ->
  m_plotres sig bits m (Some (w, false)) (XGiven ([x; y] :: t)) alpha = Err RuntimeError.
Proof.
  intros HN SS HX. unfold m_plotres. cbv zeta. rewrite (m_signal_samples sig s) by assumption. destruct (length s =? length bits)%nat; [|reflexivity]. cbn [bind].
  unfold m_pairs. cbn [hd length Nat.eqb]. rewrite orb_true_r. cbn [negb raise_if bind map nth]. destruct (m_alpha alpha (length bits)) as [a|e] eqn:EA; cbn [bind].
  - cbn [m_panels]. unfold m_residual. cbv zeta. destruct ((m <? Z.to_nat x)%nat || (length w <? Z.to_nat x)%nat)%bool; cbn [raise_if bind]; [reflexivity|].
    destruct (Nat.eqb_spec (Z.to_nat x) 1); cbn [negb andb raise_if bind]; [|reflexivity]. destruct ((m <? Z.to_nat y)%nat || (length w <? Z.to_nat y)%nat)%bool; cbn [raise_if bind]; [reflexivity|].
    destruct (Nat.eqb_spec (Z.to_nat y) 1); cbn [negb andb raise_if bind]; [|reflexivity]. destruct HX; contradiction.
  - destruct alpha as [v|]; cbn [m_alpha] in EA; [destruct (_ || _)%bool; [injection EA as <-; reflexivity|discriminate]|discriminate].
Qed.
Lemma residual_pairs_is s bits m w ps : matrix_of m bits -> length w = m -> length s = length bits -> (forall x y, In (x, y) ps -> (0 <= x <= Z.of_nat m)%Z /\ (0 <= y <= Z.of_nat m)%Z) ->
  residual_pairs s bits m w ps = Ok (map (fun p => stage s bits w (fst p)) ps, map (fun p => stage s bits w (snd p)) ps).
Proof.
  intros HM Lw L. induction ps as [|[x y] t IH]; intros HP; [reflexivity|]. cbn [residual_pairs map fst snd]. destruct (HP x y (or_introl eq_refl)) as [HX HY].
  rewrite !residual_same by assumption. rewrite !m_residual_is by assumption. rewrite Lw.
  destruct (Nat.ltb_spec m (Z.to_nat x)); [lia|]. destruct (Nat.ltb_spec m (Z.to_nat y)); [lia|]. cbn [orb bind]. rewrite IH by (intros; apply HP; right; assumption). reflexivity.
Qed.
(** For stages from 0 to the number of bits the Python figure has the same points, labels and transparency. *)
Lemma c186_agrees sig s bits m w rows ps alpha : matrix_of m bits -> (0 < length bits)%nat -> samples sig s -> length s = length bits -> length w = m -> ps <> [] -> pairs_given rows ps -> alpha_valid alpha ->
  (forall x y, In (x, y) ps -> (0 <= x <= Z.of_nat m)%Z /\ (0 <= y <= Z.of_nat m)%Z) ->
  exists rx ry g l, residual_scatter s bits m (Some w) (Some ps) alpha true = Ok (ps, rx, ry, Some g) /\
    m_plotres sig bits m (Some (w, true)) (XGiven rows) alpha = Ok (sc_alpha g, l) /\
    map (fun p => (pn_points p, pn_xlabel p, pn_ylabel p)) l = map (fun p => (sp_points p, sp_xlabel p, sp_ylabel p)) (sc_panels g).
Proof.
  intros HM HN SS L Lw NE PG HA HP. unfold residual_scatter, plot_residual_scatter. rewrite (proj2 (Nat.eqb_eq _ _) L). cbn [negb]. destruct (Nat.eqb_spec (length bits) 0); [lia|]. rewrite andb_false_r.
  rewrite residual_pairs_is by assumption. cbn [bind fst snd]. unfold plot_scatter. assert (LP : (0 < length ps)%nat) by (destruct ps; [contradiction|cbn; lia]). destruct (Nat.eqb_spec (Nat.min (length ps) 4) 0); [lia|]. cbn [bind].
  do 4 eexists. split; [reflexivity|]. cbn [sc_alpha sc_panels]. split.
  - apply c186_drawn with (s := s) (ps := ps); try assumption. intros x y I. rewrite Lw, Nat.min_id. specialize (HP x y I). lia.
  - rewrite !map_map. cbn [pn_points pn_xlabel pn_ylabel sp_points sp_xlabel sp_ylabel]. rewrite (list_as_map_d ps (0, 0)%Z) at 1. rewrite map_map. apply map_ext_in. intros k Hk. apply in_seq in Hk.
    unfold panel_of. cbn [pn_points pn_xlabel pn_ylabel]. rewrite !(nth_map_in _ ps k (0, 0)%Z) by lia. reflexivity.
Qed.
(** A negative index takes nothing off in MATLAB and is counted from the end in Python; an index beyond the last bit is refused in MATLAB
    and cut to the last bit in Python. *)
Lemma c186_negative_refuted : exists s bits w, m_plotres [s] bits 2 (Some (w, true)) (XGiven [[-1; 2]]%Z) (Some (1 / 2)) = Ok (1 / 2, [mkPanel [(7, 1)] (LResidual (-1)) (LResidual 2)]) /\
  residual_scatter s bits 2 (Some w) (Some [(-1, 2)]%Z) None false = Ok ([(-1, 2)]%Z, [[3]], [[1]], None).
Proof.
  exists [7], [[1; 1]], [4; 2]. split.
  - rewrite (c186_drawn [[7]] [7] [[1; 1]] 2 [4; 2] (XGiven [[-1; 2]]%Z) [(-1, 2)]%Z (Some (1 / 2))).
    + f_equal. f_equal. unfold panel_of, stage, bits_between. cbn. change (Pos.to_nat 2) with 2%nat. cbn. repeat (f_equal; try lra).
    + intros row [<-|[]]. reflexivity.
    + cbn; lia.
    + left; reflexivity.
    + reflexivity.
    + left. split; [discriminate|reflexivity].
    + cbn [alpha_valid]. lra.
    + intros x y [E|[]]. injection E as <- <-. cbn. lia.
  - unfold residual_scatter, plot_residual_scatter. cbn [length Nat.eqb negb andb]. cbn [residual_pairs]. unfold residual. change (-1 =? 0)%Z with false. change (2 =? 0)%Z with false. cbv iota.
    unfold slice_to. cbn. change (Pos.to_nat 2) with 2%nat. change (Pos.to_nat 1) with 1%nat. change (Pos.to_nat 3) with 3%nat. cbn. repeat f_equal; lra.
Qed.
Lemma c186_beyond_refuted : exists s bits w, m_plotres [s] bits 2 (Some (w, true)) (XGiven [[0; 3]]%Z) None = Err RuntimeError /\
  residual_scatter s bits 2 (Some w) (Some [(0, 3)]%Z) None false = Ok ([(0, 3)]%Z, [[7]], [[1]], None).
Proof.
  exists [7], [[1; 1]], [4; 2]. split.
  - apply (c186_refuses [[7]] [7] [[1; 1]] 2 [4; 2] [[0; 3]]%Z [(0, 3)]%Z None).
    + intros row [<-|[]]. reflexivity.
    + cbn; lia.
    + left; reflexivity.
    + left. split; [discriminate|reflexivity].
    + right. left. exists 0%Z, 3%Z. split; [left; reflexivity|cbn; lia].
  - unfold residual_scatter, plot_residual_scatter. cbn [length Nat.eqb negb andb]. cbn [residual_pairs]. unfold residual. change (0 =? 0)%Z with true. change (3 =? 0)%Z with false. cbv iota.
    unfold slice_to. cbn. change (Pos.to_nat 2) with 2%nat. change (Pos.to_nat 1) with 1%nat. change (Pos.to_nat 3) with 3%nat. cbn. repeat f_equal; lra.
Qed.
(** Two samples, two bits, the pairs as two columns and as two rows. *)
Example c186_drawn_ex : forall rows, rows = [[0; 1]; [1; 2]; [0; 2]]%Z \/ rows = [[0; 1; 0]; [1; 2; 2]]%Z ->
  m_plotres [[6]; [3]] [[1; 1]; [0; 1]] 2 (Some ([4; 2], true)) (XGiven rows) (Some (1 / 2)) =
  Ok (1 / 2, [mkPanel [(6, 2); (3, 3)] LSignal (LResidual 1); mkPanel [(2, 0); (3, 1)] (LResidual 1) (LResidual 2); mkPanel [(6, 0); (3, 1)] LSignal (LResidual 2)]).
Proof.
  intros rows HR. rewrite (c186_drawn [[6]; [3]] [6; 3] [[1; 1]; [0; 1]] 2 [4; 2] (XGiven rows) [(0, 1); (1, 2); (0, 2)]%Z (Some (1 / 2))).
  - f_equal. f_equal. unfold panel_of, stage, bits_between. cbn. change (Pos.to_nat 2) with 2%nat. change (Pos.to_nat 1) with 1%nat. cbn. repeat (f_equal; try lra).
  - intros row [<-|[<-|[]]]; reflexivity.
  - cbn; lia.
  - right; reflexivity.
  - reflexivity.
  - destruct HR as [->| ->]; [left; split; [discriminate|reflexivity]|right; split; [discriminate|reflexivity]].
  - cbn [alpha_valid]. lra.
  - intros x y [E|[E|[E|[]]]]; injection E as <- <-; cbn; lia.
Qed.

(** ** C187: plotressin *)
Lemma rows_matrix a : matrix_of (m_m a) (rows_of a).
Proof. intros row H. apply in_map_iff in H. destruct H as (i & <- & _). rewrite map_length, seq_length. reflexivity. Qed.
Lemma rows_between a w t k : (t < m_n a)%nat -> (k <= m_m a)%nat -> bits_between (nth t (rows_of a) []) (map w (seq 0 (m_m a))) 0 k = rsum k (fun j => m_at a t j * w j).
Proof.
  intros Ht Hk. unfold rows_of. rewrite (nth_map_in _ _ _ 0%nat), seq_nth by (rewrite ?seq_length; exact Ht). cbn [Nat.add]. unfold bits_between. rewrite Nat.sub_0_r. apply rsum_ext. intros j Hj. cbn [Nat.add].
  rewrite !(nth_map_in _ _ _ 0%nat) by (rewrite seq_length; lia). rewrite seq_nth by lia. reflexivity.
Qed.
(** The signal plotted is the fitted tone with its offset, and the weights are the calibrated ones. *)
Lemma c187_drawn lin rank bits0 xy freq order alpha a l : m_plotressin lin rank bits0 xy freq order alpha = Ok (Some (a, l)) ->
  let bits := McalModel.m_orient true bits0 in let n := m_n bits in let m := m_m bits in
  exists c d ps, m_wcalsin lin rank bits freq (1 / 2) (1 / 10 ^ 12) 100 order false true true [] = Ok (Some c) /\ mc_sets c = [d] /\ m_pairs m xy = Ok ps /\ a = scatter_alpha alpha n /\ length l = length ps /\
  forall k x y e, (k < length ps)%nat -> nth k ps (0, 0)%Z = (x, y) ->
    pn_points (nth k l e) = map (fun t => (ms_ideal d t + mc_offset c - rsum (Z.to_nat x) (fun j => m_at bits t j * mc_weight c j), ms_ideal d t + mc_offset c - rsum (Z.to_nat y) (fun j => m_at bits t j * mc_weight c j))) (seq 0 n) /\
    (x = Z.of_nat m -> forall t, (t < n)%nat -> fst (nth t (pn_points (nth k l e)) (0, 0)) = - ms_err d t) /\
    (y = Z.of_nat m -> forall t, (t < n)%nat -> snd (nth t (pn_points (nth k l e)) (0, 0)) = - ms_err d t).
Proof.
  intros E bits n m. unfold m_plotressin in E. fold bits in E. cbv zeta in E. fold n m in E. destruct (m_pairs m xy) as [ps|] eqn:EP; [|discriminate E]. cbn [bind] in E.
  destruct (m_wcalsin lin rank bits freq (1 / 2) (1 / 10 ^ 12) 100 order false true true []) as [[c|]|] eqn:EC; cbn [bind] in E; try discriminate E.
  destruct (c174_invariants _ _ _ _ _ _ _ _ _ _ _ _ _ EC) as (d & f & ca & sb & S1 & _ & _ & PC & _ & _ & ER & _).
  assert (OI : McalModel.m_orient true bits = bits).
  { unfold bits, McalModel.m_orient. cbn [andb]. destruct (Nat.ltb_spec (m_n bits0) (m_m bits0)) as [A|A]; [cbn [transpose m_n m_m]; destruct (Nat.ltb_spec (m_m bits0) (m_n bits0)); [lia|reflexivity]|destruct (Nat.ltb_spec (m_n bits0) (m_m bits0)); [lia|reflexivity]]. }
  rewrite OI in PC. assert (NP : (0 < n)%nat).
  { unfold m_wcalsin in EC. rewrite OI in EC. destruct (_ || _)%bool in EC; [discriminate EC|]. cbn [raise_if] in EC. cbv zeta in EC. fold n m in EC. destruct (Nat.eqb_spec (n * m) 0) as [Z|Z]; [discriminate EC|]. destruct n; [cbn in Z; lia|lia]. }
  match type of E with bind ?r _ = _ => destruct r as [[a' l']|] eqn:EM; [|discriminate E] end. cbn [bind] in E. injection E as -> ->. set (s := map (fun t => ms_ideal (first_set c) t + mc_offset c) (seq 0 n)) in *.
  assert (FS : first_set c = d) by (unfold first_set; rewrite S1; reflexivity).
  assert (LR : length (rows_of bits) = n) by (unfold rows_of; rewrite map_length, seq_length; reflexivity). assert (LS : length s = n) by (unfold s; rewrite map_length, seq_length; reflexivity).
  set (w := map (mc_weight c) (seq 0 m)) in *. assert (LW : length w = m) by (unfold w; rewrite map_length, seq_length; reflexivity).
  unfold m_plotres in EM. cbv zeta in EM. rewrite (m_signal_samples [s] s) in EM by (try (left; reflexivity); lia). rewrite LS, LR, Nat.eqb_refl in EM. cbn [bind] in EM. rewrite EP in EM. cbn [bind] in EM.
  destruct (m_alpha alpha n) as [av|] eqn:EA; [|discriminate EM]. cbn [bind] in EM. rewrite m_panels_is in EM by (try apply rows_matrix; lia). destruct (forallb (fits m w) ps) eqn:F; [|discriminate EM]. cbn [bind] in EM. injection EM as <- <-.
  exists c, d, ps. split; [reflexivity|]. split; [exact S1|]. split; [reflexivity|]. split. { destruct alpha as [v|]; cbn [m_alpha scatter_alpha] in *; [destruct (_ || _)%bool in EA; [discriminate|]|]; injection EA as <-; reflexivity. }
  split; [apply map_length|]. intros k x y e Hk Ek. assert (FK : (Z.to_nat x <= m /\ Z.to_nat y <= m)%nat).
  { rewrite forallb_forall in F. assert (IK : In (x, y) ps) by (rewrite <- Ek; apply nth_In; exact Hk). specialize (F _ IK). unfold fits in F. cbn [fst snd] in F. repeat rewrite andb_true_iff in F. rewrite !Nat.leb_le in F. lia. }
  assert (P : pn_points (nth k (map (panel_of s (rows_of bits) w) ps) e) = map (fun t => (ms_ideal d t + mc_offset c - rsum (Z.to_nat x) (fun j => m_at bits t j * mc_weight c j), ms_ideal d t + mc_offset c - rsum (Z.to_nat y) (fun j => m_at bits t j * mc_weight c j))) (seq 0 n)).
  { rewrite (nth_map_in _ _ _ (0, 0)%Z) by exact Hk. rewrite Ek. unfold panel_of. cbn [pn_points fst snd]. unfold stage. rewrite combine_maps, LS. apply map_ext_in. intros t Ht. apply in_seq in Ht. unfold w. fold m. rewrite !rows_between by (fold n m; lia).
    assert (ES : nth t s 0 = ms_ideal d t + mc_offset c) by (unfold s; rewrite (nth_map_in _ _ _ 0%nat), seq_nth by (rewrite ?seq_length; lia); rewrite FS; reflexivity). rewrite ES. reflexivity. }
  split; [exact P|]. rewrite P. split; intros EM' t Ht; rewrite (nth_map_in _ _ _ 0%nat), seq_nth by (rewrite ?seq_length; lia); cbn [Nat.add fst snd]; rewrite EM', Nat2Z.id, ER, PC; unfold output; fold m; ring.
Qed.
(** A capture whose bits, with some weights, add up to a tone: after all bits nothing is left, and before that the residual is the part of
    the tone the bits have not covered yet, in units of the tone's amplitude. *)
Lemma c187_true lin rank bits f order alpha w off a b : let H := m_order order in let m := m_m bits in let n := m_n bits in
  least_squares lin -> rank_correct rank -> 0 < f -> 0 < order -> (0 < m <= n)%nat -> alpha_valid alpha ->
  true_weights bits H f w off a b -> identifiable bits H f w off a b -> a 0%nat <> 0 \/ b 0%nat <> 0 ->
  exists l s, m_plotressin lin rank bits XRes f order alpha = Ok (Some (scatter_alpha alpha n, l)) /\ (s = 1 \/ s = -1) /\ length l = m /\
  forall k e, (k < m)%nat -> pn_points (nth k l e) = map (fun t => (s * (tone H off a b f t - rsum k (fun j => m_at bits t j * w j)) / amplitude (a 0%nat) (b 0%nat), 0)) (seq 0 n).
Proof.
  intros H m n LS RC F OR M AV T ID NZ. assert (TN : 0 < 1 / 10 ^ 12) by (apply Rdiv_lt_0_compat; [lra|apply pow_lt; lra]).
  destruct (c174_recovers lin rank bits f (1 / 2) (1 / 10 ^ 12) 100 order true true [] w off a b LS RC F ltac:(lra) TN ltac:(lia) OR M T ID NZ) as (c & d & s & EC & S1 & _ & SS & _ & _ & W & O & Q).
  assert (OI : McalModel.m_orient true bits = bits) by (apply m_orient_id; fold m n; lia). pose proof (amplitude_pos _ _ NZ) as AP. set (A := amplitude (a 0%nat) (b 0%nat)) in *.
  assert (E : exists l, m_plotressin lin rank bits XRes f order alpha = Ok (Some (scatter_alpha alpha n, l))).
  { unfold m_plotressin. cbv zeta. rewrite OI. cbn [m_pairs bind]. rewrite EC. cbn [bind]. rewrite (c186_drawn _ (map (fun t => ms_ideal (first_set c) t + mc_offset c) (seq 0 (m_n bits))) _ _ _ XRes (map (fun k => (Z.of_nat k, Z.of_nat (m_m bits))) (seq 0 (m_m bits))) alpha).
    - cbn [bind]. unfold rows_of. rewrite map_length, seq_length. eexists. reflexivity.
    - apply rows_matrix.
    - unfold rows_of. rewrite map_length, seq_length. fold n. lia.
    - left. reflexivity.
    - unfold rows_of. rewrite !map_length. reflexivity.
    - reflexivity.
    - exact AV.
    - intros x y I. apply in_map_iff in I. destruct I as (k & E & I). apply in_seq in I. injection E as <- <-. rewrite map_length, seq_length, Nat.min_id. lia. }
  destruct E as [l E]. exists l, s. split; [exact E|]. split; [exact SS|]. destruct (c187_drawn _ _ _ _ _ _ _ _ _ E) as (c' & d' & ps & EC' & S1' & EP & _ & LL & P). rewrite OI in *. rewrite EC in EC'. apply Ok_inj in EC'. injection EC' as <-. rewrite S1 in S1'. injection S1' as <-.
  cbn [m_pairs] in EP. apply Ok_inj in EP. subst ps. rewrite map_length, seq_length in LL, P. fold m n in LL, P. split; [exact LL|]. intros k e Hk.
  destruct (P k (Z.of_nat k) (Z.of_nat m) e Hk) as (PP & _). { rewrite (nth_map_in _ _ _ 0%nat), seq_nth by (rewrite ?seq_length; exact Hk). reflexivity. }
  rewrite PP. apply map_ext_in. intros t Ht. apply in_seq in Ht. rewrite !Nat2Z.id. destruct (Q t ltac:(fold n; lia)) as (_ & Q2 & _). rewrite Q2, O.
  assert (RS : forall k', (k' <= m)%nat -> rsum k' (fun j => m_at bits t j * mc_weight c j) = s / A * rsum k' (fun j => m_at bits t j * w j)).
  { intros k' Hk'. rewrite <- rsum_scale. apply rsum_ext. intros j Hj. rewrite W by (fold m; lia). fold A. field. lra. }
  rewrite !RS by lia. assert (TW : rsum m (fun j => m_at bits t j * w j) = tone H off a b f t) by (apply (T t); fold n; lia). rewrite TW.
  assert (TO : tone H off a b f t = off + tone H 0 a b f t) by (unfold tone; ring). fold H. fold A. rewrite TO. f_equal; field; lra.
Qed.
Example c187_true_ex : exists l, m_plotressin gs_lstsq gs_rank ex_bits XRes (1 / 4) 1 (Some (1 / 2)) = Ok (Some (1 / 2, l)) /\ length l = 3%nat /\
  forall p q, In p l -> In q (pn_points p) -> snd q = 0.
Proof.
  destruct (c187_true gs_lstsq gs_rank ex_bits (1 / 4) 1 (Some (1 / 2)) ex_w (3 / 2) ex_a ex_b) as (l & s & E & _ & L & P);
    try (rewrite m_order_1); try (exact gs_least_squares || exact gs_rank_correct || exact ex_true || exact ex_identifiable || lra || (cbn; lia)).
  { cbn [alpha_valid]. lra. } { left. unfold ex_a. lra. }
  exists l. split; [exact E|]. split; [exact L|]. intros p q I J. destruct (In_nth _ _ p I) as (k & K & EK). rewrite L in K. specialize (P k p K). rewrite EK in P. rewrite P in J. apply in_map_iff in J. destruct J as (t & <- & _). reflexivity.
Qed.

(** ** C188: bitact *)
Lemma m_bitact_usage bits B an : ma_usage (m_bitact bits B an) = bit_activity bits B.
Proof. unfold m_bitact, bit_activity, lmean. cbv zeta. cbn [ma_usage]. apply map_ext. intros j. rewrite map_length. reflexivity. Qed.
(** The bars are the Python function's: the share of ones of every bit in percent. *)
Lemma c188_usage bits B an : let g := m_bitact bits B an in ma_usage g = bit_activity bits B /\ ma_bars g = map (fun j => (S j, nth j (bit_activity bits B) 0)) (seq 0 B) /\ ma_ideal g = 50 /\
  (forall j, (j < B)%nat -> fst (ma_xlim g) <= INR (S j) - 1 / 2 /\ INR (S j) + 1 / 2 <= snd (ma_xlim g)) /\
  (bits <> [] -> binary_of B bits -> forall j, (j < B)%nat -> nth j (ma_usage g) 0 = percent_of (fun row => Reqb (nth j row 0) 1) bits /\ fst (ma_ylim g) <= nth j (ma_usage g) 0 <= snd (ma_ylim g)).
Proof.
  intros g. assert (U : ma_usage g = bit_activity bits B) by apply m_bitact_usage. split; [exact U|]. split. { rewrite <- U. reflexivity. } split; [reflexivity|]. split.
  - intros j Hj. unfold g, m_bitact. cbv zeta. cbn [ma_xlim fst snd]. apply (le_INR (S j)) in Hj. pose proof (pos_INR j). rewrite S_INR in *. lra.
  - intros NE BI j Hj. rewrite U. destruct (c72_percentage bits B j NE BI Hj) as (_ & P & Q). split; [exact P|]. exact Q.
Qed.
(** With annotations every bit above 95 or below 5 percent carries its number, three above the bar's top, and no other bit does. *)
Lemma c188_marks bits B mk : In mk (ma_marks (m_bitact bits B true)) <-> exists j, (j < B)%nat /\ let v := nth j (bit_activity bits B) 0 in
  (95 < v \/ v < 5) /\ mk = mkMark (S j) (v + 3) (fixed 1 v).
Proof.
  change (bit_activity bits B) with (bit_activity bits B). rewrite <- (m_bitact_usage bits B true). unfold m_bitact. cbv zeta. cbn [ma_marks ma_usage]. set (u := map _ (seq 0 B)). rewrite in_flat_map. split.
  - intros (j & J & I). apply in_seq in J. exists j. split; [lia|]. destruct (Rltb_spec 95 (nth j u 0)) as [A|A]; [destruct I as [<-|[]]; split; [left; exact A|reflexivity]|].
    destruct (Rltb_spec (nth j u 0) 5) as [C|C]; [destruct I as [<-|[]]; split; [right; exact C|reflexivity]|destruct I].
  - intros (j & J & A & ->). exists j. split; [apply in_seq; lia|]. destruct (Rltb_spec 95 (nth j u 0)) as [D|D]; [left; reflexivity|]. destruct (Rltb_spec (nth j u 0) 5) as [C|C]; [left; reflexivity|lra].
Qed.
Lemma c188_silent bits B : ma_marks (m_bitact bits B false) = [].
Proof. reflexivity. Qed.
(** The text of a bit above 97 percent starts above the axis, which ends at 100. *)
Lemma c188_marks_inside bits B mk : bits <> [] -> binary_of B bits -> In mk (ma_marks (m_bitact bits B true)) -> (mk_at mk <= snd (ma_ylim (m_bitact bits B true)) <-> nth (mk_bit mk - 1) (bit_activity bits B) 0 <= 97).
Proof. intros NE BI I. apply c188_marks in I. destruct I as (j & J & A & ->). cbn [mk_at mk_bit]. replace (S j - 1)%nat with j by lia. unfold m_bitact. cbv zeta. cbn [ma_ylim snd]. cbv zeta in A. split; intros; lra. Qed.
Lemma c188_marks_refuted : exists bits mk, In mk (ma_marks (m_bitact bits 2 true)) /\ mk = mkMark 1 103 (Num 1 1000) /\ snd (ma_ylim (m_bitact bits 2 true)) < mk_at mk.
Proof.
  exists [[1; 0]; [1; 1]], (mkMark 1 103 (Num 1 1000)). assert (U : nth 0 (bit_activity [[1; 0]; [1; 1]] 2) 0 = 100) by (unfold bit_activity, lmean; cbn; lra). split; [|split; [reflexivity|cbn; lra]]. apply c188_marks. exists 0%nat. split; [lia|]. cbv zeta. rewrite U. split; [left; lra|].
  f_equal; [lra|]. symmetry. apply fixed_exact. lra.
Qed.
Example c188_usage_ex : ma_usage (m_bitact [[1; 1]; [0; 1]; [0; 0]; [0; 1]] 2 true) = [25; 75] /\ ma_marks (m_bitact [[1; 1]; [0; 1]; [0; 0]; [0; 1]] 2 true) = [].
Proof.
  assert (U : ma_usage (m_bitact [[1; 1]; [0; 1]; [0; 0]; [0; 1]] 2 true) = [25; 75]) by (rewrite m_bitact_usage; apply c72_values_ex). split; [exact U|]. rewrite m_bitact_usage in U.
  destruct (ma_marks _) as [|mk t] eqn:E; [reflexivity|]. exfalso. assert (I : In mk (ma_marks (m_bitact [[1; 1]; [0; 1]; [0; 0]; [0; 1]] 2 true))) by (rewrite E; left; reflexivity). apply c188_marks in I. destruct I as (j & J & A & _). cbv zeta in A. rewrite U in A. destruct j as [|[|j]]; [| |lia]; cbn [nth] in A; lra.
Qed.

(** ** The spectrum does not depend on the unit of the record (C181) *)
Lemma range_scale c x l : c <> 0 -> lmax1 (c * x) (map (fun v => c * v) l) - lmin1 (c * x) (map (fun v => c * v) l) = Rabs c * (lmax1 x l - lmin1 x l).
Proof.
  intros C. unfold lmax1, lmin1. destruct (Rlt_le_dec 0 c) as [P|P].
  - rewrite Rabs_right by lra. assert (A : fold_right Rmax (c * x) (map (fun v => c * v) l) = c * fold_right Rmax x l) by (induction l as [|y l IH]; [reflexivity|]; cbn [map fold_right]; rewrite IH, RmaxRmult by lra; reflexivity).
    assert (B : fold_right Rmin (c * x) (map (fun v => c * v) l) = c * fold_right Rmin x l).
    { clear A. induction l as [|y l IH]; [reflexivity|]. cbn [map fold_right]. rewrite IH. unfold Rmin. destruct (Rle_dec (c * y) _), (Rle_dec y _); nra. }
    rewrite A, B. ring.
  - assert (N : c < 0) by lra. rewrite Rabs_left by exact N.
    assert (A : fold_right Rmax (c * x) (map (fun v => c * v) l) = c * fold_right Rmin x l).
    { induction l as [|y l IH]; [reflexivity|]. cbn [map fold_right]. rewrite IH. unfold Rmin, Rmax. destruct (Rle_dec (c * y) _), (Rle_dec y _); nra. }
    assert (B : fold_right Rmin (c * x) (map (fun v => c * v) l) = c * fold_right Rmax x l).
    { clear A. induction l as [|y l IH]; [reflexivity|]. cbn [map fold_right]. rewrite IH. unfold Rmin, Rmax. destruct (Rle_dec (c * y) _), (Rle_dec y _); nra. }
    rewrite A, B. ring.
Qed.
Lemma silent_scale c r : c <> 0 -> m_silent (map (fun v => c * v) r) = m_silent r.
Proof.
  intros C. unfold m_silent. induction r as [|x r IH]; [reflexivity|]. cbn [map forallb]. rewrite IH. f_equal. destruct (Reqb_spec (c * x) 0), (Reqb_spec x 0); try reflexivity; exfalso; nra.
Qed.
Lemma lmean_scale c r : lmean (map (fun v => c * v) r) = c * lmean r.
Proof. unfold lmean. rewrite map_length. assert (E : lsum (map (fun v => c * v) r) = c * lsum r) by (induction r as [|x r IH]; [cbn; ring|]; cbn [map]; unfold lsum in *; cbn [fold_right] in *; rewrite IH; ring). rewrite E. unfold Rdiv. ring. Qed.
Lemma run_sign c fs w r : c <> 0 -> fs <> 0 -> m_run (Rabs c * fs) w (map (fun v => c * v) r) = map (fun v => c / Rabs c * v) (m_run fs w r).
Proof.
  intros C F. assert (A : Rabs c <> 0) by (apply Rabs_no_R0; exact C). unfold m_run. cbv zeta. set (q := sqrt _). rewrite map_map.
  assert (E : map (fun v => c * v / (Rabs c * fs)) r = map (fun v => c / Rabs c * v) (map (fun v => v / fs) r)) by (rewrite map_map; apply map_ext; intros v; field; split; assumption).
  rewrite E, lmean_scale. set (t := map (fun v => v / fs) r). set (m := lmean t). clearbody t m q. clear E. revert w. induction t as [|x t IH]; intros w; [reflexivity|]. destruct w as [|v w]; [reflexivity|]. cbn [map map2]. rewrite IH. f_equal. unfold Rdiv. ring.
Qed.
(** With automatic full scale, multiplying a record by a factor other than 0 changes nothing. *)
Lemma c181_scale c r fs wt side osr harmonic nthd nf assumed cutoff : c <> 0 -> m_full_scale [r] <> 0 ->
  m_plotspec [map (fun v => c * v) r] fs None false wt side osr harmonic nthd nf assumed cutoff = m_plotspec [r] fs None false wt side osr harmonic nthd nf assumed cutoff.
Proof.
  intros C F. assert (O : forall q : list R, m_orient [q] = [q]).
  { intros q. unfold m_orient. change (length [q]) with 1%nat. change (1 <? 1)%nat with false. rewrite andb_false_r. destruct (Nat.ltb_spec 1 (ncols [q])); cbn [andb]; try reflexivity. }
  unfold m_plotspec. cbv zeta. rewrite !O. assert (NC : ncols [map (fun v => c * v) r] = ncols [r]) by (unfold ncols; cbn [hd]; apply map_length). rewrite NC.
  assert (FS : m_full_scale [map (fun v => c * v) r] = Rabs c * m_full_scale [r]).
  { unfold m_full_scale. cbn [concat]. rewrite !app_nil_r. destruct r as [|x l]; [cbn [map]; ring|]. cbn [map]. apply range_scale, C. }
  rewrite FS. set (N := ncols [r]). set (nb := m_inband N osr). set (w := m_window wt N).
  assert (SP : m_spectrum false (Rabs c * m_full_scale [r]) w N nb [map (fun v => c * v) r] = m_spectrum false (m_full_scale [r]) w N nb [r]).
  { unfold m_spectrum, m_heard. cbv zeta. cbn [filter]. rewrite silent_scale by exact C. destruct (negb (m_silent r)); [|reflexivity]. cbn [map length Nat.eqb]. f_equal. apply map_ext. intros b. rewrite run_sign by assumption.
    unfold m_power_bin. cbn [map length]. rewrite BandProofs.rfft_scale, Cmod_scale. rewrite Rpow_mult_distr, pow2_abs. replace ((c / Rabs c) ^ 2) with 1; [rewrite Rmult_1_l; reflexivity|].
    pose proof (Rabs_no_R0 c C) as A. pose proof (pow2_abs c) as Q. assert (Q2 : (c / Rabs c) ^ 2 = c ^ 2 / Rabs c ^ 2) by (field; exact A). rewrite Q2, Q. field. exact C. }
  rewrite SP. reflexivity.
Qed.

(** ** C189: bitsweep *)
Lemma prefix_same A B k : m_n A = m_n B -> (forall i j, (i < m_n A)%nat -> (j < k)%nat -> m_at A i j = m_at B i j) -> m_prefix A k = m_prefix B k.
Proof.
  intros N H. unfold m_prefix. rewrite <- N. f_equal. extensionality i. extensionality j. destruct (Nat.ltb_spec i (m_n A)), (Nat.ltb_spec j k); cbn [andb]; try reflexivity. apply H; assumption.
Qed.
(** One value per bit count, in order; with a given frequency each is made from that many leading columns only. *)
Lemma c189_entries lin rank bits0 f order harmonic osr window : let bits := McalModel.m_orient true bits0 in 0 < f -> 0 < order -> (0 < harmonic)%Z -> 0 < osr ->
  exists e, m_bitsweep lin rank bits0 f order harmonic osr window = Ok e /\ length e = m_m bits /\
  forall k d, (1 <= k <= m_m bits)%nat -> nth (k - 1) e d = m_sweep_entry lin rank (m_prefix bits k) f order harmonic osr (window (m_n bits)).
Proof.
  intros bits F O H Q. unfold m_bitsweep. fold bits. cbv zeta. destruct (Rltb_spec f 0); [lra|]. destruct (Rleb_spec order 0); [lra|]. destruct (Z.leb_spec harmonic 0); [lia|]. destruct (Rleb_spec osr 0); [lra|]. cbn [orb raise_if].
  destruct (Reqb_spec f 0); [lra|]. cbn [bind]. eexists. split; [reflexivity|]. split; [rewrite map_length, seq_length; reflexivity|]. intros k d K. rewrite (nth_map_in _ _ _ 0%nat) by (rewrite seq_length; lia). rewrite seq_nth by lia. replace (1 + (k - 1))%nat with k by lia. reflexivity.
Qed.
Lemma c189_prefix lin rank A B f order harmonic osr window k eA eB d : McalModel.m_orient true A = A -> McalModel.m_orient true B = B -> 0 < f -> 0 < order -> (0 < harmonic)%Z -> 0 < osr ->
  m_n A = m_n B -> (1 <= k <= Nat.min (m_m A) (m_m B))%nat -> (forall i j, (i < m_n A)%nat -> (j < k)%nat -> m_at A i j = m_at B i j) ->
  m_bitsweep lin rank A f order harmonic osr window = Ok eA -> m_bitsweep lin rank B f order harmonic osr window = Ok eB -> nth (k - 1) eA d = nth (k - 1) eB d.
Proof.
  intros OA OB F O H Q N K S EA EB. destruct (c189_entries lin rank A f order harmonic osr window F O H Q) as (a & Ea & _ & PA). destruct (c189_entries lin rank B f order harmonic osr window F O H Q) as (b & Eb & _ & PB).
  rewrite OA in PA. rewrite OB in PB. rewrite EA in Ea. rewrite EB in Eb. apply Ok_inj in Ea. apply Ok_inj in Eb. subst a b. rewrite PA, PB by lia. rewrite (prefix_same A B k N S), N. reflexivity.
Qed.
Lemma c189_refuses lin rank bits f order harmonic osr window : f < 0 \/ order <= 0 \/ (harmonic <= 0)%Z \/ osr <= 0 -> m_bitsweep lin rank bits f order harmonic osr window = Err RuntimeError.
Proof.
  intros C. unfold m_bitsweep. cbv zeta. destruct (Rltb_spec f 0); [reflexivity|]. destruct (Rleb_spec order 0); [reflexivity|]. destruct (Z.leb_spec harmonic 0); [reflexivity|]. destruct (Rleb_spec osr 0); [reflexivity|].
  exfalso. destruct C as [C|[C|[C|C]]]; lra || lia.
Qed.
(** As long as the leading columns do not change the value is NaN: there is nothing to calibrate. *)
Lemma c189_constant lin rank bits f order harmonic osr window e k d : rank_correct rank -> McalModel.m_orient true bits = bits -> 0 < f -> 0 < order -> (0 < harmonic)%Z -> 0 < osr -> (1 <= k <= m_m bits)%nat -> (m_m bits <= m_n bits)%nat ->
  (forall i j, (i < m_n bits)%nat -> (j < k)%nat -> m_at bits i j = m_at bits 0 j) -> m_bitsweep lin rank bits f order harmonic osr window = Ok e -> nth (k - 1) e d = NaN.
Proof.
  intros RC OI F O H Q K M S E. destruct (c189_entries lin rank bits f order harmonic osr window F O H Q) as (a & Ea & _ & P). rewrite OI in P. rewrite E in Ea. apply Ok_inj in Ea. subst a. rewrite P by exact K. unfold m_sweep_entry.
  rewrite c174_constant_bits; [reflexivity|exact RC|]. rewrite m_orient_id by (cbn; lia). cbn [m_prefix m_n m_m m_at]. intros i j I J. destruct (Nat.ltb_spec i (m_n bits)); [|lia]. destruct (Nat.ltb_spec j k); [|lia]. destruct (Nat.ltb_spec 0 (m_n bits)); [|lia]. cbn [andb]. apply S; assumption.
Qed.
(** If the leading columns add up to a tone, the value is the ENOB of that tone's own spectrum. *)
Lemma c189_exact lin rank bits f order harmonic osr window e k d w off a b : let H := m_order order in let sub := m_prefix bits k in
  least_squares lin -> rank_correct rank -> McalModel.m_orient true bits = bits -> 0 < f -> 0 < order -> (0 < harmonic)%Z -> 0 < osr -> (1 <= k <= m_m bits)%nat -> (m_m bits <= m_n bits)%nat ->
  true_weights sub H f w off a b -> identifiable sub H f w off a b -> a 0%nat <> 0 \/ b 0%nat <> 0 ->
  m_bitsweep lin rank bits f order harmonic osr window = Ok e -> let x := map (tone H off a b f) (seq 0 (m_n bits)) in m_full_scale [x] <> 0 ->
  nth (k - 1) e d = match m_plotspec [x] 1 None false (MGiven (window (m_n bits))) None osr harmonic 5 0 None 0 with Ok (Some r) => ms_enob r | _ => NaN end.
Proof.
  intros H sub LS RC OI F O HH Q K M T ID NZ E x FS. destruct (c189_entries lin rank bits f order harmonic osr window F O HH Q) as (a' & Ea & _ & P). rewrite OI in P. rewrite E in Ea. apply Ok_inj in Ea. subst a'. rewrite P by exact K. unfold m_sweep_entry. fold sub.
  assert (TN : 0 < 1 / 10 ^ 12) by (apply Rdiv_lt_0_compat; [lra|apply pow_lt; lra]). assert (MS : (0 < m_m sub <= m_n sub)%nat) by (cbn [sub m_prefix m_m m_n]; lia).
  destruct (c174_recovers lin rank sub f (1 / 2) (1 / 10 ^ 12) 100 order true true [] w off a b LS RC F ltac:(lra) TN ltac:(lia) O MS T ID NZ) as (c & s0 & s & EC & S1 & _ & SS & _ & _ & _ & _ & TQ). rewrite EC.
  pose proof (amplitude_pos _ _ NZ) as AP. set (A := amplitude (a 0%nat) (b 0%nat)) in *. assert (FSet : first_set c = s0) by (unfold first_set; rewrite S1; reflexivity). rewrite FSet. change (m_n sub) with (m_n bits).
  assert (EX : map (ms_postcal s0) (seq 0 (m_n bits)) = map (fun v => s / A * v) x).
  { unfold x. rewrite map_map. apply map_ext_in. intros t I. apply in_seq in I. destruct (TQ t ltac:(cbn [sub m_prefix m_n]; lia)) as (-> & _). fold H. unfold Rdiv. ring. }
  rewrite EX, c181_scale; [reflexivity| |exact FS]. destruct SS as [-> | ->]; apply Rmult_integral_contrapositive_currified; try lra; apply Rinv_neq_0_compat; lra.
Qed.
(** The figure is the Python one with the line of the largest value added. *)
Lemma c189_figure e g : plot_enob_sweep e = Ok g -> fst (m_sweep_figure e) = g /\
  (forall y t, snd (m_sweep_figure e) = Some (y, t) -> In (Fin y) e /\ (forall v, In (Fin v) e -> v <= y) /\ t = fixed 2 y) /\
  (snd (m_sweep_figure e) = None <-> forall v, ~ In (Fin v) e).
Proof.
  intros E. destruct (enob_plot_inv _ _ E) as (FN & NE & G). cbv zeta in G. set (v := flat_map (fun x => match x with Fin r => [r] | _ => [] end) e).
  assert (EV : map (fun x => match x with Fin r => r | _ => 0 end) (filter not_nan e) = v).
  { unfold v. clear -FN. induction e as [|x e IH]; [reflexivity|]. assert (IH' := IH (fun y I => FN y (or_intror I))). destruct (FN x (or_introl eq_refl)) as (N1 & N2). destruct x; cbn [filter not_nan map flat_map app]; try congruence; try (rewrite IH'; reflexivity). }
  assert (LV : length (filter not_nan e) = length v) by (rewrite <- EV, map_length; reflexivity). rewrite EV, LV in G.
  assert (IV : forall r, In r v <-> In (Fin r) e).
  { intros r. unfold v. rewrite in_flat_map. split; [intros (x & I & J); destruct x; cbn in J; try contradiction; destruct J as [->|[]]; exact I|intros I; exists (Fin r); split; [exact I|left; reflexivity]]. }
  unfold m_sweep_figure. fold v. cbv zeta. cbn [fst snd]. split; [|split].
  - rewrite G. destruct v as [|v0 vt]; cbn [length Nat.eqb negb]; f_equal; apply flat_map_ext; intros i; unfold delta_enob; rewrite Nat.add_1_r; reflexivity.
  - intros y t. destruct v as [|v0 vt] eqn:V; [discriminate|]. intros EQ. injection EQ as <- <-. rewrite <- V in *.
    assert (X : In (rmax_list v) v /\ forall r, In r v -> r <= rmax_list v) by (split; [apply rmax_list_in; rewrite V; discriminate|intros r I; apply fold_rmax_ge, I]).
    destruct X as (X1 & X2). split; [apply IV, X1|]. split; [|reflexivity]. intros r I. apply X2, IV, I.
  - destruct v as [|v0 vt] eqn:V; split; intros HH; try reflexivity; try discriminate HH. + intros r I. apply IV in I. destruct I. + exfalso. apply (HH v0). apply IV. left. reflexivity.
Qed.
Example c189_constant_ex : exists e, m_bitsweep gs_lstsq gs_rank (of_rows [[1; 0]; [1; 1]; [1; 1]; [1; 0]]) (1 / 4) 1 5 1 (fun n => repeat 1 n) = Ok e /\ length e = 2%nat /\ nth 0 e (Fin 0) = NaN.
Proof.
  set (bits := of_rows [[1; 0]; [1; 1]; [1; 1]; [1; 0]]). destruct (c189_entries gs_lstsq gs_rank bits (1 / 4) 1 5 1 (fun n => repeat 1 n)) as (e & E & L & _); try lra; try lia. exists e. split; [exact E|]. split; [exact L|].
  apply (c189_constant gs_lstsq gs_rank bits (1 / 4) 1 5 1 (fun n => repeat 1 n) e 1); try lra; try lia; try (cbn; lia); try exact E; [exact gs_rank_correct|reflexivity|].
  intros i j I J. cbn in I. assert (j = 0)%nat by lia. subst j. do 4 (destruct i as [|i]; [reflexivity|]). lia.
Qed.
Example c189_figure_ex : exists g, fst (m_sweep_figure [Fin 4; NaN; Fin 7]) = g /\ plot_enob_sweep [Fin 4; NaN; Fin 7] = Ok g /\ snd (m_sweep_figure [Fin 4; NaN; Fin 7]) = Some (7, Num 2 700).
Proof.
  destruct (proj2 (proj1 (c153_accepts [Fin 4; NaN; Fin 7]))) as [g G]. { split; [discriminate|]. intros x [<-|[<-|[<-|[]]]]; split; discriminate. }
  exists g. destruct (c189_figure _ _ G) as (E1 & _). split; [exact E1|]. split; [exact G|].
  assert (R : rmax_list [4; 7] = 7) by (unfold rmax_list; cbn; repeat (rewrite Rmax_right by lra) || rewrite Rmax_left by lra; try reflexivity; unfold Rmax; repeat destruct Rle_dec; lra).
  unfold m_sweep_figure. cbv zeta. cbn [flat_map app snd]. rewrite R. do 2 f_equal. apply fixed_exact. lra.
Qed.
