(** * Model of adctoolbox/calibration/.
    A matrix is its two dimensions and its entries; a vector is a function of the index.  scipy's
    lstsq and numpy's matrix_rank are arguments.  Not modelled: printing, dtype conversions, the
    automatic frequency estimate (its result is an argument). *)
From Verif Require Import Base.
Local Open Scope R_scope.

Definition vec := nat -> R.
Record mat := mkMat { m_n : nat; m_m : nat; m_at : nat -> nat -> R }.
(** np.column_stack, np.vstack, .T, np.ones((n,1)), the matrix with the given columns *)
Definition hcat (a b : mat) : mat := mkMat (m_n a) (m_m a + m_m b) (fun i j => if (j <? m_m a)%nat then m_at a i j else m_at b i (j - m_m a)).
Definition vcat (a b : mat) : mat := mkMat (m_n a + m_n b) (m_m a) (fun i j => if (i <? m_n a)%nat then m_at a i j else m_at b (i - m_n a) j).
Definition transpose (a : mat) : mat := mkMat (m_m a) (m_n a) (fun i j => m_at a j i).
Definition ones (n : nat) : mat := mkMat n 1 (fun _ _ => 1).
Definition zvec : vec := fun _ => 0.
Definition of_cols (n : nat) (cols : list vec) : mat := mkMat n (length cols) (fun i j => nth j cols zvec i).
Definition colm (a : mat) (j : nat) : vec := fun i => m_at a i j.
Definition vcat_all (m : nat) (l : list mat) : mat := fold_right vcat (mkMat 0 m (fun _ _ => 0)) l.
Definition rows_from (s len : nat) (a : mat) : mat := mkMat len (m_m a) (fun i j => m_at a (s + i) j).
Definition cols_from (s len : nat) (a : mat) : mat := mkMat (m_n a) len (fun i j => m_at a i (s + j)).
(** a @ x *)
Definition mv (a : mat) (x : vec) : vec := fun i => rsum (m_m a) (fun j => m_at a i j * x j).
Definition lstsq_fun := mat -> vec -> vec.
Definition rank_fun := mat -> nat.

(** ** calibrate_weight_sine_lite.py l.6-43 *)
Definition calibrate_weight_sine_lite (lstsq : lstsq_fun) (bits : mat) (freq : R) : result vec :=
  raise_if (Rltb (1 / 2) freq) ValueError
  (let phase := fun t : nat => 2 * PI * freq * INR t in
   let A := hcat (hcat bits (ones (m_n bits))) (of_cols (m_n bits) [fun t => sin (phase t)]) in
   let b := fun t => - cos (phase t) in
   let coeffs := lstsq A b in
   let sin_coeff := coeffs (m_m A - 1)%nat in
   let norm_factor := sqrt (1 + sin_coeff ^ 2) in
   let weights := fun j => coeffs j / norm_factor in
   Ok (if Rltb (rsum (m_m bits) weights) 0 then fun j => - weights j else weights)).

(** ** _prepare_input.py *)
(** l.67-107 the loop over the data sets. *)
Fixpoint prepare_loop (l : list mat) (bit_width : option nat) : result (list mat) :=
  match l with
  | [] => Ok []
  | s :: rest =>
      raise_if (m_n s * m_m s =? 0)%nat ValueError
      (let s' := if (m_n s <? m_m s)%nat then transpose s else s in
       raise_if (match bit_width with Some w => negb (m_m s' =? w)%nat | None => false end) ValueError
       (bind (prepare_loop rest (Some (match bit_width with Some w => w | None => m_m s' end))) (fun r => Ok (s' :: r))))
  end.
(** l.112-145 _setup_nominal_weights *)
Definition setup_nominal_weights (bit_width : nat) (w : option (list R)) : result (list R) :=
  match w with
  | None => Ok (map (fun i => 2 ^ (bit_width - 1 - i)) (seq 0 bit_width))
  | Some l => raise_if (negb (length l =? bit_width)%nat) ValueError (Ok l)
  end.
(** l.9-32: data sets, common bit width, nominal weights. *)
Definition prepare_input (bits_list : list mat) (w : option (list R)) : result (list mat * nat * list R) :=
  match bits_list with
  | [] => Err ValueError
  | _ => bind (prepare_loop bits_list None) (fun segs =>
         let bw := match segs with s :: _ => m_m s | [] => 0%nat end in
         bind (setup_nominal_weights bw w) (fun nw => Ok (segs, bw, nw)))
  end.

(** ** _patch_rank_deficiency.py *)
Definition vmean (n : nat) (v : vec) : R := rsum n v / INR n.
Definition vptp (n : nat) (v : vec) : R := match map v (seq 0 n) with [] => 0 | x :: l => lmax1 x l - lmin1 x l end.
(** l.83-91 *)
Definition correlation (n : nat) (a b : vec) : R :=
  let ac := fun i => a i - vmean n a in let bc := fun i => b i - vmean n b in
  let norm := sqrt (vmean n (fun i => ac i ^ 2)) * sqrt (vmean n (fun i => bc i ^ 2)) in
  if Rltb norm (1 / 10 ^ 15) then 0 else vmean n (fun i => ac i * bc i) / norm.
(** l.82-98 the first effective column that is (anti-)correlated with [col]. *)
Fixpoint find_correlated (n : nat) (col : vec) (eff : list vec) (idx : nat) : option nat :=
  match eff with
  | [] => None
  | e :: rest => if Rltb (Rabs (Rabs (correlation n col e) - 1)) (1 / 1000) then Some idx else find_correlated n col rest (S idx)
  end.
Fixpoint upd {A} (l : list A) (i : nat) (v : A) : list A := match l, i with [], _ => [] | _ :: t, O => v :: t | x :: t, S k => x :: upd t k v end.
Record patch_state := mkPatch { p_eff : list vec; p_founder : list nat; p_map : list (option nat); p_ratio : list R }.
(** l.57-104 one bit *)
Definition patch_step (rank : rank_fun) (n : nat) (nominal : list R) (st : patch_state) (bit_idx : nat) (col : vec) : patch_state :=
  if Rltb (vptp n col) (1 / 10 ^ 15) then mkPatch (p_eff st) (p_founder st) (p_map st ++ [None]) (p_ratio st ++ [0])
  else
    let current := hcat (ones n) (of_cols n (p_eff st)) in
    if (rank current <? rank (hcat current (of_cols n [col])))%nat
    then mkPatch (p_eff st ++ [col]) (p_founder st ++ [bit_idx]) (p_map st ++ [Some (length (p_eff st))]) (p_ratio st ++ [1])
    else match find_correlated n col (p_eff st) 0 with
         | None => mkPatch (p_eff st) (p_founder st) (p_map st ++ [None]) (p_ratio st ++ [0])
         | Some c => let ratio := nth bit_idx nominal 0 / nth (nth c (p_founder st) 0%nat) nominal 0 in
                     mkPatch (upd (p_eff st) c (fun i => nth c (p_eff st) zvec i + col i * ratio)) (p_founder st) (p_map st ++ [Some c]) (p_ratio st ++ [ratio])
         end.
(** l.3-108 *)
Definition patch_rank_deficiency (rank : rank_fun) (bits : mat) (nominal : list R) : patch_state :=
  if (m_m bits + 1 <=? rank (hcat bits (ones (m_n bits))))%nat
  then mkPatch (map (colm bits) (seq 0 (m_m bits))) (seq 0 (m_m bits)) (map Some (seq 0 (m_m bits))) (repeat 1 (m_m bits))
  else fold_left (fun st j => patch_step rank (m_n bits) nominal st j (colm bits j)) (seq 0 (m_m bits)) (mkPatch [] [] [] []).
(** l.110-152; indexing an empty array with 0 raises. *)
Definition recover_rank_deficiency (w_eff : vec) (p : patch_state) : result vec :=
  raise_if ((length (p_eff p) =? 0)%nat && negb (length (p_map p) =? 0)%nat) IndexError
  (Ok (fun j => match nth j (p_map p) None with None => 0 | Some c => w_eff c * nth j (p_ratio p) 0 end)).

(** ** _scale_columns_for_conditioning.py *)
Definition log10 (x : R) : R := ln x / ln 10.
(** l.12-13 the largest magnitude in a column *)
Definition max_abs (n : nat) (col : vec) : R := match map col (seq 0 n) with [] => 0 | x :: l => Rmax (Rabs (lmax1 x l)) (Rabs (lmin1 x l)) end.
(** l.16-20 *)
Definition bit_scale (n : nat) (col : vec) : Z := if Rleb (max_abs n col) (1 / 10 ^ 15) then 0%Z else Zfloor (log10 (max_abs n col + 1 / 10 ^ 15)).
(** l.27 *)
Definition scale_columns (bits : mat) : mat := mkMat (m_n bits) (m_m bits) (fun i j => m_at bits i j * powerRZ 10 (- bit_scale (m_n bits) (colm bits j))).
Definition bit_scales (bits : mat) : nat -> Z := fun j => bit_scale (m_n bits) (colm bits j).
(** l.34-75 *)
Definition recover_columns (coeffs : vec) (norm_factor : R) (scales : nat -> Z) : vec := fun j => coeffs j / norm_factor * powerRZ 10 (- scales j).

(** ** _lstsq_solver.py *)
(** l.7-50 *)
Definition cos_block (n : nat) (freq : R) (H : nat) : mat := mkMat n H (fun t h => cos (2 * PI * freq * (INR t * INR (S h)))).
Definition sin_block (n : nat) (freq : R) (H : nat) : mat := mkMat n H (fun t h => sin (2 * PI * freq * (INR t * INR (S h)))).
(** l.152-159 a block in its own columns, zero elsewhere *)
Definition pad_block (total k : nat) (a : mat) : mat :=
  mkMat (m_n a) total (fun i j => if (k * m_m a <=? j)%nat && (j <? (k + 1) * m_m a)%nat then m_at a i (j - k * m_m a) else 0).
Definition norm2 (n : nat) (v : vec) : R := sqrt (rsum n (fun i => v i ^ 2)).
(** l.61-99; column 0 of the first basis is moved to the right-hand side. *)
Definition dual_basis_lstsq (lstsq : lstsq_fun) (common cosb sinb offset : mat) (deriv : option mat) : vec * nat :=
  let extra := match deriv with Some d => hcat (hcat common offset) d | None => hcat common offset end in
  let drop0 a := cols_from 1 (m_m a - 1) a in
  let A1 := hcat (hcat extra (drop0 cosb)) sinb in
  let b1 := fun i => - m_at cosb i 0%nat in
  let c1 := lstsq A1 b1 in
  let err1 := norm2 (m_n common) (fun i => mv A1 c1 i - b1 i) in
  let A2 := hcat (hcat extra (drop0 sinb)) cosb in
  let b2 := fun i => - m_at sinb i 0%nat in
  let c2 := lstsq A2 b2 in
  let err2 := norm2 (m_n common) (fun i => mv A2 c2 i - b2 i) in
  if Rltb err1 err2 then (c1, 0%nat) else (c2, 1%nat).
Fixpoint blocks (f : nat -> R -> nat -> mat) (total H k : nat) (segs : list mat) (freqs : nat -> R) : list mat :=
  match segs with [] => [] | s :: r => pad_block total k (f (m_n s) (freqs k) H) :: blocks f total H (S k) r freqs end.
Fixpoint offset_rows (D k : nat) (segs : list mat) : list mat :=
  match segs with [] => [] | s :: r => mkMat (m_n s) D (fun _ j => if (j =? k)%nat then 1 else 0) :: offset_rows D (S k) r end.
Definition cos_basis (segs : list mat) (freqs : nat -> R) (H : nat) : mat := vcat_all (length segs * H) (blocks cos_block (length segs * H) H 0 segs freqs).
Definition sin_basis (segs : list mat) (freqs : nat -> R) (H : nat) : mat := vcat_all (length segs * H) (blocks sin_block (length segs * H) H 0 segs freqs).
Definition offset_matrix (segs : list mat) : mat := vcat_all (length segs) (offset_rows (length segs) 0 segs).
Definition stack (segs : list mat) : mat := vcat_all (match segs with s :: _ => m_m s | [] => 0%nat end) segs.
(** l.102-183 *)
Definition solve_known_freq (lstsq : lstsq_fun) (segs : list mat) (freqs : nat -> R) (H : nat) : vec * nat :=
  dual_basis_lstsq lstsq (stack segs) (cos_basis segs freqs H) (sin_basis segs freqs H) (offset_matrix segs) None.
(** l.284-317 the derivative column of data set k, from the coefficients of the plain solve. *)
Definition deriv_col (coeffs : vec) (choice bw D H k n : nat) (freq : R) : vec :=
  let hs := (bw + D)%nat in let unity := (D * H - 1)%nat in
  let cc := fun h => if (choice =? 0)%nat then (match h with O => 1 | S h' => coeffs (hs + k * (H - 1) + h')%nat end) else coeffs (hs + unity + k * H + h)%nat in
  let sc := fun h => if (choice =? 0)%nat then coeffs (hs + unity + k * H + h)%nat else coeffs (hs + (k * H) - 1 + h)%nat in
  fun t => rsum H (fun h => - (2 * PI) * (cc h * INR (S h)) * INR t * sin (2 * PI * freq * INR t * INR (S h))
                            + 2 * PI * (sc h * INR (S h)) * INR t * cos (2 * PI * freq * INR t * INR (S h))) / INR n.
Fixpoint deriv_blocks (coeffs : vec) (choice bw D H k : nat) (segs : list mat) (freqs : nat -> R) : list mat :=
  match segs with
  | [] => []
  | s :: r => mkMat (m_n s) D (fun t j => if (j =? k)%nat then deriv_col coeffs choice bw D H k (m_n s) (freqs k) t else 0) :: deriv_blocks coeffs choice bw D H (S k) r freqs
  end.
Definition total_cols (bw D H : nat) : nat := (bw + D + D + (D * H - 1) + D * H)%nat.
(** l.265-361 one iteration at the frequencies [freqs]: coefficients, choice, raw corrections
    (taken from the last D coefficients, l.340), relative error. *)
Definition search_step (lstsq : lstsq_fun) (segs : list mat) (H : nat) (lr : R) (freqs : nat -> R) : vec * nat * vec * R :=
  let D := length segs in let bw := m_m (stack segs) in
  let s0 := solve_known_freq lstsq segs freqs H in
  let dm := vcat_all D (deriv_blocks (fst s0) (snd s0) bw D H 0 segs freqs) in
  let s1 := dual_basis_lstsq lstsq (stack segs) (cos_basis segs freqs H) (sin_basis segs freqs H) (offset_matrix segs) (Some dm) in
  let raw := fun k => fst s1 (total_cols bw D H - D + k)%nat in
  let w0 := sqrt (1 + fst s1 (bw + D + (D * H - 1))%nat ^ 2) in
  let n := m_n (stack segs) in
  let relerr := sqrt (rsum n (fun i => mv dm (fun k => raw k * lr) i ^ 2) / INR n) / w0 in
  (fst s1, snd s1, raw, relerr).
(** l.265-363 the loop; [left] iterations remain after this one; max_iter = 0 would raise. *)
Fixpoint search_loop (lstsq : lstsq_fun) (segs : list mat) (H : nat) (lr reltol : R) (left : nat) (freqs : nat -> R) : (nat -> R) * vec * nat :=
  let '(coeffs, choice, raw, relerr) := search_step lstsq segs H lr freqs in
  if Rltb relerr reltol then (freqs, coeffs, choice)
  else match left with
       | O => (freqs, coeffs, choice)
       | S l => search_loop lstsq segs H lr reltol l (fun k => freqs k + raw k * lr / INR (m_n (nth k segs (mkMat 0 0 (fun _ _ => 0)))))
       end.

(** ** _post_process.py *)
(** l.100-137 *)
Definition reconstruct_sine (sol : vec) (k H D harm_start choice : nat) (cosk sink : mat) (norm_factor : R) : vec :=
  let unity := (D * H - 1)%nat in
  let first := fun h => match h with O => 1 | S h' => sol (harm_start + k * (H - 1) + h')%nat end in
  let second := fun h => sol (harm_start + unity + k * H + h)%nat in
  let cc := if (choice =? 0)%nat then first else second in
  let sc := if (choice =? 0)%nat then second else first in
  fun i => - (mv cosk cc i + mv sink sc i) / norm_factor.
Record data_set_result := mkDs { r_calibrated : vec; r_ideal : vec; r_error : vec; r_sndr : xr }.
Record cal_result := mkCal { r_weight : vec; r_offset : R; r_sets : list data_set_result; r_freqs : nat -> R }.
(** l.64-67; -inf when the ideal signal is identically zero. *)
Definition sndr_db (n : nat) (ideal err : vec) : xr :=
  let p_sig := vmean n (fun i => ideal i ^ 2) in let p_noise := vmean n (fun i => err i ^ 2) in
  if Rltb 0 p_noise then (if Rltb 0 p_sig then Fin (10 * log10 (p_sig / p_noise)) else NInf) else Fin 200.
(** l.67 enob_k *)
Definition r_enob (d : data_set_result) : xr := match r_sndr d with Fin x => Fin ((x - 1.76) / 6.02) | v => v end.
(** l.45-75 *)
Fixpoint post_sets (weights sol : vec) (norm_factor dc : R) (choice bw_eff H D k row : nat) (segs : list mat) (cosb sinb : mat) : list data_set_result :=
  match segs with
  | [] => []
  | s :: rest =>
      let n := m_n s in
      let sig := mv s weights in
      let ref := reconstruct_sine sol k H D (bw_eff + D) choice (cols_from (k * H) H (rows_from row n cosb)) (cols_from (k * H) H (rows_from row n sinb)) norm_factor in
      let err := fun i => sig i - dc - ref i in
      mkDs sig ref err (sndr_db n ref err) :: post_sets weights sol norm_factor dc choice bw_eff H D (S k) (row + n) rest cosb sinb
  end.
(** l.11-98 *)
Definition post_process (bit_width : nat) (weights sol : vec) (norm_factor : R) (choice : nat) (segs : list mat) (bw_eff H : nat) (cosb sinb : mat) (freqs : nat -> R) : cal_result :=
  let dc := - sol bw_eff / norm_factor in
  let sets := post_sets weights sol norm_factor dc choice bw_eff H (length segs) 0 0 segs cosb sinb in
  let pol := if Rltb (rsum bit_width weights) 0 then -1 else 1 in
  mkCal (fun j => weights j * pol) (dc * pol)
        (map (fun r => mkDs (fun i => r_calibrated r i * pol) (fun i => r_ideal r i * pol) (fun i => r_error r i * pol) (r_sndr r)) sets) freqs.

(** ** calibrate_weight_sine.py l.92-182 *)
(** The freq argument: None, one number, or one number per data set. *)
Inductive freq_arg : Type := FNone | FScalar (f : R) | FArray (l : list R).
Definition freq_list (f : freq_arg) : list R := match f with FNone => [] | FScalar x => [x] | FArray l => l end.
Definition all_zero (f : freq_arg) : bool := forallb (fun x => Reqb x 0) (freq_list f).
(** _estimate_frequencies l.30-43; [est] stands for the automatic estimate. *)
Definition estimate_frequencies (est : nat -> R) (D : nat) (f : freq_arg) : result (nat -> R) :=
  if all_zero f then Ok est
  else match f with
       | FNone => Ok est
       | FScalar x => Ok (fun _ => x)
       | FArray l => raise_if (negb (length l =? D)%nat) ValueError (Ok (fun k => nth k l 0))
       end.
Fixpoint split_rows (a : mat) (s : nat) (lens : list nat) : list mat := match lens with [] => [] | n :: r => rows_from s n a :: split_rows a (s + n) r end.
Definition calibrate_weight_sine (lstsq : lstsq_fun) (rank : rank_fun) (est : nat -> R) (bits_list : list mat) (freq : freq_arg) (force_search : option bool)
    (nominal : option (list R)) (H : nat) (lr reltol : R) (max_iter : nat) : result cal_result :=
  raise_if (existsb (fun x => Rltb (1 / 2) x) (freq_list freq)) ValueError                            (* l.95-101 *)
  (bind (prepare_input bits_list nominal) (fun pi =>
   let '(segs, bw, nw) := pi in
   let D := length segs in
   let p := patch_rank_deficiency rank (stack segs) nw in
   let bw_eff := length (p_eff p) in
   let eff := of_cols (m_n (stack segs)) (p_eff p) in
   bind (estimate_frequencies est D freq) (fun freqs =>
   let segs_scaled := split_rows (scale_columns eff) 0 (map m_n segs) in
   let search := ((match force_search with None => all_zero freq | Some b => b end) || existsb (fun k => Reqb (freqs k) 0) (seq 0 D))%bool in
   let '(freqs', coeffs, choice) :=
     if search then search_loop lstsq segs_scaled H lr reltol (max_iter - 1) freqs
     else let s := solve_known_freq lstsq segs_scaled freqs H in (freqs, fst s, snd s) in
   let norm_factor := sqrt (1 + coeffs (bw_eff + D * H)%nat ^ 2) in                                   (* l.151-152 *)
   let w_eff := recover_columns coeffs norm_factor (bit_scales eff) in
   bind (recover_rank_deficiency w_eff p) (fun weights =>
   Ok (post_process bw weights coeffs norm_factor choice segs bw_eff H (cos_basis segs freqs' H) (sin_basis segs freqs' H) freqs'))))).
