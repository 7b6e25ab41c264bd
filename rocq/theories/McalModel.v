(** * Model of matlab/src/wcalsin.m, the original of calibrate_weight_sine.
    Matrices as in CalModel; linsolve and rank are arguments, [error] is RuntimeError, NaN results are [None].  Simplified: an
    empty matrix is refused at once; a missing entry of nomWeight, an error in MATLAB where it is used, reads 0; niter is a whole
    number; options that are 0 or 1 are booleans; max and min of a single row of bits are taken by columns.  Not modelled: messages, warnings, type checks,
    rounding. *)
From Verif Require Import Base Cplx FreqModel SpecModel CalModel MatModel MsinModel.
Local Open Scope R_scope.

(** rms of the first n entries. *)
Definition vrms (n : nat) (v : vec) : R := sqrt (vmean n (fun i => v i ^ 2)).
(** l.373-376 (l.187-190): correlated or anticorrelated columns; a column without variation gives NaN, no match. *)
Definition m_match (n : nat) (col e : vec) : bool :=
  let r1 := fun i => col i - vmean n col in
  let r2 := fun i => e i - vmean n e in
  if Reqb (vrms n r1) 0 || Reqb (vrms n r2) 0 then false
  else Rltb (Rabs (Rabs (vmean n (fun i => r1 i * r2 i) / vrms n r1 / vrms n r2) - 1)) (1 / 1000).
(** l.372, l.385: the first match. *)
Fixpoint m_find (n : nat) (col : vec) (eff : list vec) (idx : nat) : option nat :=
  match eff with [] => None | e :: rest => if m_match n col e then Some idx else m_find n col rest (S idx) end.
(** l.358-394 (l.172-207), one column; the fields are bits_patch, LR, L and K. *)
Definition m_patch_step (rank : rank_fun) (n : nat) (nom : list R) (st : patch_state) (i1 : nat) (col : vec) : patch_state :=
  if Reqb (vptp n col) 0 then mkPatch (p_eff st) (p_founder st) (p_map st ++ [None]) (p_ratio st ++ [0])
  else if (rank (hcat (ones n) (of_cols n (p_eff st))) <? rank (hcat (hcat (ones n) (of_cols n (p_eff st))) (of_cols n [col])))%nat
  then mkPatch (p_eff st ++ [col]) (p_founder st ++ [i1]) (p_map st ++ [Some (length (p_eff st))]) (p_ratio st ++ [1])
  else match m_find n col (p_eff st) 0 with
       | None => mkPatch (p_eff st) (p_founder st) (p_map st ++ [None]) (p_ratio st ++ [0])
       | Some c => let k := nth i1 nom 0 / nth (nth c (p_founder st) 0%nat) nom 0 in
                   mkPatch (upd (p_eff st) c (fun i => nth c (p_eff st) zvec i + col i * k)) (p_founder st) (p_map st ++ [Some c]) (p_ratio st ++ [k])
       end.
(** l.347-405 (l.162-219) *)
Definition m_patch (rank : rank_fun) (autopatch : bool) (bits : mat) (nom : list R) : result patch_state :=
  let n := m_n bits in let m := m_m bits in
  if autopatch && (rank (hcat bits (ones n)) <? m + 1)%nat
  then let p := fold_left (fun st j => m_patch_step rank n nom st j (colm bits j)) (seq 0 m) (mkPatch [] [] [] []) in
       raise_if ((rank (hcat (ones n) (of_cols n (p_eff p))) <? length (p_eff p) + 1)%nat || (length (p_eff p) =? 0)%nat) RuntimeError (Ok p)
  else Ok (mkPatch (map (colm bits) (seq 0 m)) (seq 0 m) (map Some (seq 0 m)) (repeat 1 m)).
(** l.408-409 (l.222-223): the exponent of a column, 0 for a column of zeros. *)
Definition m_mag (n : nat) (col : vec) : Z := if Reqb (max_abs n col) 0 then 0%Z else Zfloor (log10 (max_abs n col)).
(** l.410 (l.224) *)
Definition m_scale (eff : mat) : mat := mkMat (m_n eff) (m_m eff) (fun i j => m_at eff i j * powerRZ 10 (- m_mag (m_n eff) (colm eff j))).

(** l.434-447 and, with the derivative as [tail], l.479-495 (l.243-257): the two solves and the better one; true is sel = 1. *)
Definition m_two (lin : lstsq_fun) (sc xc xs tail : mat) : vec * bool :=
  let n := m_n sc in
  let E := hcat sc (ones n) in
  let drop0 a := cols_from 1 (m_m a - 1) a in
  let A1 := hcat (hcat E (drop0 xc)) (hcat xs tail) in
  let b1 := fun i => - m_at xc i 0%nat in
  let x1 := lin A1 b1 in
  let A2 := hcat (hcat E (drop0 xs)) (hcat xc tail) in
  let b2 := fun i => - m_at xs i 0%nat in
  let x2 := lin A2 b2 in
  if Rltb (vrms n (fun i => mv A1 x1 i - b1 i)) (vrms n (fun i => mv A2 x2 i - b2 i)) then (x1, false) else (x2, true).
(** Coefficients of the first and of the second basis: 1, x(M+2:M+K) and x(M+1+K:M+2K) in MATLAB's indices. *)
Definition m_first (x : vec) (M : nat) : vec := fun h => match h with O => 1 | S h' => x (M + 1 + h')%nat end.
Definition m_second (x : vec) (M K : nat) : vec := fun h => x (M + K + h)%nat.
Definition m_cosc (x : vec) (sel : bool) (M K : nat) : vec := if sel then m_second x M K else m_first x M.
Definition m_sinc (x : vec) (sel : bool) (M K : nat) : vec := if sel then m_first x M else m_second x M K.
(** l.465-475 and the sum of l.479: the derivative by the frequency, over n. *)
Definition m_dcol (x : vec) (sel : bool) (M H n : nat) (freq : R) : vec := fun t =>
  rsum H (fun h => - (2 * PI) * (m_cosc x sel M H h * INR (S h)) * INR t * sin (2 * PI * freq * (INR t * INR (S h))) / INR n
                   + 2 * PI * (m_sinc x sel M H h * INR (S h)) * INR t * cos (2 * PI * freq * (INR t * INR (S h))) / INR n).
(** l.458-508; [left] iterations remain after this one; result: frequency, solution, selection of the last iteration. *)
Fixpoint m_fine (lin : lstsq_fun) (sc : mat) (H : nat) (rate reltol : R) (left : nat) (freq : R) (x : vec) (sel : bool) : R * vec * bool :=
  let n := m_n sc in let M := m_m sc in
  let d := m_dcol x sel M H n freq in
  let '(x', sel') := m_two lin sc (cos_block n freq H) (sin_block n freq H) (of_cols n [d]) in
  let last := x' (M + 1 + (H - 1) + H)%nat in
  let relerr := vrms n (fun t => last / INR n * d t) / sqrt (1 + x' (M + H)%nat ^ 2) in
  if Rltb relerr reltol then (freq, x', sel')
  else match left with O => (freq, x', sel') | S l => m_fine lin sc H rate reltol l (freq + last * rate / INR n) x' sel' end.
Record m_set := mkMset { ms_postcal : vec; ms_ideal : vec; ms_err : vec }.
Record m_cal := mkMcal { mc_weight : vec; mc_offset : R; mc_sets : list m_set; mc_freq : list R }.
(** l.522-523 (l.263-264) *)
Definition m_weights (x : vec) (w0 : R) (eff : mat) (p : patch_state) : vec := fun j =>
  match nth j (p_map p) None with None => 0 | Some c => x c / w0 * powerRZ 10 (- m_mag (m_n eff) (colm eff c)) * nth j (p_ratio p) 0 end.
(** l.527, l.537 (l.292-293) *)
Definition m_make_set (bits : mat) (weight : vec) (offset : R) (ideal : vec) : m_set :=
  mkMset (mv bits weight) ideal (fun i => mv bits weight i - offset - ideal i).
(** l.540-546 (l.297-305) *)
Definition m_flip (m : nat) (c : m_cal) : m_cal :=
  if Rltb (rsum m (mc_weight c)) 0
  then mkMcal (fun j => - mc_weight c j) (- mc_offset c) (map (fun s => mkMset (fun i => - ms_postcal s i) (fun i => - ms_ideal s i) (fun i => - ms_err s i)) (mc_sets c)) (mc_freq c)
  else c.
(** l.328 (l.106) *)
Definition m_order (order : R) : nat := Z.to_nat (Z.max (m_round order) 1).
(** l.338-342 (l.124-128) *)
Definition m_orient (autotrans : bool) (bits : mat) : mat := if autotrans && (m_n bits <? m_m bits)%nat then transpose bits else bits.
(** l.343-345 (l.137-139) *)
Definition m_nominal (m : nat) (nom : list R) : list R := match nom with [] => map (fun i => 2 ^ (m - 1 - i)) (seq 0 m) | _ => nom end.
(** l.316-325 (l.94-102): what the options are checked for. *)
Definition m_bad_options (rate reltol : R) (niter : nat) (order : R) : bool :=
  Rleb rate 0 || Rleb 1 rate || Rleb reltol 0 || (niter =? 0)%nat || Rleb order 0.
(** l.413-427: the median of the estimates from the first columns; None when one of them is NaN. *)
Fixpoint m_estimates (lin : lstsq_fun) (sc : mat) (nom : list R) (founder : list nat) (ks : list nat) : result (option (list R)) :=
  match ks with
  | [] => Ok (Some [])
  | k :: ks' =>
      bind (m_findfreq lin (map (fun i => [rsum k (fun j => m_at sc i j * nth (nth j founder 0%nat) nom 0)]) (seq 0 (m_n sc))) 1) (fun f =>
      bind (m_estimates lin sc nom founder ks') (fun r =>
      Ok (match f, r with Fin v, Some l => Some (v :: l) | _, _ => None end)))
  end.
Definition m_coarse (lin : lstsq_fun) (sc : mat) (nom : list R) (founder : list nat) : result (option R) :=
  bind (m_estimates lin sc nom founder (seq 1 (Nat.min (m_m sc) 5))) (fun r => Ok (match r with Some l => Some (median l) | None => None end)).
(** The part for one matrix after the frequency is known or estimated, l.429-548. *)
Definition m_solve (lin : lstsq_fun) (bits : mat) (p : patch_state) (freq : R) (fsearch : bool) (H : nat) (rate reltol : R) (niter : nat) : m_cal :=
  let n := m_n bits in let eff := of_cols n (p_eff p) in let sc := m_scale eff in let M := m_m sc in
  let '(x0, sel0) := m_two lin sc (cos_block n freq H) (sin_block n freq H) (of_cols n []) in
  let '(f, x, sel) := if fsearch then m_fine lin sc H rate reltol (niter - 1) freq x0 sel0 else (freq, x0, sel0) in
  let w0 := sqrt (1 + x (M + H)%nat ^ 2) in                                                                     (* l.520 *)
  let weight := m_weights x w0 eff p in
  let offset := - x M / w0 in                                                                                   (* l.525 *)
  let ideal := fun i => - (mv (cos_block n f H) (m_cosc x sel M H) i + mv (sin_block n f H) (m_sinc x sel M H) i) / w0 in  (* l.529-535 *)
  m_flip (m_m bits) (mkMcal weight offset [m_make_set bits weight offset ideal] [f]).
(** l.315-556: one matrix. *)
Definition m_wcalsin (lin : lstsq_fun) (rank : rank_fun) (bits0 : mat) (freq rate reltol : R) (niter : nat) (order : R) (fsearch autotrans autopatch : bool) (nom0 : list R) : result (option m_cal) :=
  raise_if (Rltb freq 0 || m_bad_options rate reltol niter order) RuntimeError
  (let bits := m_orient autotrans bits0 in
   let nom := m_nominal (m_m bits) nom0 in
   raise_if (m_n bits * m_m bits =? 0)%nat RuntimeError
   (bind (m_patch rank autopatch bits nom) (fun p =>
    let H := m_order order in
    if Reqb freq 0
    then bind (m_coarse lin (m_scale (of_cols (m_n bits) (p_eff p))) nom (p_founder p)) (fun o =>
         Ok (match o with Some f => Some (m_solve lin bits p f true H rate reltol niter) | None => None end))
    else Ok (Some (m_solve lin bits p freq fsearch H rate reltol niter))))).
(** l.119-132, l.88-91 *)
Fixpoint m_orient_all (autotrans : bool) (l : list mat) : result (list mat) :=
  match l with
  | [] => Ok []
  | b :: r => raise_if (m_n b * m_m b =? 0)%nat RuntimeError (bind (m_orient_all autotrans r) (fun r' => Ok (m_orient autotrans b :: r')))
  end.
(** l.150-156: the search of every data set whose frequency is 0, or of all of them. *)
Fixpoint m_searches (lin : lstsq_fun) (rank : rank_fun) (segs : list mat) (freq : list R) (rate reltol : R) (niter : nat) (order : R) (fsearch autopatch : bool) (nom : list R) : result (option (list R)) :=
  match segs, freq with
  | s :: segs', f :: freq' =>
      bind (if Reqb f 0 || fsearch then bind (m_wcalsin lin rank s f rate reltol niter order true false autopatch nom) (fun o => Ok (match o with Some c => Some (nth 0 (mc_freq c) 0) | None => None end)) else Ok (Some f)) (fun v =>
      bind (m_searches lin rank segs' freq' rate reltol niter order fsearch autopatch nom) (fun r =>
      Ok (match v, r with Some v', Some r' => Some (v' :: r') | _, _ => None end)))
  | _, _ => Ok (Some [])
  end.
(** l.267-294: the signals of data set k, whose rows start at [row]. *)
Fixpoint m_make_sets (segs : list mat) (k row H : nat) (weight : vec) (offset w0 : R) (cc sc : vec) (xc xs : mat) : list m_set :=
  match segs with
  | [] => []
  | s :: rest =>
      let own a := cols_from (k * H) H (rows_from row (m_n s) a) in
      m_make_set s weight offset (fun i => - (mv (own xc) (fun h => cc (k * H + h)%nat) i + mv (own xs) (fun h => sc (k * H + h)%nat) i) / w0)
      :: m_make_sets rest (S k) (row + m_n s) H weight offset w0 cc sc xc xs
  end.
(** l.158-307: the joint solve. *)
Definition m_joint (lin : lstsq_fun) (rank : rank_fun) (segs : list mat) (freq : list R) (H : nat) (autopatch : bool) (nom : list R) : result m_cal :=
  let all := stack segs in
  bind (m_patch rank autopatch all nom) (fun p =>
  let eff := of_cols (m_n all) (p_eff p) in let sc := m_scale eff in let M := m_m sc in
  let K := (length segs * H)%nat in
  let fr := fun k => nth k freq 0 in
  let xc := cos_basis segs fr H in let xs := sin_basis segs fr H in                                              (* l.226-240 *)
  let '(x, sel) := m_two lin sc xc xs (of_cols (m_n all) []) in
  let w0 := sqrt (1 + x (M + K)%nat ^ 2) in                                                                     (* l.260 *)
  let weight := m_weights x w0 eff p in
  let offset := - x M / w0 in
  Ok (m_flip (m_m all) (mkMcal weight offset (m_make_sets segs 0 0 H weight offset w0 (m_cosc x sel M K) (m_sinc x sel M K) xc xs) freq))).
(** l.86-309: several matrices; a single frequency serves all. *)
Definition m_wcalsin_cell (lin : lstsq_fun) (rank : rank_fun) (l : list mat) (freq0 : list R) (rate reltol : R) (niter : nat) (order : R) (fsearch autotrans autopatch : bool) (nom0 : list R) : result (option m_cal) :=
  raise_if ((length l =? 0)%nat || (length freq0 =? 0)%nat || existsb (fun f => Rltb f 0) freq0 || m_bad_options rate reltol niter order) RuntimeError
  (bind (m_orient_all autotrans l) (fun segs =>
   let M := match segs with s :: _ => m_m s | [] => 0%nat end in
   let nom := m_nominal M nom0 in
   let freq := match freq0 with [f] => repeat f (length segs) | _ => freq0 end in                                (* l.142-144 *)
   raise_if (negb (forallb (fun s => (m_m s =? M)%nat) segs) || negb (length freq =? length segs)%nat) RuntimeError
   (bind (m_searches lin rank segs freq rate reltol niter order fsearch autopatch nom) (fun fr =>
    match fr with
    | Some f => bind (m_joint lin rank segs f (m_order order) autopatch nom) (fun c => Ok (Some c))
    | None => Ok None
    end)))).
