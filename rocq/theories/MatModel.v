(** * Model of the MATLAB functions alias, findbin, cdacwgt, ifilter, inlsin and bitchk (matlab/src of the repository), the
    originals of six Python functions.
    error(...) is [RuntimeError].  Arithmetic is exact; arguments are real (the isreal and isnumeric checks never fire), vectors
    are lists, matrices lists of rows.  Displaying is not modelled. *)
From Verif Require Import Base Cplx FreqModel TiModel SiggenModel RampModel SineHistModel BandModel DoutModel.
Local Open Scope R_scope.

(** MATLAB's round: halves away from zero. *)
Definition m_round (x : R) : Z := if Rleb 0 x then Zfloor (x + 1 / 2) else Zceil (x - 1 / 2).

(** alias.m l.40-60, one element. *)
Definition m_alias (fin fs : R) : result R :=
  raise_if (Rleb fs 0) RuntimeError (
  let zone := Zfloor (fin / fs * 2) in                                  (* l.50 *)
  let off := fin - IZR (Zfloor (fin / fs)) * fs in                      (* l.53 *)
  Ok (if (zone mod 2 =? 0)%Z then off else fs - off)).                  (* l.58-59 *)

(** findbin.m l.89-108: the search from distance d on, for at most [fuel] distances; None: still searching. *)
Fixpoint m_search (fuel : nat) (start n d : Z) : option Z :=
  match fuel with
  | O => None
  | S k => if (Z.gcd (start + d) n =? 1)%Z then Some (start + d)%Z
           else if ((0 <? start - d) && (Z.gcd (start - d) n =? 1))%Z then Some (start - d)%Z
           else m_search k start n (d + 1)
  end.
(** findbin.m l.65-108, one frequency and n an integer. *)
Definition m_findbin (fuel : nat) (fs fin : R) (n : Z) : result (option Z) :=
  raise_if (Rleb fs 0) RuntimeError (
  raise_if (n <=? 0)%Z RuntimeError (
  Ok (m_search fuel (Zfloor (fin / fs * IZR n)) n 0))).

(** cdacwgt.m l.121-139: one pass; the weights written so far (the others are still zero) and the load. *)
Definition m_cap_step (st : list R * R) (c : R * R * R) : list R * R :=
  let '(weight, Cl) := st in
  let '(cd, cb, cp) := c in
  let Ct := cp + cd + Cl in                                             (* l.123 *)
  (map (fun w => w * Cl / Ct) weight ++ [cd / Ct],                      (* l.126, 129 *)
   if Reqb cb 0 then Ct else 1 / (1 / cb + 1 / Ct)).                    (* l.132-138 *)
(** cdacwgt.m l.82-145. *)
Definition m_cdacwgt (cd cb cp : list R) : result (list R * R) :=
  raise_if ((length cd =? 0) || (length cb =? 0) || (length cp =? 0))%nat RuntimeError (                    (* l.82 *)
  raise_if (negb ((length cb =? length cd) && (length cp =? length cd))%nat) RuntimeError (                 (* l.89 *)
  raise_if (existsb (fun x => Rleb x 0) cd) RuntimeError (                                                  (* l.94 *)
  raise_if (existsb (fun x => Rltb x 0) cb || existsb (fun x => Rltb x 0) cp) RuntimeError (                (* l.99 *)
  let st := fold_left m_cap_step (combine (combine (rev cd) (rev cb)) (rev cp)) ([], 0) in                  (* l.110-139 *)
  Ok (rev (fst st), snd st))))).                                                                            (* l.142-145 *)

(** ifilter.m l.74-78: the bins of one band. *)
Definition m_band_ids (N : nat) (lo hi : R) : list R :=
  map (fun f => match m_alias (IZR f) (INR N) with Ok x => x | Err _ => 0 end)
      (BandModel.zrange (m_round (Rmin lo hi * INR N)) (m_round (Rmax lo hi * INR N))).
(** l.81-87 the mask at index k (counted from zero). *)
Definition m_band_hits (N : nat) (b : R * R) (k : nat) : bool :=
  existsb (fun id => Reqb id (INR k) || (Rltb 0 id && Rltb id (INR N / 2) && Reqb (INR N - id) (INR k))) (m_band_ids N (fst b) (snd b)).
Definition m_mask_at (N : nat) (bands : list (R * R)) (k : nat) : R := if existsb (fun b => m_band_hits N b k) bands then 1 else 0.
(** l.66, 91-95 one column. *)
Definition m_filter_col (bands : list (R * R)) (x : list R) : list R :=
  let N := length x in
  map (fun n => Re (Cscale (/ INR N) (csum N (fun k =>
        Cmult (Cscale (m_mask_at N bands k) (rfft x k)) (cis (2 * PI * INR k * INR n / INR N)))))) (seq 0 N).
(** l.49-95: [sigin] has equally long non-empty rows; an empty band table is the 0-by-0 matrix. *)
Definition m_ifilter (sigin : list (list R)) (bands : list (list R)) : result (list (list R)) :=
  let M0 := length (nth 0 sigin []) in
  let d := if (length sigin <? M0)%nat then transpose M0 sigin else sigin in
  let N := length d in
  let M := length (nth 0 d []) in
  raise_if ((length bands =? 0)%nat || negb (forallb (fun r => (length r =? 2)%nat) bands)) RuntimeError (          (* l.57 *)
  raise_if (existsb (fun r => existsb (fun v => Rltb v 0 || Rltb 0.5 v) r) bands) RuntimeError (                    (* l.61 *)
  let bs := map (fun r => (nth 0 r 0, nth 1 r 0)) bands in
  Ok (transpose N (map (m_filter_col bs) (transpose M d))))).

(** inlsin.m l.91-125 for integer data.  0/0 is NaN and MATLAB's max ignores NaN: where the differences sum to zero every DNL
    is -1 (l.119-122). *)
Definition m_inl_codes (codes : list Z) (excl : R) : list R * list R * list Z :=
  let c0 := zmin_list codes in let c1 := zmax_list codes in
  let ex := m_round (excl * IZR (c1 - c0)) in                                 (* l.96 *)
  let cmax := (c1 - ex)%Z in
  let cmin := Z.min (c0 + ex) cmax in                                         (* l.97-98 *)
  let clipped := map (zclip cmin cmax) codes in                               (* l.102 *)
  let axis := arange cmin (cmax + 1) in                                       (* l.101 *)
  let counts := map (fun c => INR (count_code clipped c)) axis in             (* l.106 *)
  let cdf := map (fun s => - cos (PI * s / lsum counts)) (cumsum_from 0 counts) in  (* l.107 *)
  let d := diffs (removelast cdf) in                                          (* l.110 *)
  let valid := removelast (removelast axis) in                                (* l.111 *)
  let d3 := if Reqb (lsum d) 0 then map (fun _ => -1) d
            else let d1 := map (fun x => x / lsum d * IZR (cmax - cmin + 1) - 1) d in
                 map (fun x => Rmax (x - lmean d1) (-1)) d1 in                (* l.119-122 *)
  (cumsum_from 0 d3, d3, valid).                                              (* l.125 *)
(** inlsin.m l.67-125: the inputs are rounded (data within 2 eps of an integer is taken to be that integer). *)
Definition m_inlsin (data : list R) (excl : R) : result (list R * list R * list Z) :=
  raise_if (Rltb excl 0 || Rleb 0.5 excl) RuntimeError (                      (* l.68 *)
  raise_if (length data =? 0)%nat RuntimeError (
  Ok (m_inl_codes (map m_round data) excl))).

(** bitchk.m l.90-127: for each bit position (range_min, range_max, ovf_percent_zero, ovf_percent_one).  A quotient by zero is
    outside the model, as in DoutModel. *)
Definition m_bitchk (bits : list (list R)) (wgt : list R) (chkpos : option Z) : result (list (R * R * R * R)) :=
  let M0 := length (nth 0 bits []) in
  let b := if (length bits <? M0)%nat then transpose M0 bits else bits in     (* l.90-94 *)
  let M := length (nth 0 b []) in
  let chk := match chkpos with None => Z.of_nat M | Some c => c end in
  raise_if ((chk <? 1) || (Z.of_nat M <? chk))%Z RuntimeError (               (* l.98 *)
  raise_if (negb (length wgt =? M)%nat) RuntimeError (                        (* l.102 *)
  let stat ii :=
    let tmp := map (fun row => dot (skipn ii row) (skipn ii wgt)) b in        (* l.119 *)
    let s := lsum (skipn ii wgt) in
    let decom := map (fun t => t / s) tmp in                                  (* l.121 *)
    let n := INR (length b) in
    (lmin1 (hd 0 tmp) (tl tmp) / s, lmax1 (hd 0 tmp) (tl tmp) / s,            (* l.122-123 *)
     INR (count (fun d => Rleb d 0) decom) / n * 100, INR (count (fun d => Rleb 1 d) decom) / n * 100) in    (* l.126-127 *)
  Ok (map stat (seq 0 M)))).
