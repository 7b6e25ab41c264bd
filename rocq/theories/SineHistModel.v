(** * Model of adctoolbox/aout/compute_inl_from_sine.py.
    The samples are finite reals (nan/inf samples are outside the model: numpy leaves
    nan.astype(int) undefined), num_bits is a natural number and a given full_scale is non-zero.
    Arithmetic is exact.  The inferred num_bits of l.86-90 is never used and is dropped. *)
From Verif Require Import Base RampModel.
Local Open Scope R_scope.

(** np.min / np.max of a non-empty list. *)
Definition rmin_list (l : list R) : R := fold_right Rmin (hd 0 l) l.
Definition rmax_list (l : list R) : R := fold_right Rmax (hd 0 l) l.
Definition zmin_list (l : list Z) : Z := fold_right Z.min (hd 0%Z l) l.
Definition zmax_list (l : list Z) : Z := fold_right Z.max (hd 0%Z l) l.
(** np.clip on integers (lower limit first). *)
Definition zclip (lo hi c : Z) : Z := Z.min (Z.max c lo) hi.

(** l.38-83 the codes.  [is_float] says whether the dtype is floating. *)
Definition sine_codes (is_float : bool) (data : list R) (num_bits : option nat) (full_scale : option R) : list Z :=
  let dmin := rmin_list data in
  let span := rmax_list data - dmin in
  if (is_float && Rleb span 2)%bool then                                      (* l.49-52 *)
    let nb := match num_bits with Some b => b | None => 10%nat end in
    let fs := 2 ^ nb in
    let codes := match full_scale with
                 | Some f => map (fun x => round_he (x / f * fs)) data        (* l.65 *)
                 | None => if Rltb dmin (-0.1)
                           then map (fun x => round_he ((x + 1) / 2 * fs)) data   (* l.71 *)
                           else map (fun x => round_he (x * fs)) data             (* l.74 *)
                 end in
    map (zclip 0 (2 ^ Z.of_nat nb - 1)) codes                                 (* l.80 *)
  else map round_he data.                                                     (* l.84 *)

(** np.diff. *)
Fixpoint diffs (l : list R) : list R :=
  match l with x :: ((y :: _) as t) => (y - x) :: diffs t | _ => [] end.

Record sine_result := mkSine { s_inl : list xr; s_dnl : list xr; s_codes : list Z }.

(** l.93-137 from the codes to the result.  Where the sum of the level differences is 0 every
    difference is 0 (they are non-negative), so l.129 is 0/0 and every entry nan. *)
Definition sine_histogram (codes : list Z) (clip_percent : R) : sine_result :=
  let c0 := zmin_list codes in let c1 := zmax_list codes in
  let ex := round_he (clip_percent * IZR (c1 - c0)) in                        (* l.98 *)
  let cmax := (c1 - ex)%Z in
  let cmin := Z.min (c0 + ex) cmax in                                         (* l.100 *)
  let clipped := map (zclip cmin cmax) codes in
  let axis := arange cmin (cmax + 1) in
  let counts := map (fun c => INR (count_code clipped c)) axis in             (* l.108 *)
  let cdf := map (fun s => - cos (PI * s / lsum counts)) (cumsum_from 0 counts) in  (* l.112 *)
  let d := diffs (removelast cdf) in                                          (* l.119 *)
  let valid := removelast (removelast axis) in                                (* l.123 *)
  if Reqb (lsum d) 0 then mkSine (map (fun _ => NaN) d) (map (fun _ => NaN) d) valid
  else
  let n := INR (length axis) in
  let d1 := map (fun x => x / lsum d * n - 1) d in                            (* l.129-130 *)
  let d2 := map (fun x => x - lmean d1) d1 in                                 (* l.131 *)
  let d3 := map (fun x => Rmax x (-1)) d2 in                                  (* l.132 *)
  mkSine (map Fin (cumsum_from 0 d3)) (map Fin d3) valid.                     (* l.135 *)

(** The whole function; np.min of an empty array raises. *)
Definition compute_inl_from_sine (is_float : bool) (data : list R) (num_bits : option nat)
    (full_scale : option R) (clip_percent : R) : result sine_result :=
  match data with
  | [] => Err ValueError
  | _ => Ok (sine_histogram (sine_codes is_float data num_bits full_scale) clip_percent)
  end.
