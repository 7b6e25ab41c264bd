(** * Model of adctoolbox/dout: analyze_overflow.py, analyze_weight_radix.py,
    plot_residual_scatter.py, analyze_bit_activity.py.
    Arithmetic is exact; plotting is not modelled.  A quotient by zero, where numpy gives inf or
    nan with a warning, is outside the model (the theorems assume non-zero denominators). *)
From Verif Require Import Base SiggenModel.
Local Open Scope R_scope.

(** Number of entries satisfying a predicate (np.sum of a boolean array). *)
Definition count {A} (p : A -> bool) (l : list A) : nat := length (filter p l).

(** ** analyze_overflow.py *)
(** l.84-93: the four statistics of bit position ii: (range_min, range_max, ovf_percent_zero, ovf_percent_one). *)
Definition overflow_stat (codes : list (list R)) (weight : list R) (ii : nat) : R * R * R * R :=
  let tmp := map (fun row => dot (skipn ii row) (skipn ii weight)) codes in
  let sum_weight := lsum (skipn ii weight) in
  let decom := map (fun t => t / sum_weight) tmp in
  let n := INR (length codes) in
  (lmin1 (hd 0 tmp) (tl tmp) / sum_weight, lmax1 (hd 0 tmp) (tl tmp) / sum_weight,
   INR (count (fun d => Rleb d 0) decom) / n * 100, INR (count (fun d => Rleb 1 d) decom) / n * 100).
(** l.57-104, 171: [codes] has rows of length [m]. *)
Definition analyze_overflow (codes : list (list R)) (m : nat) (weight : list R) (ofb : option Z) : result (list (R * R * R * R)) :=
  if negb (length weight =? m)%nat then Err ValueError                         (* l.65 *)
  else if ((length codes =? 0)%nat && (0 <? m)%nat)%bool then Err ValueError   (* l.88 np.min of an empty array *)
  else let b := match ofb with None => Z.of_nat m | Some b => b end in
       let c := (Z.of_nat m - b)%Z in                                          (* l.98 column index *)
       if ((c <? - Z.of_nat m) || (Z.of_nat m <=? c))%Z%bool then Err IndexError
       else Ok (map (overflow_stat codes weight) (seq 0 m)).

(** ** analyze_weight_radix.py *)
(** l.72-75: radix between consecutive weights; the first entry is nan. *)
Definition radix_list (abs_w : list R) : list xr :=
  NaN :: map2 (fun p q => Fin (p / q)) (removelast abs_w) (tl abs_w).
(** l.79-80 sorting in descending order (argsort reversed; ties do not change the values). *)
Definition sort_desc (l : list R) : list R := rev (rsort l).
(** l.83 ratios of neighbours. *)
Definition neighbour_ratios (l : list R) : list R := map2 (fun p q => p / q) (removelast l) (tl l).
(** l.86-90: index of the first ratio >= 3, or the number of ratios. *)
Fixpoint sig_index (ratios : list R) : nat :=
  match ratios with
  | [] => O
  | r :: t => if Rleb 3 r then O else S (sig_index t)
  end.
(** l.97 the significant weights. *)
Definition significant (abs_w : list R) : list R :=
  let s := sort_desc abs_w in firstn (S (sig_index (neighbour_ratios s))) s.
(** l.103, 109: rms distance of the scaled weights to integers. *)
Definition round_err (sig : list R) (scale : R) : R :=
  sqrt (lmean (map (fun w => (w * scale - IZR (round_he (w * scale))) ^ 2) sig)).
(** l.107-112 the search loop. *)
Fixpoint refine (sig : list R) (top : R) (cands : list Z) (state : R * R) : R * R :=
  match cands with
  | [] => state
  | c :: t => let s := IZR c / top in let e := round_err sig s in
              refine sig top t (if Rltb e (fst state) then (e, s) else state)
  end.
(** Python's range(a, b+1). *)
Definition zrange (a b : Z) : list Z := map (fun i => (a + Z.of_nat i)%Z) (seq 0 (Z.to_nat (b + 1 - a))).
(** l.100-112 *)
Definition wgtsca_of (sig : list R) (top : R) : R :=
  let w0 := 1 / last sig 0 in
  let i0 := round_he (top * w0) in
  let lo := Z.max 1 (round_he (IZR i0 * 0.5)) in
  let hi := Z.max lo (round_he (IZR i0 * 1.5)) in
  snd (refine sig top (zrange lo hi) (round_err sig w0, w0)).
(** l.115 *)
Definition effres_of (sig : list R) : R := ln (lsum sig / last sig 0 + 1) / ln 2.
(** l.66-115, 184: the returned (radix, wgtsca, effres); radix[0] of an empty array raises. *)
Definition analyze_weight_radix (weights : list R) : result (list xr * R * R) :=
  match weights with
  | [] => Err IndexError
  | _ => let a := map Rabs weights in
         let sig := significant a in
         Ok (radix_list a, wgtsca_of sig (hd 0 (sort_desc a)), effres_of sig)
  end.

(** ** plot_residual_scatter.py *)
(** Python slice [:z]. *)
Definition slice_to {A} (z : Z) (l : list A) : list A :=
  if (z <? 0)%Z then firstn (Z.to_nat (Z.of_nat (length l) + z)) l else firstn (Z.to_nat z) l.
(** l.59-60 default binary weights. *)
Definition binary_weights (m : nat) : list R := map (fun i => 2 ^ (m - 1 - i)) (seq 0 m).
(** l.75-83 residual of one bit index; a matrix product with unequal inner lengths raises. *)
Definition residual (signal : list R) (bits : list (list R)) (m : nat) (weights : list R) (z : Z) : result (list R) :=
  if (z =? 0)%Z then Ok signal
  else if negb (length (slice_to z (repeat 0 m)) =? length (slice_to z weights))%nat then Err ValueError
  else Ok (map2 (fun s row => s - dot (slice_to z row) (slice_to z weights)) signal bits).
Fixpoint residual_pairs (signal : list R) (bits : list (list R)) (m : nat) (weights : list R) (pairs : list (Z * Z)) : result (list (list R) * list (list R)) :=
  match pairs with
  | [] => Ok ([], [])
  | (x, y) :: t =>
      bind (residual signal bits m weights x) (fun rx =>
      bind (residual signal bits m weights y) (fun ry =>
      bind (residual_pairs signal bits m weights t) (fun r => Ok (rx :: fst r, ry :: snd r))))
  end.
(** l.48-86, 112-116 ([alpha_auto]: 1000.0/n with n = 0 raises at l.70). *)
Definition plot_residual_scatter (signal : list R) (bits : list (list R)) (m : nat) (weights : option (list R)) (pairs : option (list (Z * Z))) (alpha_auto : bool)
  : result (list (Z * Z) * list (list R) * list (list R)) :=
  if negb (length signal =? length bits)%nat then Err ValueError              (* l.53 *)
  else let w := match weights with None => binary_weights m | Some w => w end in
       let ps := match pairs with None => map (fun i => (Z.of_nat i, Z.of_nat m)) (seq 0 m) | Some p => p end in
       if (alpha_auto && (length bits =? 0)%nat)%bool then Err ZeroDivisionError
       else bind (residual_pairs signal bits m w ps) (fun r => Ok (ps, fst r, snd r)).

(** ** analyze_bit_activity.py l.37-39 (non-empty record of rows of length B). *)
Definition bit_activity (bits : list (list R)) (B : nat) : list R :=
  map (fun j => lmean (map (fun row => nth j row 0) bits) * 100) (seq 0 B).
