(** * Model of adctoolbox/aout/analyze_phase_plane.py (everything but the plotting).
    The FFT is the exact discrete Fourier transform.  Not modelled: plotting, the [fs] argument (only used
    in a text), numpy's warnings for empty means, rounding. *)
From Verif Require Import Base Cplx SpecModel.
Local Open Scope R_scope.

(** np.hanning(n) (numpy/lib/function_base.py), called in l.50: the symmetric window. *)
Definition hanning (n i : nat) : R := if (n =? 1)%nat then 1 else 1 / 2 - 1 / 2 * cos (2 * PI * INR i / (INR n - 1)).
(** l.46-51 peak_idx: the strongest bin above DC of the windowed record.  The FFT of an empty record
    and the argmax of an empty array (one sample) raise ValueError. *)
Definition plane_peak (data : list R) : result nat :=
  let n := length data in
  raise_if (n <=? 1)%nat ValueError (
  let m := lmean data in
  let mag := map (fun k => Cmod (rdft n (fun i => (nth i data 0 - m) * hanning n i) k)) (seq 0 (n / 2 + 1)) in
  Ok (argmax (tl mag) + 1)%nat).
(** l.74-80 the score of a candidate lag; [f] is norm_freq. *)
Definition lag_score (f : R) (k : nat) : R := Rabs (sin (2 * PI * f * INR k)) - INR k * 0.0001.
(** l.72-84 the loop over the candidates. *)
Fixpoint lag_loop (f : R) (ks : list nat) (best_k : nat) (best_metric : R) : nat :=
  match ks with
  | [] => best_k
  | k :: rest => if Rltb best_metric (lag_score f k) then lag_loop f rest k (lag_score f k) else lag_loop f rest best_k best_metric
  end.
(** l.67-68 search_limit; [int] of a positive float is its floor. *)
Definition search_limit (n : nat) (f : R) : Z := Z.min (Z.of_nat n / 2) (Zfloor (1 / f * 0.6) + 20).
(** l.51-84 the lag chosen for the peak bin. *)
Definition lag_for (n peak : nat) : nat :=
  let f := INR peak / INR n in
  if Rleb f 0 then 1%nat
  else lag_loop f (seq 1 (Z.to_nat (search_limit n f) - 1)) 1 (-1).

(** data[:-k] and data[k:] for any integer k (l.93-94). *)
Definition drop_last_k (l : list R) (k : Z) : list R :=
  if (k =? 0)%Z then [] else if (0 <? k)%Z then firstn (length l - Z.to_nat k) l else firstn (Z.to_nat (- k)) l.
Definition from_k (l : list R) (k : Z) : list R :=
  if (0 <=? k)%Z then skipn (Z.to_nat k) l else skipn (length l - Z.to_nat (- k)) l.
(** numpy broadcasting of an elementwise operation on two one-dimensional arrays. *)
Definition broadcast2 (f : R -> R -> R) (a b : list R) : result (list R) :=
  if (length a =? length b)%nat then Ok (map2 f a b)
  else if (length b =? 1)%nat then Ok (map (fun x => f x (hd 0 b)) a)
  else if (length a =? 1)%nat then Ok (map (fun y => f (hd 0 a) y) b)
  else Err ValueError.
(** l.100-126: the outlier mask for two equally long vectors. *)
Definition outlier_mask (x y : list R) (threshold : R) : result (list bool) :=
  let mx := lmean x in let my := lmean y in
  bind (broadcast2 (fun a b => sqrt ((a - mx) ^ 2 + (b - my) ^ 2)) x y) (fun radius =>
  let deviation := map (fun r => Rabs (r - median radius)) radius in
  let s := median deviation * 1.4826 in
  let s := if Rltb s (1 / 10 ^ 12) then 1 / 10 ^ 12 else s in
  Ok (map (fun d => Rltb (threshold * s) d) deviation)).
(** indices[mask] (l.128); a mask of another length raises IndexError. *)
Fixpoint select {A} (l : list A) (mask : list bool) : list A :=
  match l, mask with
  | x :: l', b :: m' => if b then x :: select l' m' else select l' m'
  | _, _ => []
  end.
Definition mask_index {A} (l : list A) (mask : list bool) : result (list A) :=
  if (length l =? length mask)%nat then Ok (select l mask) else Err IndexError.
(** analyze_phase_plane l.39-128 and its result: (lag, outliers).  [lag = None] is 'auto'; an integer lag is
    given as int(lag). *)
Definition phase_plane (data : list R) (lag : option Z) (detect : bool) (threshold : R) : result (Z * list Z) :=
  let n := length data in
  bind (match lag with
        | None => bind (plane_peak data) (fun p => Ok (Z.of_nat (lag_for n p)))
        | Some k => Ok k
        end) (fun k =>
  raise_if (Z.of_nat n <=? k)%Z ValueError (
  let x := drop_last_k data k in let y := from_k data k in
  let indices := map (fun j => (k + Z.of_nat j)%Z) (seq 0 (Z.to_nat (Z.of_nat n - k))) in
  bind (if detect then outlier_mask x y threshold else Ok (map (fun _ => false) x)) (fun mask =>
  bind (mask_index indices mask) (fun out => Ok (k, out))))).
