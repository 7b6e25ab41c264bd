(** * Model of adctoolbox/spectrum/sweep_performance_vs_osr.py 53-104.
    The sine fit (l.64-67) is outside this model: its residual [err] = data - fitted signal and
    its amplitude are arguments.  Plotting is left out.  Arithmetic is exact. *)
From Verif Require Import Base Cplx FreqModel UnitsModel TiModel SpecModel.
Local Open Scope R_scope.

(** l.72-73: the Hann window and the windowed, power-normalised error (n >= 2; for n = 1 the
    window is [0] and numpy divides 0 by 0). *)
Definition hann_at (N n : nat) : R := 0.5 * (1 - cos (2 * PI * INR n / INR N)).
Definition hann_ms (N : nat) : R := lmean (map (fun n => hann_at N n ^ 2) (seq 0 N)).
Definition err_windowed (err : list R) : list R :=
  let N := List.length err in
  map (fun n => nth n err 0 * hann_at N n / sqrt (hann_ms N)) (seq 0 N).
(** l.74-75. *)
Definition err_spec (err : list R) : list R :=
  let N := List.length err in
  map (fun k => Cmod (rfft (err_windowed err) k) ^ 2 / INR N ^ 2 * 4) (seq 0 (N / 2 + 1)).

(** 10*log10(sig/den) for non-negative floats; x/0 is inf, 0/0 is nan. *)
Definition db_quot (sig den : R) : xr :=
  if Reqb den 0 then (if Reqb sig 0 then NaN else PInf) else db (sig / den).
(** a[i] = v on a copy. *)
Definition set_nth {A} (i : nat) (v : A) (l : list A) : list A :=
  map (fun p => if (fst p =? i)%nat then v else snd p) (combine (seq 0 (List.length l)) l).

(** l.91-104: the loop; [idx] is sort_idx, [out] collects (sndr, sfdr, enob). *)
Fixpoint sweep_loop (E : list R) (n : nat) (sig : R) (osr : list R) (idx : list nat)
    (prev : nat) (noi spur : R) (out : list (xr * xr * xr)) : result (list (xr * xr * xr)) :=
  match idx with
  | [] => Ok out
  | i :: idx' =>
      bind (inband_count (Z.of_nat n) (nth i osr 0)) (fun c =>
      let n_inband := Z.to_nat c in
      let '(noi', spur') :=
        if (prev <? n_inband)%nat then
          let inc := slice prev n_inband E in
          (noi + lsum inc, Rmax spur (match inc with [] => 0 | x :: t => lmax1 x t end))
        else (noi, spur) in
      let sndr := db_quot sig noi' in
      sweep_loop E n sig osr idx' n_inband noi' spur'
        (set_nth i (sndr, db_quot sig spur', enob_of sndr) out))
  end.
(** l.77-104.  [order] is np.argsort(osr): some permutation that sorts osr upwards (numpy's
    default sort is not stable, so ties may come in any order). *)
Definition osr_sweep (err : list R) (amplitude : R) (osr : list R) (order : list nat)
    : result (list (xr * xr * xr)) :=
  sweep_loop (err_spec err) (List.length err) (amplitude ^ 2 / 2) osr (rev order) 0 0 0
    (repeat (Fin 0, Fin 0, Fin 0) (List.length osr)).
(** l.57-59: the default OSR list. *)
Definition default_osr (n : nat) : result (list R) :=
  bind (inband_count (Z.of_nat n) 1) (fun c =>
  let n_bins := Z.to_nat (c - 1) in
  Ok (map (fun j => INR n / 2 / INR (n_bins - j)) (seq 0 n_bins))).
