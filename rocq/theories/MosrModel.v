(** * Model of matlab/src/perfosr.m and ntfperf.m, the originals of sweep_performance_vs_osr and ntf_analyzer.
    linsolve and sort are arguments; the signal is a vector; [error] is RuntimeError.  Not modelled: plotting (except the slope
    curve), type checks, rounding. *)
From Verif Require Import Base Cplx FreqModel UnitsModel TiModel SpecModel CalModel FitModel OsrModel OverModel MatModel MsinModel MerrModel.
Local Open Scope R_scope.

(** perfosr.m l.101-104; hannwin (end of the file) is that of errsin.m. *)
Definition m_err_spec (err : list R) : list R :=
  let N := length err in
  let ms := lmean (map (fun n => m_hann N n ^ 2) (seq 0 N)) in
  let w := map (fun n => nth n err 0 * m_hann N n / sqrt ms) (seq 0 N) in
  map (fun k => Cmod (rfft w k) ^ 2 / INR N ^ 2 * 4) (seq 0 (N / 2 + 1)).
(** l.125-126 *)
Definition m_band_bins (N : nat) (osr : R) : nat := Z.to_nat (Z.max 1 (Z.min (Zfloor (INR N / 2 / osr)) (Z.of_nat (N / 2 + 1)))).
(** l.123-141: the loop over sort_idx; the values at the current index are sndr, sfdr, enob. *)
Fixpoint m_osr_loop (E : list R) (N : nat) (sig : R) (osr : list R) (idx : list nat) (prev : nat) (noi spur : R) (out : list (xr * xr * xr)) : list (xr * xr * xr) :=
  match idx with
  | [] => out
  | i :: idx' =>
      let n := m_band_bins N (nth i osr 0) in
      let '(noi', spur') :=
        if (prev <? n)%nat then
          let inc := slice prev n E in
          (noi + lsum inc, Rmax spur (match inc with [] => 0 | x :: t => lmax1 x t end))
        else (noi, spur) in
      let sndr := db_quot sig noi' in
      m_osr_loop E N sig osr idx' n noi' spur' (set_nth i (sndr, db_quot sig spur', enob_of sndr) out)
  end.
(** l.88-89 *)
Definition m_default_osr (N : nat) : list R := map (fun j => INR N / 2 / INR (N / 2 - j)) (seq 0 (N / 2)).
(** l.66-141; an empty osr is the default sweep; [sortd] gives the indices of sort(..., 'descend').  Without a fit (a constant
    signal) everything is NaN. *)
Definition m_perfosr (linsolve : lstsq_fun) (sortd : list R -> list nat) (sig osr : list R) (harmonic : R) (smooth : option R) : result (list R * list (xr * xr * xr)) :=
  raise_if (existsb (fun x => Rleb x 0) osr || Rleb harmonic 0 || negb (Reqb (IZR (Zfloor harmonic)) harmonic) ||
            match smooth with Some s => Rltb s 1 | None => false end) RuntimeError                               (* l.75-78 *)
  (let o := match osr with [] => m_default_osr (length sig) | _ => osr end in
   bind (m_sinfit linsolve (map (fun x => [x]) sig) 0 (1 / 10 ^ 12) (1 / 2) false 100) (fun fit =>
   match fit with
   | None => Ok (o, map (fun _ => (NaN, NaN, NaN)) o)
   | Some r =>
       let E := m_err_spec (map2 Rminus sig (mf_fitout r)) in
       Ok (o, m_osr_loop E (length sig) (mf_mag r ^ 2 / 2) o (sortd o) 0 0 0 (repeat (Fin 0, Fin 0, Fin 0) (length o)))
   end)).
(** l.221-237: the slope curve for finite SNDRs; a quotient by zero is infinite or NaN. *)
Definition m_smooth (n : nat) (smooth : option Z) : Z :=
  Z.min (match smooth with None => Z.max 5 (m_round (INR n / 10)) | Some s => s end) ((Z.of_nat n - 1) / 2).
(** l.232-237 *)
Definition m_slopes (osr sndr : list R) (smooth : option Z) : list xr :=
  let n := length osr in
  let w := m_smooth n smooth in
  let lo i := Z.to_nat (Z.max 0 (Z.of_nat i - w)) in
  let hi i := Z.to_nat (Z.min (Z.of_nat n - 1) (Z.of_nat i + w)) in
  map (fun i =>
    let d := ln (nth (hi i) osr 0) / ln 10 - ln (nth (lo i) osr 0) / ln 10 in
    let s := nth (hi i) sndr 0 - nth (lo i) sndr 0 in
    if Reqb d 0 then (if Reqb s 0 then NaN else if Rltb 0 s then PInf else NInf) else Fin (s / d)) (seq 0 n).

(** ntfperf.m l.63-64: the grid of 10^6 points ending at one half. *)
Definition m_ntf_points : nat := Z.to_nat 1000000.
(** l.64, entry k+1. *)
Definition m_ntf_grid (k : nat) : R := INR (k + 1) / 1000000 / 2.
(** l.67-72: bode of a discrete-time num/den with sample time 1 is its magnitude on the unit circle. *)
Definition m_band_noise (num den : list R) (fl fh : R) : xr :=
  match xsum (map (fun k => mag2 num den (m_ntf_grid k)) (filter (fun k => Rltb fl (m_ntf_grid k) && Rltb (m_ntf_grid k) fh) (seq 0 m_ntf_points))) with
  | Fin s => Fin (s / 1000000)
  | v => v
  end.
(** l.52-75 *)
Definition m_ntfperf (num den : list R) (fl fh : R) : result xr :=
  raise_if (Rltb fl 0 || Rleb 0.5 fl || Rleb fh fl || Rltb 0.5 fh) RuntimeError
  (Ok (match m_band_noise num den fl fh with
       | Fin v => xaxpy 0 (-10) (xlog10 v)
       | PInf => NInf
       | NInf => NaN
       | NaN => NaN
       end)).
