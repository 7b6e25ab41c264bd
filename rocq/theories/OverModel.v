(** * Model of adctoolbox/oversampling (ntf_analyzer.py, ntfperf.py, perfosr.py, ifilter.py) and of the whole of
    adctoolbox/spectrum/sweep_performance_vs_osr.py, sine fit included.
    A transfer function is its numerator and denominator (highest power first).  numpy's lstsq and argsort are
    arguments.  Not modelled: drawing, rounding, scipy's removal of leading numerator coefficients that are
    tiny but not zero. *)
From Verif Require Import Base Cplx FreqModel UnitsModel TiModel SpecModel CalModel FitModel OsrModel BandModel.
Local Open Scope R_scope.

(** ntf_analyzer.py l.20 np.linspace(0, 0.5, 2**16), entry k. *)
Definition ntf_grid (k : nat) : R := INR k * (0.5 / 65535).
(** Horner's rule, as numpy's polyval. *)
Definition peval (p : list R) (z : C) : C := fold_left (fun acc c => Cplus (Cmult acc z) (RtoC c)) p C0.
(** l.31-33 the squared magnitude of num(z)/den(z) at z = exp(j 2 pi f); dividing a complex number by zero gives
    an infinite magnitude, 0/0 nan. *)
Definition mag2 (num den : list R) (f : R) : xr :=
  let z := cis (f * 2 * PI) in
  if Reqb (Cmod2 (peval den z)) 0 then (if Reqb (Cmod2 (peval num z)) 0 then NaN else PInf)
  else Fin (Cmod2 (peval num z) / Cmod2 (peval den z)).
(** np.sum of values that are finite, +inf or nan. *)
Definition xadd (a b : xr) : xr :=
  match a, b with
  | Fin x, Fin y => Fin (x + y)
  | NaN, _ => NaN | _, NaN => NaN
  | PInf, NInf => NaN | NInf, PInf => NaN
  | PInf, _ => PInf | _, PInf => PInf
  | NInf, _ => NInf | _, NInf => NInf
  end.
Definition xsum (l : list xr) : xr := fold_right xadd (Fin 0) l.
(** len(w) *)
Definition ntf_points : nat := Z.to_nat 65536.
(** l.36 band_mask *)
Definition in_band (flow fhigh f : R) : bool := Rltb flow f && Rltb f fhigh.
(** l.36-37 np_val *)
Definition band_noise (num den : list R) (flow fhigh : R) : xr :=
  match xsum (map (fun k => mag2 num den (ntf_grid k)) (filter (fun k => in_band flow fhigh (ntf_grid k)) (seq 0 ntf_points))) with
  | Fin s => Fin (s / 65536)
  | v => v
  end.
(** l.22-38 ntf_analyzer for a (num, den) tuple; scipy's TransferFunction rejects an empty or all-zero denominator
    and an empty numerator with ValueError. *)
Definition ntf_analyzer (num den : list R) (flow fhigh : R) : result xr :=
  raise_if ((length num =? 0)%nat || forallb (fun c => Reqb c 0) den) ValueError
  (Ok (match band_noise num den flow fhigh with
       | Fin v => xaxpy 0 (-10) (xlog10 v)
       | PInf => NInf
       | NInf => NaN
       | NaN => NaN
       end)).
(** ntfperf.py l.9-15 *)
Definition ntfperf := ntf_analyzer.
(** ifilter.py l.9-34 *)
Definition ifilter := extract_freq_components.

(** sweep_performance_vs_osr.py l.53-104 and l.182, with the sine fit of l.64-67 (its defaults: automatic frequency,
    one refinement, tolerance 1e-9).  [argsort] is np.argsort. *)
Definition sweep_performance (lstsq : lstsq_fun) (argsort : list R -> list nat) (data : list R) (osr : option (list R))
    : result (list R * list (xr * xr * xr)) :=
  bind (match osr with None => default_osr (length data) | Some o => Ok o end) (fun o =>
  bind (fit_core lstsq data None 1 (1 / 10 ^ 9)) (fun fit =>
  bind (osr_sweep (map2 Rminus data (f_fitted fit)) (f_amplitude fit) o (argsort o)) (fun l => Ok (o, l)))).

(** perfosr.py l.32-52.  [harmonic] and [smooth] only matter for the plot but are checked first. *)
Definition perfosr (lstsq : lstsq_fun) (argsort : list R -> list nat) (sig : list R) (osr : option (list R)) (harmonic : R) (smooth : option R)
    : result (list R * list xr * list xr * list xr) :=
  raise_if (Rltb harmonic 1 || negb (Reqb (IZR (Zfloor harmonic)) harmonic)) ValueError
  (raise_if (match smooth with Some s => Rltb s 1 | None => false end) ValueError
  (raise_if (match osr with Some o => existsb (fun x => Rleb x 0) o | None => false end) ValueError
  (bind (sweep_performance lstsq argsort sig osr) (fun '(o, l) =>
   Ok (o, map (fun r => fst (fst r)) l, map (fun r => snd (fst r)) l, map snd l))))).

(** sweep_performance_vs_osr.py l.153-166: the local slope of the SNDR curve (dB per decade), for finite SNDRs. *)
Definition smooth_width (n : nat) (smooth : option Z) : Z :=
  Z.min (match smooth with None => Z.max 5 (round_he (INR n / 10)) | Some s => s end) ((Z.of_nat n - 1) / 2).
Definition local_slope (osr sndr : list R) (smooth : option Z) : list R :=
  let n := length osr in
  let w := smooth_width n smooth in
  let lo i := Z.to_nat (Z.max 0 (Z.of_nat i - w)) in
  let hi i := Z.to_nat (Z.min (Z.of_nat n - 1) (Z.of_nat i + w)) in
  map (fun i =>
    let denom := ln (nth (hi i) osr 0) / ln 10 - ln (nth (lo i) osr 0) / ln 10 in
    if Rltb (1 / 10 ^ 15) (Rabs denom) then (nth (hi i) sndr 0 - nth (lo i) sndr 0) / denom else 0) (seq 0 n).
