(** * Model of adctoolbox/aout/analyze_error_pdf.py (everything but the plotting).
    numpy's lstsq is an argument (used by the sine fit).  Not modelled: plotting, warnings, rounding, records that
    are not one-dimensional.  N**(-1/5) is the real power. *)
From Verif Require Import Base Cplx CalModel FitModel RampModel.
Local Open Scope R_scope.

(** np.std(e, ddof=1): 0/0 for one sample. *)
Definition std1 (e : list R) : xr :=
  if (length e <=? 1)%nat then NaN
  else Fin (sqrt (lsum (map (fun v => (v - lmean e) ^ 2) e) / (INR (length e) - 1))).
(** np.finfo(float).eps *)
Definition eps64 : R := / 2 ^ 52.
(** l.85 the bandwidth for the deviation s. *)
Definition bandwidth (s : R) (n : nat) : R := 1.06 * s * Rpower (INR n) (- (1 / 5)).
(** l.94-96 one value of the kernel estimate. *)
Definition kde (e : list R) (h x : R) : R := lmean (map (fun v => exp (- (1 / 2) * ((x - v) / h) ^ 2)) e) / (h * sqrt (2 * PI)).
(** l.101 *)
Definition gauss (mu s x : R) : R := 1 / (s * sqrt (2 * PI)) * exp (- (x - mu) ^ 2 / (2 * s ^ 2)).

(** [p_pdf], [p_gauss] and [p_kl] are None when they are NaN throughout, which is when the deviation is
    zero (0/0 in l.95-96 and inf*0 in l.101) or NaN (one sample). *)
Record epdf := mkEpdf { p_err : list R; p_mu : R; p_sigma : xr; p_x : list R; p_pdf : option (list R); p_gauss : option (list R); p_kl : option R }.
(** What the function returns: numbers, or [NotFinite] when the LSB is zero, so that l.81 divides by zero
    (simplification: which of the values are then infinite and which NaN is not modelled). *)
Inductive epdf_result := Numbers (r : epdf) | NotFinite.
(** l.85-107, on the errors in LSB *)
Definition pdf_of (e : list R) : epdf :=
  let n := length e in
  let s := std1 e in
  let lim := Rmax 0.5 (fold_right Rmax 0 (map Rabs e)) in                              (* l.88-89, n > 0 *)
  let x := map (linspace_at (- lim) lim 200) (seq 0 200) in
  let mu := lmean e in
  match s with
  | Fin s => if Reqb s 0 then mkEpdf e mu (Fin 0) x None None None else
      let fx := map (kde e (bandwidth s n)) x in
      let g := map (gauss mu s) x in
      let dx := nth 1 x 0 - nth 0 x 0 in
      let kl := lsum (map2 (fun a b => (a + eps64) * ln ((a + eps64) / (b + eps64))) fx g) * dx in    (* l.104-107 *)
      mkEpdf e mu (Fin s) x (Some fx) (Some g) (Some kl)
  | _ => mkEpdf e mu s x None None None
  end.
(** l.64-107.  Without samples (possible when a frequency is given) the maximum of an empty array raises
    ValueError (l.77) or, with a given full scale, 0**(-1/5) raises ZeroDivisionError (l.85). *)
Definition error_pdf (lstsq : lstsq_fun) (signal : list R) (resolution : Z) (full_scale freq : option R) (max_iter : Z) (tol : R) : result epdf_result :=
  bind (fit_core lstsq signal freq max_iter tol) (fun fit =>
  match signal with
  | [] => Err (match full_scale with Some _ => ZeroDivisionError | None => ValueError end)
  | s0 :: rest =>
      let err := map2 Rminus signal (f_fitted fit) in                                   (* l.73 *)
      let fs := match full_scale with Some v => v | None => lmax1 s0 rest - lmin1 s0 rest end in
      let lsb := fs / powerRZ 2 resolution in                                           (* l.80 *)
      Ok (if Reqb lsb 0 then NotFinite else Numbers (pdf_of (map (fun v => v / lsb) err)))
  end).
