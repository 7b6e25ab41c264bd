(** * Model of adctoolbox/aout/analyze_error_phase_plane.py (everything but the plotting).
    numpy's lstsq is an argument (used by the sine fit and by np.polyfit).  Not modelled: plotting, the display
    units (they only select labels), the conditioning warning of np.polyfit, rounding. *)
From Verif Require Import Base Cplx CalModel FitModel NonlinModel SiggenModel.
Local Open Scope R_scope.

(** l.67-68 the unit_mode argument; [UnitOther] is any other string. *)
Inductive unit_mode := UnitAuto | UnitNormalized | UnitVoltage | UnitCode | UnitOther.
(** np.polyfit with its argument checks (numpy/lib/polynomial.py): a negative degree raises ValueError,
    an empty vector TypeError. *)
Definition polyfit_checked (lstsq : lstsq_fun) (x y : list R) (order : Z) : result vec :=
  raise_if (order <? 0)%Z ValueError (raise_if (length x =? 0)%nat TypeError (Ok (polyfit lstsq x y (Z.to_nat order)))).
(** np.gradient with unit spacing: central differences inside, one-sided differences at the ends (l.114). *)
Definition gradient (l : list R) (i : nat) : R :=
  let d := fun j => nth j l 0 in
  if (i =? 0)%nat then d 1%nat - d 0%nat
  else if (i =? length l - 1)%nat then d i - d (i - 1)%nat
  else (d (i + 1)%nat - d (i - 1)%nat) / 2.
(** a[mask] for a boolean mask given by a predicate on the positions. *)
Definition positions (n : nat) (m : nat -> bool) : list nat := filter m (seq 0 n).
Definition masked (l : list R) (m : nat -> bool) : list R := map (fun t => nth t l 0) (positions (length l) m).

Record eplane := mkEplane { ep_residual : list R; ep_fit : fit_result; ep_trend : vec; ep_gap : R }.
(** l.64-140; the fit runs with three refinements and the default tolerance 1e-9. *)
Definition error_phase_plane (lstsq : lstsq_fun) (data : list R) (order : Z) (detect : bool) (mode : unit_mode) : result eplane :=
  let n := length data in
  raise_if (match mode with UnitOther => true | _ => false end) ValueError (           (* l.69 *)
  raise_if (match mode with UnitAuto => (n =? 0)%nat | _ => false end) ValueError (    (* l.76: max of an empty array *)
  bind (fit_core lstsq data None 3 (1 / 10 ^ 9)) (fun fit =>                           (* l.93 *)
  let residual := f_residuals fit in
  let x_sorted := rsort data in                                                        (* l.98-99 *)
  bind (percentile data 2) (fun lo => bind (percentile data 98) (fun hi =>             (* l.103 *)
  let valid := fun t => (Rltb lo (nth t data 0) && Rltb (nth t data 0) hi)%bool in
  bind (polyfit_checked lstsq (masked data valid) (masked residual valid) order) (fun trend =>    (* l.106 *)
  let deg := Z.to_nat order in
  if detect then                                                                       (* l.114-136 *)
    let rise := fun t => Rltb 0 (gradient data t) in
    let fall := fun t => Rltb (gradient data t) 0 in
    if ((100 <? length (positions n rise)) && (100 <? length (positions n fall)))%nat%bool then
      let vr := fun t => (rise t && valid t)%bool in
      let vf := fun t => (fall t && valid t)%bool in
      bind (if (50 <? length (positions n vr))%nat then bind (polyfit_checked lstsq (masked data vr) (masked residual vr) order) (fun c => Ok (Some c)) else Ok None) (fun cr =>
      bind (if (50 <? length (positions n vf))%nat then bind (polyfit_checked lstsq (masked data vf) (masked residual vf) order) (fun c => Ok (Some c)) else Ok None) (fun cf =>
      let gap := match cr, cf with
                 | Some p, Some q => lmean (map (fun x => Rabs (polyval p deg x - polyval q deg x)) x_sorted)
                 | _, _ => 0
                 end in
      Ok (mkEplane residual fit trend gap)))
    else Ok (mkEplane residual fit trend 0)
  else Ok (mkEplane residual fit trend 0)))))))%R.
