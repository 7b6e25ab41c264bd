(** * Model of adctoolbox/aout/fit_static_nonlin.py.
    numpy's lstsq is an argument (used by the sine fit and by np.polyfit).  Not modelled: the
    warning for orders above 10, the conditioning warning of np.polyfit, rounding. *)
From Verif Require Import Base Cplx CalModel FitModel AcfModel RampModel.
Local Open Scope R_scope.

(** np.polyfit (numpy/lib/polynomial.py): Vandermonde matrix with decreasing powers, every column divided
    by its norm, least squares, coefficients divided by the norms again. *)
Definition vander (x : list R) (deg : nat) : mat := mkMat (length x) (S deg) (fun t j => nth t x 0 ^ (deg - j)).
Definition col_norm (A : mat) (j : nat) : R := sqrt (rsum (m_n A) (fun t => m_at A t j * m_at A t j)).
Definition polyfit (lstsq : lstsq_fun) (x y : list R) (deg : nat) : vec :=
  let V := vander x deg in
  let w := lstsq (mkMat (m_n V) (m_m V) (fun t j => m_at V t j / col_norm V j)) (fun t => nth t y 0) in
  fun j => w j / col_norm V j.
(** np.polyval of the coefficients (highest power first) *)
Definition polyval (p : vec) (deg : nat) (x : R) : R := rsum (S deg) (fun j => p j * x ^ (deg - j)).

Record nonlin_result := mkNonlin { nl_k2 : xr; nl_k3 : xr; nl_fitted : list R; nl_x : list R; nl_y : list R }.
(** fit_static_nonlin.py l.65-143; polycoeff[-i] is entry order + 1 - i.  The sine fit runs with its
    defaults (frequency estimated, one refinement, tolerance 1e-9). *)
Definition fit_static_nonlin (lstsq : lstsq_fun) (sig : list R) (order : Z) : result nonlin_result :=
  raise_if (order <? 2)%Z ValueError (
  let deg := Z.to_nat order in
  raise_if (Z.of_nat (length sig) <? order + 2)%Z ValueError (
  bind (fit_core lstsq sig None 1 (1 / 10 ^ 9)) (fun fit =>
  let fitted := f_fitted fit in
  let x_ideal := map (fun v => v - lmean fitted) fitted in
  let y_actual := map (fun v => v - lmean sig) sig in
  let ax := map Rabs x_ideal in
  let x_max := lmax1 (hd 0 ax) ax in
  raise_if (Rltb x_max (1 / 10 ^ 10)) ValueError (
  let p := polyfit lstsq (map (fun v => v / x_max) x_ideal) y_actual deg in
  let k1 := p (deg + 1 - 2)%nat / x_max in
  let k2 := p (deg + 1 - 3)%nat / x_max ^ 2 in
  let k3 := if (3 <=? order)%Z then xdivide (Fin (p (deg + 1 - 4)%nat / x_max ^ 3)) (Fin k1) else NaN in
  let lo := lmin1 (hd 0 fitted) fitted in let hi := lmax1 (hd 0 fitted) fitted in
  let xs := map (linspace_at lo hi 1000) (seq 0 1000) in
  let ys := map (fun v => polyval p deg ((v - lmean fitted) / x_max) + lmean sig) xs in
  Ok (mkNonlin (xdivide (Fin k2) (Fin k1)) k3 fitted xs ys))))).
