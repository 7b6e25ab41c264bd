(** * Model of adctoolbox/aout/analyze_error_autocorr.py.
    1-D signals; plotting and the optional fit diagnostics are not modelled. *)
From Verif Require Import Base CalModel FitModel.
Local Open Scope R_scope.

(** numpy's mean of a possibly empty array. *)
Definition xmean (l : list R) : xr := match l with [] => NaN | _ => Fin (lmean l) end.
(** e[:k] and e[k:N] for an integer k (negative k counts from the end in the first form). *)
Definition take_py (e : list R) (k : Z) : list R := if (k <? 0)%Z then firstn (Z.to_nat (Z.of_nat (length e) + k)) e else firstn (Z.to_nat k) e.
Definition drop_py (e : list R) (k : Z) : list R := skipn (Z.to_nat k) e.
(** Elementwise product with numpy broadcasting of 1-D arrays. *)
Definition bmul (a b : list R) : result (list R) :=
  if (length a =? length b)%nat then Ok (map2 Rmult a b)
  else match a, b with
       | [x], _ => Ok (map (fun y => x * y) b)
       | _, [y] => Ok (map (fun x => x * y) a)
       | _, _ => Err ValueError
       end.
(** l.83-92 one lag *)
Definition acf_at (e : list R) (lag : Z) : result xr :=
  let N := Z.of_nat (length e) in
  let x1 := if (0 <=? lag)%Z then (if (0 <? lag)%Z then take_py e (N - lag) else e) else drop_py e (- lag) in
  let x2 := if (0 <=? lag)%Z then (if (0 <? lag)%Z then drop_py e lag else e) else take_py e (N - - lag) in
  bind (bmul x1 x2) (fun p => Ok (xmean p)).
Fixpoint acf_all (e : list R) (lags : list Z) : result (list xr) :=
  match lags with [] => Ok [] | k :: r => bind (acf_at e k) (fun v => bind (acf_all e r) (fun vs => Ok (v :: vs))) end.
(** numpy float division *)
Definition xdivide (a b : xr) : xr :=
  match a, b with
  | Fin x, Fin y => if Reqb y 0 then (if Reqb x 0 then NaN else if Rltb 0 x then PInf else NInf) else Fin (x / y)
  | _, _ => NaN
  end.
(** l.78 np.arange(-max_lag, max_lag + 1) *)
Definition lag_list (max_lag : Z) : list Z := map (fun i => (Z.of_nat i - max_lag)%Z) (seq 0 (Z.to_nat (2 * max_lag + 1))).
(** l.71-97 the autocorrelation of an error record (index max_lag is lag zero). *)
Definition error_acf (error : list R) (max_lag : Z) (normalize : bool) : result (list xr) :=
  let e := map (fun x => x - lmean error) error in
  bind (acf_all e (lag_list max_lag)) (fun acf =>
  Ok (if normalize then map (fun v => xdivide v (nth (Z.to_nat max_lag) acf NaN)) acf else acf)).
(** l.14-128 *)
Definition analyze_error_autocorr (lstsq : lstsq_fun) (signal : list R) (frequency : option R) (max_lag : Z) (normalize : bool) (max_iterations : Z) (tolerance : R)
  : result (list xr * list Z * list R) :=
  bind (fit_core lstsq signal frequency max_iterations tolerance) (fun fit =>
  let error := map2 Rminus signal (f_fitted fit) in
  bind (error_acf error max_lag normalize) (fun acf => Ok (acf, lag_list max_lag, error))).
