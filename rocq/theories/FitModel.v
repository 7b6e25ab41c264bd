(** * Model of adctoolbox/fundamentals/fit_sine_4param.py.
    numpy's lstsq is an argument (a function of the design matrix and the data).  The FFT is the
    exact discrete Fourier transform.  Not modelled: printing, warnings, rounding (in particular the
    sign of a zero, which decides between +pi and -pi in arctan2). *)
From Verif Require Import Base Cplx SpecModel TiModel CalModel.
Local Open Scope R_scope.

Record fit_result := mkFit {
  f_fitted : list R; f_residuals : list R; f_frequency : R; f_amplitude : R; f_phase : R; f_dc : R; f_rmse : xr;
  f_converged : bool; f_iterations : nat; f_initial : R; f_last_delta : R }.

(** l.128-142 _estimate_frequency_fft.  The FFT of an empty record and the argmax of an empty
    spectrum (one sample) raise ValueError. *)
Definition estimate_frequency_fft (y : list R) : result R :=
  let n := length y in
  let spec := map (fun k => if (k =? 0)%nat then 0 else Cmod (rdft n (fun i => nth i y 0) k)) (seq 0 (n / 2)) in
  raise_if (n / 2 =? 0)%nat ValueError
  (let k := argmax spec in
   let s := fun i => nth i spec 0 in
   if ((0 <? k) && (k <? length spec - 1))%nat
   then Ok ((INR k + (if Rltb (s (k - 1)%nat) (s (k + 1)%nat)
                      then s (k + 1)%nat / (s k + s (k + 1)%nat)
                      else - s (k - 1)%nat / (s k + s (k - 1)%nat))) / INR n)
   else Ok (INR k / INR n)).

(** np.clip *)
Definition rclip (x lo hi : R) : R := Rmin (Rmax x lo) hi.
(** l.61-71 the design matrices: three columns first, four when refining. *)
Definition design3 (n : nat) (freq : R) : mat :=
  let omega := 2 * PI * freq in
  of_cols n [fun t => cos (omega * INR t); fun t => sin (omega * INR t); fun _ => 1].
Definition design4 (n : nat) (freq a b : R) : mat :=
  let omega := 2 * PI * freq in
  of_cols n [fun t => cos (omega * INR t); fun t => sin (omega * INR t); fun _ => 1;
             fun t => INR t * (- a * sin (omega * INR t) + b * cos (omega * INR t))].

(** State of the loop of l.60-90. *)
Record fit_state := mkFs { s_freq : R; s_a : R; s_b : R; s_c : R; s_conv : bool; s_iter : nat; s_last : R }.
(** One refinement (i > 0). *)
Definition refine_once (lstsq : lstsq_fun) (y : list R) (tol : R) (s : fit_state) : fit_state :=
  let co := lstsq (design4 (length y) (s_freq s) (s_a s) (s_b s)) (fun i => nth i y 0) in
  let delta := co 3%nat / (2 * PI) in
  mkFs (rclip (s_freq s + delta) (1 / 10 ^ 10) (1 / 2 - 1 / 10 ^ 10)) (co 0%nat) (co 1%nat) (co 2%nat)
       (if Rltb (Rabs delta) tol then true else s_conv s) (S (s_iter s)) delta.
(** The remaining iterations; [break] when converged in this iteration. *)
Fixpoint refine (lstsq : lstsq_fun) (y : list R) (tol : R) (fuel : nat) (s : fit_state) : fit_state :=
  match fuel with
  | O => s
  | S k => let s' := refine_once lstsq y tol s in
           if Rltb (Rabs (s_last s')) tol then s' else refine lstsq y tol k s'
  end.
(** l.49-115 _fit_core; [max_iter] is any integer (range of a negative number is empty). *)
Definition fit_core (lstsq : lstsq_fun) (y : list R) (freq_init : option R) (max_iter : Z) (tol : R) : result fit_result :=
  bind (match freq_init with Some f => Ok f | None => estimate_frequency_fft y end) (fun freq =>
  let n := length y in
  let start := mkFs freq 0 0 0 (max_iter =? 0)%Z 0 0 in
  let final :=
    if (max_iter <? 0)%Z then start
    else let co := lstsq (design3 n freq) (fun i => nth i y 0) in
         refine lstsq y tol (Z.to_nat max_iter) (mkFs freq (co 0%nat) (co 1%nat) (co 2%nat) (max_iter =? 0)%Z 0 0) in
  let omega := 2 * PI * s_freq final in
  let a := s_a final in let b := s_b final in let c := s_c final in
  let fitted := map (fun t => a * cos (omega * INR t) + b * sin (omega * INR t) + c) (seq 0 n) in
  let resid := map2 Rminus y fitted in
  Ok (mkFit fitted resid (s_freq final) (sqrt (a ^ 2 + b ^ 2)) (Carg (a, - b)) c
            (if (n =? 0)%nat then NaN else Fin (sqrt (lmean (map (fun r => r ^ 2) resid))))
            (s_conv final) (s_iter final) freq (s_last final))).

(** l.36-47 fit_sine_4param: a record, or an array whose columns are records.  The merged result
    of l.117-126 is represented by the list of the channel results; without a channel the merge
    raises IndexError. *)
Inductive fit_data := Data1 (y : list R) | Data2 (columns : list (list R)) | DataN.
Fixpoint fit_all (lstsq : lstsq_fun) (cols : list (list R)) (f : option R) (mi : Z) (tol : R) : result (list fit_result) :=
  match cols with
  | [] => Ok []
  | y :: rest => bind (fit_core lstsq y f mi tol) (fun r => bind (fit_all lstsq rest f mi tol) (fun rs => Ok (r :: rs)))
  end.
Definition fit_sine_4param (lstsq : lstsq_fun) (d : fit_data) (f : option R) (mi : Z) (tol : R) : result (fit_result + list fit_result) :=
  match d with
  | Data1 y => bind (fit_core lstsq y f mi tol) (fun r => Ok (inl r))
  | Data2 cols => bind (fit_all lstsq cols f mi tol) (fun rs => match rs with [] => Err IndexError | _ => Ok (inr rs) end)
  | DataN => Err ValueError
  end.
