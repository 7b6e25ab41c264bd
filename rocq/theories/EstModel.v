(** * Model of adctoolbox/calibration/_estimate_frequencies.py, the automatic part
    (CalModel.v takes its result as an argument), and of frequency.py estimate_frequency.
    numpy's argsort and lstsq are arguments.  Left out: the anchor bin of l.77-83, which is only printed. *)
From Verif Require Import Base SpecModel CalModel FitModel.
Local Open Scope R_scope.

(** l.52 np.sum(np.diff(segment, axis=0) != 0, axis=0), entry j *)
Definition toggles (a : mat) (j : nat) : R :=
  rsum (m_n a - 1) (fun i => if Reqb (m_at a (S i) j - m_at a i j) 0 then 0 else 1).
(** l.55-56 and l.64/67: bits [idx] (most significant first) with weights 2^(n_use-1) .. 1. *)
Definition assumed_code (a : mat) (idx : list nat) (i : nat) : R :=
  rsum (length idx) (fun p => m_at a i (nth p idx 0%nat) * 2 ^ (length idx - 1 - p)).
Definition assumed_signal (a : mat) (idx : list nat) : list R := map (assumed_code a idx) (seq 0 (m_n a)).
(** numpy's >= *)
Definition xgeb (a b : xr) : bool :=
  match a, b with
  | Fin x, Fin y => Rleb y x
  | NaN, _ => false | _, NaN => false
  | PInf, _ => true | _, NInf => true
  | _, _ => false
  end.
(** frequency.py l.201-207 for one record: fit_sine_4param with its defaults, fs = 1. *)
Definition estimate_frequency (lstsq : lstsq_fun) (x : list R) : result R :=
  bind (fit_core lstsq x None 1 (1 / 10 ^ 9)) (fun r => Ok (f_frequency r * 1)).
(** l.49-92, one data set: the bits sorted by activity, upwards (A) and downwards (B). *)
Definition auto_frequency (kaiser38 cheb100 : nat -> list R) (argsort : list R -> list nat) (lstsq : lstsq_fun) (a : mat) : result R :=
  let sorted := argsort (map (toggles a) (seq 0 (m_m a))) in
  let n_use := Nat.min 6 (m_m a) in
  let sig_A := assumed_signal a (firstn n_use sorted) in
  let sig_B := assumed_signal a (firstn n_use (rev sorted)) in
  bind (compute_spectrum kaiser38 cheb100 [sig_A] 1 ScaleAuto Hann None 1 5 0 None 0) (fun rA =>
  bind (compute_spectrum kaiser38 cheb100 [sig_B] 1 ScaleAuto Hann None 1 5 0 None 0) (fun rB =>
  estimate_frequency lstsq (if xgeb (sp_sndr rA) (sp_sndr rB) then sig_A else sig_B))).
(** l.45-94 the loop over the data sets: rows row_offsets[k] to row_offsets[k+1] of the stacked bits. *)
Fixpoint auto_frequencies (est : mat -> result R) (stacked : mat) (row : nat) (lens : list nat) : result (list R) :=
  match lens with
  | [] => Ok []
  | n :: rest => bind (est (rows_from row n stacked)) (fun f => bind (auto_frequencies est stacked (row + n) rest) (fun l => Ok (f :: l)))
  end.
(** calibrate_weight_sine.py l.92-182 with the estimate computed (l.124) instead of given. *)
Definition calibrate_auto (kaiser38 cheb100 : nat -> list R) (argsort : list R -> list nat) (lstsq : lstsq_fun) (rank : rank_fun) (bits_list : list mat) (freq : freq_arg)
    (force_search : option bool) (nominal : option (list R)) (H : nat) (lr reltol : R) (max_iter : nat) : result cal_result :=
  raise_if (existsb (fun x => Rltb (1 / 2) x) (freq_list freq)) ValueError
  (bind (prepare_input bits_list nominal) (fun '(segs, _, _) =>
   bind (if all_zero freq then auto_frequencies (auto_frequency kaiser38 cheb100 argsort lstsq) (stack segs) 0 (map m_n segs) else Ok []) (fun est =>
   calibrate_weight_sine lstsq rank (fun k => nth k est 0) bits_list freq force_search nominal H lr reltol max_iter))).
