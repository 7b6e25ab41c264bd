(** * Model of adctoolbox/dout/analyze_enob_sweep.py.
    The bit matrix is two-dimensional.  Not modelled: plotting and printing, rounding. *)
From Verif Require Import Base SpecModel CalModel.
Local Open Scope R_scope.

(** l.78-82 bits[:, :n] @ weights[:n] *)
Definition partial_signal (bits : mat) (w : vec) (n : nat) : list R := map (fun i => rsum n (fun j => m_at bits i j * w j)) (seq 0 (m_n bits)).
(** l.84-86 analyze_spectrum with the given osr and window (analyze_spectrum.py l.31-33, 72-83 for the defaults). *)
Definition sweep_spectrum (kaiser38 cheb100 : nat -> list R) (x : list R) (osr : R) (wt : win) : result spectrum :=
  compute_spectrum kaiser38 cheb100 [x] 1 ScaleAuto wt None osr 5 0 None 0.
(** l.76-87 the loop over the bit counts; weights has [len] entries, and the product raises when fewer than n are there. *)
Fixpoint sweep_from (kaiser38 cheb100 : nat -> list R) (bits : mat) (w : vec) (len : nat) (osr : R) (wt : win) (counts : list nat) : result (list xr) :=
  match counts with
  | [] => Ok []
  | n :: rest =>
      raise_if (len <? n)%nat ValueError
      (bind (sweep_spectrum kaiser38 cheb100 (partial_signal bits w n) osr wt) (fun sp =>
       bind (sweep_from kaiser38 cheb100 bits w len osr wt rest) (fun l => Ok (sp_enob sp :: l))))
  end.
(** l.62-74, 129: the two returned arrays.  The calibration turns a matrix with fewer rows than columns round
    (_prepare_input.py l.82-86), so it returns as many weights as the shorter side. *)
Definition enob_sweep (kaiser38 cheb100 : nat -> list R) (lstsq : lstsq_fun) (rank : rank_fun) (est : nat -> R) (bits : mat) (freq : freq_arg) (H : nat) (osr : R) (wt : win)
  : result (list xr * list nat) :=
  bind (calibrate_weight_sine lstsq rank est [bits] freq None None H 0.5 (1 / 10 ^ 12) 100) (fun r =>
  let len := if (m_n bits <? m_m bits)%nat then m_n bits else m_m bits in
  let counts := seq 1 (m_m bits) in
  bind (sweep_from kaiser38 cheb100 bits (r_weight r) len osr wt counts) (fun e => Ok (e, counts))).
