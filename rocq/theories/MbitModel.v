(** * Model of the MATLAB functions plotres (matlab/src/plotres.m), plotressin (matlab/src/shortcut/plotressin.m), bitact
    (matlab/src/legacy/bitact.m) and bitsweep (matlab/src/legacy/bitsweep.m).
    A figure is the record of what is drawn; colours, fonts and titles are left out.  The reading of positional and named arguments is not
    modelled: every function takes its options as values.  Records without samples are not represented. *)
From Verif Require Import Base SpecModel DoutModel PlotModel SineHistModel CalModel SweepModel DplotModel EplotModel MatModel McalModel MspecModel.
Local Open Scope R_scope.

(** ** plotres.m *)
(** l.75-88: the signal is a column or a row with as many samples as the matrix has rows. *)
Definition m_signal (sig : list (list R)) (N : nat) : result (list R) :=
  if (ncols sig =? 1)%nat then raise_if (negb (length sig =? N)%nat) RuntimeError (Ok (map (hd 0) sig))
  else raise_if (negb (length sig =? 1)%nat || negb (ncols sig =? N)%nat) RuntimeError (Ok (hd [] sig)).
(** l.38-42, 233-238: the pairs of stages; a preset or a matrix of whole numbers with two rows or two columns. *)
Inductive m_xy := XSig | XRes | XBit | XGiven (rows : list (list Z)).
(** l.98-104, 228-250 *)
Definition m_pairs (m : nat) (xy : m_xy) : result (list (Z * Z)) :=
  match xy with
  | XSig => Ok (map (fun k => (0, Z.of_nat (S k))%Z) (seq 0 m))
  | XRes => Ok (map (fun k => (Z.of_nat k, Z.of_nat m)) (seq 0 m))
  | XBit => Ok (map (fun k => (Z.of_nat k, Z.of_nat (S k))) (seq 0 m))
  | XGiven l =>
      raise_if (negb ((length l =? 2)%nat || (length (hd [] l) =? 2)%nat)) RuntimeError
      (Ok (if (length (hd [] l) =? 2)%nat then map (fun r => (nth 0 r 0%Z, nth 1 r 0%Z)) l else combine (nth 0 l []) (nth 1 l [])))
  end.
(** l.113-114: the residual of a stage; 1:z is empty for z <= 0.  The weights are a row ([row]) or a column of two or more: the product
    with wgt(1:z)' then fails unless it is one number. *)
Definition m_residual (sig : list R) (bits : list (list R)) (m : nat) (wgt : list R) (row : bool) (z : Z) : result (list R) :=
  let k := Z.to_nat z in
  raise_if ((m <? k) || (length wgt <? k))%nat RuntimeError
  (raise_if (negb row && negb (k =? 1)%nat) RuntimeError
   (Ok (map2 (fun s b => s - dot (firstn k b) (firstn k wgt)) sig bits))).
Record m_panel := mkPanel { pn_points : list (R * R); pn_xlabel : bit_label; pn_ylabel : bit_label }.
(** l.109-131 *)
Fixpoint m_panels (sig : list R) (bits : list (list R)) (m : nat) (wgt : list R) (row : bool) (pairs : list (Z * Z)) : result (list m_panel) :=
  match pairs with
  | [] => Ok []
  | (x, y) :: t =>
      bind (m_residual sig bits m wgt row x) (fun rx =>
      bind (m_residual sig bits m wgt row y) (fun ry =>
      bind (m_panels sig bits m wgt row t) (fun r => Ok (mkPanel (combine rx ry) (label_of x) (label_of y) :: r))))
  end.
(** l.93-96, 215-225, 261-264: the transparency; None is 'auto'. *)
Definition m_alpha (alpha : option R) (N : nat) : result R :=
  match alpha with
  | None => Ok (Rmin (Rmax (1000 / INR N) (1 / 10)) 1)
  | Some a => raise_if (Rleb a 0 || Rltb 1 a) RuntimeError (Ok a)
  end.
(** l.74-131; [wgt]: the weights and whether they are a row. *)
Definition m_plotres (sig : list (list R)) (bits : list (list R)) (m : nat) (wgt : option (list R * bool)) (xy : m_xy) (alpha : option R) : result (R * list m_panel) :=
  let N := length bits in
  bind (m_signal sig N) (fun s =>
  let '(w, row) := match wgt with None => (map (fun i => 2 ^ (m - 1 - i)) (seq 0 m), true) | Some v => v end in
  bind (m_pairs m xy) (fun ps =>
  bind (m_alpha alpha N) (fun a =>
  bind (m_panels s bits m w row ps) (fun l => Ok (a, l))))).

(** ** plotressin.m *)
Definition rows_of (a : mat) : list (list R) := map (fun i => map (fun j => m_at a i j) (seq 0 (m_m a))) (seq 0 (m_n a)).
Definition first_set (c : m_cal) : m_set := nth 0 (mc_sets c) (mkMset zvec zvec zvec).
(** l.59-76; with the defaults of wcalsin.  Ok None: the frequency could not be found and every point is nan. *)
Definition m_plotressin (lin : lstsq_fun) (rank : rank_fun) (bits0 : mat) (xy : m_xy) (freq order : R) (alpha : option R) : result (option (R * list m_panel)) :=
  let bits := McalModel.m_orient true bits0 in
  bind (m_pairs (m_m bits) xy) (fun _ =>
  bind (m_wcalsin lin rank bits freq (1 / 2) (1 / 10 ^ 12) 100 order false true true []) (fun o =>
  match o with
  | None => Ok None
  | Some c =>
      let s := map (fun t => ms_ideal (first_set c) t + mc_offset c) (seq 0 (m_n bits)) in
      bind (m_plotres [s] (rows_of bits) (m_m bits) (Some (map (mc_weight c) (seq 0 (m_m bits)), true)) xy alpha) (fun f => Ok (Some f))
  end)).

(** ** bitact.m l.31-69 *)
(** One text: the bit from 1, the height, the number with one decimal. *)
Record m_mark := mkMark { mk_bit : nat; mk_at : R; mk_num : num }.
Record m_activity := mkMact { ma_usage : list R; ma_bars : list (nat * R); ma_ideal : R; ma_xlim : R * R; ma_ylim : R * R; ma_marks : list m_mark }.
Definition m_bitact (bits : list (list R)) (B : nat) (annotate : bool) : m_activity :=
  let u := map (fun j => lsum (map (fun row => nth j row 0) bits) / INR (length bits) * 100) (seq 0 B) in
  mkMact u (map (fun b => (S b, nth b u 0)) (seq 0 B)) 50 (1 / 2, INR B + 1 / 2) (0, 100)
    (if annotate then flat_map (fun b => let v := nth b u 0 in if Rltb 95 v then [mkMark (S b) (v + 3) (fixed 1 v)]
                                         else if Rltb v 5 then [mkMark (S b) (v + 3) (fixed 1 v)] else []) (seq 0 B)
     else []).

(** ** bitsweep.m *)
(** l.31: bits(:, 1:k). *)
Definition m_prefix (bits : mat) (k : nat) : mat := mkMat (m_n bits) k (fun i j => if (i <? m_n bits)%nat && (j <? k)%nat then m_at bits i j else 0).
(** l.33-41: the calibration with the first columns and the spectrum of its output; any error, and nan, end as NaN.
    [w]: the samples of the window function for this record length. *)
Definition m_sweep_entry (lin : lstsq_fun) (rank : rank_fun) (sub : mat) (freq order : R) (harmonic : Z) (osr : R) (w : list R) : xr :=
  match m_wcalsin lin rank sub freq (1 / 2) (1 / 10 ^ 12) 100 order false true true [] with
  | Ok (Some c) =>
      match m_plotspec [map (ms_postcal (first_set c)) (seq 0 (m_n sub))] 1 None false (MGiven w) None osr harmonic 5 0 None 0 with
      | Ok (Some r) => ms_enob r
      | _ => NaN
      end
  | _ => NaN
  end.
(** l.3-42.  A frequency that could not be found (nan) fails every calibration's check. *)
Definition m_bitsweep (lin : lstsq_fun) (rank : rank_fun) (bits0 : mat) (freq order : R) (harmonic : Z) (osr : R) (window : nat -> list R) : result (list xr) :=
  let bits := McalModel.m_orient true bits0 in
  raise_if (Rltb freq 0 || Rleb order 0 || (harmonic <=? 0)%Z || Rleb osr 0) RuntimeError
  (bind (if Reqb freq 0
         then bind (m_wcalsin lin rank bits 0 (1 / 2) (1 / 10 ^ 12) 100 order false true true []) (fun o =>
              Ok (match o with Some c => Some (nth 0 (mc_freq c) 0) | None => None end))
         else Ok (Some freq)) (fun f =>
   Ok (map (fun k => match f with
                     | Some v => m_sweep_entry lin rank (m_prefix bits k) v order harmonic osr (window (m_n bits))
                     | None => NaN
                     end) (seq 1 (m_m bits))))).
(** l.44-88 for a list without infinite values; the dashed line lies at the largest value that is a number. *)
Definition m_sweep_figure (e : list xr) : enob_figure * option (R * num) :=
  let m := length e in
  let v := flat_map (fun x => match x with Fin r => [r] | _ => [] end) e in
  let offset := match v with [] => 1 / 10 | _ => (rmax_list v - rmin_list v) * (6 / 100) end in
  let delta i := match i with O => nth 0 e NaN | S j => xsub (nth i e NaN) (nth j e NaN) end in
  let one i := match nth i e NaN, delta i with
               | Fin y, Fin d => [mkNote (S i) (y + offset) (negb (i =? 0)%nat) (fixed 2 d) (if (i =? 0)%nat then 0 else 1 - Rmax 0 (Rmin 1 d))]
               | _, _ => []
               end in
  (mkEF (combine (seq 1 m) e) (1 / 2, INR m + 1 / 2) (seq 1 m) (match v with [] => None | _ => Some (rmin_list v - 1 / 2, rmax_list v + 2) end) (flat_map one (seq 0 m)),
   match v with [] => None | _ => Some (rmax_list v, fixed 2 (rmax_list v)) end).
