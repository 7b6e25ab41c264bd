(** * Model of adctoolbox/models/sar.py *)
From Verif Require Import Base.
Local Open Scope R_scope.

(** sar.py 31-39  _parse_quant_range.  [quant_range] is any tuple of floats. *)
Definition parse_quant_range (q : list xr) : result (R * R) :=
  match q with
  | [a; b] =>
      match a, b with
      | Fin v_min, Fin v_max =>
          if Rleb v_max v_min then Err ValueError (* l.37-38 *) else Ok (v_min, v_max)
      | _, _ => Err ValueError (* l.35-36: not finite *)
      end
  | _ => Err ValueError (* l.32-33: len != 2 *)
  end.

(** Python list indexing l[i] (negative indices count from the end). *)
Definition py_index (len : nat) (i : Z) : option nat :=
  let j := if (i <? 0)%Z then (i + Z.of_nat len)%Z else i in
  if ((0 <=? j) && (j <? Z.of_nat len))%Z then Some (Z.to_nat j) else None.

(** Python list.insert(i, x): position is clamped, never an error. *)
Definition py_insert {A} (i : Z) (x : A) (l : list A) : list A :=
  let n := Z.of_nat (length l) in
  let j := if (i <? 0)%Z then Z.max 0 (i + n) else Z.min i n in
  firstn (Z.to_nat j) l ++ x :: skipn (Z.to_nat j) l.

(** sar.py 79: [2 ** (num_bits - 1 - i) for i in range(num_bits)]  (range of a
    non-positive number is empty). *)
Definition binary_list (num_bits : Z) : list Z :=
  map (fun i => 2 ^ (num_bits - 1 - Z.of_nat i))%Z (seq 0 (Z.to_nat num_bits)).

(** sar.py 79-81: the raw integer weights, with the optional duplicated bit. *)
Definition raw_weights (num_bits : Z) (redundant_bit : option Z) : result (list Z) :=
  let w := binary_list num_bits in
  match redundant_bit with
  | None => Ok w
  | Some r =>
      match py_index (length w) r with
      | None => Err IndexError                      (* w[redundant_bit] *)
      | Some k => Ok (py_insert (r + 1) (nth k w 0%Z) w)
      end
  end.

(** sar.py 82-83: as float array, divided by (w.sum() + w[-1]); w[-1] of an empty
    array is an IndexError. *)
Definition sar_ideal_weights (num_bits : Z) (redundant_bit : option Z) : result (list R) :=
  bind (raw_weights num_bits redundant_bit) (fun w =>
    let wr := map IZR w in
    match rev wr with
    | nil => Err IndexError
    | lsb :: _ => Ok (map (fun x => x / (lsum wr + lsb)) wr)
    end).

(** sar.py 128-157  sar_apply_cap_mismatch for a 1-D weights array.  [draws] are the
    values rng.standard_normal returns.  The ndim check (l.129) is not modelled:
    [weights] is a list. *)
Definition all_finite (l : list xr) : bool := forallb xfinite l.
Definition fin_part (x : xr) : R := match x with Fin r => r | _ => 0 end.

Definition sar_apply_cap_mismatch (weights : list xr) (sigma : xr) (draws : list R)
    (cap_units : option (list xr)) : result (list R) :=
  match weights with
  | nil => Err ValueError                                              (* l.131 *)
  | _ =>
    if negb (all_finite weights) then Err ValueError else              (* l.133 *)
    let w := map fin_part weights in
    if existsb (fun x => Rleb x 0) w then Err ValueError else          (* l.135 *)
    match sigma with
    | Fin s =>
      if Rltb s 0 then Err ValueError else                             (* l.137 *)
      let units :=
        match cap_units with
        | None => Ok (map (fun x => x / lmin1 (hd 0 w) (tl w)) w)      (* l.141 *)
        | Some u =>
            if negb (length u =? length w)%nat then Err ValueError else   (* l.144 *)
            if negb (all_finite u) then Err ValueError else               (* l.148 *)
            let u' := map fin_part u in
            if existsb (fun x => Rleb x 0) u' then Err ValueError      (* l.150 *)
            else Ok u'
        end in
      bind units (fun u =>
        let relative_sigma := map (fun c => s / sqrt c) u in           (* l.156 *)
        Ok (map2 (fun x d => x * (1 + d)) w (map2 Rmult relative_sigma draws)))  (* l.157 *)
    | _ => Err ValueError                                              (* l.137: not finite *)
    end
  end.

(** sar.py 171-173  sar_apply_mismatch (legacy). *)
Definition sar_apply_mismatch (weights : list R) (sigma : R) (draws : list R) : list R :=
  map2 (fun x d => x * (1 + sigma * d)) weights draws.

(** sar.py 236-262  sar_convert.  [vin] is 1-D here (higher-dimensional input is the
    same elementwise computation on the flattened array).  [samp i] is the i-th
    sampling-noise draw, [cmp j i] the comparator draw of bit j for sample i. *)
Section Convert.
Variable samp : nat -> R.
Variable cmp : nat -> nat -> R.

(** One pass of the bit loop, l.252-261: [rows] are the code rows built so far. *)
Definition sar_bit_step (vin_norm : list R) (noise : list R) (wj : R)
    (st : list (list Z) * list R) : list (list Z) * list R :=
  let '(rows, v_dac) := st in
  let v_test := map (fun d => d + wj) v_dac in                               (* l.253 *)
  let bit := map2 (fun x t => Rleb t x) (map2 Rplus vin_norm noise) v_test in (* l.259 *)
  (map2 (fun (row : list Z) (b : bool) => row ++ [if b then 1%Z else 0%Z]) rows bit,             (* l.260 *)
   map2 (fun (b : bool) (p : R * R) => if b then fst p else snd p) bit
        (map2 pair v_test v_dac)).                                           (* l.261 *)

Fixpoint sar_bit_loop (vin_norm : list R) (cnorm : R) (noisy : bool) (j : nat)
    (weights : list R) (st : list (list Z) * list R) : list (list Z) * list R :=
  match weights with
  | nil => st
  | wj :: rest =>
      let noise := if noisy
                   then map (fun i => cnorm * cmp j i) (seq 0 (length vin_norm))
                   else map (fun _ => 0) vin_norm in                         (* l.254-258 *)
      sar_bit_loop vin_norm cnorm noisy (S j) rest (sar_bit_step vin_norm noise wj st)
  end.

Definition sar_convert (vin weights : list R) (quant_range : list xr)
    (sampling_noise_rms comparator_noise_rms : R) : result (list (list Z)) :=
  bind (parse_quant_range quant_range) (fun '(v_min, v_max) =>               (* l.238 *)
    let full_scale := v_max - v_min in
    let vin_sampled :=
      if Rltb 0 sampling_noise_rms
      then map2 Rplus vin (map (fun i => sampling_noise_rms * samp i) (seq 0 (length vin)))
      else vin in                                                            (* l.243-245 *)
    let vin_norm := map (fun x => (x - v_min) / full_scale) vin_sampled in   (* l.247 *)
    let cnorm := comparator_noise_rms / full_scale in                        (* l.248 *)
    Ok (fst (sar_bit_loop vin_norm cnorm (Rltb 0 comparator_noise_rms) 0 weights
               (map (fun _ => nil) vin_norm, map (fun _ => 0) vin_norm)))).
End Convert.

(** sar.py 297-298  sar_reconstruct; matmul of (N,B) with (B',) is a ValueError unless
    B = B'. *)
Definition sar_reconstruct (codes : list (list Z)) (weights : list R) (quant_range : list xr)
    : result (list R) :=
  bind (parse_quant_range quant_range) (fun '(v_min, v_max) =>
    if existsb (fun row => negb (length row =? length weights)%nat) codes then Err ValueError
    else Ok (map (fun row => dot (map IZR row) weights * (v_max - v_min) + v_min) codes)).
