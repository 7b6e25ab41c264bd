(** * Bit-exact binary64 model of adctoolbox/models/sar.py and of the quantiser of siggen/nonidealities.py
    Numbers are IEEE-754 doubles (Flocq's [binary_float 53 1024]: signed zeros, infinities, one nan), every
    operation rounds to nearest even and overflows to infinity, exactly as numpy's float64 arithmetic.
    SarModel.v and SiggenModel.v model the same functions over the reals.
    Simplified: sampling and comparator draws are given; one-dimensional input; nan payloads. *)
From Coq Require Import Permutation.
From Flocq Require Import Core.Zaux IEEE754.BinarySingleNaN.
From Verif Require Import Base SarModel.

Definition prec64 : Core.FLX.Prec_gt_0 53 := eq_refl.
Definition emax64 : Prec_lt_emax 53 1024 := eq_refl.
#[global] Existing Instances prec64 emax64.
(** numpy float64 and its operators + - * / >= <= < *)
Notation fl := (binary_float 53 1024).
Definition fadd : fl -> fl -> fl := Bplus mode_NE.
Definition fsub : fl -> fl -> fl := Bminus mode_NE.
Definition fmul : fl -> fl -> fl := Bmult mode_NE.
Definition fdiv : fl -> fl -> fl := Bdiv mode_NE.
Definition fle : fl -> fl -> bool := Bleb.
Definition flt : fl -> fl -> bool := Bltb.
(** np.floor *)
Definition ffloor : fl -> fl := Bnearbyint mode_DN.
(** float(z) of an int (round to nearest even), and the double z * 2^e. *)
Definition fnum (z e : Z) : fl := binary_normalize 53 1024 _ _ mode_NE z e false.
Definition fzero : fl := B754_zero false.
Definition fZ (z : Z) : result fl :=
  let x := fnum z 0 in if is_finite x then Ok x else Err OverflowError.
Fixpoint fZs (l : list Z) : result (list fl) :=
  match l with
  | nil => Ok nil
  | z :: r => bind (fZ z) (fun x => bind (fZs r) (fun xs => Ok (x :: xs)))
  end.

(** What ndarray.sum or a BLAS dot product may return for these summands: the order of the additions and the
    bracketing are numpy's choice, additions of an initial 0.0 included. *)
Inductive sums : list fl -> fl -> Prop :=
| sums_zero : sums nil fzero
| sums_one x : sums (x :: nil) x
| sums_add l m a b : sums l a -> sums m b -> sums (l ++ m) (fadd a b)
| sums_perm l m a : Permutation l m -> sums l a -> sums m a.
(** The summation routine is an argument of the model; theorems assume it adds in some order. *)
Definition summation (sum : list fl -> fl) : Prop := forall l, sums l (sum l).

(** sar.py 31-39 _parse_quant_range *)
Definition fparse_quant_range (q : list fl) : result (fl * fl) :=
  match q with
  | [v_min; v_max] =>
      if negb (is_finite v_min) || negb (is_finite v_max) then Err ValueError
      else if fle v_max v_min then Err ValueError else Ok (v_min, v_max)
  | _ => Err ValueError
  end.

(** sar.py 79-83 sar_ideal_weights; [raw_weights] are the exact Python ints of l.79-81. *)
Definition fsar_ideal_weights (sum : list fl -> fl) (num_bits : Z) (redundant_bit : option Z) : result (list fl) :=
  bind (raw_weights num_bits redundant_bit) (fun raw =>
  bind (fZs raw) (fun w =>
    match rev w with
    | nil => Err IndexError
    | lsb :: _ => Ok (map (fun x => fdiv x (fadd (sum w) lsb)) w)
    end)).

(** sar.py 252-261, one sample: [noise j] is the comparator noise of bit j (0.0 when there is none, l.254-258). *)
Fixpoint fbit_loop (vin_norm : fl) (noise : nat -> fl) (j : nat) (weights : list fl) (v_dac : fl) : list Z :=
  match weights with
  | nil => nil
  | wj :: rest =>
      let v_test := fadd v_dac wj in
      let bit := fle v_test (fadd vin_norm (noise j)) in
      (if bit then 1 else 0)%Z :: fbit_loop vin_norm noise (S j) rest (if bit then v_test else v_dac)
  end.
(** sar.py 247 *)
Definition fnormalise (v_min v_max x : fl) : fl := fdiv (fsub x v_min) (fsub v_max v_min).
(** sar.py 236-262 sar_convert; [samp i] and [cmp j i] are the standard normal draws. *)
Definition fsar_convert (samp : nat -> fl) (cmp : nat -> nat -> fl) (vin weights : list fl) (quant_range : list fl)
    (sampling_noise_rms comparator_noise_rms : fl) : result (list (list Z)) :=
  bind (fparse_quant_range quant_range) (fun '(v_min, v_max) =>
    let cnorm := fdiv comparator_noise_rms (fsub v_max v_min) in
    Ok (map (fun i =>
          let x := nth i vin fzero in
          let x' := if flt fzero sampling_noise_rms then fadd x (fmul sampling_noise_rms (samp i)) else x in
          let noise j := if flt fzero comparator_noise_rms then fmul cnorm (cmp j i) else fzero in
          fbit_loop (fnormalise v_min v_max x') noise 0 weights fzero) (seq 0 (length vin)))).

(** sar.py 297-298 sar_reconstruct; the codes are 0 or 1 (or any int8), converted exactly. *)
Definition fsar_reconstruct (sum : list fl -> fl) (codes : list (list Z)) (weights : list fl) (quant_range : list fl) : result (list fl) :=
  bind (fparse_quant_range quant_range) (fun '(v_min, v_max) =>
    if existsb (fun row => negb (length row =? length weights)%nat) codes then Err ValueError
    else Ok (map (fun row => fadd (fmul (sum (map2 (fun c w => fmul (fnum c 0) w) row weights)) (fsub v_max v_min)) v_min) codes)).

(** np.clip for doubles: nan passes through. *)
Definition fclip (lo hi x : fl) : fl :=
  let m := if is_nan x || flt lo x then x else lo in if is_nan m || flt m hi then m else hi.
(** nonidealities.py 62-77, one sample of apply_quantization_noise (n_bits <= 1023, so that 2**n_bits is a double). *)
Definition fquantise (n_bits : nat) (v_min v_max x : fl) : fl :=
  let lsb := fdiv (fsub v_max v_min) (fnum (2 ^ Z.of_nat n_bits) 0) in
  let codes := ffloor (fdiv (fsub x v_min) lsb) in
  fadd (fmul (fclip fzero (fnum (2 ^ Z.of_nat n_bits - 1) 0) codes) lsb) v_min.
