(** * Bit-exact binary64 model of adctoolbox/fundamentals/frequency.py
    The same functions as FreqModel.v, with every operation rounded as numpy and Python round it.
    Simplified: frequencies and bins are given as floats (not ints, not numpy scalars in find_coherent_frequency);
    one element; nan payloads. *)
From Flocq Require Import Core.Zaux IEEE754.BinarySingleNaN.
From Verif Require Import Base FreqModel FltModel.

(** np.round of one double: half to even. *)
Definition fround : fl -> fl := Bnearbyint mode_NE.
(** np.abs *)
Definition fabs : fl -> fl := Babs.
(** frequency.py 122 fold_frequency_to_nyquist, one element; numpy division by zero gives inf or nan. *)
Definition ffold_frequency (fin fs : fl) : fl := fabs (fsub fin (fmul fs (fround (fdiv fin fs)))).

(** C fmod: the remainder is exact and has the sign of [x]. *)
Definition ffmod (x y : fl) : fl :=
  match x, y with
  | B754_nan, _ | _, B754_nan | B754_infinity _, _ | _, B754_zero _ => B754_nan
  | B754_zero _, _ | _, B754_infinity _ => x
  | B754_finite sx mx ex _, B754_finite _ my ey _ =>
      let e := Z.min ex ey in
      binary_normalize 53 1024 _ _ mode_NE
        (cond_Zopp sx ((Z.pos mx * 2 ^ (ex - e)) mod (Z.pos my * 2 ^ (ey - e)))) e sx
  end.
(** Python's float % float: fmod moved to the sign of the divisor; a zero remainder takes that sign. *)
Definition fpymod (x y : fl) : result fl :=
  if Beqb y fzero then Err ZeroDivisionError
  else let m := ffmod x y in
       if is_nan m then Ok m
       else if Beqb m fzero then Ok (B754_zero (Bsign y))
       else Ok (if Bool.eqb (flt y fzero) (flt m fzero) then m else fadd m y).
(** frequency.py 162-168 fold_bin_to_nyquist for a float bin.  Python compares float and int exactly; here the
    int n_fft // 2 is converted first, which is exact for n_fft <= 2^53. *)
Definition ffold_bin (bin_idx : fl) (n_fft : Z) : result fl :=
  bind (fZ n_fft) (fun n =>
  bind (fpymod bin_idx n) (fun b =>
    Ok (if flt (fnum (n_fft / 2) 0) b then fsub n b else b))).

(** frequency.py 51: int(round(x)); round raises on inf and nan. *)
Definition fround_int (x : fl) : result Z :=
  match x with
  | B754_nan => Err ValueError
  | B754_infinity _ => Err OverflowError
  | _ => Ok (Btrunc (fround x))
  end.
(** frequency.py 72-73: the candidates with their distances; int - float converts the int first. *)
Fixpoint fdists (t : fl) (bins : list Z) : result (list (fl * Z)) :=
  match bins with
  | nil => Ok nil
  | b :: r => bind (fZ b) (fun x => bind (fdists t r) (fun c => Ok ((fabs (fsub x t), b) :: c)))
  end.
(** frequency.py 82: stable sort by distance. *)
Fixpoint fins_key (x : fl * Z) (l : list (fl * Z)) : list (fl * Z) :=
  match l with
  | nil => x :: nil
  | y :: t => if flt (fst y) (fst x) then y :: fins_key x t else x :: l
  end.
Definition fsort_key (l : list (fl * Z)) : list (fl * Z) := fold_right fins_key nil l.
(** frequency.py 47-88 find_coherent_frequency. *)
Definition ffind_coherent (fs fin_target : fl) (n_fft : Z) (force_odd : bool) (search_radius : Z) : result (fl * Z) :=
  if Beqb fs fzero then Err ZeroDivisionError else
  bind (fZ n_fft) (fun n =>
  let target_bin := fmul (fdiv fin_target fs) n in                              (* l.48 *)
  bind (fround_int target_bin) (fun center =>                                   (* l.51 *)
  let bins := map (fun i => (center + i)%Z) (radius_range search_radius) in     (* l.56-57 *)
  bind (fdists target_bin (filter (bin_ok force_odd n_fft) bins)) (fun candidates =>
  match fsort_key candidates with
  | nil => Err ValueError                                                       (* l.75-79 *)
  | (_, best_bin) :: _ =>
      if (n_fft =? 0)%Z then Err ZeroDivisionError
      else bind (fZ best_bin) (fun b => Ok (fdiv (fmul b fs) n, best_bin))      (* l.82-88 *)
  end))).
