(** * Model of adctoolbox/fundamentals/frequency.py *)
From Verif Require Import Base.
Local Open Scope R_scope.

(** list.sort(key=...) on (dist, bin) pairs: a stable insertion sort on the first
    component (frequency.py 82).  Python's sort is stable, so any stable sort agrees. *)
Fixpoint ins_key (x : R * Z) (l : list (R * Z)) : list (R * Z) :=
  match l with
  | [] => [x]
  | y :: t => if Rltb (fst y) (fst x) then y :: ins_key x t else x :: l
  end.
Definition sort_key (l : list (R * Z)) : list (R * Z) := fold_right ins_key [] l.

(** frequency.py 56: range(-search_radius, search_radius + 1). *)
Definition radius_range (r : Z) : list Z :=
  map (fun k => (- r + Z.of_nat k)%Z) (seq 0 (Z.to_nat (2 * r + 1))).

(** frequency.py 61-70: the three [continue]/gcd tests. *)
Definition bin_ok (force_odd : bool) (n_fft b : Z) : bool :=
  negb (b <=? 0)%Z && negb (force_odd && (b mod 2 =? 0)%Z) && (Z.gcd b n_fft =? 1)%Z.

(** frequency.py 47-88.  Python float division by zero raises ZeroDivisionError
    (fs = 0 at l.48, n_fft = 0 at l.86). *)
Definition find_coherent_frequency (fs fin_target : R) (n_fft : Z) (force_odd : bool)
    (search_radius : Z) : result (R * Z) :=
  if Reqb fs 0 then Err ZeroDivisionError else
  let target_bin := fin_target / fs * IZR n_fft in                       (* l.48 *)
  let center := round_he target_bin in                                   (* l.51 *)
  let bins := map (fun i => (center + i)%Z) (radius_range search_radius) in
  let candidates := map (fun b => (Rabs (IZR b - target_bin), b))
                        (filter (bin_ok force_odd n_fft) bins) in        (* l.56-73 *)
  match sort_key candidates with
  | [] => Err ValueError                                                 (* l.75-79 *)
  | (_, best_bin) :: _ =>
      if (n_fft =? 0)%Z then Err ZeroDivisionError
      else Ok (IZR best_bin * fs / IZR n_fft, best_bin)                  (* l.82-88 *)
  end.

(** frequency.py 122: fold_frequency_to_nyquist, one element. *)
Definition fold_frequency (fin fs : R) : R := Rabs (fin - fs * IZR (round_he (fin / fs))).

(** frequency.py 162-168: fold_bin_to_nyquist for n_fft > 0.  Python's float % with a
    positive modulus is b - n*floor(b/n). *)
Definition fold_bin (bin_idx : R) (n_fft : Z) : R :=
  let b := bin_idx - IZR n_fft * IZR (Zfloor (bin_idx / IZR n_fft)) in
  if Rltb (IZR (n_fft / 2)) b then IZR n_fft - b else b.
