(** * Model of adctoolbox/examples/08_time_interleave: variable_delay_line.py and the calibration loop of
    exp_ti02_autocorr_background_skew_calibration.py.
    The random generator is a stream of numbers given as an argument; arithmetic is exact.  Codes are integers. *)
From Verif Require Import Base SineHistModel TiModel.
Local Open Scope R_scope.

(* ---------- variable_delay_line.py: VariableDelayLine ---------- *)
(** l.72-77: the attributes that are read later (code_min is 0, code_max is n_codes - 1). *)
Record vdl := mkVdl { v_codes : Z; v_delays : list R; v_center : Z; v_lsb : R }.
(** np.cumsum. *)
Fixpoint running (acc : R) (l : list R) : list R := match l with [] => [] | x :: r => (acc + x) :: running (acc + x) r end.
(** l.51-77; [draws] are the standard normal numbers.  A negative count is refused by standard_normal (l.63). *)
Definition make_vdl (n_codes : Z) (lsb cv offset : R) (draws : nat -> R) : result vdl :=
  raise_if (n_codes <? 1)%Z ValueError (
  let steps := map (fun i => lsb * Rmax (1 + cv * draws i) (1 / 20)) (seq 0 (Z.to_nat (n_codes - 1))) in    (* l.62-65 *)
  let delays := 0 :: running 0 steps in                                                                      (* l.66 *)
  let center := (n_codes / 2)%Z in                                                                           (* l.68 *)
  let mid := nth (Z.to_nat center) delays 0 in
  Ok (mkVdl n_codes (map (fun d => d - mid + offset) delays) center lsb)).                                   (* l.69-70 *)
(** __call__ l.79-82. *)
Definition vdl_delay (v : vdl) (code : Z) : R := nth (Z.to_nat (zclip 0 (v_codes v - 1) code)) (v_delays v) 0.
(** total_range_sec l.84-86. *)
Definition vdl_range (v : vdl) : R := nth (Z.to_nat (v_codes v - 1)) (v_delays v) 0 - nth 0 (v_delays v) 0.
(** np.argmin: the first position of the smallest value. *)
Fixpoint argmin_from (best : R) (at_ pos : nat) (l : list R) : nat :=
  match l with [] => at_ | x :: r => if Rltb x best then argmin_from x pos (S pos) r else argmin_from best at_ (S pos) r end.
Definition argmin (l : list R) : result nat := match l with [] => Err ValueError | x :: r => Ok (argmin_from x 0 1 r) end.
(** nearest_code l.88-90. *)
Definition nearest_code (v : vdl) (target : R) : result Z := bind (argmin (map (fun d => Rabs (d - target)) (v_delays v))) (fun i => Ok (Z.of_nat i)).

(* ---------- variable_delay_line.py: TIMultiSampler ---------- *)
Record sampler := mkSampler { s_M : Z; s_fs : R; s_skew : list R; s_vdls : list vdl; s_trim : list Z }.
(** __post_init__ l.123-130. *)
Definition make_sampler (M : Z) (fs : R) (skew : list R) (vdls : list vdl) (trim : option (list Z)) : result sampler :=
  raise_if (negb (Z.of_nat (length skew) =? M)%Z) AssertionError (
  raise_if (negb (Z.of_nat (length vdls) =? M)%Z) AssertionError (
  Ok (mkSampler M fs skew vdls (match trim with None => map v_center vdls | Some t => t end)))).
(** effective_skew l.132-135: too few trim codes are an IndexError, further ones are not looked at. *)
Definition effective_skew (s : sampler) : result (list R) :=
  raise_if (length (s_trim s) <? length (s_vdls s))%nat IndexError (
  Ok (map2 Rplus (s_skew s) (map2 vdl_delay (s_vdls s) (s_trim s)))).
(** capture l.137-180; [u] is the random phase of l.167, [noise] the normal numbers of l.179; fin, amp, hd3_dbc and noise_rms
    are Python floats.  Without channels, n % 0 is 0 and the index into the empty skew array fails. *)
Definition capture (s : sampler) (fin amp : R) (n_samples : nat) (noise_rms : R) (hd3_dbc : option R) (randomize : bool) (u : R) (noise : nat -> R) : result (list R) :=
  raise_if (Reqb (s_fs s) 0) ZeroDivisionError (                                                             (* l.164 *)
  let T := 1 / s_fs s in
  bind (effective_skew s) (fun skew =>                                                                       (* l.165 *)
  let phase0 := if randomize then u else 0 in                                                                (* l.167 *)
  raise_if ((s_M s =? 0)%Z && negb (n_samples =? 0)%nat) IndexError (                                        (* l.169-170 *)
  let x := map (fun n => amp * cos (2 * PI * fin * (INR n * T + nth (n mod Z.to_nat (s_M s)) skew 0) + phase0)) (seq 0 n_samples) in
  bind (match hd3_dbc with
        | None => Ok x
        | Some h => raise_if (Reqb amp 0) ZeroDivisionError (                                                (* l.176 *)
                    let k3 := 4 * Rpower 10 (h / 20) / amp ^ 2 in Ok (map (fun v => v + k3 * v ^ 3) x))
        end) (fun x =>
  Ok (if Rltb 0 noise_rms then map2 (fun v i => v + noise i * noise_rms) x (seq 0 n_samples) else x))))).    (* l.178-179 *)

(* ---------- exp_ti02_autocorr_background_skew_calibration.py ---------- *)
(** l.137-139: the sums of the absolute differences between neighbouring channels, the last one against channel 0 one
    period later.  A record of no samples has no channel 0 to shift: the row stack is then empty as well. *)
Definition mad_of (M : Z) (x : list R) : result (list R) :=
  bind (deinterleave x M) (fun ch =>
  let head r := firstn (length r - 1) r in
  let rows := map head ch ++ [tl (nth 0 ch [])] in
  Ok (map (fun i => lsum (map Rabs (map2 Rminus (nth (S i) rows []) (nth i rows [])))) (seq 0 (Z.to_nat M)))).
(** l.142-144: the cumulative sums of all but the last channel against the fair line. *)
Definition above_fair (mad : list R) : list bool :=
  map (fun i => Rltb (INR (S i) * lmean mad) (nth i (running 0 mad) 0)) (seq 0 (length mad - 1)).
(** l.147-152: channel 0 is left alone, and so are codes beyond the channels; DIRECTION is -1 (l.59). *)
Definition update_trim (direction : Z) (vdls : list vdl) (trim : list Z) (k : list bool) : list Z :=
  map (fun m => if ((m =? 0) || (length vdls <=? m))%nat then nth m trim 0%Z
                else zclip 0 (v_codes (nth m vdls (mkVdl 1 [] 0 0)) - 1) (nth m trim 0 + direction * (2 * (if nth (m - 1) k false then 1 else 0) - 1))%Z) (seq 0 (length trim)).
(** One pass of the loop l.123-152. *)
Definition calibration_step (s : sampler) (fin amp : R) (n : nat) (noise_rms : R) (hd3 : option R) (u : R) (noise : nat -> R) : result sampler :=
  bind (capture s fin amp n noise_rms hd3 true u noise) (fun x =>
  bind (mad_of (s_M s) x) (fun mad =>
  Ok (mkSampler (s_M s) (s_fs s) (s_skew s) (s_vdls s) (update_trim (-1) (s_vdls s) (s_trim s) (above_fair mad))))).
(** The loop l.118-155 for any number of passes; [sfdr i trim] is the SFDR measured in pass i with these codes (l.131, a
    finite number), [us], [noises] the random numbers of each pass.  The result is the best code set with its SFDR and the
    history of code sets; l.120-121 start with minus infinity and the codes at the beginning. *)
Fixpoint calibration_loop (sfdr : nat -> list Z -> R) (us : nat -> R) (noises : nat -> nat -> R) (fin amp : R) (n : nat) (noise_rms : R) (hd3 : option R)
    (passes i : nat) (s : sampler) (best : option R * list Z) : result (option R * list Z * list (list Z)) :=
  match passes with
  | O => Ok (best, [])
  | S p =>
      let q := sfdr i (s_trim s) in
      let best' := match fst best with None => (Some q, s_trim s) | Some b => if Rltb b q then (Some q, s_trim s) else best end in    (* l.132-134 *)
      bind (calibration_step s fin amp n noise_rms hd3 (us i) (noises i)) (fun s' =>
      bind (calibration_loop sfdr us noises fin amp n noise_rms hd3 p (S i) s' best') (fun r => Ok (fst r, s_trim s' :: snd r)))
  end.
