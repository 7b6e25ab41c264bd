(** * Model of adctoolbox/fundamentals/validate.py.
    An array is its dtype, shape and flat (row-major) contents.  Warnings of an accepted call are
    returned; a warning printed before a later error is not modelled.  All errors are ValueError. *)
From Verif Require Import Base.
Local Open Scope R_scope.

Inductive dtype : Set := DBool | DSigned (bits : positive) | DUnsigned (bits : positive) | DFloat | DComplex | DOther.
Record arr := mkArr { a_dtype : dtype; a_shape : list nat; a_data : list xr }.
(** np.issubdtype(dtype, np.number): bool_ is not a number. *)
Definition is_number (d : dtype) : bool := match d with DBool | DOther => false | _ => true end.
Definition is_complex (d : dtype) : bool := match d with DComplex => true | _ => false end.
Definition xval (x : xr) : R := match x with Fin v => v | _ => 0 end.
(** l.10-38 _validate_basic_integrity *)
Definition basic_integrity (a : arr) : result unit :=
  raise_if (length (a_data a) =? 0)%nat ValueError
  (raise_if (negb (is_number (a_dtype a))) ValueError
  (raise_if (is_complex (a_dtype a)) ValueError
  (raise_if (negb (forallb xfinite (a_data a))) ValueError (Ok tt)))).
(** Two's-complement wrap-around to b bits. *)
Definition wrap (b : positive) (z : Z) : Z := ((z + 2 ^ (Zpos b - 1)) mod 2 ^ Zpos b - 2 ^ (Zpos b - 1))%Z.
(** np.ptp: max - min in the array's own dtype, so signed integers wrap around. *)
Definition ptp (d : dtype) (x : R) (l : list R) : R :=
  let r := lmax1 x l - lmin1 x l in match d with DSigned b => IZR (wrap b (Zfloor r)) | _ => r end.
Inductive warning : Type := WLowAmplitude | WTransposed | WStuckLow (idx : list nat) | WStuckHigh (idx : list nat).
(** Python max() of a shape tuple; of the empty tuple it raises ValueError. *)
Definition max_shape (s : list nat) : result nat := match s with [] => Err ValueError | n :: r => Ok (fold_left Nat.max r n) end.
(** l.40-67 *)
Definition validate_aout_data (a : arr) (min_samples : Z) : result (list warning) :=
  bind (basic_integrity a) (fun _ =>
  raise_if (2 <? length (a_shape a))%nat ValueError                                        (* l.51 *)
  (bind (match a_shape a with [n] => Ok n | s => max_shape s end) (fun n_samples =>        (* l.55 *)
   raise_if (Z.of_nat n_samples <? min_samples)%Z ValueError
   (match map xval (a_data a) with
    | [] => Err ValueError
    | x :: l => let r := ptp (a_dtype a) x l in
                raise_if (Reqb r 0) ValueError (Ok (if Rltb r (1 / 10 ^ 10) then [WLowAmplitude] else []))
    end)))).
(** Sum of column j of a row-major matrix with [rows] rows of [cols] entries. *)
Definition col_sum (rows cols : nat) (d : list R) (j : nat) : R := lsum (map (fun i => nth (i * cols + j) d 0) (seq 0 rows)).
(** l.69-117; the order of the stuck lists is that of np.where. *)
Definition validate_dout_data (a : arr) (min_samples : Z) : result (list warning) :=
  bind (basic_integrity a) (fun _ =>
  match a_shape a with
  | [n_samples; n_bits] =>
      raise_if (Z.of_nat n_samples <? min_samples)%Z ValueError
      (raise_if (n_bits <? 1)%nat ValueError
      (let d := map xval (a_data a) in
       raise_if (negb (forallb (fun v => Reqb v 0 || Reqb v 1) d)) ValueError              (* l.101-104 *)
       (let low := filter (fun j => Reqb (col_sum n_samples n_bits d j) 0) (seq 0 n_bits) in
        let high := filter (fun j => Reqb (col_sum n_samples n_bits d j) (INR n_samples)) (seq 0 n_bits) in
        Ok ((if (n_samples <? n_bits)%nat then [WTransposed] else []) ++
            (if (0 <? length low)%nat then [WStuckLow low] else []) ++
            (if (0 <? length high)%nat then [WStuckHigh high] else [])))))
  | _ => Err ValueError
  end).
