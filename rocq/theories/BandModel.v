(** * Model of adctoolbox/spectrum/extract_freq_components.py 28-73.
    A 2-D array is a list of rows; a 1-D input is given as a list of one-element rows
    (l.34).  Inputs are real, so l.28 never fires.  Arithmetic is exact. *)
From Verif Require Import Base Cplx FreqModel TiModel.
Local Open Scope R_scope.

(** numpy arange(a, b + 1) on integers. *)
Definition zrange (a b : Z) : list Z := map (fun i => (a + Z.of_nat i)%Z) (seq 0 (Z.to_nat (b - a + 1))).
(** l.56-60: the bin indices of one band. *)
Definition band_ids (N : nat) (lo hi : R) : list Z :=
  let n1 := round_he (Rmin lo hi * INR N) in
  let n2 := round_he (Rmax lo hi * INR N) in
  map (fun f => round_he (fold_frequency (IZR f) (INR N))) (zrange n1 n2).
(** l.62-68: mask[ids] = 1 and mask[N - valid] = 1, at index k. *)
Definition band_hits (N : nat) (b : R * R) (k : nat) : bool :=
  existsb (fun id => (id =? Z.of_nat k)%Z ||
                     ((0 <? id)%Z && (id <? Z.of_nat (N / 2))%Z && (Z.of_nat N - id =? Z.of_nat k)%Z))
          (band_ids N (fst b) (snd b)).
Definition mask_at (N : nat) (bands : list (R * R)) (k : nat) : R :=
  if existsb (fun b => band_hits N b k) bands then 1 else 0.
(** l.51, 71-72: one column. *)
Definition filter_col (bands : list (R * R)) (x : list R) : list R :=
  let N := length x in
  map (fun n => Re (Cscale (/ INR N) (csum N (fun k =>
        Cmult (Cscale (mask_at N bands k) (rfft x k)) (cis (2 * PI * INR k * INR n / INR N)))))) (seq 0 N).
(** l.46-49: the band table as pairs. *)
Definition check_bands (bands : list (list R)) : result (list (R * R)) :=
  match bands with
  | [] => Err ValueError                    (* np.asarray([]) becomes shape (1, 0) *)
  | _ =>
    raise_if (negb (forallb (fun r => (length r =? 2)%nat) bands)) ValueError
    (raise_if (existsb (fun r => existsb (fun v => Rltb v 0 || Rltb 0.5 v) r) bands) ValueError
      (Ok (map (fun r => (nth 0 r 0, nth 1 r 0)) bands)))
  end.
(** l.36-41 and the whole: [din] has equally long, non-empty rows. *)
Definition extract_freq_components (din : list (list R)) (bands : list (list R)) : result (list (list R)) :=
  let M0 := length (nth 0 din []) in
  let d := if (length din <? M0)%nat then transpose M0 din else din in
  let N := length d in
  let M := length (nth 0 d []) in
  bind (check_bands bands) (fun bs => Ok (transpose N (map (filter_col bs) (transpose M d)))).
