(** * Model of adctoolbox/aout/compute_inl_from_ramp.py.
    Integer-typed arguments are Z (the isinstance checks l.20, l.24, l.32 only reject other
    types); code samples are floats, possibly inf/nan.  The summary fields (min, max, pp of the
    returned arrays) are not represented.  Arithmetic is exact. *)
From Verif Require Import Base.
Local Open Scope R_scope.

(** l.14-39 _validate_code_limits: the resulting code_max. *)
Definition validate_code_limits (num_bits : option Z) (code_min : Z) (code_max : option Z) : result (option Z) :=
  let bad := match num_bits with Some b => (b <=? 0)%Z | None => false end in
  raise_if bad ValueError                                                (* l.20-21 *)
  (match code_max, num_bits with
   | None, None => Ok None                                               (* l.29-30 *)
   | None, Some b => let m := (code_min + 2 ^ b - 1)%Z in
                     raise_if (m <? code_min)%Z ValueError (Ok (Some m)) (* l.31, 36 *)
   | Some m, _ => raise_if (m <? code_min)%Z ValueError (Ok (Some m))
   end).

(** l.42-55 _coerce_integer_codes: np.rint, and allclose with zero tolerances is equality. *)
Definition coerce_integer_codes (codes : list xr) : result (list Z) :=
  match codes with
  | [] => Err ValueError
  | _ =>
    raise_if (negb (forallb xfinite codes)) ValueError
    (let v := map (fun x => match x with Fin r => r | _ => 0 end) codes in
     raise_if (negb (forallb (fun r => Reqb r (IZR (round_he r))) v)) ValueError
     (Ok (map round_he v)))
  end.

(** The endpoint option after lower-casing (l.60-79). *)
Inductive endpoint_mode : Set := EpNone | EpEndpoints | EpFit | EpOther.
(** np.linspace(a, b, n)[i] for n >= 2. *)
Definition linspace_at (a b : R) (n i : nat) : R := a + INR i * ((b - a) / (INR n - 1)).
(** np.polyfit(x, y, 1) and np.polyval: the least-squares line (distinct x). *)
Definition fit_line (x y : list R) (t : R) : R :=
  let mx := lmean x in let my := lmean y in
  my + lsum (map2 (fun a b => (a - mx) * (b - my)) x y) / lsum (map (fun a => (a - mx) ^ 2) x) * (t - mx).
(** l.58-80 _correct_inl. *)
Definition correct_inl (raw : list R) (code : list Z) (ep : endpoint_mode) : result (list R) :=
  match ep with
  | EpNone => Ok raw
  | EpOther => match raw with [] => Ok raw | _ => Err ValueError end
  | EpEndpoints =>
      match raw with
      | [] => Ok raw
      | [x] => Ok [x - x]
      | x :: _ => Ok (map (fun i => nth i raw 0 - linspace_at x (last raw 0) (length raw) i) (seq 0 (length raw)))
      end
  | EpFit =>
      match raw with
      | [] => Ok raw
      | [x] => Ok [x - x]
      | _ => let c := map IZR code in Ok (map2 (fun y t => y - fit_line c raw t) raw c)
      end
  end.

(** np.cumsum. *)
Fixpoint cumsum_from (acc : R) (l : list R) : list R :=
  match l with [] => [] | x :: t => (acc + x) :: cumsum_from (acc + x) t end.
(** np.arange(a, b) on integers. *)
Definition arange (a b : Z) : list Z := map (fun i => (a + Z.of_nat i)%Z) (seq 0 (Z.to_nat (b - a))).
(** np.bincount entry. *)
Definition count_code (codes : list Z) (c : Z) : nat := length (filter (Z.eqb c) codes).

Record ramp_result := mkRamp
  { r_code : list Z; r_counts : list R; r_dnl : list R; r_trans : list Z;
    r_inl : list R; r_raw : list R; r_missing : list Z; r_ideal : R; r_code_max : Z }.

(** l.145-205. *)
Definition compute_inl_from_ramp (codes : list xr) (num_bits : option Z) (code_min : Z)
    (code_max : option Z) (ep : endpoint_mode) (exclude_endpoints : bool) : result ramp_result :=
  bind (validate_code_limits num_bits code_min code_max) (fun cm =>
  bind (coerce_integer_codes codes) (fun ci =>
  bind (match cm with
        | Some m => Ok m
        | None => let m := fold_right Z.max (hd 0%Z ci) ci in
                  if (m <? code_min)%Z then Err ValueError else Ok m     (* l.148-151 *)
        end) (fun cmax =>
  raise_if (existsb (fun c => (c <? code_min) || (cmax <? c))%Z ci) ValueError  (* l.153 *)
  (let full := arange code_min (cmax + 1) in
   let code := if (exclude_endpoints && (2 <? length full)%nat)%bool
               then removelast (tl full) else full in                    (* l.164-169 *)
   let counts := map (fun c => INR (count_code ci c)) code in
   if (length counts =? 0)%nat || Reqb (lsum counts) 0 then Err ValueError    (* l.171 *)
   else
   let ideal := lmean counts in
   raise_if (Rleb ideal 0) ValueError                                    (* l.175 *)
   (let dnl := map (fun d => Rmax d (-1)) (map (fun c => c / ideal - 1) counts) in  (* l.178-179 *)
    let trans := arange (hd 0%Z code) (last code 0%Z + 2) in
    let raw := 0 :: cumsum_from 0 dnl in
    bind (correct_inl raw trans ep) (fun inl =>
    let missing := map fst (filter (fun p => Reqb (snd p) 0) (combine code counts)) in
    Ok (mkRamp code counts dnl trans inl raw missing ideal cmax))))))).
