(** * Bit-exact binary64 model of the two-step quantisers of adctoolbox/siggen/nonidealities.py
    The same functions as in SiggenModel.v, one sample at a time, with every operation rounded as numpy rounds it.  2**bits are Python
    ints up to 2^1023, converted exactly; nan payloads are not represented. *)
From Flocq Require Import Core.Zaux IEEE754.BinarySingleNaN.
From Verif Require Import Base SiggenModel FltModel.

(** nonidealities.py 143, 191, 232: the coarse code. *)
Definition fcoarse (msb_bits : nat) (x : fl) : fl :=
  fdiv (ffloor (fmul x (fnum (2 ^ Z.of_nat msb_bits) 0))) (fnum (2 ^ Z.of_nat msb_bits) 0).
(** 144, 192, 233: the fine code of what is left. *)
Definition ffine (msb_bits lsb_bits : nat) (x : fl) : fl :=
  fdiv (ffloor (fmul (fsub x (fcoarse msb_bits x)) (fnum (2 ^ Z.of_nat lsb_bits) 0))) (fnum (2 ^ Z.of_nat lsb_bits) 0).
(** 143-149, one sample of apply_memory_effect; [prev] is the sample before (the last one for the first). *)
Definition fmemory (strength x prev : fl) : fl := fadd (fadd (fcoarse 4 x) (ffine 4 12 x)) (fmul strength (fcoarse 4 prev)).
(** 188-198, one sample of apply_ra_gain_error. *)
Definition fgain (dc gain : fl) (msb_bits lsb_bits : nat) (mode : ra_mode) (signal : fl) : result fl :=
  let x := fsub signal dc in
  match mode with
  | CoarsePath => Ok (fadd (fadd (fmul (fcoarse msb_bits x) gain) (ffine msb_bits lsb_bits x)) dc)
  | ResiduePath => Ok (fadd (fadd (fcoarse msb_bits x) (fmul (ffine msb_bits lsb_bits x) gain)) dc)
  | OtherMode => Err ValueError
  end.
