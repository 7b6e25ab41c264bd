(** * Bit-exact binary64 model of the overflow check (adctoolbox/dout/analyze_overflow.py) and of the conversions between codes and
    volts, bins and frequencies (adctoolbox/fundamentals/units.py)
    The same functions as in DoutModel.v and UnitsModel.v, with every operation rounded as numpy and Python round it.
    Simplified: one sample and one bit position at a time; whole numbers up to 2^53 are converted exactly; nan payloads. *)
From Flocq Require Import Core.Zaux IEEE754.BinarySingleNaN.
From Verif Require Import Base FltModel FfreqModel.

(** analyze_overflow.py 80-84: the residue of one sample from bit [ii] on.  The matrix product and np.sum are two routines, each with
    its own order of additions. *)
Definition fresidue (product total : list fl -> fl) (row : list Z) (weight : list fl) (ii : nat) : fl :=
  fdiv (product (map2 (fun c x => fmul (fnum c 0) x) (skipn ii row) (skipn ii weight))) (total (skipn ii weight)).
(** l.89-90: data_decom <= 0 and data_decom >= 1. *)
Definition flow (r : fl) : bool := fle r fzero.
Definition fhigh (r : fl) : bool := fle (fnum 1 0) r.
(** l.89-90: the share of the samples in percent. *)
Definition fpercent (flag : fl -> bool) (residues : list fl) : fl :=
  fmul (fdiv (fnum (Z.of_nat (length (filter flag residues))) 0) (fnum (Z.of_nat (length residues)) 0)) (fnum 100 0).

(** units.py 23-25 lsb_to_volts and 27-29 volts_to_lsb, for n_bits from 0 to 1023 (2**n_bits is then a double); Python floats raise
    on division by zero. *)
Definition flsb_to_volts (lsb_count vref : fl) (n_bits : nat) : fl := fmul lsb_count (fdiv vref (fnum (2 ^ Z.of_nat n_bits) 0)).
Definition fvolts_to_lsb (volts vref : fl) (n_bits : nat) : result fl :=
  let lsb := fdiv vref (fnum (2 ^ Z.of_nat n_bits) 0) in
  if Beqb lsb fzero then Err ZeroDivisionError else Ok (fdiv volts lsb).
(** units.py 31-33 bin_to_freq *)
Definition fbin_to_freq (bin_idx : Z) (fs : fl) (n_fft : Z) : result fl :=
  if (n_fft =? 0)%Z then Err ZeroDivisionError else Ok (fdiv (fmul (fnum bin_idx 0) fs) (fnum n_fft 0)).
(** units.py 35-37 freq_to_bin *)
Definition ffreq_to_bin (freq fs : fl) (n_fft : Z) : result Z :=
  if Beqb fs fzero then Err ZeroDivisionError else fround_int (fdiv (fmul freq (fnum n_fft 0)) fs).
