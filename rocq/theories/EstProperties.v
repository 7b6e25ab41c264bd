(** * Property theorems of Est: statements only, proofs in EstProofs.v.
    Generated by tools/mkprops.py from the final lemmas. *)
From Coq Require Import Psatz Permutation Sorting.Sorted.
From Verif Require Import Base BaseLemmas Cplx TiModel TiToneProofs SpecModel SpecSpec SpecLemmas SpecProofs CalModel CalSpec CalExLemmas CalExProofs FitModel FitSpec FitProofs OsrSpec OverModel OverProofs EnvProofs SweepModel SweepProofs EstModel EstSpec.
Local Open Scope R_scope.
From Verif Require Import EstProofs.

(** The estimate does not depend on the order of the bits: any two orders of the same columns, however they are sorted,
    give the same answer when no two bits toggle equally often. *)
Theorem C134_column_order :
  forall kz cz argsort argsort' lstsq p a b,
  (forall l, sorts l (argsort l)) -> (forall l, sorts l (argsort' l)) -> reordered p a b -> distinct_activity a ->
  auto_frequency kz cz argsort lstsq a = auto_frequency kz cz argsort' lstsq b.
Proof. exact c134_column_order. Qed.
Print Assumptions C134_column_order.

(** With the bits in order of significance, i.e. each toggling more than the one before, signal A is the code of the (up
    to six) leading bits, and the estimate is made from it whenever its SNDR is not below that of the reversed trailing bits. *)
Theorem C134_leading_bits :
  forall kz cz argsort lstsq a,
  (forall l, sorts l (argsort l)) -> (forall j k, (j < k < m_m a)%nat -> (changes a j < changes a k)%nat) ->
  exists sigB, auto_frequency kz cz argsort lstsq a =
    bind (compute_spectrum kz cz [map (leading_code (Nat.min 6 (m_m a)) a) (seq 0 (m_n a))] 1 ScaleAuto Hann None 1 5 0 None 0) (fun rA =>
    bind (compute_spectrum kz cz [sigB] 1 ScaleAuto Hann None 1 5 0 None 0) (fun rB =>
    estimate_frequency lstsq (if xgeb (sp_sndr rA) (sp_sndr rB) then map (leading_code (Nat.min 6 (m_m a)) a) (seq 0 (m_n a)) else sigB))) /\
    (forall u v, xgeb u v = true <-> at_least u v) /\
    length sigB = m_n a /\ forall i, (i < m_n a)%nat -> nth i sigB 0 = rsum (Nat.min 6 (m_m a)) (fun q => m_at a i (m_m a - 1 - q)%nat * 2 ^ (Nat.min 6 (m_m a) - 1 - q)).
Proof. exact c134_leading_bits. Qed.
Print Assumptions C134_leading_bits.

Theorem C134_range :
  forall kz cz argsort lstsq a f,
  auto_frequency kz cz argsort lstsq a = Ok f -> 0 < f < 1 / 2.
Proof. exact c134_range. Qed.
Print Assumptions C134_range.

(** Two samples are enough for an answer; fewer raise ValueError. *)
Theorem C134_defined :
  forall kz cz argsort lstsq a,
  if (2 <=? m_n a)%nat then exists f, auto_frequency kz cz argsort lstsq a = Ok f else auto_frequency kz cz argsort lstsq a = Err ValueError.
Proof. exact c134_defined. Qed.
Print Assumptions C134_defined.

(** For data sets of one width the estimates are those of the data sets by themselves, in order. *)
Theorem C135_per_set :
  forall kz cz argsort lstsq segs m,
  (forall l, Permutation (argsort l) (seq 0 (length l))) -> (forall s, In s segs -> m_m s = m) ->
  auto_frequencies (auto_frequency kz cz argsort lstsq) (stack segs) 0 (map m_n segs) = each (auto_frequency kz cz argsort lstsq) segs.
Proof. exact c135_per_set. Qed.
Print Assumptions C135_per_set.

(** The calibration with no frequency given uses these estimates; with a frequency given it uses none. *)
Theorem C135_calibration :
  forall kz cz argsort lstsq rank bits freq force nominal H lr reltol mi,
  (forall l, Permutation (argsort l) (seq 0 (length l))) ->
  calibrate_auto kz cz argsort lstsq rank bits freq force nominal H lr reltol mi =
  if existsb (fun x => Rltb (1 / 2) x) (freq_list freq) then Err ValueError
  else match prepare_input bits nominal with
       | Err e => Err e
       | Ok (segs, _, _) => match (if all_zero freq then each (auto_frequency kz cz argsort lstsq) segs else Ok []) with
                            | Err e => Err e
                            | Ok fs => calibrate_weight_sine lstsq rank (fun k => nth k fs 0) bits freq force nominal H lr reltol mi
                            end
       end.
Proof. exact c135_calibration. Qed.
Print Assumptions C135_calibration.

(** When the leading bits are exactly a coherent sine and are chosen (or there is only one bit), its frequency is found
    exactly. *)
Theorem C134_exact :
  forall kz cz argsort lstsq a k A ph off,
  least_squares lstsq -> (forall l, sorts l (argsort l)) -> (forall j k, (j < k < m_m a)%nat -> (changes a j < changes a k)%nat) ->
  (0 < k)%nat -> (k < m_n a / 2)%nat -> (5 <= m_n a)%nat -> INR (m_n a) <= 10 ^ 10 -> 0 < A ->
  (forall i, (i < m_n a)%nat -> leading_code (Nat.min 6 (m_m a)) a i = sine A (INR k / INR (m_n a)) ph off i) ->
  m_m a = 1%nat \/ (forall x rA rB, compute_spectrum kz cz [map (leading_code (Nat.min 6 (m_m a)) a) (seq 0 (m_n a))] 1 ScaleAuto Hann None 1 5 0 None 0 = Ok rA -> compute_spectrum kz cz [x] 1 ScaleAuto Hann None 1 5 0 None 0 = Ok rB ->
     (forall i, (i < m_n a)%nat -> nth i x 0 = rsum (Nat.min 6 (m_m a)) (fun q => m_at a i (m_m a - 1 - q)%nat * 2 ^ (Nat.min 6 (m_m a) - 1 - q))) -> at_least (sp_sndr rA) (sp_sndr rB)) ->
  auto_frequency kz cz argsort lstsq a = Ok (INR k / INR (m_n a)).
Proof. exact c134_exact. Qed.
Print Assumptions C134_exact.

Example C134_exact_ex :
  forall kz cz,
  auto_frequency kz cz ins_argsort gs_lstsq one_bit = Ok (1 / 4).
Proof. exact c134_exact_ex. Qed.

Example C134_column_order_ex :
  forall kz cz lstsq,
  auto_frequency kz cz ins_argsort lstsq two_bits = auto_frequency kz cz ins_argsort lstsq two_bits_swapped.
Proof. exact c134_column_order_ex. Qed.

Example C134_leading_bits_ex :
  map (leading_code 2 two_bits) (seq 0 4) = [0; 1; 2; 3].
Proof. exact c134_leading_bits_ex. Qed.

Example C134_defined_ex :
  forall kz cz lstsq,
  (exists f, auto_frequency kz cz ins_argsort lstsq two_bits = Ok f /\ 0 < f < 1 / 2) /\ auto_frequency kz cz ins_argsort lstsq (mkMat 1 1 (fun _ _ => 1)) = Err ValueError.
Proof. exact c134_defined_ex. Qed.

(** Two data sets of one bit. *)
Example C135_per_set_ex :
  forall kz cz,
  auto_frequencies (auto_frequency kz cz ins_argsort gs_lstsq) (stack [one_bit; one_bit]) 0 [8; 8]%nat = Ok [1 / 4; 1 / 4].
Proof. exact c135_per_set_ex. Qed.

Example C135_calibration_ex :
  forall kz cz rank,
  calibrate_auto kz cz ins_argsort gs_lstsq rank [one_bit] FNone None None 1 0.5 (1 / 10 ^ 12) 100 = calibrate_weight_sine gs_lstsq rank (fun k => nth k [1 / 4] 0) [one_bit] FNone None None 1 0.5 (1 / 10 ^ 12) 100.
Proof. exact c135_calibration_ex. Qed.
