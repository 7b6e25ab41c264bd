(** * Independent specification for perfosr.m and ntfperf.m. *)
From Coq Require Import Permutation Sorted.
From Verif Require Import Base Cplx OverSpec.
Local Open Scope R_scope.

(** A permutation of the indices that puts the values in descending order. *)
Definition sorts_down (l : list R) (order : list nat) : Prop := Permutation order (seq 0 (length l)) /\ StronglySorted (fun i j => nth j l 0 <= nth i l 0) order.
(** The millionths of the band up to one half: point k, 0 <= k < 10^6, is (k+1)/2000000. *)
Definition fine_point (k : nat) : R := INR (S k) / 2000000.
Definition fine_count (n : nat) (lo hi : R) : R := rsum n (fun k => if Rlt_dec lo (fine_point k) then if Rlt_dec (fine_point k) hi then 1 else 0 else 0).
(** The response summed over the points strictly inside the band, relative to all n points. *)
Definition fine_noise (n : nat) (num den : list R) (lo hi : R) : R :=
  rsum n (fun k => if Rlt_dec lo (fine_point k) then if Rlt_dec (fine_point k) hi then response num den (fine_point k) else 0 else 0) / INR n.
Definition fine_no_pole (n : nat) (den : list R) (lo hi : R) : Prop :=
  forall k, (k < n)%nat -> inside lo hi (fine_point k) -> on_circle den (2 * PI * fine_point k) <> C0.
(** Energy of an impulse response, and the squared gains at zero and at half the sampling rate added. *)
Definition energy (p : list R) : R := rsum (length p) (fun i => nth i p 0 ^ 2).
Definition ends (p : list R) : R := rsum (length p) (fun i => nth i p 0) ^ 2 + rsum (length p) (fun i => (-1) ^ i * nth i p 0) ^ 2.
(** The denominator z^d: the transfer function p/z^d has the impulse response p (delayed). *)
Definition delays (d : nat) : list R := 1 :: repeat 0 d.
