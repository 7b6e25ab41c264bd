(** * What the background calibration works on: the skews of the channels. *)
From Verif Require Import Base VdlModel.
Local Open Scope R_scope.

(** The skew of channel m: its own plus the delay of its line at its trim code. *)
Definition channel_skew (s : sampler) (m : nat) : R := nth m (s_skew s) 0 + vdl_delay (nth m (s_vdls s) (mkVdl 1 [] 0 0)) (nth m (s_trim s) 0%Z).
(** A sampler as the constructor makes it (and as changing the codes leaves it). *)
Definition sized (s : sampler) : Prop := (0 < s_M s)%Z /\ length (s_skew s) = Z.to_nat (s_M s) /\ length (s_vdls s) = Z.to_nat (s_M s) /\ (Z.to_nat (s_M s) <= length (s_trim s))%nat.
(** The largest code of line m. *)
Definition top_code (s : sampler) (m : nat) : Z := v_codes (nth m (s_vdls s) (mkVdl 1 [] 0 0)) - 1.
(** Time from a sample of channel i to the next sample (of channel i + 1, or of channel 0 again). *)
Definition gap (s : sampler) (i : nat) : R := 1 / s_fs s + channel_skew s (S i mod Z.to_nat (s_M s)) - channel_skew s i.
