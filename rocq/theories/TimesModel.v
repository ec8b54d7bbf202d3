(** Model of the samples of the shower example, examples/shower_profile/02calculate_shower_emission.cpp:45-55, in 32-bit floats; every operation is rounded on its own, to nearest. *)
From stdpp Require Import base list numbers option.
From Coq Require Import ZArith Bool.
From Flocq Require Import Core IEEE754.BinarySingleNaN.
From Verif Require Import AntennaModel DiscreteModel.

(** Line 47: the sampling rate is a float, 1.0 a double. *)
Definition sampling_interval (rate : f32) : f32 := to_float (Bdiv mode_NE (of_size64 1) (to_double rate)).
(** Line 48: the quotient is converted to size_t. *)
Definition number_of_samples (t_start t_end t_samp : f32) : option N := to_size32 (Bdiv mode_NE (Bminus mode_NE t_end t_start) t_samp).
(** Line 53: the index is converted to a float. *)
Definition sample_time (t_start t_samp : f32) (i : nat) : f32 := Bplus mode_NE t_start (Bmult mode_NE (of_size (N.of_nat i)) t_samp).
(** Lines 51-54. *)
Definition signal_times (t_start t_end t_samp : f32) : option (list f32) := n ← number_of_samples t_start t_end t_samp; Some (sample_time t_start t_samp <$> seq 0 (N.to_nat n)).
