(** Specification of the times of a signal calculation in 32-bit floats (C75), over the real values of the floating-point numbers. *)
From Coq Require Import Reals ZArith.
From Flocq Require Import Core IEEE754.BinarySingleNaN.
From Verif Require Import AntennaModel AntennaSpec.
Local Open Scope R_scope.

(** [c] is the smallest integer that is not below [x]. *)
Definition rounded_up (x : R) (c : Z) : Prop := IZR c - 1 < x <= IZR c.
(** A grid of times: the multiples of 2^k. *)
Definition time_grid (k : Z) : Prop := (-149 <= k <= 90)%Z.
(** How far 24 bits reach on the grid: 2^24 steps. *)
Definition reach (k : Z) : R := bpow radix2 (24 + k).
(** The time [x] is on the grid and within reach. *)
Definition on_grid (k : Z) (x : f32) : Prop := is_finite x = true /\ multiple k (B2R x) /\ Rabs (B2R x) <= reach k.
(** The time of output sample [s]; the time of integration point [p] of a track that starts at [t0]. *)
Definition sample_time (t_sig_start t_sig_samp : R) (s : nat) : R := t_sig_start + INR s * t_sig_samp.
Definition point_time (t0 step : R) (p : nat) : R := t0 + INR p * step.
