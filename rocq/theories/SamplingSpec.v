(** Specification of the sampling steps (C66): the bandwidth of the filter. *)
From Coq Require Import Reals.
From Coquelicot Require Import Coquelicot.
Local Open Scope R_scope.

(** [p] is the power that a filter with impulse response [h] (zero before time 0) passes at frequency [f]: the squared modulus of the Fourier transform of [h]. *)
Definition power_at (h : R -> R) (f p : R) : Prop :=
  exists c s, is_RInt_gen (fun t => h t * cos (2 * PI * f * t)) (at_point 0) (Rbar_locally p_infty) c /\
    is_RInt_gen (fun t => h t * sin (2 * PI * f * t)) (at_point 0) (Rbar_locally p_infty) s /\ p = c ^ 2 + s ^ 2.
(** The filter passes half of the power at [f], more below and less above. *)
Definition half_power_frequency (h : R -> R) (f : R) : Prop :=
  power_at h f (1 / 2) /\ (forall f', 0 <= f' < f -> exists p, power_at h f' p /\ 1 / 2 < p <= 1) /\ (forall f', f < f' -> exists p, power_at h f' p /\ 0 < p < 1 / 2).
