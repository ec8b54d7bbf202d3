(** Specification of showers (C67). *)
From stdpp Require Import base list list_numbers numbers option.
From Coq Require Import Reals ZArith.
From Verif Require Import SignalModel ShowerModel.
Local Open Scope R_scope.

(** The direction of the shower. *)
Definition axis (h : shower) : R * R * R :=
  (sin (h_zenith h) * cos (h_azimuth h), sin (h_zenith h) * sin (h_azimuth h), cos (h_zenith h)).
(** The position after [i] time steps of [dt] at the speed of light. *)
Definition point (h : shower) (dt : R) (i : nat) : R * R * R :=
  let s := INR i * dt * speed_of_light in
  ((h_start h).1.1 + s * (axis h).1.1, (h_start h).1.2 + s * (axis h).1.2, (h_start h).2 + s * (axis h).2).
(** The matter passed until then (density at the beginning of every step times its length). *)
Fixpoint depth (density : R -> R -> R -> R) (h : shower) (dt : R) (i : nat) : R :=
  match i with
  | O => 0
  | S i => depth density h dt i + density (point h dt i).1.1 (point h dt i).1.2 (point h dt i).2 * (dt * speed_of_light)
  end.
(** After [n] steps, and not before, the end of the profile is reached. *)
Definition ends_after (density : R -> R -> R -> R) (h : shower) (dt : R) (n : nat) : Prop :=
  exists max, p_grammage (h_profile h) !! (length (p_grammage (h_profile h)) - 1)%nat = Some max /\ max <= depth density h dt n /\ forall i, (i < n)%nat -> depth density h dt i < max.

(** [q] is the charge at depth [g] by linear interpolation between the two entries of the profile around the first one not less than [g];
    up to the first entry it is constant. *)
Definition charge_at (p : profile) (g q : R) : Prop :=
  (exists g0, p_grammage p !! 0%nat = Some g0 /\ g <= g0 /\ p_charge p !! 0%nat = Some q) \/
  exists k g0 g1 q0 q1, p_grammage p !! k = Some g0 /\ p_grammage p !! S k = Some g1 /\ p_charge p !! k = Some q0 /\ p_charge p !! S k = Some q1 /\
    g0 < g <= g1 /\ (forall j x, (j <= k)%nat -> p_grammage p !! j = Some x -> x < g) /\
    q = q0 + (q1 - q0) * ((g - g0) / (g1 - g0)).

(** In units of light travel time, as the Green's functions need it. *)
Definition in_ns (p : R * R * R) : R * R * R := (p.1.1 / speed_of_light, p.1.2 / speed_of_light, p.2 / speed_of_light).
Definition distance (p q : R * R * R) : R :=
  sqrt ((q.1.1 - p.1.1) * (q.1.1 - p.1.1) + (q.1.2 - p.1.2) * (q.1.2 - p.1.2) + (q.2 - p.2) * (q.2 - p.2)).
Definition distance_from_axis (p : R * R * R) : R := sqrt (p.1.1 * p.1.1 + p.1.2 * p.1.2).
