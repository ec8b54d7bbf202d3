(** Specification of the field of the analytic calculator (C65): the field of a point dipole along z at the origin, in a medium with index of refraction [eta] (speed of light and vacuum
    permittivity 1), whose moment is a filtered step. *)
From Coq Require Import Reals.
From Coquelicot Require Import Coquelicot.
Local Open Scope R_scope.

(** The impulse response of the filter of order [n]: t^n exp(- n t / tp) for positive times, normalised. *)
Definition impulse_response (n : nat) (tp t : R) : R :=
  if Rle_dec t 0 then 0 else (INR n / tp) ^ S n / INR (fact n) * t ^ n * exp (- (INR n * t / tp)).
(** The filtered step: its integral. *)
Definition step_response (n : nat) (tp t : R) : R := RInt (impulse_response n tp) 0 t.

(** The Hertz vector of a dipole with moment [p] points along z and is p(t - eta R) / (4 pi eps R), eps = eta^2. *)
Definition hertz (p : R -> R) (eta r z t : R) : R := let d := sqrt (r ^ 2 + z ^ 2) in p (t - eta * d) / (4 * PI * eta ^ 2 * d).

(** The electric field of the Hertz vector P: grad (div P) - eta^2 d^2P/dt^2, here in cylindrical coordinates (r, z). *)
Definition electric_field (P : R -> R -> R -> R) (eta r z t Er Ez : R) : Prop :=
  exists (Pz : R -> R -> R) (Pt : R -> R) (Pzz Ptt : R),
    (forall x y, 0 < x ^ 2 + y ^ 2 -> is_derive (fun y => P x y t) y (Pz x y)) /\
    (forall s, is_derive (fun s => P r z s) s (Pt s)) /\
    is_derive (fun x => Pz x z) r Er /\
    is_derive (fun y => Pz r y) z Pzz /\ is_derive Pt t Ptt /\ Ez = Pzz - eta ^ 2 * Ptt.
