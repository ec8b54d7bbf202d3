(** Model of the choice of the sampling steps by the analytic calculator, eisvogel/core/impl/AnalyticGreensFunctionCalculator.hxx:114-119.
    - Reals instead of floats; c is 1 (line 115).  [n] is filter_order (smaller than 2^32 - 1), [tp] filter_t_peak, [eta] ior, [os] os_factor.
    - [None]: a division by zero. *)
From Coq Require Import Reals.
From Verif Require Import GammaModel.
Local Open Scope R_scope.

Section model.
Context (n : nat) (tp eta os : R).

(** fmax, line 116. *)
Definition fmax : option R := match odiv (INR n) (2 * PI * tp) with None => None | Some q => Some (q * sqrt (Rpower 2 (1 / INR (n + 1)) - 1)) end.
(** delta_t, line 118. *)
Definition delta_t : option R := match fmax with None => None | Some f => odiv 1 (2 * f * os) end.
(** delta_pos with lambda_min, lines 117 and 119. *)
Definition delta_pos : option R :=
  match fmax with
  | None => None
  | Some f => match odiv 1 (f * eta) with None => None | Some lambda_min => odiv lambda_min (2 * os) end
  end.
End model.
