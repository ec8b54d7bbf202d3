(** Model of the field of the analytic calculator, eisvogel/core/impl/AnalyticGreensFunctionCalculator.hxx:15-78.
    - Reals instead of floats.  Qw, eps0, ds and c are 1 (lines 15-19); [eta] is ior, [n] filter_order, [tp] filter_t_peak, [lg] std::lgamma, [tol] the default
      tolerance of incomplete_gamma.  [tp] and [eta] are not zero.
    - [None]: the incomplete gamma function does not end within [fuel] turns of its loop.  [Some None]: not a number. *)
From Coq Require Import Reals.
From Verif Require Import GammaModel.
Local Open Scope R_scope.

(** Default argument, MathUtils.hh:17. *)
Definition default_tol : R := 1 / 1000000.

Section model.
Context (lg : R -> R) (n : nat) (tp eta r_min : R).

(** filtered_theta, 21-26. *)
Definition filtered_theta (fuel : nat) (t : R) : option R :=
  if Rle_dec t 0 then Some 0 else
  match incomplete_gamma lg fuel (INR (n + 1)) (INR n * t / tp) default_tol with
  | None => None
  | Some x => Some (1 - x / exp (lg (INR (n + 1))))
  end.
(** filtered_delta, 28-33.  For order 0 the denominator is infinite (lgamma(0)) and the numerator 1. *)
Definition filtered_delta (t : R) : R :=
  if Rle_dec t 0 then 0 else
  match n with
  | O => 0
  | _ => (t / tp * INR n) ^ n * exp (- t / tp * INR n) / (tp * exp (lg (INR n)))
  end.
(** filtered_delta_prime, 35-40. *)
Definition filtered_delta_prime (t : R) : R :=
  if Rle_dec t 0 then 0 else filtered_delta t * (tp - t) * INR n / (tp * t).

Definition distance (r_xy z : R) : R := sqrt (r_xy * r_xy + z * z).
(** eps, line 17; the factor Qw * ds / (eps * 4 * M_PI). *)
Definition factor : R := 1 / (eta ^ 2 * 4 * PI).

(** E_r, 43-54 (spherical components: radial).  At the origin cos_theta is 0 / 0. *)
Definition E_r (fuel : nat) (t r_xy z : R) : option (option R) :=
  let r_xy := Rabs r_xy in
  let r := distance r_xy z in
  if Rlt_dec r r_min then Some None else if Req_EM_T r 0 then Some None else
  let t_prop := r * eta in
  let t_del := t - t_prop in
  match filtered_theta fuel t_del with
  | None => None
  | Some th => Some (Some (- (2) * factor * (z / r) / r ^ 3 * (th + t_prop * filtered_delta t_del)))
  end.
(** E_theta, 56-66 (spherical components: polar angle). *)
Definition E_theta (fuel : nat) (t r_xy z : R) : option (option R) :=
  let r_xy := Rabs r_xy in
  let r := distance r_xy z in
  if Rlt_dec r r_min then Some None else if Req_EM_T r 0 then Some None else
  let t_prop := r * eta in
  let t_del := t - t_prop in
  match filtered_theta fuel t_del with
  | None => None
  | Some th => Some (Some (- factor * (r_xy / r) / r ^ 3 * (th + t_prop * filtered_delta t_del + t_prop ^ 2 * filtered_delta_prime t_del)))
  end.

(** Sums of products with factors that are divided by [r]; not a number if an operand is not. *)
Definition combine (f : R -> R -> R) (x y : option (option R)) : option (option R) :=
  match x, y with
  | Some (Some x), Some (Some y) => Some (Some (f x y))
  | None, _ | _, None => None
  | _, _ => Some None
  end.
(** E_rxy, 69-74. *)
Definition E_rxy (fuel : nat) (t r_xy z : R) : option (option R) :=
  let r_xy := Rabs r_xy in
  let r := distance r_xy z in
  combine (fun er et => er * (r_xy / r) + et * (z / r)) (E_r fuel t r_xy z) (E_theta fuel t r_xy z).
(** E_z, 76-81. *)
Definition E_z (fuel : nat) (t r_xy z : R) : option (option R) :=
  let r_xy := Rabs r_xy in
  let r := distance r_xy z in
  combine (fun er et => er * (z / r) - et * (r_xy / r)) (E_r fuel t r_xy z) (E_theta fuel t r_xy z).
End model.
