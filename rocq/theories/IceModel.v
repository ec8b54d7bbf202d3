(** Model of examples/dipole_ice/dipole_ice.cxx over the real numbers: the permittivity of the ice and the impulse response of the antenna. *)
From Coq Require Import Reals.
Local Open Scope R_scope.

(** The density, 27-34; [z_m] is the height in metres. *)
Definition ice_density (z_m : R) : R := if Rlt_dec (- 149 / 10) z_m then 917 / 1000 - 594 / 1000 * exp (z_m / (308 / 10)) else 917 / 1000 - 367 / 1000 * exp ((z_m + 149 / 10) / (405 / 10)).
(** The permittivity, 20-38; it does not depend on r. *)
Definition ice_eps (r z : R) : R := let z_m := z * (3 / 10) in if Rlt_dec 0 z_m then 1 else (1 + 845 / 1000 * ice_density z_m) ^ 2.
(** The impulse response, 40-47; [lg] is std::lgamma, and [N] and [tp] are the constants of lines 41 and 42. *)
Definition ice_response (lg : R -> R) (N : nat) (tp t : R) : R := if Rle_dec t 0 then 0 else (t / tp * INR N) ^ N * exp (- t / tp * INR N) / (tp * exp (lg (INR N))).
(** The constants of lines 41 and 42. *)
Definition ice_order : nat := 4.
Definition ice_peak : R := 2.
