(** Specification of the incomplete gamma function (C64). *)
From Coq Require Import Reals.
From Coquelicot Require Import Coquelicot.
Local Open Scope R_scope.

(** [v] is the upper incomplete gamma function of [n + 1] at [z]: the integral of t^n exp(-t) from [z] to infinity. *)
Definition upper_gamma (n : nat) (z v : R) : Prop := is_RInt_gen (fun t => t ^ n * exp (- t)) (at_point z) (Rbar_locally p_infty) v.

(** [lg] is the logarithm of the gamma function at the positive integers. *)
Definition log_gamma (lg : R -> R) : Prop := forall k : nat, lg (INR (k + 1)) = ln (INR (fact k)).
