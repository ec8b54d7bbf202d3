(** Specification of the antenna and the coordinates (C71), over the real values of the floating-point numbers. *)
From Coq Require Import Reals ZArith.
From Flocq Require Import Core IEEE754.BinarySingleNaN.
From Verif Require Import AntennaModel.
Local Open Scope R_scope.

(** The number [x] is not NaN and not infinite and has the value [v]. *)
Definition has_value {p e : Z} (x : binary_float p e) (v : R) : Prop := is_finite x = true /\ B2R x = v.
(** The real number [v] is a float / the float nearest to [x]. *)
Definition a_float (v : R) : Prop := exists f : f32, has_value f v.
Definition nearest_float (x v : R) : Prop := a_float v /\ forall w, a_float w -> Rabs (v - x) <= Rabs (w - x).
(** The relative precision of floats. *)
Definition ulp32 : R := / 2 ^ 24.
(** [x] is a multiple of 2^k. *)
Definition multiple (k : Z) (x : R) : Prop := exists n : Z, x = IZR n * bpow radix2 k.
