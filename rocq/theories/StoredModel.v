(** The samples that the analytic calculator stores, eisvogel/core/impl/AnalyticGreensFunctionCalculator.hxx:83-93: E_rxy and E_z at the coordinates, as two 32-bit floats.
    Simplification: the computation is exact (DipoleModel); only its results are rounded to floats. *)
From Coq Require Import Reals NArith ZArith List.
From Flocq Require Import Core IEEE754.BinarySingleNaN IEEE754.Binary IEEE754.Bits.
From Verif Require Import DipoleModel.
Import ListNotations.
Local Open Scope R_scope.

(** The bits of the float nearest to [x] (ties to even; infinity if too large). *)
Definition nearest_bits (x : R) : N :=
  Z.to_N (bits_of_b32 (binary_normalize 24 128 eq_refl eq_refl BinarySingleNaN.mode_NE (ZnearestE (scaled_mantissa radix2 (FLT_exp (-149) 24) x)) (cexp radix2 (FLT_exp (-149) 24) x) false)).
(** The bits of std::nan(""). *)
Definition nan_bits : N := 2143289344.
Definition stored_bits (x : option (option R)) : N := match x with Some (Some v) => nearest_bits v | _ => nan_bits end.
(** Lines 89-93. *)
Definition field_bits (lg : R -> R) (n : nat) (tp eta r_min : R) (fuel : nat) (r z t : R) : list N :=
  [stored_bits (E_rxy lg n tp eta r_min fuel t r z); stored_bits (E_z lg n tp eta r_min fuel t r z)].
