(** Specification of the stored samples of the analytic calculator (C65). *)
From Coq Require Import Reals NArith ZArith List.
From Flocq Require Import Core IEEE754.Binary IEEE754.Bits.
From Verif Require Import DipoleSpec ReadModel ReadSpec.
Import ListNotations.
Local Open Scope R_scope.

(** The bits [b] are not a number. *)
Definition float_nan (b : N) : Prop := is_nan 24 128 (b32_of_bits (Z.of_N b)) = true.
(** The float [b] is [x] up to the error [e], rounded; if the number is not too large for a float. *)
Definition float_near (e : R) (b : N) (x : R) : Prop := Rabs x + e <= 2 ^ 127 -> exists y, float_is b y /\ Rabs (y - x) <= e + ((Rabs x + e) / 2 ^ 24 + / 2 ^ 150).

(** [w] are the two components, radial and along z, of the field of the dipole with the filtered step as moment at the point (r, z) and the time [t]. *)
Definition dipole_sample (n : nat) (tp eta r_min r z t : R) (w : list N) : Prop :=
  exists w0 w1, w = [w0; w1] /\ let d := sqrt (r ^ 2 + z ^ 2) in
    (d < r_min \/ d = 0 -> float_nan w0 /\ float_nan w1) /\
    (0 < d -> r_min <= d -> t <= eta * d -> float_is w0 0 /\ float_is w1 0) /\
    (0 < d -> r_min <= d -> t <> eta * d -> exists xr xz, electric_field (hertz (fun s => - step_response n tp s) eta) eta r z t xr xz /\
       let e := 2 / (4 * PI * eta ^ 2 * d ^ 3) * (1 / 1000000 * (INR n + 2)) in float_near e w0 xr /\ float_near e w1 xz).
