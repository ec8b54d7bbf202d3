(** Model of the antenna and of the coordinates of the geometry: eisvogel/core/impl/Antenna.hxx and eisvogel/core/impl/Geometry.hxx:62-73, with
    32-bit and 64-bit floating-point numbers (scalar_t is float, meep uses double).
    Simplifications: all NaNs are one; std::complex<double> values are their real part, the imaginary part is 0. *)
From Coq Require Import ZArith Bool.
From Flocq Require Import Core IEEE754.BinarySingleNaN.

Definition f32 := binary_float 24 128.
Definition f64 := binary_float 53 1024.
Global Instance prec32 : Prec_gt_0 24 := eq_refl.
Global Instance prec64 : Prec_gt_0 53 := eq_refl.
Global Instance emax32 : Prec_lt_emax 24 128 := eq_refl.
Global Instance emax64 : Prec_lt_emax 53 1024 := eq_refl.

(** Conversion between floating-point types (to nearest, ties to even). *)
Definition convert {p e : Z} (p' e' : Z) {H1 : Prec_gt_0 p'} {H2 : Prec_lt_emax p' e'} (x : binary_float p e) : binary_float p' e' :=
  match x with
  | B754_zero s => B754_zero s
  | B754_infinity s => B754_infinity s
  | B754_nan => B754_nan
  | B754_finite s m ex _ => binary_normalize p' e' H1 H2 mode_NE (cond_Zopp s (Zpos m)) ex s
  end.
Definition to_float (x : f64) : f32 := convert 24 128 x.
Definition to_double (x : f32) : f64 := convert 53 1024 x.
(** x <= y and x >= y. *)
Definition le32 (x y : f32) : bool := Bleb x y.
(** Literals: -1.0, 1.0f, 1.5, 0.11f. *)
Definition minus_one : f64 := binary_normalize 53 1024 _ _ mode_NE (-1) 0 false.
Definition one32 : f32 := binary_normalize 24 128 _ _ mode_NE 1 0 false.
Definition three_halves : f64 := binary_normalize 53 1024 _ _ mode_NE 3 (-1) false.
(** The float nearest to 0.11: 14763950 / 2^27. *)
Definition magic_number : f32 := binary_normalize 24 128 _ _ mode_NE 14763950 (-27) false.

(** Antenna.hh:27-34. *)
Record antenna := Antenna { an_start : f32; an_end : f32; an_z : f32; an_scale : f32; an_response : f32 -> f32 }.
(** Antenna.hxx:3-11 and 34-36. *)
Definition new_antenna (start end_ z : f32) (response : f32 -> f32) : antenna := Antenna start end_ z one32 response.
(** SetScaleFactor, Antenna.hxx:13-15. *)
Definition set_scale (s : f32) (a : antenna) : antenna := Antenna (an_start a) (an_end a) (an_z a) s (an_response a).
(** current, Antenna.hxx:17-25. *)
Definition current (a : antenna) (time : f64) : f64 :=
  let rtime := to_float time in
  if le32 (an_start a) rtime && le32 rtime (an_end a) then
    Bmult mode_NE (to_double (Bmult mode_NE (an_scale a) (an_response a (to_float time)))) minus_one
  else B754_zero false.
(** dipole, Antenna.hxx:27-31. *)
Definition dipole (a : antenna) (time : f64) : f64 := B754_nan.
(** last_time, Antenna.hh:25. *)
Definition last_time (a : antenna) : f64 := to_double (an_end a).
(** MEEPCylindricalGreensFunctionCalculator.hxx:472-478. *)
Definition calculator_scale (resolution : f64) : f32 := to_float (Bmult mode_NE resolution (to_double magic_number)).

(** CylinderGeometry::toMeepCoords and toEisvogelCoords, Geometry.hxx:67-73: pairs (r, z). *)
Definition to_meep (z_min : f32) (p : f32 * f32) : f64 * f64 := (to_double (fst p), to_double (Bminus mode_NE (snd p) z_min)).
Definition to_eisvogel (z_min : f32) (p : f64 * f64) : f32 * f32 := (to_float (fst p), Bplus mode_NE (to_float (snd p)) z_min).
(** eps, Geometry.hxx:62-65, for a geometry with permittivity [eps_func]. *)
Definition eps (z_min : f32) (eps_func : f32 -> f32 -> f32) (pos : f64 * f64) : f64 :=
  let c := to_eisvogel z_min pos in to_double (eps_func (fst c) (snd c)).
(** The extents of the volume of meep, MEEPCylindricalGreensFunctionCalculator.hxx:468. *)
Definition meep_volume (r_max z_min z_max : f32) : f64 * f64 := (to_double r_max, to_double (Bminus mode_NE z_max z_min)).
(** AddToGeometry, Antenna.hxx:38-48: where the source is put; [a] is the resolution. *)
Definition source_position (a : f64) (z_min : f32) (an : antenna) : f64 * f64 :=
  to_meep z_min (to_float (Bdiv mode_NE three_halves a), an_z an).
(** C8CylindricalGreensFunctionCalculator::calculate, extern/corsika/impl/C8GreensFunctionCalculator.hxx:20-22, and the scale set in the calculation. *)
Definition c8_antenna (z_ant t_end : f32) (impulse_response : f32 -> f32) (resolution : f64) : antenna :=
  set_scale (calculator_scale resolution) (new_antenna (B754_zero false) t_end z_ant impulse_response).
