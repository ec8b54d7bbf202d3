(** Model of the input validation of LineCurrentSegment (eisvogel/core/impl/Current.hxx:1-8), CylinderRegion and
    CylinderGeometry (impl/Geometry.hxx:3-53, Geometry.hh:9-68) and the constructors of CylindricalGreensFunctionCalculator
    (eisvogel/meep/impl/MEEPCylindricalGreensFunctionCalculator.hxx:609-624), and of the mixed-sign VectorUtils::min/max
    (impl/Vector.hxx:60-98).
    A scalar_t is an IEEE float ([spec_float] of the standard library: zeros, infinities, NaN and finite numbers)
    with the IEEE comparisons, all of which are false on NaN.  A thrown exception is [None]. *)
From stdpp Require Import base list list_numbers numbers option.
From Coq Require Import ZArith SpecFloat.

Notation fl := spec_float (only parsing).
Definition fzero : fl := S754_zero false.
(** operators < , <= , > , >= , == *)
Definition flt (x y : fl) : bool := SFltb x y.
Definition fle (x y : fl) : bool := SFleb x y.
Definition fgt (x y : fl) : bool := SFltb y x.
Definition fge (x y : fl) : bool := SFleb y x.
Definition feq (x y : fl) : bool := SFeqb x y.

(** LineCurrentSegment, Current.hh / Current.hxx:1-8. *)
Record segment := Segment { sg_start_pos : list fl; sg_end_pos : list fl; sg_t0 : fl; sg_t1 : fl; sg_charge : fl }.
Definition new_segment (p0 p1 : list fl) (t0 t1 q : fl) : option segment :=
  if fge t0 t1 then None else Some (Segment p0 p1 t0 t1 q).

(** CylinderRegion, Geometry.hxx:5-31.  [SetRegion] assigns the members first and then throws: the outcome is the new state
    and whether an exception was thrown. *)
Record region := Region { rg_rmin : fl; rg_rmax : fl; rg_zmin : fl; rg_zmax : fl }.
Definition region_throws (g : region) : bool :=
  (flt (rg_rmin g) fzero || flt (rg_rmax g) fzero || fgt (rg_rmin g) (rg_rmax g)) || fgt (rg_zmin g) (rg_zmax g).
Definition new_region (r0 r1 z0 z1 : fl) : option region :=
  let g := Region r0 r1 z0 z1 in if region_throws g then None else Some g.
Definition set_region (g : region) (r0 r1 z0 z1 : fl) : region * bool :=
  let g' := Region r0 r1 z0 z1 in (g', region_throws g').
(** IsEmpty, Geometry.hxx:33-35. *)
Definition region_empty (g : region) : bool := feq (rg_rmin g) (rg_rmax g) || feq (rg_zmin g) (rg_zmax g).

(** CylinderGeometry, Geometry.hxx:37-47 (the permittivity function is not validated). *)
Record geometry := Geometry { ge_rmax : fl; ge_zmin : fl; ge_zmax : fl }.
Definition new_geometry (r1 z0 z1 : fl) : option geometry :=
  if flt r1 fzero || fgt z0 z1 then None else Some (Geometry r1 z0 z1).
(** contains, Geometry.hxx:49-57; GetRMin() is 0. *)
Definition geometry_contains (ge : geometry) (g : region) : bool :=
  fge (rg_zmin g) (ge_zmin ge) && fle (rg_zmax g) (ge_zmax ge) && fge (rg_rmin g) fzero && fle (rg_rmax g) (ge_rmax ge).

(** The calculator's constructors; what is kept of it is the region to store. *)
Definition new_calculator (ge : geometry) (g : region) : option region :=
  if negb (geometry_contains ge g) then None else if region_empty g then None else Some g.
Definition new_calculator_all (ge : geometry) : option region :=
  g ← new_region fzero (ge_rmax ge) (ge_zmin ge) (ge_zmax ge); new_calculator ge g.

(** * Integer types and mixed-sign minimum and maximum *)
(** An integral C++ type (two's complement). *)
Record itype := IType { it_signed : bool; it_bits : nat }.
Definition it_min (t : itype) : Z := if it_signed t then (- 2 ^ (Z.of_nat (it_bits t) - 1))%Z else 0%Z.
Definition it_max (t : itype) : Z := if it_signed t then (2 ^ (Z.of_nat (it_bits t) - 1) - 1)%Z else (2 ^ Z.of_nat (it_bits t) - 1)%Z.
(** static_cast between integral types (C++20: modulo 2^bits). *)
Definition icast (t : itype) (x : Z) : Z := ((x - it_min t) mod 2 ^ Z.of_nat (it_bits t) + it_min t)%Z.
(** min, max, Vector.hxx:61-98: std::cmp_less / std::cmp_greater compare the mathematical values. *)
Definition take_min (t1 : itype) (a b : Z) : Z := if (a <? b)%Z then a else icast t1 b.
Definition take_max (t1 : itype) (a b : Z) : Z := if (b <? a)%Z then a else icast t1 b.
Definition vmin (t1 : itype) : list Z -> list Z -> list Z := zip_with (take_min t1).
Definition vmax (t1 : itype) : list Z -> list Z -> list Z := zip_with (take_max t1).
(** min with a scalar, Vector.hxx:74-85. *)
Definition vmin_scalar (t1 : itype) (v : list Z) (b : Z) : list Z := (fun a => take_min t1 a b) <$> v.
