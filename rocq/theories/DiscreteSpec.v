(** Specification of the discrete region and times (C72), over the real values of the floating-point numbers. *)
From Coq Require Import Reals ZArith NArith List.
From Flocq Require Import Core IEEE754.BinarySingleNaN.
From Verif Require Import AntennaModel AntennaSpec DiscreteModel.
Local Open Scope R_scope.

(** A size_t as a real number; an integer. *)
Definition real (n : N) : R := IZR (Z.of_N n).
Definition an_integer (x : R) : Prop := exists k : Z, x = IZR k.
(** Where [x] lies between [lo] and [hi], counted in [n] cells; how many cells the length [s] has. *)
Definition cells (lo hi x : R) (n : N) : R := (x - lo) / (hi - lo) * real n.
Definition cells_of (lo hi s : R) (n : N) : R := s / (hi - lo) * real n.
(** A coordinate or a size; the geometry has an extent, and the region is inside. *)
Definition coordinate32 (x : f32) : Prop := is_finite x = true /\ Rabs (B2R x) <= 2 ^ 100.
Record geometry_ok (g : geometry32) : Prop := {
  go_rmax : coordinate32 (g_rmax g); go_zmin : coordinate32 (g_zmin g); go_zmax : coordinate32 (g_zmax g);
  go_r : 0 < B2R (g_rmax g); go_z : B2R (g_zmin g) < B2R (g_zmax g) }.
Record region_in (q : region32) (g : geometry32) : Prop := {
  ri_finite : is_finite (q_rmin q) = true /\ is_finite (q_rmax q) = true /\ is_finite (q_zmin q) = true /\ is_finite (q_zmax q) = true;
  ri_r : 0 <= B2R (q_rmin q) <= B2R (q_rmax q) /\ B2R (q_rmax q) <= B2R (g_rmax g);
  ri_z : B2R (g_zmin g) <= B2R (q_zmin q) <= B2R (q_zmax q) /\ B2R (q_zmax q) <= B2R (g_zmax g) }.
(** [k] is the number of whole cells in [x], up to the error [n / 2^21] of [x]. *)
Definition whole_cells (x : R) (n k : N) : Prop := x - 1 - real n / 2 ^ 21 < real k <= x + real n / 2 ^ 21.
(** If [x] is a whole number of cells, [k] is that number or one less. *)
Definition lost_or_exact (x : R) (k : N) : Prop := forall j : Z, x = IZR j -> Z.of_N k = j \/ Z.of_N k = (j - 1)%Z.
