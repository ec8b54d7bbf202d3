(** Specification of the coordinates of a calculated Green's function (C59). *)
From stdpp Require Import base list list_numbers numbers option.
From Coq Require Import Reals NArith ZArith.
From Verif Require Import CoordsModel.
Local Open Scope R_scope.

(** The number of whole cells in a length of [x] cells. *)
Definition whole (x : R) (i : N) : Prop := INR (N.to_nat i) <= x < INR (N.to_nat i) + 1.
(** The coordinate of meep's grid point [p] along an axis that begins at [g]: there are [2 * rho] grid points per unit, the centres of the cells are odd. *)
Definition point_pos (g rho : R) (p : Z) : R := g + IZR p / (2 * rho).

(** The geometry has [cz] x [cr] cells of size [1 / rho], contains the requested region, and the storage domain is the requested region in whole cells. *)
Record ok_region (geom request : cylinder) (rho : R) (cz cr sz sr nz nr : N) : Prop := {
  or_rho : 0 < rho;
  or_geom : zmin geom < zmax geom /\ rmin geom < rmax geom;
  or_cells : INR (N.to_nat cz) = (zmax geom - zmin geom) * rho /\ INR (N.to_nat cr) = (rmax geom - rmin geom) * rho;
  or_size : (cz < 2 ^ 64 /\ cr < 2 ^ 64)%N;
  or_inside : zmin geom <= zmin request <= zmax request /\ zmax request <= zmax geom /\ rmin geom <= rmin request <= rmax request /\ rmax request <= rmax geom;
  or_start : whole ((zmin request - zmin geom) * rho) sz /\ whole ((rmin request - rmin geom) * rho) sr;
  or_shape : whole ((zmax request - zmin request) * rho) nz /\ whole ((rmax request - rmin request) * rho) nr }.

(** Slice [k] is stored for the time [k * timestep], after the first of meep's steps that reaches it; there are slices up to the time [t_end]. *)
Record ok_steps (dt timestep t_end : R) (steps : list nat) : Prop := {
  os_positive : 0 < dt /\ 0 < timestep;
  os_time : forall k n, steps !! k = Some n -> INR k * timestep <= t_end /\ INR k * timestep <= INR n * dt < INR k * timestep + dt;
  os_last : t_end < INR (length steps) * timestep }.
