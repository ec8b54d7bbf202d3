(** Model of how the region and the time are made discrete, with the floating-point arithmetic of the code (C59 has the same functions over the reals):
    eisvogel/meep/impl/MEEPCylindricalGreensFunctionCalculator.hxx, calculate_mpi_chunk 459-466 and 502-534, main loop 581-596, and Calculate 815-820;
    eisvogel/core/impl/MathUtils.hh:8-10; the sizes of eisvogel/core/Geometry.hh:25-26, 44-45.
    scalar_t is float; resolution and timestep are double; an operation of a float (or size_t) with a double is one of doubles.
    Simplifications: all NaNs are one; meep's nz() and nr() are inputs ([nz], [nr]). *)
From Coq Require Import ZArith NArith Bool List.
From Flocq Require Import Core IEEE754.BinarySingleNaN.
From Verif Require Import AntennaModel.
Import ListNotations.

Record geometry32 := Geom32 { g_rmax : f32; g_zmin : f32; g_zmax : f32 }.
Record region32 := Region32 { q_rmin : f32; q_rmax : f32; q_zmin : f32; q_zmax : f32 }.
Definition zero32 : f32 := B754_zero false.
(** CylinderGeometry::GetRSize and GetZSize; CylinderRegion::GetRSize and GetZSize. *)
Definition geom_rsize (g : geometry32) : f32 := g_rmax g.
Definition geom_zsize (g : geometry32) : f32 := Bminus mode_NE (g_zmax g) (g_zmin g).
Definition region_rsize (q : region32) : f32 := Bminus mode_NE (q_rmax q) (q_rmin q).
Definition region_zsize (q : region32) : f32 := Bminus mode_NE (q_zmax q) (q_zmin q).

(** Conversions of size_t to floating-point numbers, and of a float to size_t (undefined if the integral part does not fit). *)
Definition of_size (n : N) : f32 := binary_normalize 24 128 _ _ mode_NE (Z.of_N n) 0 false.
Definition of_size64 (n : N) : f64 := binary_normalize 53 1024 _ _ mode_NE (Z.of_N n) 0 false.
Definition to_size32 (x : f32) : option N :=
  if is_finite x then let k := Btrunc x in if (0 <=? k)%Z && (k <? 2 ^ 64)%Z then Some (Z.to_N k) else None else None.

(** MathUtils::is_integer, MathUtils.hh:8-10: the argument is a float. *)
Definition is_integer (k : f32) : bool := Beqb (Bnearbyint mode_DN k) k.
(** The two checks of 459-466: [false] is the exception. *)
Definition size_accepted (size : f32) (resolution : f64) : bool := is_integer (to_float (Bmult mode_NE (to_double size) resolution)).

(** storage_domain_start_ind and storage_domain_shape along one axis, 506-513. *)
Definition start_index (gmin gsize amin : f32) (n : N) : option N := to_size32 (Bmult mode_NE (Bdiv mode_NE (Bminus mode_NE amin gmin) gsize) (of_size n)).
Definition shape_index (gsize asize : f32) (n : N) : option N := to_size32 (Bmult mode_NE (Bdiv mode_NE asize gsize) (of_size n)).
(** The asserts of 516-517. *)
Definition size_assert (size : f32) (resolution : f64) (n : N) : bool := Beqb (of_size64 n) (Bmult mode_NE (to_double size) resolution).
(** 459-518: the first index and the shape of the region that is stored, each (z, r).  [None]: an exception, a failed assert or an undefined conversion. *)
Definition storage_domain32 (g : geometry32) (q : region32) (resolution : f64) (nz nr : N) : option ((N * N) * (N * N)) :=
  if size_accepted (geom_rsize g) resolution && size_accepted (geom_zsize g) resolution then
    match start_index (g_zmin g) (geom_zsize g) (q_zmin q) nz, start_index zero32 (geom_rsize g) (q_rmin q) nr,
          shape_index (geom_zsize g) (region_zsize q) nz, shape_index (geom_rsize g) (region_rsize q) nr with
    | Some sz, Some sr, Some mz, Some mr =>
        if size_assert (geom_zsize g) resolution nz && size_assert (geom_rsize g) resolution nr then Some ((sz, sr), (mz, mr)) else None
    | _, _, _, _ => None
    end
  else None.
(** An edge of region_stored, 531-534. *)
Definition stored_edge (k : N) (resolution : f64) (gmin : f32) : f32 := to_float (Bplus mode_NE (Bdiv mode_NE (to_double (of_size k)) resolution) (to_double gmin)).

(** The main loop, 581-596: the values of cur_t for which a slice is stored. *)
Fixpoint time_loop (fuel : nat) (timestep : f64) (t_end : f32) (cur_t : f64) : option (list f64) :=
  match fuel with
  | O => None
  | S fuel =>
      if Bleb cur_t (to_double t_end) then
        match time_loop fuel timestep t_end (Bplus mode_NE cur_t timestep) with Some ts => Some (cur_t :: ts) | None => None end
      else Some []
  end.
Definition slice_times (fuel : nat) (timestep : f64) (t_end : f32) : option (list f64) := time_loop fuel timestep t_end (B754_zero false).

(** The inner loop of 585-587: [clock n] is the time of meep after [n] steps. *)
Fixpoint advance64 (fuel : nat) (clock : nat -> f64) (n : nat) (t : f64) : option nat :=
  match fuel with O => None | S fuel => if Bltb (clock n) t then advance64 fuel clock (S n) t else Some n end.
(** The main loop, 581-596, with the inner loop: for every stored slice, cur_t and the number of steps that meep has made. *)
Fixpoint main_loop64 (fuel mfuel : nat) (clock : nat -> f64) (timestep : f64) (t_end : f32) (cur_t : f64) (n : nat) : option (list (f64 * nat)) :=
  match fuel with
  | O => None
  | S fuel =>
      if Bleb cur_t (to_double t_end) then
        match advance64 mfuel clock n cur_t with
        | Some n' => match main_loop64 fuel mfuel clock timestep t_end (Bplus mode_NE cur_t timestep) n' with Some l => Some ((cur_t, n') :: l) | None => None end
        | None => None
        end
      else Some []
  end.
Definition stored_slices (fuel mfuel : nat) (clock : nat -> f64) (timestep : f64) (t_end : f32) : option (list (f64 * nat)) := main_loop64 fuel mfuel clock timestep t_end (B754_zero false) 0.
(** The clock of meep: fields::time() is the number of steps times dt (not part of /repo). *)
Definition meep_clock (dt : f64) (n : nat) : f64 := Bmult mode_NE (of_size64 (N.of_nat n)) dt.

(** step_size along one axis, 820. *)
Definition step32 (a b : f32) (n : N) : f32 := Bdiv mode_NE (Bminus mode_NE b a) (Bminus mode_NE (of_size n) one32).
