(** Model of the coordinates of a calculated Green's function: eisvogel/meep/impl/MEEPCylindricalGreensFunctionCalculator.hxx, calculate_mpi_chunk
    502-534 (storage domain), 585-604 (main loop) and Calculate 803-822 (fourth stage), around CalculateModel.
    Reals instead of floats and doubles; [None]: an assert fails, a division by zero or a cast of a negative number. *)
From stdpp Require Import base list list_numbers numbers option gmap countable.
From Coq Require Import Reals NArith ZArith.
From Verif Require Import IndexSpec LoopsModel NDArrayModel CodecModel StreamerModel BBoxModel DownsampleModel RTreeModel ChunkMetaModel ChunkCacheModel LibraryModel BoundaryModel RebuildModel
  PartitionModel ParallelModel RecordModel StorageModel CalculateModel KernelModel InterpModel SignalModel.
Local Open Scope R_scope.

(** The sizes of a CylinderGeometry or CylinderRegion, eisvogel/core/Geometry.hh:8-46 (GetRMin, GetRMax, GetZMin, GetZMax; the geometry begins at r = 0). *)
Record cylinder := Cyl { rmin : R; rmax : R; zmin : R; zmax : R }.

(** storage_domain_start_ind and storage_domain_shape along one axis, 506-513: [n] cells for [gsize]. *)
Definition axis_start (gmin gsize amin : R) (n : N) : option N :=
  if Req_EM_T gsize 0 then None else N.of_nat <$> to_size ((amin - gmin) / gsize * INR (N.to_nat n)).
Definition axis_shape (gsize asize : R) (n : N) : option N :=
  if Req_EM_T gsize 0 then None else N.of_nat <$> to_size (asize / gsize * INR (N.to_nat n)).
(** Lines 505-518, with the asserts 516-517; [cz], [cr] are meep's nz() and nr(). *)
Definition storage_domain (geom request : cylinder) (rho : R) (cz cr : N) : option (list N * list N) :=
  sz ← axis_start (zmin geom) (zmax geom - zmin geom) (zmin request) cz;
  sr ← axis_start (rmin geom) (rmax geom - rmin geom) (rmin request) cr;
  nz ← axis_shape (zmax geom - zmin geom) (zmax request - zmin request) cz;
  nr ← axis_shape (rmax geom - rmin geom) (rmax request - rmin request) cr;
  if Req_EM_T (INR (N.to_nat cz)) ((zmax geom - zmin geom) * rho) then
    if Req_EM_T (INR (N.to_nat cr)) ((rmax geom - rmin geom) * rho) then Some ([sz; sr], [nz; nr]) else None
  else None.
(** region_stored, 531-534; storage_domain_end_ind is a sum of size_t. *)
Definition region_stored (geom : cylinder) (rho : R) (start shape : list N) : option cylinder :=
  match start, vwadd start shape with
  | [sz; sr], [ez; er] =>
      Some (Cyl (INR (N.to_nat sr) / rho + rmin geom) (INR (N.to_nat er) / rho + rmin geom) (INR (N.to_nat sz) / rho + zmin geom) (INR (N.to_nat ez) / rho + zmin geom))
  | _, _ => None
  end.

(** The loop of 588-591, "while(time() < cur_t) step()": time() is the number of steps [k] times meep's own step [dt]. *)
Fixpoint advance (fuel : nat) (dt cur_t : R) (k : nat) : option nat :=
  match fuel with
  | O => None
  | S fuel => if Rlt_dec (INR k * dt) cur_t then advance fuel dt cur_t (S k) else Some k
  end.
(** The main loop, 585-604: the number of meep's steps when each slice is stored. *)
Fixpoint main_loop (fuel mfuel : nat) (dt timestep t_end cur_t : R) (k : nat) : option (list nat) :=
  match fuel with
  | O => None
  | S fuel => if Rle_dec cur_t t_end then
      k' ← advance mfuel dt cur_t k; ks ← main_loop fuel mfuel dt timestep t_end (cur_t + timestep) k'; Some (k' :: ks)
    else Some []
  end.

(** step_size along one axis, line 820: the shape is cast to a float before one is subtracted. *)
Definition interval (a b : R) (n : N) : option R := if Req_EM_T (INR (N.to_nat n) - 1) 0 then None else Some ((b - a) / (INR (N.to_nat n) - 1)).
(** Lines 815-821: start, end and sample interval of the Green's function (r, z, t). *)
Definition green_coords (stored : cylinder) (t_end : R) (shape : list N) : option ((R * R * R) * (R * R * R) * (R * R * R)) :=
  match shape with
  | [nr; nz; nt] =>
      ir ← interval (rmin stored) (rmax stored) nr; iz ← interval (zmin stored) (zmax stored) nz; it ← interval 0 t_end nt;
      Some ((rmin stored, zmin stored, 0), (rmax stored, zmax stored, t_end), (ir, iz, it))
  | _ => None
  end.

Section model.
Context (vd : nat) (junk : N) (L : lib).
(** Calculate with the coordinates.  [M k p]: the field at the grid point [p] after [k] of meep's steps.  The array is opened with [size2], [cs2] (line
    812); that CylindricalGreensFunction flushes it again (nothing has changed since) and stores the numbers beside it (C32) is left out. *)
Definition calculate_green (geom request : cylinder) (rho : R) (cz cr : N) (fuelT fuelM : nat) (dt timestep t_end : R) (size2 : nat) (cs2 : list nat)
    (d : N) (ov : nat) (csize : N) (ct cl : nat) (fuel p0 : nat) (size : nat) (jobs : nat)
    (chunks : nat -> list (list Z * list Z)) (M : nat -> list Z -> list N) (cut : nat -> nat -> nat -> list nat -> bool) (names : nat -> nat -> nat -> nat -> bytes)
    (ord : nat -> list N -> list N) (ordm : list N -> list N) (uuids2 : nat -> nat -> bytes) (ord2 : nat -> list N -> list N) (ordm2 : list N -> list N)
    : res (dir * ((R * R * R) * (R * R * R) * (R * R * R))) :=
  '(start, shape) ← of_opt (storage_domain geom request rho cz cr);
  stored ← of_opt (region_stored geom rho start shape);
  steps ← of_opt (main_loop fuelT fuelM dt timestep t_end 0 0);
  dout ← calculate vd junk L [cz; cr] start shape d ov csize ct cl fuel p0 size jobs chunks (fun t p => M (steps !!! t) p) cut names (length steps) ord ordm uuids2 ord2 ordm2;
  l ← lib_open vd 3 junk L size2 cs2 dout;
  '(g, _) ← lib_geometry 3 l;
  c ← of_opt (green_coords stored t_end (LibraryModel.g_shape g));
  Done (dout, c).
End model.
