(** Model of GreensFunctionCalculator::Analytic::ElectricDipole, eisvogel/core/impl/AnalyticGreensFunctionCalculator.hxx:105-177, on top of the models of
    the library and of re-chunking.
    - Reals instead of floats; coordinates and index vectors have the components r, z, t.  [None], [Undef]: a division by zero, the cast of a
      negative number, a failed assertion.
    - The requested steps [dr], [dz], [dt] are inputs (delta_pos, delta_pos, delta_t; lines 118-120), and so is the field: [F r z t] are the bits
      that E_rxy and E_z (34-78) give.
    - [uuids], [uuids2]: the names drawn for the files of the first array and of the re-chunked one; [ord]: the iteration order of the cache.
    - The output directory is new (110-112), the temporary directory too. *)
From stdpp Require Import base list list_numbers numbers option gmap countable.
From Coq Require Import Reals NArith ZArith.
From Verif Require Import LoopsModel NDArrayModel CodecModel StreamerModel BBoxModel DownsampleModel RTreeModel ChunkMetaModel ChunkCacheModel LibraryModel BoundaryModel RebuildModel
  SignalModel.
Local Open Scope R_scope.

Definition vec := (R * R * R)%type.
(** number_pts along one axis, line 135. *)
Definition number_pts (a b d : R) : option nat := if Req_EM_T d 0 then None else to_size ((b - a) / d).
(** stepsize along one axis, line 136. *)
Definition axis_step (a b : R) (n : nat) : option R := if Req_EM_T (INR n) 0 then None else Some ((b - a) / INR n).

Section model.
Context (vd : nat) (junk : N) (L : lib).

(** The evaluator of EvaluateElectricDipoleGreensFunction, 80-93: [c] are the coordinates of the chunk's first element. *)
Definition evaluate_at (F : R -> R -> R -> list N) (c step : vec) (buf : ndarr N) (ind : list nat) : option (ndarr N) :=
  match c, step, ind with
  | (cr, cz, ct), (sr, sz, st), [ir; iz; it] => awrite vd buf ind (F (cr + sr * INR ir) (cz + sz * INR iz) (ct + st * INR it))
  | _, _, _ => None
  end.
(** EvaluateElectricDipoleGreensFunction, 95-96 (index_loop_over_elements, NDVecArray.hxx). *)
Definition evaluate_chunk (F : R -> R -> R -> list N) (c step : vec) (buf : ndarr N) : option (ndarr N) :=
  inds ← elem_loop (loop_fuel (a_shape buf)) (replicate (length (a_shape buf)) 0%nat) (a_shape buf);
  foldM (evaluate_at F c step) buf inds.
(** chunk_start_coords, line 161. *)
Definition chunk_coords (start step : vec) (cs : list nat) : option vec :=
  match start, step, cs with
  | (ar, az, at_), (sr, sz, st), [ir; iz; it] => Some (ar + INR ir * sr, az + INR iz * sz, at_ + INR it * st)
  | _, _, _ => None
  end.
(** fill_and_register_chunk, 157-171: the chunk buffer and the array.  RegisterChunk without hints. *)
Definition fill_and_register (F : R -> R -> R -> list N) (start step : vec) (st : ndarr N * clib) (uc : bytes * (list nat * list nat)) : res (ndarr N * clib) :=
  let '(buf, l) := st in
  let '(uuid, (cs, ce)) := uc in
  c ← of_opt (chunk_coords start step cs);
  b1 ← of_opt (aresize vd junk (zip_with Nat.sub ce cs) buf);
  b2 ← of_opt (evaluate_chunk F c step b1);
  l1 ← darr_register vd 3 junk L b2 (vof_nat cs) false uuid l;
  Done (b2, l1).

(** Lines 129-176: the directory of the array and start, end and sample interval of the Green's function.  The move of the array into the Green's
    function flushes it (C53); that the numbers are stored beside it is C32. *)
Definition electric_dipole (F : R -> R -> R -> list N) (ar az br bz t_end : R) (dr dz dt : R) (max_pts : nat) (uuids uuids2 : nat -> bytes) (ord : list N -> list N)
    : res (dir * (vec * vec * vec)) :=
  nr ← of_opt (number_pts ar br dr); nz ← of_opt (number_pts az bz dz); nt ← of_opt (number_pts 0 t_end dt);
  sr ← of_opt (axis_step ar br nr); sz ← of_opt (axis_step az bz nz); st ← of_opt (axis_step 0 t_end nt);
  let ends := [nr + 1; nz + 1; nt + 1]%nat in
  let csize := replicate 3 max_pts in
  l0 ← lib_open vd 3 junk L 5 (rebuild_cs 3) (Dir None ∅);
  chunks ← of_opt (chunk_loop (loop_fuel ends) (replicate 3 0%nat) ends csize);
  '(_, l1) ← rfold (fill_and_register F (ar, az, 0) (sr, sz, st)) (anew vd junk csize, l0) (imap (fun i c => (uuids i, c)) chunks);
  l2 ← rebuild vd 3 junk L (cylindrical vd) (vof_nat csize) 2 false uuids2 ord l1;
  l3 ← lib_flush vd 3 ord l2;
  d ← lib_close vd 3 ord l3;
  Done (d, ((ar, az, 0), (br, bz, t_end), (sr, sz, st))).
End model.
