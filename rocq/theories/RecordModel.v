(** Model of the recording of the field during a simulation: eisvogel_cylindrical_saving_chunkloop from the downsampling on,
    eisvogel/meep/impl/MEEPCylindricalGreensFunctionCalculator.hxx:367-430, the loop over the time steps, 577-594, and the rest of
    calculate_mpi_chunk, 596-602, in one MPI process; on top of the models of downsampling and of the library.

    - [regions] are the portions of the simulation chunks of this process that are to be stored, in the order in which MEEP visits them: the
      start index relative to the storage domain (line 370) and the shape.  [field t j] is the field buffer for region [j] in step [t], after
      it was filled and truncated (lines 330-364; the truncation is modelled in FieldStatsModel).  Its shape is 1 :: shape (line 311).
    - [ds] is downsampling_factor in the spatial directions; it is 1 in time (line 545).
    - [ct], [cl] are calc_chunk_size_t and calc_chunk_size_linear.
    - [uuids t j k] is the name drawn for the file of the [k]-th chunk of region [j] that is registered in step [t].
    - The number of steps [T] is the number of iterations of the loop over cur_t (line 579), a loop in floating point, which is left out. *)
From stdpp Require Import base list list_numbers numbers option gmap countable.
From Coq Require Import NArith ZArith.
From Verif Require Import IndexSpec LoopsModel NDArrayModel CodecModel StreamerModel BBoxModel DownsampleModel RTreeModel ChunkMetaModel ChunkCacheModel LibraryModel BoundaryModel RebuildModel.

Section model.
Context (vd dims : nat) (junk : N) (L : lib) (ct cl : nat).

(** simulation_chunk_storer, 397-404, and simulation_chunk_appender, 416-423: the buffer field_chunk_buffer and the array. *)
Definition store_cell (t : nat) (proc : ndarr N) (pstart : list N) (st : ndarr N * clib) (uc : bytes * (list nat * list nat)) : res (ndarr N * clib) :=
  let '(buf, l) := st in
  let '(uuid, (cs, ce)) := uc in
  b1 ← of_opt (aresize vd junk (zip_with Nat.sub ce cs) buf);
  b2 ← of_opt (afill_from vd b1 proc cs ce (replicate dims 0%nat));
  let start := vwadd pstart (vof_nat cs) in
  l1 ← (if (t mod ct =? 0)%nat then darr_register vd dims junk L b2 start false uuid l else lib_append vd dims junk 0 start b2 l);
  Done (b2, l1).

(** The body of the callback for region [j] in step [t], 367-430: field_buffer_processed, field_chunk_buffer and the array. *)
Definition record_region (ds : list N) (t : nat) (field : ndarr N) (uuids : nat -> bytes) (rs : list N) (st : ndarr N * ndarr N * clib) :
    res (ndarr N * ndarr N * clib) :=
  let '(proc, buf, l) := st in
  '(p1, pstart) ← of_opt (downsample vd junk field (N.of_nat t :: rs) (1%N :: ds) proc);
  if (volume (a_shape p1) =? 0)%nat then Done (p1, buf, l)
  else
    cells ← of_opt (chunk_loop (loop_fuel (a_shape p1)) (replicate dims 0%nat) (a_shape p1) (replicate dims cl));
    '(b1, l1) ← rfold (store_cell t p1 pstart) (buf, l) (imap (fun k c => (uuids k, c)) cells);
    Done (p1, b1, l1).

(** One step: all regions, line 593. *)
Definition record_step (ds : list N) (regions : list (list N)) (field : nat -> nat -> ndarr N) (uuids : nat -> nat -> nat -> bytes)
    (st : ndarr N * ndarr N * clib) (t : nat) : res (ndarr N * ndarr N * clib) :=
  rfold (fun st jr => record_region ds t (field t jr.1) (uuids t jr.1) jr.2 st) st (imap (fun j r => (j, r)) regions).

(** The new array in the working directory (492-496), the buffers (546-547), [T] steps. *)
Definition record (ds : list N) (regions : list (list N)) (field : nat -> nat -> ndarr N) (uuids : nat -> nat -> nat -> bytes) (T : nat) : res clib :=
  l ← lib_open vd dims junk L 0 (rebuild_cs dims) (Dir None ∅);
  let buf := anew vd junk (replicate dims 1%nat) in
  '(_, _, l1) ← rfold (record_step ds regions field uuids) (buf, buf, l) (seq 0 T);
  Done l1.

(** The rest, 596-602: exchange time and radius, move to the output directory; the array is destructed. *)
Definition record_job (ds : list N) (regions : list (list N)) (field : nat -> nat -> ndarr N) (uuids : nat -> nat -> nat -> bytes) (T : nat) (ord : list N -> list N) : res dir :=
  l ← record ds regions field uuids T;
  l1 ← lib_swap_axes vd dims junk L 0 2 l;
  '(l2, _) ← lib_move vd dims ord (Dir None ∅) l1;
  lib_close vd dims ord l2.
End model.
