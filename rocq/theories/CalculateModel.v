(** Model of a whole calculation: CylindricalGreensFunctionCalculator::Calculate, eisvogel/meep/impl/MEEPCylindricalGreensFunctionCalculator.hxx:739-805,
    with the storage domain of calculate_mpi_chunk (530-575), on top of the models of the jobs (StorageModel), of the merger and of the parallel
    re-chunking (ParallelModel).
    - The stages are separated by barriers (768, 788, 797), every process works in a directory of its own (calc_job_<rank>) in the first stage, so
      the processes are functions that are evaluated one after the other.
    - [calc] is the shape of the calculated domain, [start], [shape] the storage domain (z, r); they come out of MEEP and of floating-point
      arithmetic (505-513) and are inputs here.
    - [chunks m] are the simulation chunks of process [m]; [E] the field; [cut m], [names m], [ord m] what process [m] truncates, the names it
      draws for its files and the iteration order of its cache.  The directories are empty at the beginning (line 753-765).
    - The fourth stage (coordinates, 803-823) is left out here. *)
From stdpp Require Import base list list_numbers numbers option gmap countable.
From Coq Require Import NArith ZArith.
From Verif Require Import IndexSpec LoopsModel NDArrayModel CodecModel StreamerModel BBoxModel DownsampleModel RTreeModel ChunkMetaModel ChunkCacheModel LibraryModel BoundaryModel RebuildModel
  PartitionModel ParallelModel RecordModel StorageModel.

(** padding_pre and padding_post, 538-539. *)
Definition calc_pre (start : list N) (d req : N) : list N := (fun s => padding_pre s d req) <$> start.
Definition calc_post (calc start shape : list N) (d req : N) : list N := zip_with (fun c e => padding_post c e d req) calc (vwadd start shape).
(** The asserts of 540-541 and 561-563; >= and == compare all components (Vector.hh:97-121). *)
Definition vge (a b : list N) : bool := forallb (fun p => p.2 <=? p.1)%N (zip a b).
Definition calc_asserts (calc start shape pre post : list N) (d : N) (pshape : list N) : bool :=
  let ds := replicate (length start) d in
  let zero := replicate (length start) 0%N in
  vge start (vwmul pre ds) && vge calc (vwadd (vwadd start shape) (vwmul post ds)) &&
  bool_decide (get_downsampled_shape zero pshape ds = vwadd (vwadd (get_downsampled_shape zero shape ds) pre) post).
(** The padded domain, 555-556. *)
Definition calc_padded_start (start pre : list N) (d : N) : list N := zip_with (fun s p => padded_start s p d) start pre.
Definition calc_padded_shape (shape pre post : list N) (d : N) : list N := zip_with (fun n p => padded_shape n p.1 p.2 d) shape (zip pre post).
(** From z, r to r, z, t, lines 792-793. *)
Definition to_rzt (p : list N) : list N := rev p ++ [0%N].

Section model.
Context (vd : nat) (junk : N) (L : lib).

Definition calculate (calc start shape : list N) (d : N) (ov : nat) (csize : N) (ct cl : nat) (fuel p0 : nat) (size : nat) (jobs : nat)
    (chunks : nat -> list (list Z * list Z)) (E : nat -> list Z -> list N) (cut : nat -> nat -> nat -> list nat -> bool) (names : nat -> nat -> nat -> nat -> bytes) (T : nat)
    (ord : nat -> list N -> list N) (ordm : list N -> list N) (uuids2 : nat -> nat -> bytes) (ord2 : nat -> list N -> list N) (ordm2 : list N -> list N) : res dir :=
  let pre := calc_pre start d (N.of_nat ov) in
  let post := calc_post calc start shape d (N.of_nat ov) in
  let pstart := calc_padded_start start pre d in
  let pshape := calc_padded_shape shape pre post d in
  if calc_asserts calc start shape pre post d pshape then
    dirs ← mapR (fun m => save_job vd 3 junk L ct cl pstart pshape [d; d] (chunks m) E (cut m) (names m) T (ord m)) (seq 0 jobs);
    merged ← merge_dirs vd 3 junk L ordm dirs;
    let req := replicate 3 csize in
    rechunk_mpi vd 3 junk L (cylindrical vd) size (rebuild_cs 3) (fun sh => get_partition_size fuel p0 sh (vto_nat req) jobs)
      (to_rzt pre) (to_rzt post) req ov uuids2 ord2 ordm2 jobs merged
  else Undef.
End model.
