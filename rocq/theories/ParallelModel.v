(** Model of the merging and the parallel re-chunking of arrays: merge_mpi_chunks and rechunk_mpi,
    eisvogel/meep/impl/MEEPCylindricalGreensFunctionCalculator.hxx:628-645 and 677-737, on top of the models of the library and of RebuildChunksPartial.

    - The MPI processes only share directories.  A job writes the output directories of its own partitions only and reads the input directory, so
      the jobs are modelled as functions of the input directory; the barrier (line 728) separates them from the merger.  When the array in the
      input directory is destructed, every job rewrites its index file (with the same contents, C53); nobody reads it afterwards, and this is left out.
    - [ps] is the partition size, the result of get_partition_size (PartitionModel) on the shape.
    - [uuids n] are the names of the chunk files drawn while partition [n] is processed; [ord n], [ordm] the iteration orders of the caches. *)
From stdpp Require Import base list list_numbers numbers option gmap countable.
From Coq Require Import NArith ZArith.
From Verif Require Import IndexSpec LoopsModel NDArrayModel CodecModel BBoxModel DownsampleModel RTreeModel ChunkMetaModel ChunkCacheModel LibraryModel BoundaryModel RebuildModel.

Section model.
Context (vd dims : nat) (junk : N) (L : lib).

(** merge_mpi_chunks, 628-645, with an empty output directory (line 633); the array is destructed at the end. *)
Definition merge_dirs (ord : list N -> list N) (ds : list dir) : res dir :=
  l ← lib_open vd dims junk L 0 (rebuild_cs dims) (Dir None ∅);
  l1 ← rfold (fun l d => '(l1, _) ← lib_import dims L d true l; Done l1) l ds;
  lib_close vd dims ord l1.

(** The worker of rechunk_mpi, 704-726, for the partition with number [n] in job [job] of [jobs]; [D] are the directories written by this job. *)
Definition rechunk_part (ev : evaluator) (rs req : list N) (ov : nat) (uuids : nat -> nat -> bytes) (ord : nat -> list N -> list N) (jobs job : nat)
    (st : clib * gmap nat dir) (np : nat * (list nat * list nat)) : res (clib * gmap nat dir) :=
  let '(l, D) := st in
  let '(n, (s, e)) := np in
  if (n mod jobs =? job)%nat then
    '(l1, d) ← rebuild_partial vd dims junk L ev (vof_nat s) (vof_nat e) (vwsub (vof_nat s) rs) req (Dir None ∅) ov true (uuids n) (ord n) l;
    Done (l1, <[n := d]> D)
  else Done (l, D).

(** rechunk_mpi, 685-727, in one job: the number of partitions and the directories. *)
Definition rechunk_one_job (ev : evaluator) (size : nat) (cs : list nat) (ps : list nat -> option (list nat)) (pre post req : list N) (ov : nat)
    (uuids : nat -> nat -> bytes) (ord : nat -> list N -> list N) (indir : dir) (jobs job : nat) : res (nat * gmap nat dir) :=
  l ← lib_open vd dims junk L size cs indir;
  '(g, l1) ← lib_geometry dims l;
  let rshape := vwsub (vwsub (g_shape g) pre) post in
  let re := vwadd pre rshape in
  p ← of_opt (ps (vto_nat rshape));
  parts ← of_opt (chunk_loop (loop_fuel (vto_nat re)) (vto_nat pre) (vto_nat re) p);
  '(_, D) ← rfold (rechunk_part ev pre req ov uuids ord jobs job) (l1, ∅) (imap pair parts);
  Done (length parts, D).

Fixpoint mapR {A B} (f : A -> res B) (l : list A) : res (list B) :=
  match l with [] => Done [] | x :: l' => y ← f x; ys ← mapR f l'; Done (y :: ys) end.

(** All jobs, the barrier, and the merger in the first job (728-733). *)
Definition rechunk_mpi (ev : evaluator) (size : nat) (cs : list nat) (ps : list nat -> option (list nat)) (pre post req : list N) (ov : nat)
    (uuids : nat -> nat -> bytes) (ord : nat -> list N -> list N) (ordm : list N -> list N) (jobs : nat) (indir : dir) : res dir :=
  rs ← mapR (rechunk_one_job ev size cs ps pre post req ov uuids ord indir jobs) (seq 0 jobs);
  num ← of_opt (head rs.*1);
  ds ← of_opt (mapM (fun n => foldr (fun D r => match D !! n with Some d => Some d | None => r end) None rs.*2) (seq 0 num));
  merge_dirs ordm ds.
End model.
