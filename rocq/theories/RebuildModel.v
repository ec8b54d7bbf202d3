(** Model of re-chunking: RebuildChunksPartial and RebuildChunks of DistributedNDVecArray, DistributedNDVecArray.hxx:1212-1293 and 1345-1361,
    on top of the model of the library (LibraryModel) and of the parts in BoundaryModel.

    - [ev] is the boundary evaluator of the variant that gets the chunk buffer (1275-1284); the variant that gets the whole array (1263-1274)
      is in RebuildWholeModel.  The overloads without overlap (1192-1200, 1365-1373) do not compile when instantiated: their evaluator takes no
      arguments and hits the static_assert in line 1286.
    - [uuids] are the names of the chunk files that are drawn one after the other.
    - Index vectors are lists of nat where the code computes with int and size_t mixed; outside the range of int the result is [Undef].
      The loop over the chunks is computed without wrap-around (C03).
    - The directories of the two libraries and the temporary directory are different. *)
From stdpp Require Import base list list_numbers numbers option gmap countable.
From Coq Require Import NArith ZArith.
From Verif Require Import LoopsModel NDArrayModel CodecModel StreamerModel BBoxModel DownsampleModel RTreeModel ChunkMetaModel ChunkCacheModel LibraryModel BoundaryModel.

(** boundary_evaluator(chunk_buffer, extended_chunk_start_ind, extended_chunk_end_ind, boundary_ind, view): the values assigned to the view. *)
Notation evaluator := (ndarr N -> list Z -> list Z -> list Z -> option (list N)).
(** SpatialSymmetry::Cylindrical::boundary_evaluator. *)
Definition cylindrical (vd : nat) : evaluator := fun buf es _ x => boundary_evaluator vd 0%N buf es x.

Section model.
Context (vd dims : nat) (junk : N) (L : lib) (ev : evaluator).

(** boundary_filler, 1279-1283. *)
Definition filler (gs ge : list nat) (es ee : list Z) (buf : ndarr N) (x : list Z) : option (ndarr N) :=
  if is_boundary gs ge x then
    loc ← to_local es x;
    v ← ev buf es ee x;
    awrite vd buf loc v
  else None.

(** rebuilder, 1225-1288: the chunk buffer, the array and the library with the rebuilt chunks. *)
Definition rebuild_chunk (gs ge : list N) (ov : nat) (shift : list N) (opt : bool) (st : ndarr N * clib * clib) (uc : bytes * (list nat * list nat)) :
    res (ndarr N * clib * clib) :=
  let '(buf, src, dst) := st in
  let '(uuid, (cs, ce)) := uc in
  let es := (fun s => Z.of_nat s - Z.of_nat ov)%Z <$> cs in
  let ee := (fun e => Z.of_nat e + Z.of_nat ov)%Z <$> ce in
  let esh := (fun n => n + 2 * ov)%nat <$> zip_with Nat.sub ce cs in
  let fs := zip_with (fun g e => Z.to_nat (Z.max (Z.of_nat g) e)) (vto_nat gs) es in
  let fe := zip_with (fun g e => Z.to_nat (Z.min (Z.of_nat g) e)) (vto_nat ge) ee in
  if forallb (fun e => N.of_nat e + N.of_nat ov <? 2 ^ 31)%N ce then
    out ← of_opt (to_local es (Z.of_nat <$> fs));
    b1 ← of_opt (aresize vd junk esh buf);
    '(b2, src1) ← lib_fill vd dims junk b1 (vof_nat fs) (vof_nat fe) (vof_nat out) src;
    xs ← of_opt (penetrating (vto_nat gs) (vto_nat ge) es ee);
    b3 ← of_opt (foldM (filler (vto_nat gs) (vto_nat ge) es ee) b2 xs);
    dst1 ← lib_register vd dims junk L b3 (vwadd (vof_nat cs) shift) (vwadd (vof_nat ce) shift) (N.of_nat ov) opt uuid dst;
    Done (b3, src1, dst1)
  else Undef.

(** streamer_chunk_size, 1208-1209. *)
Definition rebuild_cs : list nat :=
  match dims with S (S d) => 1%nat :: replicate (S d) (N.to_nat INFTY) | _ => [1%nat] end.

(** RebuildChunksPartial, 1202-1293; at the end the library with the rebuilt chunks is destructed.  The array and the output directory. *)
Definition rebuild_partial (start end_ ostart req : list N) (outdir : dir) (ov : nat) (opt : bool) (uuids : nat -> bytes) (ord : list N -> list N) (l : clib) :
    res (clib * dir) :=
  dst ← lib_open vd dims junk L 0 rebuild_cs outdir;
  '(g, l0) ← lib_geometry dims l;
  chunks ← of_opt (chunk_loop (loop_fuel (vto_nat end_)) (vto_nat start) (vto_nat end_) (vto_nat req));
  '(_, l1, dst1) ← rfold (rebuild_chunk (g_start g) (g_end g) ov (vwsub ostart start) opt) (anew vd junk (vto_nat req), l0, dst)
                     (imap (fun i c => (uuids i, c)) chunks);
  dst2 ← lib_flush vd dims ord dst1;
  d ← lib_close vd dims ord dst2;
  Done (l1, d).

(** RebuildChunks, 1345-1361, with an empty temporary directory, which is removed at the end. *)
Definition rebuild (req : list N) (ov : nat) (opt : bool) (uuids : nat -> bytes) (ord : list N -> list N) (l : clib) : res clib :=
  let zero := replicate dims 0%N in
  '(g, l0) ← lib_geometry dims l;
  '(l1, tmp) ← rebuild_partial zero (g_shape g) zero req (Dir None ∅) ov opt uuids ord l0;
  l2 ← lib_clear vd dims ord l1;
  '(l3, _) ← lib_import dims L tmp false l2;
  lib_flush vd dims ord l3.
End model.
