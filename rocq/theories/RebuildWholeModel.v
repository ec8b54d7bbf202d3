(** Model of re-chunking with a boundary evaluator that asks for the whole array: the first branch of the rebuilder of RebuildChunksPartial,
    DistributedNDVecArray.hxx:1263-1274.  Everything else is as in RebuildModel.
    - [W x l]: boundary_evaluator of index [x]; it may look at the array, [l], whose cache then changes. *)
From stdpp Require Import base list list_numbers numbers option gmap countable.
From Coq Require Import NArith ZArith.
From Verif Require Import LoopsModel NDArrayModel CodecModel StreamerModel BBoxModel DownsampleModel RTreeModel ChunkMetaModel ChunkCacheModel LibraryModel BoundaryModel RebuildModel.

Section model.
Context (vd dims : nat) (junk : N) (L : lib) (W : list Z -> clib -> res (list N * clib)).

(** boundary_filler, 1269-1273. *)
Definition filler_whole (gs ge : list nat) (es : list Z) (bl : ndarr N * clib) (x : list Z) : res (ndarr N * clib) :=
  if is_boundary gs ge x then
    loc ← of_opt (to_local es x);
    '(v, l) ← W x bl.2;
    b ← of_opt (awrite vd bl.1 loc v);
    Done (b, l)
  else Undef.

(** rebuilder, 1225-1288. *)
Definition rebuild_chunk_whole (gs ge : list N) (ov : nat) (shift : list N) (opt : bool) (st : ndarr N * clib * clib) (uc : bytes * (list nat * list nat)) :
    res (ndarr N * clib * clib) :=
  let '(buf, src, dst) := st in
  let '(uuid, (cs, ce)) := uc in
  let es := (fun s => Z.of_nat s - Z.of_nat ov)%Z <$> cs in
  let ee := (fun e => Z.of_nat e + Z.of_nat ov)%Z <$> ce in
  let esh := (fun n => n + 2 * ov)%nat <$> zip_with Nat.sub ce cs in
  let fs := zip_with (fun g e => Z.to_nat (Z.max (Z.of_nat g) e)) (vto_nat gs) es in
  let fe := zip_with (fun g e => Z.to_nat (Z.min (Z.of_nat g) e)) (vto_nat ge) ee in
  if forallb (fun e => N.of_nat e + N.of_nat ov <? 2 ^ 31)%N ce then
    out ← of_opt (to_local es (Z.of_nat <$> fs));
    b1 ← of_opt (aresize vd junk esh buf);
    '(b2, src1) ← lib_fill vd dims junk b1 (vof_nat fs) (vof_nat fe) (vof_nat out) src;
    xs ← of_opt (penetrating (vto_nat gs) (vto_nat ge) es ee);
    '(b3, src2) ← rfold (filler_whole (vto_nat gs) (vto_nat ge) es) (b2, src1) xs;
    dst1 ← lib_register vd dims junk L b3 (vwadd (vof_nat cs) shift) (vwadd (vof_nat ce) shift) (N.of_nat ov) opt uuid dst;
    Done (b3, src2, dst1)
  else Undef.

(** RebuildChunksPartial, 1202-1293. *)
Definition rebuild_partial_whole (start end_ ostart req : list N) (outdir : dir) (ov : nat) (opt : bool) (uuids : nat -> bytes) (ord : list N -> list N) (l : clib) :
    res (clib * dir) :=
  dst ← lib_open vd dims junk L 0 (rebuild_cs dims) outdir;
  '(g, l0) ← lib_geometry dims l;
  chunks ← of_opt (chunk_loop (loop_fuel (vto_nat end_)) (vto_nat start) (vto_nat end_) (vto_nat req));
  '(_, l1, dst1) ← rfold (rebuild_chunk_whole (g_start g) (g_end g) ov (vwsub ostart start) opt) (anew vd junk (vto_nat req), l0, dst)
                     (imap (fun i c => (uuids i, c)) chunks);
  dst2 ← lib_flush vd dims ord dst1;
  d ← lib_close vd dims ord dst2;
  Done (l1, d).

(** RebuildChunks, 1345-1361. *)
Definition rebuild_whole (req : list N) (ov : nat) (opt : bool) (uuids : nat -> bytes) (ord : list N -> list N) (l : clib) : res clib :=
  let zero := replicate dims 0%N in
  '(g, l0) ← lib_geometry dims l;
  '(l1, tmp) ← rebuild_partial_whole zero (g_shape g) zero req (Dir None ∅) ov opt uuids ord l0;
  l2 ← lib_clear vd dims ord l1;
  '(l3, _) ← lib_import dims L tmp false l2;
  lib_flush vd dims ord l3.
End model.
