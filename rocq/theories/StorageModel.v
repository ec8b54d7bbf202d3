(** Model of how the field inside the storage domain is collected from the simulation chunks of one MPI process:
    ChunkUtils, eisvogel/core/impl/ChunkUtils.hh:7-46, and the callbacks of
    eisvogel/meep/impl/MEEPCylindricalGreensFunctionCalculator.hxx, set-up (247-292) and saving (295-430, on top of the model of its second half
    in RecordModel).
    - A MEEP grid vector (ivec) is the list of its components (z, r), integers; the C int arithmetic is that of integers (overflow, from 2^31 on, is
      excluded in the specification).
    - A simulation chunk is the pair (is, ie) that MEEP hands to the callback: its first and last grid point.  LOOP_OVER_IVECS (line 330) visits the
      points is, is + 2, ..., ie along every direction, the last direction fastest.
    - The symmetry transform S is the identity (line 468, meep::identity()) and the shift is zero (no periodic boundaries), so ichild = iparent.
    - [E t p] are the components (E_r, E_z) that MEEP computes at grid point [p] in step [t], as bit patterns; [cut t j ind] says whether
      limit_field_dynamic_range (176-205, modelled with its statistics in FieldStatsModel) truncates element [ind] of the buffer of chunk [j] in step [t].
    - The messages on std::cout and the statistics are left out. *)
From stdpp Require Import base list list_numbers numbers option gmap countable.
From Coq Require Import NArith ZArith.
From Verif Require Import IndexSpec LoopsModel NDArrayModel CodecModel StreamerModel BBoxModel DownsampleModel RTreeModel ChunkMetaModel ChunkCacheModel LibraryModel BoundaryModel RebuildModel RecordModel.

(** ChunkUtils::contains, ChunkUtils.hh:8-15: the comparison is made once, with a subtraction that wraps around. *)
Fixpoint chunk_contains (s sh ind : list N) : bool :=
  match s, sh, ind with
  | s0 :: s', sh0 :: sh', i0 :: ind' => if (sh0 <=? wsub i0 s0)%N then false else chunk_contains s' sh' ind'
  | _, _, _ => true
  end.
(** ChunkUtils::overlaps, 18-33. *)
Fixpoint chunk_overlaps (sa sha sb shb : list N) : bool :=
  match sa, sha, sb, shb with
  | a :: sa', na :: sha', b :: sb', nb :: shb' =>
      if (wadd b nb <=? a)%N then false else if (wadd a na <=? b)%N then false else chunk_overlaps sa' sha' sb' shb'
  | _, _, _, _ => true
  end.
(** ChunkUtils::get_chunk_overlap, 35-45: start and shape. *)
Definition chunk_overlap (sa sha sb shb : list N) : list N * list N :=
  let ea := vwadd sa sha in
  let start := zip_with N.min ea (zip_with N.max sa sb) in
  let e := zip_with N.min ea (vwadd sb shb) in
  (start, vwsub e start).

(** (i - 1) / 2 in int, then converted to size_t, lines 215-218 and 341-344. *)
Definition grid_index (i : Z) : N := Z.to_N (Z.quot (i - 1) 2).
(** get_cylindrical_chunk_start_ind, 210-219; [None] is a failed assert. *)
Definition chunk_start (is : list Z) : option (list N) :=
  if forallb (fun i => (0 <=? i)%Z) is then Some (grid_index <$> is) else None.
(** get_cylindrical_chunk_shape, 221-238. *)
Definition chunk_shape (is ie : list Z) : list N := zip_with (fun i e => Z.to_N (Z.max 0 (Z.quot (e - i) 2 + 1))) is ie.

(** eisvogel_setup_cylindrical_storage_chunkloop, 247-292: the stored portion of the simulation chunk (start and shape), if there is one. *)
Definition storage_portion (dstart dshape : list N) (c : list Z * list Z) : option (option (list N * list N)) :=
  start ← chunk_start c.1;
  let shape := chunk_shape c.1 c.2 in
  if chunk_overlaps start shape dstart dshape then Some (Some (chunk_overlap start shape dstart dshape)) else Some None.

(** The points LOOP_OVER_IVECS visits, line 330. *)
Definition grid_points (c : list Z * list Z) : option (list (list Z)) :=
  let n := vto_nat (chunk_shape c.1 c.2) in
  ks ← elem_loop (loop_fuel n) (replicate (length n) 0%nat) n;
  Some (map (fun k : list nat => zip_with (fun i k => (i + 2 * Z.of_nat k)%Z) c.1 k) ks).

Section model.
Context (vd dims : nat) (junk : N) (L : lib) (ct cl : nat).

(** The body of the loop, 330-359: a point outside the stored portion is skipped. *)
Definition store_grid_point (pstart pshape : list N) (E : list Z -> list N) (buf : ndarr N) (p : list Z) : option (ndarr N) :=
  let ind := grid_index <$> p in
  if chunk_contains pstart pshape ind then awrite vd buf (0%nat :: vto_nat (vwsub ind pstart)) (E p) else Some buf.

(** The field buffer: resized (308-312), filled (330-359), truncated (364). *)
Definition collect (pstart pshape : list N) (c : list Z * list Z) (E : list Z -> list N) (cut : list nat -> bool) (buf : ndarr N) : option (ndarr N) :=
  let sh := 1%nat :: vto_nat pshape in
  b1 ← aresize vd junk sh buf;
  pts ← grid_points c;
  b2 ← foldM (store_grid_point pstart pshape E) b1 pts;
  inds ← elem_loop (loop_fuel sh) (replicate (length sh) 0%nat) sh;
  foldM (fun b ind => if cut ind then awrite vd b ind (replicate vd 0%N) else Some b) b2 inds.

(** The callback for chunk [c] in step [t], 295-430: field_buffer and the three parts of the state of RecordModel. *)
Definition save_chunk (dstart ds : list N) (t : nat) (E : list Z -> list N) (cut : list nat -> bool) (uuids : nat -> bytes)
    (c : list Z * list Z) (portion : option (list N * list N)) (st : ndarr N * (ndarr N * ndarr N * clib)) : res (ndarr N * (ndarr N * ndarr N * clib)) :=
  match portion with
  | None => Done st
  | Some (pstart, pshape) =>
      f ← of_opt (collect pstart pshape c E cut st.1);
      r ← record_region vd dims junk L ct cl ds t f uuids (vwsub pstart dstart) st.2;
      Done (f, r)
  end.

(** One step: all chunks of this process, line 593. *)
Definition save_step (dstart ds : list N) (chunks : list (list Z * list Z)) (portions : list (option (list N * list N)))
    (E : nat -> list Z -> list N) (cut : nat -> nat -> list nat -> bool) (uuids : nat -> nat -> nat -> bytes)
    (st : ndarr N * (ndarr N * ndarr N * clib)) (t : nat) : res (ndarr N * (ndarr N * ndarr N * clib)) :=
  rfold (fun st jc => save_chunk dstart ds t (E t) (cut t jc.1) (uuids t jc.1) jc.2.1 jc.2.2 st) st (imap (fun j c => (j, c)) (zip chunks portions)).

(** The set-up (line 573), the array (492-496), the buffers (546-548), [T] steps (577-594). *)
Definition save_field (dstart dshape ds : list N) (chunks : list (list Z * list Z)) (E : nat -> list Z -> list N) (cut : nat -> nat -> list nat -> bool)
    (uuids : nat -> nat -> nat -> bytes) (T : nat) : res clib :=
  l ← lib_open vd dims junk L 0 (rebuild_cs dims) (Dir None ∅);
  portions ← of_opt (mapM (storage_portion dstart dshape) chunks);
  let buf := anew vd junk (replicate dims 1%nat) in
  '(_, (_, _, l1)) ← rfold (save_step dstart ds chunks portions E cut uuids) (buf, (buf, buf, l)) (seq 0 T);
  Done l1.

(** calculate_mpi_chunk from the set-up on, 573-602. *)
Definition save_job (dstart dshape ds : list N) (chunks : list (list Z * list Z)) (E : nat -> list Z -> list N) (cut : nat -> nat -> list nat -> bool)
    (uuids : nat -> nat -> nat -> bytes) (T : nat) (ord : list N -> list N) : res dir :=
  l ← save_field dstart dshape ds chunks E cut uuids T;
  l1 ← lib_swap_axes vd dims junk L 0 2 l;
  '(l2, _) ← lib_move vd dims ord (Dir None ∅) l1;
  lib_close vd dims ord l2.
End model.
