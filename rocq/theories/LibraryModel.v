(** Model of ChunkIndex and ChunkLibrary (the distributed array without re-chunking), eisvogel/core/impl/DistributedNDVecArray.hh:85-177,
    298-384 and DistributedNDVecArray.hxx:498-1108, on top of the models of the R*-tree (RTreeModel), of the chunk metadata and index file
    (ChunkMetaModel) and of ChunkCache (ChunkCacheModel).  DistributedNDVecArray (1112-1190, 1330-1343) forwards to it.

    - A directory is the contents of the index file, if there is one, and the chunk files.
    - [uuid] is the name drawn by get_chunkfile_path (514-523).  (That function writes the 37 bytes of uuid_unparse to a buffer of 36.)
    - Index vectors are vectors of size_t with wrap-around arithmetic.
    - Failed asserts and dereferencing the null pointer the index returns for an index without chunk are undefined behaviour. *)
From stdpp Require Import base list list_numbers numbers option gmap countable.
From Coq Require Import NArith.
From Verif Require Import NDArrayModel NullSupModel CodecModel StreamerModel CacheModel BBoxModel DownsampleModel RTreeModel ChunkMetaModel ChunkCacheModel.

Record dir := Dir { d_index : option bytes; d_files : gmap bytes bytes }.
(** m_start_ind, m_end_ind, m_shape. *)
Record geom := Geom { g_start : list N; g_end : list N; g_shape : list N }.
(** Data members: m_next_chunk_id (a 32-bit counter, DistributedNDVecArray.hh:164), the cached geometry if m_index_metadata_valid,
    m_chunk_tree, the index file, m_cache with the chunk files.  m_last_accessed_ind (hh:176) is never read. *)
Record clib := CLib { l_next : N; l_geo : option geom; l_tree : rtree chunk_meta; l_index : option bytes; l_store : cstore }.
Definition with_tree (l : clib) (t : rtree chunk_meta) : clib := CLib (l_next l) None t (l_index l) (l_store l).
Definition with_store (l : clib) (s : cstore) : clib := CLib (l_next l) (l_geo l) (l_tree l) (l_index l) s.
Definition with_index (l : clib) (i : option bytes) : clib := CLib (l_next l) (l_geo l) (l_tree l) i (l_store l).
(** A default-constructed metadata object, hxx:421-424. *)
Definition meta0 : chunk_meta := mk_meta 0 [] 0 [] [] 0.

Fixpoint rfold {S B} (f : S -> B -> res S) (s : S) (l : list B) : res S :=
  match l with [] => Done s | b :: l' => s' ← f s b; rfold f s' l' end.

Section model.
Context (vd dims : nat) (junk : N) (L : lib).

(** m_chunk_tree.InsertElement(meta, meta.start_ind, meta.end_ind). *)
Definition tree_insert (t : rtree chunk_meta) (m : chunk_meta) : res (rtree chunk_meta) :=
  '(_, t') ← of_opt (insert_element meta0 dims L t m (cm_start m) (cm_end m)); Done t'.
(** load_index_entries, 700-713. *)
Definition read_index (b : bytes) : res (list chunk_meta) := '(ms, _) ← of_opt (dec (index_file dims) b); Done ms.
(** Constructors, 499-508 with load_and_rebuild_index 715-723 (the counter starts at 0 also if there is an index), and 818-830. *)
Definition lib_open (size : nat) (cs : list nat) (d : dir) : res clib :=
  t0 ← of_opt (rt_new meta0 dims 100);
  t ← match d_index d with
      | None => Done t0
      | Some b => t1 ← of_opt (rt_clear meta0 dims t0); ms ← read_index b; rfold tree_insert t1 ms
      end;
  s ← of_opt (copen vd dims junk size cs (d_files d));
  Done (CLib 0 None t (d_index d) s).

(** FlushIndex, 578-588. *)
Definition flush_index (l : clib) : res clib :=
  ms ← of_opt (get_all_entries (l_tree l)); Done (with_index l (Some (enc (index_file dims) ms))).
(** FlushLibrary, 1032-1035. *)
Definition lib_flush (ord : list N -> list N) (l : clib) : res clib :=
  l1 ← flush_index l; s ← flush_cache vd dims ord (l_store l1); Done (with_store l1 s).
(** Destruction of the library: first ~ChunkCache (44-46) then ~ChunkIndex (510-512). *)
Definition lib_close (ord : list N -> list N) (l : clib) : res dir :=
  s ← flush_cache vd dims ord (l_store l); l1 ← flush_index (with_store l s); Done (Dir (l_index l1) (s_files (l_store l1))).

(** RegisterChunk, 833-857 and 526-543; [opt] is the hint ENABLE_OPT. *)
Definition lib_register (a : ndarr N) (s e : list N) (ov : N) (opt : bool) (uuid : bytes) (l : clib) : res clib :=
  if bool_decide (vof_nat (a_shape a) = (fun x => wadd x (wmul 2 ov)) <$> vwsub e s) then
    null ← (if opt then of_opt (ais_all_null vd is_zero_bits a) else Done false);
    let m := mk_meta (if null : bool then all_null else specified) (if null : bool then [] else uuid) (l_next l) s (vwsub e s) ov in
    t ← tree_insert (l_tree l) m;
    st ← register_new_chunk vd dims junk m a (l_store l);
    Done (CLib ((l_next l + 1) mod 2 ^ 32) None t (l_index l) st)
  else Undef.
(** RegisterChunk of DistributedNDVecArray without overlap, 1128-1132. *)
Definition darr_register (a : ndarr N) (s : list N) (opt : bool) (uuid : bytes) (l : clib) : res clib :=
  lib_register a s (vwadd s (vof_nat (a_shape a))) 0 opt uuid l.

(** The non-const GetChunk, 550-558 (it is what both callers use): slot and contents of the metadata. *)
Definition find_chunk (ind : list N) (l : clib) : res (nat * chunk_meta * clib) :=
  '(r, t) ← of_opt (search_point (l_tree l) ind);
  match r with
  | None => Undef
  | Some slot => m ← of_opt (payload_at t slot); Done (slot, m, with_tree l t)
  end.
(** The same function as its callers in GreensFunction.hxx use it: a pointer, which is null if there is no chunk. *)
Definition lib_find (ind : list N) (l : clib) : res (option chunk_meta * clib) :=
  '(r, t) ← of_opt (search_point (l_tree l) ind);
  match r with
  | None => Done (None, with_tree l t)
  | Some slot => m ← of_opt (payload_at t slot); Done (Some m, with_tree l t)
  end.
(** ChunkIndex::GetChunks, 560-563. *)
Definition lib_find_range (is ie : list N) (l : clib) : res (list chunk_meta) := of_opt (search_range (l_tree l) is ie).
(** m_cache.RetrieveChunk (84-110) as it is called in GreensFunction.hxx. *)
Definition lib_retrieve (m : chunk_meta) (l : clib) : res (ndarr N * clib) :=
  '(d, s) ← retrieve_chunk vd dims junk m (l_store l); Done (d, with_store l s).
(** operator[], 915-926. *)
Definition lib_get (ind : list N) (l : clib) : res (list N * clib) :=
  '(_, m, l1) ← find_chunk ind l;
  '(d, s) ← retrieve_chunk vd dims junk m (l_store l1);
  v ← of_opt (aread vd d (vto_nat (local_ind m ind)));
  Done (v, with_store l1 s).

(** get_overlap_start_ind, get_overlap_end_ind, 725-747. *)
Definition overlap_lo (m : chunk_meta) (s : list N) : list N := zip_with N.max s (cm_start m).
Definition overlap_hi (m : chunk_meta) (e : list N) : list N := zip_with N.min e (cm_end m).
(** The body of the loop of FillArray, 939-972. *)
Definition fill_chunk (is ie os : list N) (st : ndarr N * cstore) (m : chunk_meta) : res (ndarr N * cstore) :=
  let lo := overlap_lo m is in
  let hi := overlap_hi m ie in
  let out v := vto_nat (vwadd (vwsub v is) os) in
  if (cm_type m =? all_null)%N then
    b ← of_opt (afill vd st.1 (out lo) (out hi) 0%N); Done (b, st.2)
  else if (cm_type m =? specified)%N then
    '(d, s) ← retrieve_chunk vd dims junk m st.2;
    b ← of_opt (afill_from vd st.1 d (vto_nat (local_ind m lo)) (vto_nat (local_ind m hi)) (out lo));
    Done (b, s)
  else Raised.
(** FillArray, 929-973. *)
Definition lib_fill (buf : ndarr N) (is ie os : list N) (l : clib) : res (ndarr N * clib) :=
  if has_index (a_shape buf) (vto_nat os) && has_index (a_shape buf) (vto_nat ((fun x => wsub x 1) <$> vwadd os (vwsub ie is))) then
    ms ← of_opt (search_range (l_tree l) is ie);
    '(b, s) ← rfold (fill_chunk is ie os) (buf, l_store l) ms;
    Done (b, with_store l s)
  else Undef.

(** index_loop_over_elements over an index range, 1057-1076: the calls of the worker (global index and element). *)
Definition loop_chunk (is ie : list N) (st : list (list N * list N) * cstore) (m : chunk_meta) : res (list (list N * list N) * cstore) :=
  '(d, s) ← retrieve_chunk vd dims junk m st.2;
  let lo := vto_nat (local_ind m (overlap_lo m is)) in
  let hi := vto_nat (local_ind m (overlap_hi m ie)) in
  ps ← of_opt (index_loop_positions vd (a_strides d) (a_off d) lo hi);
  vs ← of_opt (mapM (fun p => v ← block (a_data d) p.2 vd; Some (vwadd (cm_off m) (vof_nat p.1), v)) ps);
  Done (st.1 ++ vs, s).
Definition lib_loop (is ie : list N) (l : clib) : res (list (list N * list N) * clib) :=
  ms ← of_opt (search_range (l_tree l) is ie);
  '(vs, s) ← rfold (loop_chunk is ie) ([], l_store l) ms;
  Done (vs, with_store l s).

(** calculate_and_cache_index_metadata, 763-806. *)
Definition elements_between (s e : list N) : N := foldl wmul 1%N (vwsub e s).
Definition calc_geo (t : rtree chunk_meta) : option geom :=
  let zero := replicate dims 0%N in
  if rt_empty t then Some (Geom zero zero zero) else
  b ← get_bounding_box dims t;
  ms ← get_all_entries t;
  let n := foldl (fun x m => wadd x (elements_between (cm_start m) (cm_end m))) 0%N ms in
  Some (Geom (bb_start b) (bb_end b)
          (if (n =? elements_between (bb_start b) (bb_end b))%N then vwsub (bb_end b) (bb_start b) else zero)).
(** get_start_ind, get_end_ind, GetShape, 641-663. *)
Definition lib_geometry (l : clib) : res (geom * clib) :=
  match l_geo l with
  | Some g => Done (g, l)
  | None => g ← of_opt (calc_geo (l_tree l)); Done (g, CLib (l_next l) (Some g) (l_tree l) (l_index l) (l_store l))
  end.

(** AppendSlice<axis> without hints, 860-911; the metadata object lives in the tree. *)
Definition lib_append (axis : nat) (start : list N) (slice : ndarr N) (l : clib) : res clib :=
  ind ← of_opt (x ← start !! axis; Some (<[axis := wsub x 1]> start));
  '(slot, m, l1) ← find_chunk ind l;
  if (cm_type m =? specified)%N then
    '(m', s) ← cache_append_slice vd dims junk axis m slice (l_store l1);
    t ← of_opt (e ← get_entry (l_tree l1) slot;
                t1 ← set_entry (l_tree l1) slot (Entry (en_box e) m');
                update_bounding_box dims t1 ind (cm_start m') (cm_end m'));
    Done (CLib (l_next l1) (l_geo l1) t (l_index l1) s)
  else Raised.

(** The new ids of ImportIndex, 625-627. *)
Fixpoint renumber (next : N) (ms : list chunk_meta) : list chunk_meta :=
  match ms with
  | [] => []
  | m :: ms' => ChunkMeta (cm_type m) (cm_path m) next (cm_pos m) (cm_shape m) (cm_start m) (cm_end m) (cm_overlap m) (cm_off m)
                  :: renumber ((next + 1) mod 2 ^ 32) ms'
  end.
(** ImportLibrary, 1040-1045 with ImportIndex, 617-638, and ImportCache; the source directory afterwards. *)
Definition lib_import (src : dir) (move : bool) (l : clib) : res (clib * dir) :=
  b ← of_opt (d_index src);
  ms ← read_index b;
  t ← rfold tree_insert (l_tree l) (renumber (l_next l) ms);
  '(s, fs) ← import_cache (d_files src) move (l_store l);
  Done (CLib ((l_next l + N.of_nat (length ms)) mod 2 ^ 32) None t (l_index l) s, Dir (if move then None else d_index src) fs).

(** ClearLibrary, 1012-1017, with ClearIndex, 605-615 (the counter goes on). *)
Definition lib_clear (ord : list N -> list N) (l : clib) : res clib :=
  t ← of_opt (rt_clear meta0 dims (l_tree l));
  s ← clear_cache vd dims ord (l_store l);
  Done (CLib (l_next l) None t None s).
(** MoveLibrary, 993-1009, with MoveIndex, 590-602: the library in its new directory (which contained [dst]) and the old directory. *)
Definition lib_move (ord : list N -> list N) (dst : dir) (l : clib) : res (clib * dir) :=
  '(s, fs) ← move_cache vd dims ord (d_files dst) (l_store l);
  l1 ← flush_index (with_store l s);
  Done (l1, Dir None fs).

(** SwapAxes, 978-990, map_over_chunks, 1081-1105, and ChunkIndex::Map, 680-698: the tree that is walked is updated on the way and then
    thrown away; the chunks go to a new tree. One array receives the swapped contents of all chunks in turn; the list of these contents is
    recorded for the specification only. *)
Definition swap_state : Type := rtree chunk_meta * rtree chunk_meta * cstore * ndarr N * list (ndarr N).
Definition swap_chunk (i j : nat) (st : swap_state) (m : chunk_meta) : res swap_state :=
  let '(told, tnew, s, dest, ds) := st in
  '(d, s1) ← retrieve_chunk vd dims junk m s;
  m' ← of_opt (swap_meta i j m);
  d' ← of_opt (aswap_axes vd junk i j d dest);
  s2 ← replace_chunk vd dims junk m m' d' s1;
  told' ← of_opt (update_bounding_box dims told (cm_start m) (cm_start m') (cm_end m'));
  tnew' ← tree_insert tnew m';
  Done (told', tnew', s2, d', ds ++ [d']).
Definition lib_swap_traced (i j : nat) (l : clib) : res (clib * list (ndarr N)) :=
  tnew ← of_opt (rt_new meta0 dims 1);
  ms ← of_opt (get_all_entries (l_tree l));
  '(_, t, s, _, ds) ← rfold (swap_chunk i j) (l_tree l, tnew, l_store l, anew vd junk (replicate dims 1%nat), []) ms;
  Done (CLib (l_next l) None t (l_index l) s, ds).
Definition lib_swap_axes (i j : nat) (l : clib) : res clib :=
  '(l', _) ← lib_swap_traced i j l; Done l'.
End model.
