(** Crashes while slices are appended to chunks: the file operations of AppendSlice (eisvogel/core/impl/DistributedNDVecArray.hxx, ChunkCache 112-185 and
    ChunkLibrary 860-911), and what is left if a file is not hit while it is changed in place.  Simplifications as in CrashModel. *)
From stdpp Require Import base list list_numbers numbers option gmap countable.
From Coq Require Import NArith ZArith.
From Verif Require Import LoopsModel NDArrayModel NullSupModel CodecModel StreamerModel CacheModel BBoxModel DownsampleModel RTreeModel ChunkMetaModel ChunkCacheModel LibraryModel BoundaryModel RebuildModel CrashModel.

Section model.
Context (vd dims : nat) (junk : N).

(** ChunkCache::AppendSlice, 112-185.  The operations of a pending operation on a slot come first (insert_into_cache, 304-322, or
    sync_cache_element_with_disk if the axis changes, 160-166); if the cache size is 0, everything is written at the end (FlushCache). *)
Definition cache_append_ops (axis : nat) (m0 : chunk_meta) (slice : ndarr N) (s : cstore) : list fop :=
  rdone (m ← of_opt (n ← a_shape slice !! axis; grow_chunk axis (N.of_nat n) m0); Done m) (fun m =>
    if ccontains (s_cache s) (cm_id m) then
      rdone (of_opt (cget (s_cache s) (cm_id m))) (fun ec =>
        match ce_st ec.1 with
        | Nothing => rdone (of_opt (cevict ec.2 (cm_id m))) (fun ec1 =>
            let s1 := CStore (s_size s) (s_cs s) ec1.2 (s_files s) in
            insert_ops vd dims m s1 ++ rdone (insert_into_cache vd dims junk m slice (AppendTo axis) s1) (uncached_ops vd dims))
        | Serialize =>
            rdone (d ← append_in_memory vd junk axis (ce_data ec.1) slice;
                   c1 ← of_opt (cupdate ec.2 (cm_id m) (CEntry m d Serialize));
                   Done (CStore (s_size s) (s_cs s) c1 (s_files s))) (uncached_ops vd dims)
        | AppendTo axis0 =>
            (if (axis0 =? axis)%nat then [] else sync_ops vd dims ec.1 (s_files s)) ++
            rdone ('(e1, fs) ← (if (axis0 =? axis)%nat then Done (ec.1, s_files s)
                              else '(e1, fs) ← sync_entry vd dims junk ec.1 (s_files s); Done (CEntry (ce_meta e1) (ce_data e1) (AppendTo axis), fs));
                   d ← append_in_memory vd junk axis (ce_data e1) slice;
                   c1 ← of_opt (cupdate ec.2 (cm_id m) (CEntry m d (ce_st e1)));
                   Done (CStore (s_size s) (s_cs s) c1 fs)) (uncached_ops vd dims)
        end)
    else insert_ops vd dims m s ++ rdone (insert_into_cache vd dims junk m slice (AppendTo axis) s) (uncached_ops vd dims)).
(** ChunkLibrary::AppendSlice, 860-911. *)
Definition lib_append_ops (axis : nat) (start : list N) (slice : ndarr N) (l : clib) : list fop :=
  rdone (ind ← of_opt (x ← start !! axis; Some (<[axis := wsub x 1]> start)); find_chunk ind l) (fun r =>
    if (cm_type r.1.2 =? specified)%N then cache_append_ops axis r.1.2 slice (l_store r.2) else []).
End model.

(** What a crash can leave behind that does not happen while a file is changed in place. *)
Inductive crashed_between : world -> list fop -> world -> Prop :=
  | between_here w ops : crashed_between w ops w
  | between_torn w o ops w' : torn w o w' -> (forall s n b, o <> Patch s n b) -> crashed_between w (o :: ops) w'
  | between_later w o ops w' : crashed_between (run1 w o) ops w' -> crashed_between w (o :: ops) w'.
