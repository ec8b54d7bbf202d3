(** Crashes: the file operations that the operations of the distributed array perform, in their order (eisvogel/core/impl/DistributedNDVecArray.hxx),
    and what a crash can leave behind.

    - Two directories: that of the array and another one (the target of Move, the source of Import, the temporary directory of RebuildChunks).
    - The operations of the model (ChunkCacheModel, LibraryModel, RebuildModel) give the state between the file operations; [*_ops] lists the
      file operations in the same state (CrashProofs.v: carrying them out gives the files of the model).
    - A file opened with std::ios::out is truncated first: a crash leaves a prefix of the new contents.  A file that is changed in place may
      be left with any contents.  std::filesystem::remove is atomic.  A copy may be incomplete.  move_or_copydelete_file (1375-1386) is
      a rename, or a copy followed by a remove: a crash may also leave the incomplete copy and the original.
    - What has been written is on the disk; losing data that is still in a buffer of the operating system is not modelled.
    - [ord] and [dord]: the orders in which the unordered map and the directory iterator list their elements. *)
From stdpp Require Import base list list_numbers numbers option gmap countable.
From Coq Require Import NArith ZArith.
From Verif Require Import LoopsModel NDArrayModel NullSupModel CodecModel StreamerModel CacheModel BBoxModel DownsampleModel RTreeModel ChunkMetaModel ChunkCacheModel LibraryModel BoundaryModel RebuildModel.

Inductive fname := Index | File (n : bytes).
Inductive side := Own | Other.
Notation world := (dir * dir)%type.
Definition other (s : side) : side := match s with Own => Other | Other => Own end.
Definition dir_at (w : world) (s : side) : dir := match s with Own => w.1 | Other => w.2 end.
Definition fget (w : world) (s : side) (n : fname) : option bytes :=
  match n with Index => d_index (dir_at w s) | File x => d_files (dir_at w s) !! x end.
Definition dset (d : dir) (n : fname) (o : option bytes) : dir :=
  match n with Index => Dir o (d_files d) | File x => Dir (d_index d) (partial_alter (fun _ => o) x (d_files d)) end.
Definition fset (w : world) (s : side) (n : fname) (o : option bytes) : world :=
  match s with Own => (dset w.1 n o, w.2) | Other => (w.1, dset w.2 n o) end.

(** Writing a file from scratch; changing it in place, to these contents; deleting it; copying or moving it from this side to the other. *)
Inductive fop :=
  | Put (s : side) (n : fname) (b : bytes) | Patch (s : side) (n : fname) (b : bytes) | Del (s : side) (n : fname)
  | Cp (s : side) (n : fname) | Mv (s : side) (n : fname).
Definition run1 (w : world) (o : fop) : world :=
  match o with
  | Put s n b | Patch s n b => fset w s n (Some b)
  | Del s n => fset w s n None
  | Cp s n => fset w (other s) n (fget w s n)
  | Mv s n => fset (fset w (other s) n (fget w s n)) s n None
  end.
Definition run (w : world) (ops : list fop) : world := foldl run1 w ops.
(** In the middle of a file operation. *)
Inductive torn : world -> fop -> world -> Prop :=
  | torn_put w s n b b' : b' `prefix_of` b -> torn w (Put s n b) (fset w s n (Some b'))
  | torn_patch w s n b b' : torn w (Patch s n b) (fset w s n (Some b'))
  | torn_cp w s n b b' : fget w s n = Some b -> b' `prefix_of` b -> torn w (Cp s n) (fset w (other s) n (Some b'))
  | torn_mv w s n b b' : fget w s n = Some b -> b' `prefix_of` b -> torn w (Mv s n) (fset w (other s) n (Some b')).
(** What a crash during these file operations can leave behind. *)
Inductive crashed : world -> list fop -> world -> Prop :=
  | crash_here w ops : crashed w ops w
  | crash_torn w o ops w' : torn w o w' -> crashed w (o :: ops) w'
  | crash_later w o ops w' : crashed (run1 w o) ops w' -> crashed w (o :: ops) w'.
(** The same operations for an array in the other directory. *)
Definition flip (o : fop) : fop :=
  match o with
  | Put s n b => Put (other s) n b | Patch s n b => Patch (other s) n b | Del s n => Del (other s) n | Cp s n => Cp (other s) n | Mv s n => Mv (other s) n
  end.

Definition rdone {A B} (x : res A) (f : A -> list B) : list B := match x with Done a => f a | _ => [] end.
Fixpoint rfold_ops {S B} (ops : S -> B -> list fop) (f : S -> B -> res S) (s : S) (l : list B) : list fop :=
  match l with [] => [] | b :: l' => ops s b ++ rdone (f s b) (fun s' => rfold_ops ops f s' l') end.

Section model.
Context (vd dims : nat) (junk : N) (L : lib).

(** ** ChunkCache *)
(** descope_cache_element, 364-409. *)
Definition descope_ops (cs : list nat) (e : centry) (files : gmap bytes bytes) : list fop :=
  let path := cm_path (ce_meta e) in
  if bool_decide (path = []) then [] else
  match ce_st e with
  | Serialize => rdone (of_w (serialize vd NullSuppressed (ce_data e) cs)) (fun b => [Put Own (File path) b])
  | AppendTo axis => rdone (f ← of_opt (files !! path); of_w (append_slice vd dims NullSuppressed (ce_data e) axis f)) (fun b => [Patch Own (File path) b])
  | Nothing => []
  end.
(** 264-268, 311-315. *)
Definition make_room_ops (s : cstore) : list fop :=
  if has_free_slot (s_cache s) then [] else rdone (of_opt (cevict_oldest (s_cache s))) (fun ec => descope_ops (s_cs s) ec.1 (s_files s)).
(** insert_into_cache, 304-322; deserialize_into_cache, 260-302, begins in the same way. *)
Definition insert_ops (m : chunk_meta) (s : cstore) : list fop := if ccontains (s_cache s) (cm_id m) then [] else make_room_ops s.
(** sync_cache_element_with_disk, 324-362. *)
Definition sync_ops (e : centry) (files : gmap bytes bytes) : list fop :=
  let path := cm_path (ce_meta e) in
  if (cm_type (ce_meta e) =? all_null)%N then [] else
  match ce_st e with
  | AppendTo axis => rdone (f ← of_opt (files !! path); of_w (append_slice vd dims NullSuppressed (ce_data e) axis f)) (fun b => [Patch Own (File path) b])
  | _ => []
  end.
(** FlushCache, 187-196. *)
Fixpoint flush_keys_ops (ks : list N) (s : cstore) : list fop :=
  match ks with
  | [] => []
  | k :: ks' => rdone (of_opt (cevict (s_cache s) k)) (fun ec =>
      descope_ops (s_cs s) ec.1 (s_files s) ++
      rdone (descope vd dims (s_cs s) ec.1 (s_files s)) (fun fs => flush_keys_ops ks' (CStore (s_size s) (s_cs s) ec.2 fs)))
  end.
Definition flush_cache_ops (ord : list N -> list N) (s : cstore) : list fop := flush_keys_ops (ord (contained (s_cache s))) s.
Definition uncached_ops (s : cstore) : list fop := if (s_size s =? 0)%nat then flush_cache_ops id s else [].
(** RegisterNewChunk, 44-55. *)
Definition register_ops (m : chunk_meta) (a : ndarr N) (s : cstore) : list fop :=
  insert_ops m s ++ rdone (insert_into_cache vd dims junk m a Serialize s) uncached_ops.
(** RetrieveChunk, 84-110. *)
Definition retrieve_ops (m : chunk_meta) (s : cstore) : list fop :=
  if ccontains (s_cache s) (cm_id m) then
    rdone (of_opt (cget (s_cache s) (cm_id m))) (fun ec => match ce_st ec.1 with AppendTo _ => sync_ops ec.1 (s_files s) | _ => [] end)
  else make_room_ops s.

(** ** ChunkLibrary *)
(** RegisterChunk, 833-857. *)
Definition lib_register_ops (a : ndarr N) (s e : list N) (ov : N) (opt : bool) (uuid : bytes) (l : clib) : list fop :=
  rdone (if opt then of_opt (ais_all_null vd is_zero_bits a) else Done false) (fun null =>
    register_ops (mk_meta (if null : bool then all_null else specified) (if null : bool then [] else uuid) (l_next l) s (vwsub e s) ov) a (l_store l)).
(** operator[], 915-926. *)
Definition lib_get_ops (ind : list N) (l : clib) : list fop :=
  rdone (find_chunk ind l) (fun r => retrieve_ops r.1.2 (l_store r.2)).
(** FillArray, 929-973. *)
Definition fill_chunk_ops (st : ndarr N * cstore) (m : chunk_meta) : list fop :=
  if (cm_type m =? all_null)%N then [] else if (cm_type m =? specified)%N then retrieve_ops m st.2 else [].
Definition lib_fill_ops (buf : ndarr N) (is ie os : list N) (l : clib) : list fop :=
  rdone (of_opt (search_range (l_tree l) is ie)) (fun ms => rfold_ops fill_chunk_ops (fill_chunk vd dims junk is ie os) (buf, l_store l) ms).
(** index_loop_over_elements, 1057-1076. *)
Definition lib_loop_ops (is ie : list N) (l : clib) : list fop :=
  rdone (of_opt (search_range (l_tree l) is ie)) (fun ms => rfold_ops (fun st m => retrieve_ops m st.2) (loop_chunk vd dims junk is ie) ([], l_store l) ms).
(** FlushIndex, 578-588, and FlushLibrary, 1032-1035; destruction. *)
Definition flush_index_ops (s : side) (l : clib) : list fop :=
  rdone (of_opt (get_all_entries (l_tree l))) (fun ms => [Put s Index (enc (index_file dims) ms)]).
Definition lib_flush_ops (ord : list N -> list N) (l : clib) : list fop := flush_index_ops Own l ++ flush_cache_ops ord (l_store l).
Definition lib_close_ops (ord : list N -> list N) (l : clib) : list fop := flush_cache_ops ord (l_store l) ++ flush_index_ops Own l.
(** std::filesystem::remove, if the file exists. *)
Definition remove_index_ops (l : clib) : list fop := match l_index l with Some _ => [Del Own Index] | None => [] end.
Definition names (fs : gmap bytes bytes) : list bytes := (map_to_list fs).*1.
Definition names_after (dord : list bytes -> list bytes) (ord : list N -> list N) (s : cstore) : list bytes :=
  rdone (flush_cache vd dims ord s) (fun s1 => dord (names (s_files s1))).
(** ClearLibrary, 1012-1017, with ClearIndex, 605-615, and ClearCache, 223-236. *)
Definition lib_clear_ops (ord : list N -> list N) (dord : list bytes -> list bytes) (l : clib) : list fop :=
  remove_index_ops l ++ flush_cache_ops ord (l_store l) ++ ((fun n => Del Own (File n)) <$> names_after dord ord (l_store l)).
(** MoveLibrary, 993-1009, with MoveCache, 198-221, and MoveIndex, 590-602. *)
Definition lib_move_ops (ord : list N -> list N) (dord : list bytes -> list bytes) (l : clib) : list fop :=
  flush_cache_ops ord (l_store l) ++ ((fun n => Mv Own (File n)) <$> names_after dord ord (l_store l)) ++ remove_index_ops l ++ flush_index_ops Other l.
(** ImportLibrary, 1040-1045, with ImportIndex, 617-638, and ImportCache, 238-258. *)
Definition lib_import_ops (dord : list bytes -> list bytes) (src : dir) (move : bool) : list fop :=
  if move then [Del Other Index] ++ ((fun n => Mv Other (File n)) <$> dord (names (d_files src)))
  else (fun n => Cp Other (File n)) <$> dord (names (d_files src)).

(** ** RebuildChunks *)
Context (ev : evaluator).
(** rebuilder, 1225-1288. *)
Definition rebuild_chunk_ops (gs ge : list N) (ov : nat) (shift : list N) (opt : bool) (st : ndarr N * clib * clib) (uc : bytes * (list nat * list nat)) : list fop :=
  let '(buf, src, dst) := st in
  let '(uuid, (cs, ce)) := uc in
  let es := (fun s => Z.of_nat s - Z.of_nat ov)%Z <$> cs in
  let ee := (fun e => Z.of_nat e + Z.of_nat ov)%Z <$> ce in
  let esh := (fun n => n + 2 * ov)%nat <$> zip_with Nat.sub ce cs in
  let fs := zip_with (fun g e => Z.to_nat (Z.max (Z.of_nat g) e)) (vto_nat gs) es in
  let fe := zip_with (fun g e => Z.to_nat (Z.min (Z.of_nat g) e)) (vto_nat ge) ee in
  rdone (out ← of_opt (to_local es (Z.of_nat <$> fs)); b1 ← of_opt (aresize vd junk esh buf); Done (out, b1)) (fun x =>
    lib_fill_ops x.2 (vof_nat fs) (vof_nat fe) (vof_nat x.1) src ++
    rdone (b2 ← lib_fill vd dims junk x.2 (vof_nat fs) (vof_nat fe) (vof_nat x.1) src;
           xs ← of_opt (penetrating (vto_nat gs) (vto_nat ge) es ee);
           of_opt (foldM (filler vd ev (vto_nat gs) (vto_nat ge) es ee) b2.1 xs)) (fun b3 =>
      flip <$> lib_register_ops b3 (vwadd (vof_nat cs) shift) (vwadd (vof_nat ce) shift) (N.of_nat ov) opt uuid dst)).
(** RebuildChunksPartial, 1202-1293: at the end the new library is flushed and destructed. *)
Definition rebuild_partial_ops (start end_ ostart req : list N) (ov : nat) (opt : bool) (uuids : nat -> bytes) (ord : list N -> list N) (l : clib) : list fop :=
  rdone (dst ← lib_open vd dims junk L 0 (rebuild_cs dims) (Dir None ∅);
         gl ← lib_geometry dims l;
         chunks ← of_opt (chunk_loop (loop_fuel (vto_nat end_)) (vto_nat start) (vto_nat end_) (vto_nat req));
         Done (dst, gl, imap (fun i c => (uuids i, c)) chunks)) (fun x =>
    let '(dst, (g, l0), chunks) := x in
    let step := rebuild_chunk vd dims junk L ev (g_start g) (g_end g) ov (vwsub ostart start) opt in
    rfold_ops (rebuild_chunk_ops (g_start g) (g_end g) ov (vwsub ostart start) opt) step (anew vd junk (vto_nat req), l0, dst) chunks ++
    rdone (rfold step (anew vd junk (vto_nat req), l0, dst) chunks) (fun st =>
      (flip <$> lib_flush_ops ord st.2) ++ rdone (lib_flush vd dims ord st.2) (fun dst2 => flip <$> lib_close_ops ord dst2))).
(** RebuildChunks, 1345-1361; std::filesystem::remove_all deletes the files in some order ([rord]). *)
Definition rebuild_ops (req : list N) (ov : nat) (opt : bool) (uuids : nat -> bytes) (ord : list N -> list N) (dord : list bytes -> list bytes) (rord : list fname -> list fname) (l : clib) : list fop :=
  let zero := replicate dims 0%N in
  rdone (lib_geometry dims l) (fun gl =>
    rebuild_partial_ops zero (g_shape gl.1) zero req ov opt uuids ord gl.2 ++
    rdone (rebuild_partial vd dims junk L ev zero (g_shape gl.1) zero req (Dir None ∅) ov opt uuids ord gl.2) (fun lt =>
      lib_clear_ops ord dord lt.1 ++
      rdone (lib_clear vd dims ord lt.1) (fun l2 =>
        lib_import_ops dord lt.2 false ++
        rdone (lib_import dims L lt.2 false l2) (fun l3 =>
          lib_flush_ops ord l3.1 ++
          (Del Other <$> rord (Index :: (File <$> names (d_files lt.2)))))))).
End model.
