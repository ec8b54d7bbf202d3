(** Model of ChunkCache, eisvogel/core/impl/DistributedNDVecArray.hh:180-293 and DistributedNDVecArray.hxx:8-409, on top of
    the models of Cache (CacheModel), NDVecArray (NDArrayModel) and NDVecArrayStreamer (StreamerModel).

    - The working directory is the map from the chunk paths of the metadata to file contents (get_abs_path, 411-417, prepends the
      directory and appends the suffix: injective).
    - cm_pos (start_pos) is 0 in every metadata object (constructor, 430), so that every seekg/seekp(start_pos) goes to the start.
    - Scalars are float bit patterns (N), chunk ids are N.
    - Copy assignment into a cache slot (12-19) is modelled by the copy constructor, deserialisation into a slot by deserialisation into
      a fresh array (the arrays left over in the slot are replaced in both cases: C07, C12, C13).
    - A failed assert is undefined behaviour; [Raised] is a C++ exception (the state it leaves behind is not modelled). *)
From stdpp Require Import base list list_numbers numbers option gmap countable.
From Coq Require Import NArith.
From Verif Require Import NDArrayModel CodecModel StreamerModel CacheModel ChunkMetaModel.

Inductive res (A : Type) := Done (x : A) | Raised | Undef.
Arguments Done {A}. Arguments Raised {A}. Arguments Undef {A}.
Global Instance res_bind : MBind res := fun A B f x =>
  match x with Done a => f a | Raised => Raised | Undef => Undef end.
Definition of_opt {A} (x : option A) : res A := match x with Some a => Done a | None => Undef end.
Definition of_w (w : wresult) : res bytes := match w with WOk b => Done b | WThrow _ => Raised | WUndef => Undef end.

(** CacheStatus, DistributedNDVecArray.hh:180-189. *)
Inductive cstatus := Nothing | Serialize | AppendTo (axis : nat).
(** CacheEntry, DistributedNDVecArray.hh:192-211. *)
Record centry := CEntry { ce_meta : chunk_meta; ce_data : ndarr N; ce_st : cstatus }.
(** Data members, DistributedNDVecArray.hh:284-291: m_cache_size, m_streamer_chunk_size, m_cache and the files. *)
Record cstore := CStore { s_size : nat; s_cs : list nat; s_cache : cache N centry; s_files : gmap bytes bytes }.

Section model.
Context (vd dims : nat) (junk : N).

(** Constructor, 30-38 (and reopening: the files in the directory stay): at least one slot. *)
Definition copen (size : nat) (cs : list nat) (files : gmap bytes bytes) : option cstore :=
  c ← cnew (Nat.max 1 size) (CEntry (mk_meta 0 [] 0 [] [] 0) (anew vd junk (replicate dims 1%nat)) Nothing);
  Some (CStore size cs c files).

(** descope_cache_element, 364-409: the files afterwards. *)
Definition descope (cs : list nat) (e : centry) (files : gmap bytes bytes) : res (gmap bytes bytes) :=
  let path := cm_path (ce_meta e) in
  if bool_decide (path = []) then
    if (cm_type (ce_meta e) =? specified)%N then Undef else Done files
  else
    match ce_st e with
    | Serialize => b ← of_w (serialize vd NullSuppressed (ce_data e) cs); Done (<[path := b]> files)
    | AppendTo axis =>
        f ← of_opt (files !! path);
        b ← of_w (append_slice vd dims NullSuppressed (ce_data e) axis f); Done (<[path := b]> files)
    | Nothing => Done files
    end.

(** Making a free slot, 264-268 and 311-315. *)
Definition make_room (s : cstore) : res cstore :=
  if has_free_slot (s_cache s) then Done s else
  '(e, c) ← of_opt (cevict_oldest (s_cache s));
  fs ← descope (s_cs s) e (s_files s);
  Done (CStore (s_size s) (s_cs s) c fs).

(** insert_into_cache, 304-322. *)
Definition insert_into_cache (m : chunk_meta) (a : ndarr N) (st : cstatus) (s : cstore) : res cstore :=
  if ccontains (s_cache s) (cm_id m) then Undef else
  s1 ← make_room s;
  d ← of_opt (acopy vd junk a);
  c ← of_opt (cinsert (s_cache s1) (cm_id m) (CEntry m d st));
  Done (CStore (s_size s1) (s_cs s1) c (s_files s1)).

(** deserialize_into_cache, 260-302. *)
Definition load_chunk (m : chunk_meta) (files : gmap bytes bytes) : res (ndarr N) :=
  if (cm_type m =? specified)%N then
    f ← of_opt (files !! cm_path m);
    '(d, _) ← of_opt (deserialize vd dims junk (anew vd junk (replicate dims 1%nat)) f);
    Done d
  else if (cm_type m =? all_null)%N then
    d ← of_opt (aresize vd junk (N.to_nat <$> cm_shape m) (anew vd junk (replicate dims 1%nat)));
    of_opt (aassign_val vd d 0%N)
  else Raised.
Definition deserialize_into_cache (m : chunk_meta) (s : cstore) : res (ndarr N * cstore) :=
  s1 ← make_room s;
  d ← load_chunk m (s_files s1);
  c ← of_opt (cinsert (s_cache s1) (cm_id m) (CEntry m d Nothing));
  Done (d, CStore (s_size s1) (s_cs s1) c (s_files s1)).

(** sync_cache_element_with_disk, 324-362: the entry and the files afterwards. *)
Definition sync_entry (e : centry) (files : gmap bytes bytes) : res (centry * gmap bytes bytes) :=
  let path := cm_path (ce_meta e) in
  if (cm_type (ce_meta e) =? all_null)%N then
    match ce_st e with
    | Nothing => if bool_decide (path = []) then Done (e, files) else Undef
    | _ => Undef
    end
  else
    f ← of_opt (files !! path);
    match ce_st e with
    | AppendTo axis =>
        f' ← of_w (append_slice vd dims NullSuppressed (ce_data e) axis f);
        '(d, _) ← of_opt (deserialize vd dims junk (ce_data e) f');
        Done (CEntry (ce_meta e) d Nothing, <[path := f']> files)
    | _ => Done (CEntry (ce_meta e) (ce_data e) Nothing, files)
    end.

(** FlushCache, 187-196; [ord] is the order in which the unordered map lists its keys. *)
Fixpoint flush_keys (ks : list N) (s : cstore) : res cstore :=
  match ks with
  | [] => Done s
  | k :: ks' =>
      '(e, c) ← of_opt (cevict (s_cache s) k);
      fs ← descope (s_cs s) e (s_files s);
      flush_keys ks' (CStore (s_size s) (s_cs s) c fs)
  end.
Definition flush_cache (ord : list N -> list N) (s : cstore) : res cstore := flush_keys (ord (contained (s_cache s))) s.
(** Writing through if the cache size is 0 (there is one slot, hence only one order). *)
Definition flush_if_uncached (s : cstore) : res cstore :=
  if (s_size s =? 0)%nat then flush_cache id s else Done s.

(** RegisterNewChunk, 44-55. *)
Definition register_new_chunk (m : chunk_meta) (a : ndarr N) (s : cstore) : res cstore :=
  s1 ← insert_into_cache m a Serialize s; flush_if_uncached s1.

(** RemoveChunk, 57-71.  Line 68 looks for the bare path, relative to the current directory and without the suffix; no chunk file has
    such a name, so nothing is ever deleted. *)
Definition remove_chunk (m : chunk_meta) (s : cstore) : res cstore :=
  if ccontains (s_cache s) (cm_id m) then
    '(_, c) ← of_opt (cevict (s_cache s) (cm_id m)); Done (CStore (s_size s) (s_cs s) c (s_files s))
  else Done s.

(** ReplaceChunk, 73-82. *)
Definition replace_chunk (m m' : chunk_meta) (a : ndarr N) (s : cstore) : res cstore :=
  if (cm_id m =? cm_id m')%N then s1 ← remove_chunk m s; register_new_chunk m' a s1 else Undef.

(** RetrieveChunk, 84-110. *)
Definition retrieve_chunk (m : chunk_meta) (s : cstore) : res (ndarr N * cstore) :=
  if ccontains (s_cache s) (cm_id m) then
    '(e, c) ← of_opt (cget (s_cache s) (cm_id m));
    match ce_st e with
    | AppendTo _ =>
        '(e', fs) ← sync_entry e (s_files s);
        c' ← of_opt (cupdate c (cm_id m) e');
        Done (ce_data e', CStore (s_size s) (s_cs s) c' fs)
    | _ => Done (ce_data e, CStore (s_size s) (s_cs s) c (s_files s))
    end
  else deserialize_into_cache m s.

(** In-memory Append<axis>, NDVecArray.hxx:208-237. *)
Definition append_in_memory (axis : nat) (a slice : ndarr N) : res (ndarr N) :=
  match aappend vd junk a slice axis with AppOk a' => Done a' | AppNotImplemented => Raised | AppUB => Undef end.

(** AppendSlice<axis>, 112-185: the grown metadata and the store afterwards. *)
Definition cache_append_slice (axis : nat) (m0 : chunk_meta) (slice : ndarr N) (s : cstore) : res (chunk_meta * cstore) :=
  if shape_allows_concat (N.to_nat <$> cm_shape m0) (a_shape slice) axis then
    m ← of_opt (n ← a_shape slice !! axis; grow_chunk axis (N.of_nat n) m0);
    if ccontains (s_cache s) (cm_id m) then
      '(e, c) ← of_opt (cget (s_cache s) (cm_id m));
      let s1 := CStore (s_size s) (s_cs s) c (s_files s) in
      s2 ← match ce_st e with
            | Nothing =>
                '(_, c1) ← of_opt (cevict c (cm_id m));
                insert_into_cache m slice (AppendTo axis) (CStore (s_size s) (s_cs s) c1 (s_files s))
            | Serialize =>
                d ← append_in_memory axis (ce_data e) slice;
                c1 ← of_opt (cupdate c (cm_id m) (CEntry m d Serialize));
                Done (CStore (s_size s) (s_cs s) c1 (s_files s))
            | AppendTo axis0 =>
                '(e1, fs) ← (if (axis0 =? axis)%nat then Done (e, s_files s)
                              else '(e1, fs) ← sync_entry e (s_files s); Done (CEntry (ce_meta e1) (ce_data e1) (AppendTo axis), fs));
                d ← append_in_memory axis (ce_data e1) slice;
                c1 ← of_opt (cupdate c (cm_id m) (CEntry m d (ce_st e1)));
                Done (CStore (s_size s) (s_cs s) c1 fs)
            end;
      s3 ← flush_if_uncached s2; Done (m, s3)
    else
      s1 ← insert_into_cache m slice (AppendTo axis) s;
      s2 ← flush_if_uncached s1; Done (m, s2)
  else Raised.

(** ClearCache, 223-236: every chunk file is deleted. *)
Definition clear_cache (ord : list N -> list N) (s : cstore) : res cstore :=
  s1 ← flush_cache ord s; Done (CStore (s_size s1) (s_cs s1) (s_cache s1) ∅).

(** MoveCache, 198-221: the files in the old and in the new directory ([others]) afterwards, and the store in its new directory.
    std::filesystem::rename replaces an existing file. *)
Definition move_cache (ord : list N -> list N) (others : gmap bytes bytes) (s : cstore) : res (cstore * gmap bytes bytes) :=
  s1 ← flush_cache ord s; Done (CStore (s_size s1) (s_cs s1) (s_cache s1) (s_files s1 ∪ others), ∅).

(** ImportCache, 238-258: the store and the source directory afterwards.  std::filesystem::copy throws if the target exists. *)
Definition import_cache (src : gmap bytes bytes) (move : bool) (s : cstore) : res (cstore * gmap bytes bytes) :=
  if move then Done (CStore (s_size s) (s_cs s) (s_cache s) (src ∪ s_files s), ∅)
  else if bool_decide (src ##ₘ s_files s) then Done (CStore (s_size s) (s_cs s) (s_cache s) (src ∪ s_files s), src)
  else Raised.
End model.
