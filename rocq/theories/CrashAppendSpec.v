(** Specification of crash safety when slices are appended (C35). *)
From stdpp Require Import base list list_numbers numbers option gmap countable.
From Coq Require Import NArith ZArith.
From Verif Require Import IndexSpec NDArrayModel NDArrayProps CodecModel StreamerModel StreamerProps BBoxModel BBoxProps RTreeModel ChunkMetaModel ChunkCacheModel ChunkCacheSpec LibraryModel LibrarySpec CrashModel CrashAppendModel.

Section spec.
Context (vd dims : nat) (junk : N) (L : lib).

(** The array was flushed in state [S0]; since then it was read, new chunks were registered and slices were appended (also to the chunks of
    [S0]); now it is in state [S]. *)
Inductive grown_since (S0 : lstate) : clib -> lstate -> Prop :=
  | gs_flush l ord l' : session vd dims junk L l S0 -> (forall k, ord k ≡ₚ k) -> lib_flush vd dims ord l = Done l' -> grown_since S0 l' S0
  | gs_register l S a s e ov opt null uuid l' : grown_since S0 l S -> ok_register vd dims S a s e ov uuid -> is_null_chunk vd a opt null ->
      lib_register vd dims junk L a s e ov opt uuid l = Done l' -> grown_since S0 l' (registered vd S a s e ov null uuid)
  | gs_append l S i c start slice l' : grown_since S0 l S -> ok_append vd dims S i c start slice ->
      lib_append vd dims junk 0 start slice l = Done l' -> grown_since S0 l' (set_chunks S (<[i := grown_chunk vd c slice]> (ls_chunks S)))
  | gs_get l S ind v l' : grown_since S0 l S -> lib_get vd dims junk ind l = Done (v, l') ->
      (exists c, c ∈ ls_chunks S /\ covers c ind /\ (c_null c = true -> c_ov c = 0%N)) -> grown_since S0 l' S
  | gs_geometry l S g l' : grown_since S0 l S -> lib_geometry dims l = Done (g, l') -> grown_since S0 l' S
  | gs_fill l S buf is ie os b l' : grown_since S0 l S -> ok_fill vd dims buf is ie os ->
      lib_fill vd dims junk buf is ie os l = Done (b, l') -> grown_since S0 l' S.

(** The operation in the middle of which the crash happens. *)
Inductive growing_op (l : clib) (S : lstate) : list fop -> Prop :=
  | go_append i c start slice : ok_append vd dims S i c start slice -> growing_op l S (lib_append_ops vd dims junk 0 start slice l)
  | go_register a s e ov opt null uuid : ok_register vd dims S a s e ov uuid -> is_null_chunk vd a opt null ->
      growing_op l S (lib_register_ops vd dims junk a s e ov opt uuid l)
  | go_get c ind : c ∈ ls_chunks S -> covers c ind -> (c_null c = true -> c_ov c = 0%N) -> growing_op l S (lib_get_ops vd dims ind l)
  | go_fill buf is ie os : ok_fill vd dims buf is ie os -> growing_op l S (lib_fill_ops vd dims junk buf is ie os l).
End spec.
