(** Specification of crash safety (C35). *)
From stdpp Require Import base list list_numbers numbers option gmap countable.
From Coq Require Import NArith ZArith.
From Verif Require Import IndexSpec NDArrayModel NDArrayProps CodecModel StreamerModel StreamerProps BBoxModel BBoxProps RTreeModel ChunkMetaModel ChunkCacheModel ChunkCacheSpec LibraryModel LibrarySpec.

(** The directory of an array, as it is on the disk now. *)
Definition disk (l : clib) : dir := Dir (l_index l) (s_files (l_store l)).

Section spec.
Context (vd dims : nat) (junk : N) (L : lib).

(** The directory can be opened, with any settings, and every index of these chunks reads its value.
    (All-null chunks with overlap cannot be read anyway: C27_null_overlap_refuted.) *)
Definition reads_as (d : dir) (C : list chunk) : Prop := forall size cs, acceptable_chunk dims cs ->
  exists l, lib_open vd dims junk L size cs d = Done l /\
    forall c ind, c ∈ C -> covers c ind -> (c_null c = true -> c_ov c = 0%N) ->
      exists v l', lib_get vd dims junk ind l = Done (v, l') /\ comes_back NullSuppressed (value c ind) v.

(** The array was flushed in state [S0]; since then it was read, and new chunks were registered; now it is in state [S]. *)
Inductive since_flush (S0 : lstate) : clib -> lstate -> Prop :=
  | sf_flush l ord l' : session vd dims junk L l S0 -> (forall k, ord k ≡ₚ k) -> lib_flush vd dims ord l = Done l' -> since_flush S0 l' S0
  | sf_register l S a s e ov opt null uuid l' : since_flush S0 l S -> ok_register vd dims S a s e ov uuid -> is_null_chunk vd a opt null ->
      lib_register vd dims junk L a s e ov opt uuid l = Done l' -> since_flush S0 l' (registered vd S a s e ov null uuid)
  | sf_get l S ind v l' : since_flush S0 l S -> lib_get vd dims junk ind l = Done (v, l') ->
      (exists c, c ∈ ls_chunks S /\ covers c ind /\ (c_null c = true -> c_ov c = 0%N)) -> since_flush S0 l' S
  | sf_geometry l S g l' : since_flush S0 l S -> lib_geometry dims l = Done (g, l') -> since_flush S0 l' S
  | sf_fill l S buf is ie os b l' : since_flush S0 l S -> ok_fill vd dims buf is ie os ->
      lib_fill vd dims junk buf is ie os l = Done (b, l') -> since_flush S0 l' S
  | sf_loop l S is ie vs l' : since_flush S0 l S -> length is = dims -> nonempty is ie ->
      (forall c, c ∈ ls_chunks S -> c_null c = true -> c_ov c = 0%N) ->
      lib_loop vd dims junk is ie l = Done (vs, l') -> since_flush S0 l' S.
End spec.
