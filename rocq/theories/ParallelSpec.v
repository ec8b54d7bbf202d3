(** Specification of merging and of parallel re-chunking (C56), in terms of the chunks of the arrays. *)
From stdpp Require Import base list list_numbers numbers option gmap countable.
From Coq Require Import NArith ZArith.
From Verif Require Import IndexSpec NDArrayModel CodecModel StreamerModel StreamerProps BBoxModel BBoxProps RTreeModel ChunkMetaModel ChunkCacheModel ChunkCacheSpec LibraryModel LibrarySpec
  RebuildModel RebuildSpec.

(** Two arrays that can be merged: no common index, no common file name. *)
Definition compatible (C C2 : list chunk) : Prop := forall c c2, c ∈ C -> c2 ∈ C2 ->
  apart (c_start c) (c_end c) (c_start c2) (c_end c2) /\ (c_file c = c_file c2 -> c_file c = []).

Section spec.
Context (vd dims : nat) (junk : N) (L : lib).
(** [d] is the directory of an array that was in state [S] when it was closed. *)
Definition holds_array (d : dir) (S : lstate) : Prop :=
  exists l ord, session vd dims junk L l S /\ (forall k, ord k ≡ₚ k) /\ lib_close vd dims ord l = Done d.

(** The array in state [S], which fills the box from the origin to [ge], can be re-chunked without the padding [pre], [post]. *)
Record ok_rechunk (S : lstate) (ge pre post req : list N) (ov : nat) (uuids : nat -> nat -> bytes) : Prop := {
  rk_hull : is_hull dims (ls_chunks S) (replicate dims 0%N) ge;
  rk_full : ls_chunks S <> [] /\ gap_free (ls_chunks S) (replicate dims 0%N) ge;
  (* something is left without the padding *)
  rk_padding : length pre = dims /\ length post = dims /\ forall i, (i < dims)%nat -> (pre !!! i + post !!! i < ge !!! i)%N;
  rk_count : (count (replicate dims 0%N) ge < 2 ^ 64)%N;
  rk_ints : Forall (fun x => x + N.of_nat ov < 2 ^ 31)%N ge;
  rk_req : length req = dims /\ Forall (fun r => 0 < r < 2 ^ 64)%N req;
  rk_volume : (N.of_nat (volume ((fun r => N.to_nat r + 2 * ov)%nat <$> req)) * N.of_nat (vd + 1) < 2 ^ 32)%N;
  rk_ids : (chunk_count pre (zip_with N.sub ge post) req <= 2 ^ 32)%N;
  (* names for the files of all chunks of all partitions (there are at most as many partitions as chunks), all different *)
  rk_names : forall n i, (N.of_nat n < chunk_count pre (zip_with N.sub ge post) req)%N -> (N.of_nat i < chunk_count pre (zip_with N.sub ge post) req)%N ->
    uuids n i <> [] /\ (N.of_nat (length (uuids n i)) < 2 ^ 64)%N /\ Forall (fun b => b < 256)%N (uuids n i) /\
    forall m j, (N.of_nat m < chunk_count pre (zip_with N.sub ge post) req)%N -> (N.of_nat j < chunk_count pre (zip_with N.sub ge post) req)%N ->
      uuids n i = uuids m j -> n = m /\ i = j }.
End spec.
