(** Model of ChunkMetadata<dims>, eisvogel/core/impl/DistributedNDVecArray.hh:31-81, DistributedNDVecArray.hxx:421-494, of
    CylindricalGreensFunctionMetadata, GreensFunction.hh:12-26, GreensFunction.hxx:7-33, and of the conversion to chunk-local
    indices.  Index vectors are lists of size_t (N below 2^64, wrap-around arithmetic of BBoxModel). *)
From stdpp Require Import base list list_numbers numbers option.
From Coq Require Import NArith Reals.
From Verif Require Import BBoxModel CodecModel DownsampleModel InterpModel.

(** enum class ChunkType : size_t, DistributedNDVecArray.hh:19-22; as every size_t is a value of the enum, it is a number. *)
Definition specified : N := 0%N.
Definition all_null : N := 1%N.

(** Data members, DistributedNDVecArray.hh:51-80 (a path is its string of bytes). *)
Record chunk_meta := ChunkMeta {
  cm_type : N; cm_path : bytes; cm_id : N; cm_pos : N;
  cm_shape : list N; cm_start : list N; cm_end : list N; cm_overlap : N; cm_off : list N
}.

(** Constructor, DistributedNDVecArray.hxx:426-435. *)
Definition mk_meta (ty : N) (path : bytes) (id : N) (start shape : list N) (overlap : N) : chunk_meta :=
  ChunkMeta ty path id 0 shape start (vwadd start shape) overlap ((fun s => wsub s overlap) <$> start).

(** v[axis] += x; [None]: axis outside of the vector. *)
Definition vbump (axis : nat) (x : N) (v : list N) : option (list N) :=
  c ← v !! axis; Some (<[axis := wadd c x]> v).
(** GrowChunk<axis>, 437-442. *)
Definition grow_chunk (axis : nat) (x : N) (m : chunk_meta) : option chunk_meta :=
  e ← vbump axis x (cm_end m); sh ← vbump axis x (cm_shape m);
  Some (ChunkMeta (cm_type m) (cm_path m) (cm_id m) (cm_pos m) sh (cm_start m) e (cm_overlap m) (cm_off m)).
(** std::swap(v[i], v[j]). *)
Definition vswap (i j : nat) (v : list N) : option (list N) :=
  a ← v !! i; b ← v !! j; Some (<[j := a]> (<[i := b]> v)).
(** SwapAxes, 444-451. *)
Definition swap_meta (i j : nat) (m : chunk_meta) : option chunk_meta :=
  s ← vswap i j (cm_start m); e ← vswap i j (cm_end m); sh ← vswap i j (cm_shape m); o ← vswap i j (cm_off m);
  Some (ChunkMeta (cm_type m) (cm_path m) (cm_id m) (cm_pos m) sh s e (cm_overlap m) o).

(** Traits<ChunkMetadata<dims>>, 470-493.  [id_t] there is not ChunkMetadata::id_t (size_t) but the POSIX type of that name, an unsigned
    32-bit integer: ids are written as four bytes. *)
Definition metac (dims : nat) : codec chunk_meta := Codec
  (fun m => enc u64 (cm_type m) ++ enc str (cm_path m) ++ enc u32 (cm_id m mod 2 ^ 32)%N ++ enc (arr dims u64) (cm_start m) ++
            enc (arr dims u64) (cm_shape m) ++ enc u64 (cm_overlap m))
  (fun s0 => '(ty, s1) ← dec u64 s0; '(path, s2) ← dec str s1; '(id, s3) ← dec u32 s2;
             '(start, s4) ← dec (arr dims u64) s3; '(shape, s5) ← dec (arr dims u64) s4; '(ov, s6) ← dec u64 s5;
             Some (mk_meta ty path id start shape ov, s6))
  (fun m => dom u64 (cm_type m) /\ dom str (cm_path m) /\ dom u32 (cm_id m) /\ dom (arr dims u64) (cm_start m) /\
            dom (arr dims u64) (cm_shape m) /\ dom u64 (cm_overlap m)).
(** FlushIndex (575-588) writes, load_index_entries (700-713) reads a vector of records. *)
Definition index_file (dims : nat) : codec (list chunk_meta) := CodecModel.vec (metac dims).

(** CylindricalGreensFunctionMetadata; floats are bit patterns. *)
Record green_meta := GreenMeta {
  gm_start : list N; gm_end : list N; gm_interval : list N;
  gm_start_rz : list N; gm_end_rz : list N; gm_interval_rz : list N
}.
(** Constructor, GreensFunction.hxx:10-12. *)
Definition mk_green (s e i : list N) : green_meta := GreenMeta s e i (take 2 s) (take 2 e) (take 2 i).
(** Traits, GreensFunction.hxx:16-32. *)
Definition greenc : codec green_meta := Codec
  (fun m => enc (arr 3 f32) (gm_start m) ++ enc (arr 3 f32) (gm_end m) ++ enc (arr 3 f32) (gm_interval m))
  (fun s0 => '(s, s1) ← dec (arr 3 f32) s0; '(e, s2) ← dec (arr 3 f32) s1; '(i, s3) ← dec (arr 3 f32) s2;
             Some (mk_green s e i, s3))
  (fun m => dom (arr 3 f32) (gm_start m) /\ dom (arr 3 f32) (gm_end m) /\ dom (arr 3 f32) (gm_interval m)).

(** [ind - loc_ind_offset], DistributedNDVecArray.hxx:925 (and 963-965 in FillArray). *)
Definition local_ind (m : chunk_meta) (ind : list N) : list N := vwsub ind (cm_off m).
(** to_chunk_local_ind, GreensFunction.hxx:41-54, with real coordinates. *)
Definition local_coord (m : chunk_meta) (x : list R) : option (list R) :=
  mapM (fun xo : R * N => '(i, f) ← modf xo.1;
          Some (INR (N.to_nat (wsub (N.of_nat i mod W) xo.2)) + f)%R) (zip x (cm_off m)).
