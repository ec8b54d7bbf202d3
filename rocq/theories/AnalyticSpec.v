(** Specification of the analytic calculation (C62). *)
From stdpp Require Import base list list_numbers numbers option gmap countable.
From Coq Require Import Reals NArith ZArith.
From Verif Require Import IndexSpec NDArrayModel NDArrayProps CodecModel StreamerModel StreamerProps BBoxModel BBoxProps RTreeModel ChunkMetaModel ChunkCacheModel ChunkCacheSpec LibraryModel
  LibrarySpec RebuildModel RebuildSpec CalculateSpec.
Local Open Scope R_scope.

Section spec.
Context (vd : nat) (F : R -> R -> R -> list N) (ar az br bz t_end dr dz dt : R) (nr nz nt max_pts : nat).

(** [n] steps of length [d] fit into [a, b], but not [n + 1]; at least one fits. *)
Definition steps_fit (a b d : R) (n : nat) : Prop := 0 < d /\ (0 < n)%nat /\ INR n * d <= b - a < INR (n + 1) * d.
(** The coordinate of index [i] if [a, b] is divided into [n] equal steps. *)
Definition coord (a b : R) (n : nat) (i : Z) : R := a + IZR i * ((b - a) / INR n).
Definition shape : list N := [N.of_nat nr + 1; N.of_nat nz + 1; N.of_nat nt + 1]%N.
(** The number of chunks of each of the two arrays. *)
Definition chunks_total : N := chunk_count [0; 0; 0]%N shape (replicate 3 (N.of_nat max_pts)).
Definition good_names (uuids : nat -> bytes) : Prop := forall i, (N.of_nat i < chunks_total)%N ->
  uuids i <> [] /\ (N.of_nat (length (uuids i)) < 2 ^ 64)%N /\ Forall (fun b => b < 256)%N (uuids i) /\
  forall j, (N.of_nat j < chunks_total)%N -> uuids i = uuids j -> i = j.

Record ok_dipole (uuids uuids2 : nat -> bytes) : Prop := {
  od_fit : steps_fit ar br dr nr /\ steps_fit az bz dz nz /\ steps_fit 0 t_end dt nt;
  od_field : forall r z t, length (F r z t) = vd /\ Forall (fun b => b < 2 ^ 32)%N (F r z t);
  (* indices are ints, chunks are not empty, their elements can be counted, there are identifiers for the chunks of both arrays *)
  od_ints : (N.of_nat nr + 3 < 2 ^ 31 /\ N.of_nat nz + 3 < 2 ^ 31 /\ N.of_nat nt + 3 < 2 ^ 31)%N;
  od_volume : (0 < max_pts)%nat /\ ((N.of_nat max_pts + 4) ^ 3 * N.of_nat (vd + 1) < 2 ^ 32)%N;
  od_ids : (2 * chunks_total <= 2 ^ 32)%N;
  od_names : good_names uuids /\ good_names uuids2 }.

(** The chunks [C] are the sampled field. *)
Record sampled_field (C : list chunk) : Prop := {
  sf_box : forall ind, (exists c, c ∈ C /\ covers c ind) <-> inbox [0; 0; 0]%N shape ind;
  sf_form : forall c, c ∈ C -> c_ov c = 2%N /\ c_null c = false /\ Forall (fun se => se.2 - se.1 <= N.of_nat max_pts)%N (zip (c_start c) (c_end c));
  (* the field at the coordinates of the index *)
  sf_value : forall c r z t, c ∈ C -> reach c [r; z; t] -> (0 <= r <= Z.of_nat nr)%Z -> (0 <= z <= Z.of_nat nz)%Z -> (0 <= t <= Z.of_nat nt)%Z ->
    comes_back NullSuppressed (F (coord ar br nr r) (coord az bz nz z) (coord 0 t_end nt t)) (zvalue c [r; z; t]);
  (* in the overlap outside: zero ... *)
  sf_outside : forall c r z t, c ∈ C -> reach c [r; z; t] -> (0 <= r)%Z -> ~ (r <= Z.of_nat nr /\ 0 <= z <= Z.of_nat nz /\ 0 <= t <= Z.of_nat nt)%Z -> zvalue c [r; z; t] = replicate vd 0%N;
  (* ... or, before the first radius, the field at the mirrored index *)
  sf_mirror : forall c r z t, c ∈ C -> reach c [r; z; t] -> (r < 0)%Z -> (- r <= Z.of_nat nr)%Z -> (0 <= z <= Z.of_nat nz)%Z -> (0 <= t <= Z.of_nat nt)%Z ->
    comes_back NullSuppressed (F (coord ar br nr (- r)) (coord az bz nz z) (coord 0 t_end nt t)) (zvalue c [r; z; t]) }.
End spec.
