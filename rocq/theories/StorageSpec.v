(** Specification of collecting the field inside the storage domain (C58).  A cell of the grid is the list of its indices (z, r); its centre, where MEEP
    computes the field, is the grid point with twice the index plus one in every direction. *)
From stdpp Require Import base list list_numbers numbers option gmap countable.
From Coq Require Import NArith ZArith.
From Verif Require Import IndexSpec NDArrayModel NDArrayProps CodecModel StreamerModel StreamerProps BBoxModel BBoxProps DownsampleModel DownsampleProps RTreeModel ChunkMetaModel
  ChunkCacheModel ChunkCacheSpec LibraryModel LibrarySpec RebuildModel RebuildSpec RecordSpec.

(** A simulation chunk, given by its first and its last point, contains the cell [x]. *)
Definition centre (x : list N) : list Z := (fun i => 2 * Z.of_N i + 1)%Z <$> x.
Definition cell_in (c : list Z * list Z) (x : list N) : Prop := Forall2 Z.le c.1 (centre x) /\ Forall2 Z.le (centre x) c.2.
(** The box that starts at [s] and has shape [sh] contains [x]. *)
Definition domain (s sh x : list N) : Prop := Forall2 N.le s x /\ Forall2 N.lt x (zip_with N.add s sh).
(** A simulation chunk: the first and the last point are centres of cells, the first is not behind the last; the coordinates are ints. *)
Definition sim_chunk (n : nat) (c : list Z * list Z) : Prop :=
  length c.1 = n /\ length c.2 = n /\ Forall2 Z.le c.1 c.2 /\ Forall (fun i => 0 <= i /\ Z.Odd i)%Z c.1 /\ Forall (fun i => i < 2 ^ 31 /\ Z.Odd i)%Z c.2.

(** The part of a simulation chunk in the domain: where it starts, relative to the start of the domain, and its shape. *)
Definition part_start (dstart : list N) (c : list Z * list Z) : list N := zip_with (fun d i => N.max (Z.to_N (i / 2)) d - d)%N dstart c.1.
Definition part_end (dstart dshape : list N) (c : list Z * list Z) : list N := zip_with (fun (ds : N * N) e => N.min (Z.to_N (e / 2) + 1) (ds.1 + ds.2) - ds.1)%N (zip dstart dshape) c.2.
Definition part_shape (dstart dshape : list N) (c : list Z * list Z) : list nat := zip_with (fun s e => N.to_nat (e - s)) (part_start dstart c) (part_end dstart dshape c).
Definition part_meets (dstart dshape : list N) (c : list Z * list Z) : bool := forallb (fun n => 0 <? n)%nat (part_shape dstart dshape c).
(** How many chunks of linear size [cl] the part needs after downsampling. *)
Definition part_cells (cl : nat) (dstart dshape ds : list N) (c : list Z * list Z) : N :=
  if part_meets dstart dshape c then region_cells cl ds (part_start dstart c) (part_shape dstart dshape c) else 0%N.

Section spec.
Context (vd dims : nat) (ct cl : nat) (dstart dshape ds : list N).

(** The situation: a domain that is not empty, simulation chunks without a common cell, field values that are floats. *)
Record ok_save (chunks : list (list Z * list Z)) (E : nat -> list Z -> list N) (uuids : nat -> nat -> nat -> bytes) (T : nat) : Prop := {
  sv_dims : dims = S (length ds) /\ length dstart = length ds /\ length dshape = length ds;
  sv_sizes : (0 < ct)%nat /\ (0 < cl)%nat;
  sv_domain : Forall2 (fun n d => 0 < n /\ 0 < d /\ n + d < 2 ^ 64)%N dshape ds /\ Forall2 (fun s n => s + n < 2 ^ 64)%N dstart dshape;
  sv_chunks : forall c, c ∈ chunks -> sim_chunk (length ds) c;
  sv_apart : forall j j' c c' x, chunks !! j = Some c -> chunks !! j' = Some c' -> cell_in c x -> cell_in c' x -> j = j';
  sv_field : forall t p, length (E t p) = vd /\ Forall (fun b => b < 2 ^ 32)%N (E t p);
  sv_steps : (N.of_nat T + 1 < 2 ^ 64)%N;
  sv_volume : (N.of_nat (Nat.min ct T * cl ^ length ds) * N.of_nat (vd + 1) < 2 ^ 64)%N /\ (N.of_nat (cl ^ length ds) < 2 ^ 32)%N;
  sv_ids : (foldr N.add 0 (part_cells cl dstart dshape ds <$> chunks) * N.of_nat (epochs ct T) <= 2 ^ 32)%N;
  sv_names : forall t j c k, (t < T)%nat -> chunks !! j = Some c -> (N.of_nat k < part_cells cl dstart dshape ds c)%N ->
    uuids t j k <> [] /\ (N.of_nat (length (uuids t j k)) < 2 ^ 64)%N /\ Forall (fun b => b < 256)%N (uuids t j k) /\
    forall t' j' c' k', (t' < T)%nat -> chunks !! j' = Some c' -> (N.of_nat k' < part_cells cl dstart dshape ds c')%N -> uuids t j k = uuids t' j' k' -> t = t' /\ j = j' /\ k = k' }.

(** The cell that is sampled at downsampled position [k]. *)
Definition sampled (k : list N) : list N := zip_with N.add dstart (times k ds).
(** What is stored for cell [x] of chunk [j]: the field at its centre, or zero if it was truncated. *)
Definition stored_value (E : nat -> list Z -> list N) (cut : nat -> nat -> list nat -> bool) (t j : nat) (c : list Z * list Z) (x : list N) : list N :=
  if cut t j (0%nat :: vto_nat (zip_with N.sub x (zip_with N.add dstart (part_start dstart c)))) then replicate vd 0%N else E t (centre x).

(** The chunks [C] hold [T] steps of the field in the cells of the domain that belong to the simulation chunks. *)
Record saved (chunks : list (list Z * list Z)) (E : nat -> list Z -> list N) (cut : nat -> nat -> list nat -> bool) (T : nat) (C : list chunk) : Prop := {
  sd_sample : forall t j c k, (t < T)%nat -> chunks !! j = Some c -> length k = length ds -> domain dstart dshape (sampled k) -> cell_in c (sampled k) ->
    exists ch, ch ∈ C /\ covers ch (N.of_nat t :: k) /\ value ch (N.of_nat t :: k) = stored_value E cut t j c (sampled k);
  sd_only : forall ch ind, ch ∈ C -> covers ch ind -> exists t j c k, ind = N.of_nat t :: k /\ (t < T)%nat /\ chunks !! j = Some c /\ length k = length ds /\
    domain dstart dshape (sampled k) /\ cell_in c (sampled k);
  sd_form : forall ch, ch ∈ C -> c_ov ch = 0%N /\ c_null ch = false /\
    Forall2 (fun n se => se.2 - se.1 <= n)%N (N.of_nat ct :: replicate (length ds) (N.of_nat cl)) (zip (c_start ch) (c_end ch)) }.
End spec.
