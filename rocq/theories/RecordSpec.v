(** Specification of recording (C57): which samples of which region are found where in the array. *)
From stdpp Require Import base list list_numbers numbers option gmap countable.
From Coq Require Import NArith ZArith.
From Verif Require Import IndexSpec NDArrayModel NDArrayProps CodecModel StreamerModel StreamerProps BBoxModel BBoxProps DownsampleModel DownsampleProps RTreeModel ChunkMetaModel
  ChunkCacheModel ChunkCacheSpec LibraryModel LibrarySpec RebuildModel RebuildSpec.

(** How many chunks of linear size [cl] the downsampled region needs. *)
Definition region_cells (cl : nat) (ds rs : list N) (sh : list nat) : N :=
  let p := get_downsampled_shape rs (vof_nat sh) ds in chunk_count (replicate (length p) 0%N) p (replicate (length p) (N.of_nat cl)).
Definition total_cells (cl : nat) (ds : list N) (regions : list (list N)) (shape : nat -> list nat) : N :=
  foldr N.add 0%N (imap (fun j rs => region_cells cl ds rs (shape j)) regions).
(** How many chunks follow each other in [T] steps. *)
Definition epochs (ct T : nat) : nat := ((T + ct - 1) / ct)%nat.

Section spec.
Context (vd dims : nat) (ct cl : nat) (ds : list N).

(** Region [j] starts at [regions !! j] and has shape [shape j]; [field t j] is its field buffer in step [t]. *)
Record ok_record (regions : list (list N)) (shape : nat -> list nat) (field : nat -> nat -> ndarr N) (uuids : nat -> nat -> nat -> bytes) (T : nat) : Prop := {
  rc_dims : dims = S (length ds);
  rc_sizes : (0 < ct)%nat /\ (0 < cl)%nat;
  rc_regions : forall j rs, regions !! j = Some rs -> region_ok rs (shape j) ds;
  rc_fields : forall t j, (t < T)%nat -> (j < length regions)%nat -> float_array vd (field t j) /\ a_shape (field t j) = 1%nat :: shape j;
  (* no sample belongs to two regions *)
  rc_apart : forall j j' rs rs' k, regions !! j = Some rs -> regions !! j' = Some rs' -> on_grid rs (shape j) ds k -> on_grid rs' (shape j') ds k -> j = j';
  rc_steps : (N.of_nat T + 1 < 2 ^ 64)%N;
  (* the elements of a chunk, and of one time slice of it, can be counted *)
  rc_volume : (N.of_nat (Nat.min ct T * cl ^ length ds) * N.of_nat (vd + 1) < 2 ^ 64)%N /\ (N.of_nat (cl ^ length ds) < 2 ^ 32)%N;
  rc_ids : (total_cells cl ds regions shape * N.of_nat (epochs ct T) <= 2 ^ 32)%N;
  (* different names for all files *)
  rc_names : forall t j rs k, (t < T)%nat -> regions !! j = Some rs -> (N.of_nat k < region_cells cl ds rs (shape j))%N ->
    uuids t j k <> [] /\ (N.of_nat (length (uuids t j k)) < 2 ^ 64)%N /\ Forall (fun b => b < 256)%N (uuids t j k) /\
    forall t' j' rs' k', (t' < T)%nat -> regions !! j' = Some rs' -> (N.of_nat k' < region_cells cl ds rs' (shape j'))%N -> uuids t j k = uuids t' j' k' -> t = t' /\ j = j' /\ k = k' }.

(** The chunks [C] hold the first [T] frames: the array has an element for time [t] and position [k] iff position [k*ds] lies in a region, and it is
    the sample recorded there. *)
Record recorded (regions : list (list N)) (shape : nat -> list nat) (field : nat -> nat -> ndarr N) (T : nat) (C : list chunk) : Prop := {
  rd_sample : forall t j rs k, (t < T)%nat -> regions !! j = Some rs -> on_grid rs (shape j) ds k ->
    exists c, c ∈ C /\ covers c (N.of_nat t :: k) /\ aread vd (field t j) (0%nat :: at_pos rs (times k ds)) = Some (value c (N.of_nat t :: k));
  rd_only : forall c ind, c ∈ C -> covers c ind -> exists t j rs k, ind = N.of_nat t :: k /\ (t < T)%nat /\ regions !! j = Some rs /\ on_grid rs (shape j) ds k;
  rd_form : forall c, c ∈ C -> c_ov c = 0%N /\ c_null c = false /\
    Forall2 (fun n se => se.2 - se.1 <= n)%N (N.of_nat ct :: replicate (length ds) (N.of_nat cl)) (zip (c_start c) (c_end c)) }.
End spec.
