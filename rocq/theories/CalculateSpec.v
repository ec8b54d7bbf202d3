(** Specification of a whole calculation (C60).  A cell is the list of its indices z, r in the calculated domain; an element of the result has index r, z, t. *)
From stdpp Require Import base list list_numbers numbers option gmap countable.
From Coq Require Import NArith ZArith.
From Verif Require Import IndexSpec NDArrayModel NDArrayProps CodecModel StreamerModel StreamerProps BBoxModel BBoxProps DownsampleModel DownsampleProps RTreeModel ChunkMetaModel
  ChunkCacheModel ChunkCacheSpec LibraryModel LibrarySpec RebuildModel RebuildSpec RecordSpec StorageSpec.

(** How many samples are calculated before and behind the storage domain, along one axis: [ov], or as many as fit. *)
Definition room_before (s d ov : N) : N := N.min (s / d) ov.
Definition room_behind (c s n d ov : N) : N := N.min ((c - (s + n)) / d) ov.
(** The number of samples, one every [d] cells, in [n] cells. *)
Definition samples (n d : N) : N := ((n + d - 1) / d)%N.

Section spec.
Context (vd : nat) (cz cr sz sr nz nr : N) (d : N) (ov : nat).
(** The calculated domain has [cz] x [cr] cells, the storage domain [nz] x [nr] cells from ([sz], [sr]) on. *)
Definition bz : N := room_before sz d (N.of_nat ov).
Definition br : N := room_before sr d (N.of_nat ov).
Definition az : N := room_behind cz sz nz d (N.of_nat ov).
Definition ar : N := room_behind cr sr nr d (N.of_nat ov).
(** The storage domain with the samples around it. *)
Definition wide_start : list N := [sz - bz * d; sr - br * d]%N.
Definition wide_shape : list N := [bz * d + nz + az * d; br * d + nr + ar * d]%N.
(** The shape of the result, and of the result with the samples around it. *)
Definition out_shape (T : nat) : list N := [samples nr d; samples nz d; N.of_nat T].
Definition wide_out (T : nat) : list N := [br + samples nr d + ar; bz + samples nz d + az; N.of_nat T]%N.

Record ok_calculate (csize : N) (ct cl jobs : nat) (chunks : nat -> list (list Z * list Z)) (E : nat -> list Z -> list N)
    (names : nat -> nat -> nat -> nat -> bytes) (T : nat) (uuids2 : nat -> nat -> bytes) : Prop := {
  (* the storage domain is a part of the calculated domain, and not empty *)
  ca_domain : (0 < nz /\ 0 < nr /\ 0 < d /\ sz + nz <= cz /\ sr + nr <= cr)%N;
  ca_ints : (cz + d + N.of_nat ov < 2 ^ 31 /\ cr + d + N.of_nat ov < 2 ^ 31)%N;
  ca_steps : (0 < T)%nat /\ (N.of_nat T + N.of_nat ov < 2 ^ 31)%N;
  ca_sizes : (0 < ct)%nat /\ (0 < cl)%nat;
  ca_jobs : (0 < jobs)%nat /\ (2 * Z.of_nat jobs <= 2 ^ 31)%Z;
  (* the simulation chunks of all processes: every cell belongs to exactly one *)
  ca_chunks : forall m c, (m < jobs)%nat -> c ∈ chunks m -> sim_chunk 2 c;
  ca_apart : forall m m' j j' c c' x, (m < jobs)%nat -> (m' < jobs)%nat -> chunks m !! j = Some c -> chunks m' !! j' = Some c' -> cell_in c x -> cell_in c' x -> m = m' /\ j = j';
  ca_cover : forall x, domain [0; 0]%N [cz; cr] x -> exists m j c, (m < jobs)%nat /\ chunks m !! j = Some c /\ cell_in c x;
  ca_field : forall t p, length (E t p) = vd /\ Forall (fun b => b < 2 ^ 32)%N (E t p);
  (* the elements of the chunks of both stages can be counted *)
  ca_volume : (N.of_nat (Nat.min ct T * (cl * cl)) * N.of_nat (vd + 1) < 2 ^ 64)%N /\ (N.of_nat (cl * cl) < 2 ^ 32)%N /\ (N.of_nat (Nat.min ct T * cl) < 2 ^ 32)%N;
  ca_volume2 : (0 < csize)%N /\ ((csize + 2 * N.of_nat ov) ^ 3 * N.of_nat (vd + 1) < 2 ^ 32)%N;
  (* the chunks of the first stage, of all processes together, and those of the second stage have identifiers *)
  ca_ids : (foldr N.add 0 ((fun m => foldr N.add 0 (part_cells cl wide_start wide_shape [d; d] <$> chunks m) * N.of_nat (epochs ct T)) <$> seq 0 jobs) <= 2 ^ 32)%N;
  ca_count : (foldr N.mul 1 (wide_out T) < 2 ^ 64)%N;
  ca_ids2 : (foldr N.mul 1 ((fun n => samples n csize) <$> out_shape T) <= 2 ^ 32)%N;
  (* all files of the first stage have different names, so do those of the second *)
  ca_names : forall m t j c k, (m < jobs)%nat -> (t < T)%nat -> chunks m !! j = Some c -> (N.of_nat k < part_cells cl wide_start wide_shape [d; d] c)%N ->
    names m t j k <> [] /\ (N.of_nat (length (names m t j k)) < 2 ^ 64)%N /\ Forall (fun b => b < 256)%N (names m t j k) /\
    forall m' t' j' c' k', (m' < jobs)%nat -> (t' < T)%nat -> chunks m' !! j' = Some c' -> (N.of_nat k' < part_cells cl wide_start wide_shape [d; d] c')%N ->
      names m t j k = names m' t' j' k' -> m = m' /\ t = t' /\ j = j' /\ k = k';
  ca_names2 : forall n i, (N.of_nat n < foldr N.mul 1 ((fun n => samples n csize) <$> out_shape T))%N -> (N.of_nat i < foldr N.mul 1 ((fun n => samples n csize) <$> out_shape T))%N ->
    uuids2 n i <> [] /\ (N.of_nat (length (uuids2 n i)) < 2 ^ 64)%N /\ Forall (fun b => b < 256)%N (uuids2 n i) /\
    forall m j, (N.of_nat m < foldr N.mul 1 ((fun n => samples n csize) <$> out_shape T))%N -> (N.of_nat j < foldr N.mul 1 ((fun n => samples n csize) <$> out_shape T))%N ->
      uuids2 n i = uuids2 m j -> n = m /\ i = j }.

(** What is stored for cell [x] in step [t]: the field at its centre, or zero if the process to which the cell belongs truncates it. *)
Definition kept_field (jobs : nat) (chunks : nat -> list (list Z * list Z)) (E : nat -> list Z -> list N) (cut : nat -> nat -> nat -> list nat -> bool) (t : nat) (x : list N) (v : list N) : Prop :=
  exists m j c, (m < jobs)%nat /\ chunks m !! j = Some c /\ cell_in c x /\ v = stored_value vd wide_start E (cut m) t j c x.

(** The chunks [C] are the result. *)
Record calculated (csize : N) (jobs : nat) (chunks : nat -> list (list Z * list Z)) (E : nat -> list Z -> list N) (cut : nat -> nat -> nat -> list nat -> bool) (T : nat) (C : list chunk) : Prop := {
  cc_box : forall ind, (exists c, c ∈ C /\ covers c ind) <-> inbox [0; 0; 0]%N (out_shape T) ind;
  cc_form : forall c, c ∈ C -> c_ov c = N.of_nat ov /\ Forall (fun se => se.2 - se.1 <= csize)%N (zip (c_start c) (c_end c));
  (* the element at r, z, t of a chunk or its overlap is the field in cell z*d, r*d of the storage domain, as far as the samples around it go *)
  cc_value : forall c r z (t : nat) x v, c ∈ C -> reach c [r; z; Z.of_nat t] -> (t < T)%nat -> domain wide_start wide_shape x ->
    zind x = [Z.of_N sz + z * Z.of_N d; Z.of_N sr + r * Z.of_N d]%Z -> kept_field jobs chunks E cut t x v -> comes_back NullSuppressed v (zvalue c [r; z; Z.of_nat t]);
  (* outside: zero ... *)
  cc_outside : forall c r z t, c ∈ C -> reach c [r; z; t] -> (- Z.of_N br <= r)%Z ->
    ~ (r < Z.of_N (samples nr d + ar) /\ - Z.of_N bz <= z < Z.of_N (samples nz d + az) /\ 0 <= t < Z.of_nat T)%Z -> zvalue c [r; z; t] = replicate vd 0%N;
  (* ... or, before the first radius, the element opposite to it *)
  cc_mirror : forall c r z (t : nat) x v, c ∈ C -> reach c [r; z; Z.of_nat t] -> (t < T)%nat -> (r < - Z.of_N br)%Z -> domain wide_start wide_shape x ->
    zind x = [Z.of_N sz + z * Z.of_N d; Z.of_N sr + (- 2 * Z.of_N br - r) * Z.of_N d]%Z -> kept_field jobs chunks E cut t x v -> comes_back NullSuppressed v (zvalue c [r; z; Z.of_nat t]) }.
End spec.
