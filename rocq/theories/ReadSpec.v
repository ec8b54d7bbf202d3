(** Specification of a Green's function that is read from the library it is stored in (C63). *)
From stdpp Require Import base list list_numbers numbers option gmap.
From Coq Require Import Reals NArith ZArith.
From Flocq Require Import IEEE754.Binary IEEE754.Bits.
From Verif Require Import IndexSpec NDArrayModel KernelModel BBoxModel BBoxProps ChunkMetaModel ChunkCacheSpec LibrarySpec RebuildSpec SignalModel SignalProps FillSpec ReadModel.
Local Open Scope R_scope.

(** The bits [b] are the finite number [x]. *)
Definition float_is (b : N) (x : R) : Prop := is_finite 24 128 (b32_of_bits (Z.of_N b)) = true /\ float_value b = x.

(** The chunks of the array in state [S] and the overlap around them contain the samples [g] at the indices in [U]: [g r z t i] is component [i] at index r, z, t. *)
Definition has_samples (S : lstate) (U : Z -> Z -> Z -> Prop) (g : Z -> Z -> Z -> nat -> R) : Prop :=
  forall c r z t i, c ∈ ls_chunks S -> reach c [r; z; t] -> U r z t -> (i < 2)%nat -> exists b, zvalue c [r; z; t] !! i = Some b /\ float_is b (g r z t i).
(** There is the overlap that the kernel needs; there is more. *)
Definition has_overlap (S : lstate) (K : kernel) : Prop := forall c, c ∈ ls_chunks S -> (k_support K <= N.to_nat (c_ov c))%nat.
Definition more_overlap (S : lstate) (K : kernel) : Prop := forall c, c ∈ ls_chunks S -> (k_support K < N.to_nat (c_ov c))%nat.
(** The time (in units of indices) is not exactly at the end of a chunk that has no more overlap than the kernel needs. *)
Definition off_ends (S : lstate) (K : kernel) (t : R) : Prop :=
  forall c e1 e2 e3, c ∈ ls_chunks S -> c_end c = [e1; e2; e3] -> (k_support K < N.to_nat (c_ov c))%nat \/ t <> INR (N.to_nat e3).

(** The position (in units of indices) is in the cell of an index of the chunk. *)
Definition position_in (c : chunk) (r z t : R) : Prop :=
  exists i1 i2 i3, cell r i1 /\ cell z i2 /\ cell t i3 /\ covers c [N.of_nat i1; N.of_nat i2; N.of_nat i3].

(** Only the coordinate system of the functions of SignalProps. *)
Definition coords (start interval : R * R * R) : green := Green start interval (fun _ => None) (fun _ => None).

(** The position is in a chunk that is specified, in one that is all null, in none (of a library that is not empty). *)
Definition served (S : lstate) (r z t : R) : Prop := exists c, c ∈ ls_chunks S /\ c_null c = false /\ position_in c r z t.
Definition null_at (S : lstate) (r z t : R) : Prop := exists c, c ∈ ls_chunks S /\ c_null c = true /\ position_in c r z t.
Definition outside (S : lstate) (r z t : R) : Prop := ls_chunks S <> [] /\
  exists i1 i2 i3, cell r i1 /\ cell z i2 /\ cell t i3 /\ Forall (fun i => (N.of_nat i < 2 ^ 64)%N) [i1; i2; i3] /\
    forall c, c ∈ ls_chunks S -> ~ covers c [N.of_nat i1; N.of_nat i2; N.of_nat i3].

(** ** Sampling on a grid *)
(** The position is in the chunk or on its far faces. *)
Definition within_chunk (c : chunk) (r z t : R) : Prop :=
  exists s1 s2 s3 e1 e2 e3, c_start c = [s1; s2; s3] /\ c_end c = [e1; e2; e3] /\
    INR (N.to_nat s1) <= r <= INR (N.to_nat e1) /\ INR (N.to_nat s2) <= z <= INR (N.to_nat e2) /\ INR (N.to_nat s3) <= t <= INR (N.to_nat e3).
(** The position is in a specified chunk that has indices from [first] on and before [last]. *)
Definition seen_in (S : lstate) (first last : list N) (r z t : R) : Prop :=
  exists c, c ∈ ls_chunks S /\ c_null c = false /\ Forall2 N.lt (c_start c) last /\ Forall2 N.lt first (c_end c) /\ within_chunk c r z t.

Section fill.
Context (start interval : R * R * R) (S : lstate) (p q : R * R * R).
Local Notation G := (coords start interval).
(** The chunks cover the requested range. *)
Definition range_stored : Prop :=
  forall i1 i2 i3, (trunc (at_r G p.1.1) <= i1 /\ trunc (at_z G p.1.2) <= i2 /\ trunc (at_t G p.2) <= i3)%N ->
    INR (N.to_nat i1) < at_r G q.1.1 -> INR (N.to_nat i2) < at_z G q.1.2 -> INR (N.to_nat i3) < at_t G q.2 ->
    exists c, c ∈ ls_chunks S /\ covers c [i1; i2; i3].
(** No chunk begins at the truncated end of the range, unless the range ends exactly there. *)
Definition end_between : Prop :=
  forall c s1 s2 s3, c ∈ ls_chunks S -> c_start c = [s1; s2; s3] ->
    (s1 <> trunc (at_r G q.1.1) \/ at_r G q.1.1 = INR (N.to_nat (trunc (at_r G q.1.1)))) /\
    (s2 <> trunc (at_z G q.1.2) \/ at_z G q.1.2 = INR (N.to_nat (trunc (at_z G q.1.2)))) /\
    (s3 <> trunc (at_t G q.2) \/ at_t G q.2 = INR (N.to_nat (trunc (at_t G q.2)))).
End fill.
