(** Specification of re-chunking (C33), in terms of the chunks of the arrays (LibrarySpec) and of signed indices. *)
From stdpp Require Import base list list_numbers numbers option gmap countable.
From Coq Require Import NArith ZArith.
From Verif Require Import IndexSpec NDArrayModel NDArrayProps CodecModel StreamerModel StreamerProps BBoxModel BBoxProps ChunkMetaModel ChunkCacheSpec LibrarySpec
  BoundaryProps RebuildModel.

(** Signed indices; the region stored in a chunk including the overlap; the vector stored there for a signed index. *)
Definition zind (ind : list N) : list Z := Z.of_N <$> ind.
Definition reach (c : chunk) (x : list Z) : Prop :=
  in_zbox ((fun s => Z.of_N s - Z.of_N (c_ov c))%Z <$> c_start c) ((fun e => Z.of_N e + Z.of_N (c_ov c))%Z <$> c_end c) x.
Definition zvalue (c : chunk) (x : list Z) : list N :=
  k_at (c_val c) (zip_with (fun x s => Z.to_nat (x - (Z.of_N s - Z.of_N (c_ov c)))) x (c_start c)).
(** The index to which [x] goes if [start] goes to [ostart]. *)
Definition shifted (start ostart : list N) (x : list Z) : list Z :=
  zip_with Z.add x (zip_with (fun o s => Z.of_N o - Z.of_N s)%Z ostart start).

(** The number of chunks of at most size [req] for the box [start, end). *)
Definition chunk_count (start end_ req : list N) : N :=
  foldr N.mul 1%N (zip_with (fun d r => (d + r - 1) / r)%N (zip_with N.sub end_ start) req).

Section spec.
Context (vd dims : nat).

(** The evaluator returns a vector of floats for every element of the buffer of every chunk. *)
Definition total_evaluator (ov : nat) (ev : evaluator) : Prop := forall buf cs ce x,
  cs <> [] -> Forall2 lt cs ce -> float_array vd buf -> a_shape buf = (fun n => n + 2 * ov)%nat <$> vsub ce cs ->
  in_zbox (ext_start ov cs) (ext_end ov ce) x ->
  exists v, ev buf (ext_start ov cs) (ext_end ov ce) x = Some v /\ length v = vd /\ Forall (fun b => b < 2 ^ 32)%N v.

(** An array in state [S] that fills the box [gs, ge) may be rebuilt from [start] to [end_], where it becomes a part that starts at [ostart]. *)
Record ok_rebuild (S : lstate) (gs ge start end_ ostart req : list N) (ov : nat) (uuids : nat -> bytes) : Prop := {
  rb_hull : is_hull dims (ls_chunks S) gs ge;
  rb_full : ls_chunks S <> [] /\ gap_free (ls_chunks S) gs ge;
  rb_part : Forall2 N.le gs start /\ Forall2 N.le start end_ /\ Forall2 N.le end_ ge;
  (* the indices are in the range of int, also after the shift they fit *)
  rb_ints : Forall (fun x => x + N.of_nat ov < 2 ^ 31)%N ge;
  rb_shift : Forall2 (fun o se => o + (se.2 - se.1) + N.of_nat ov < 2 ^ 64)%N ostart (zip start end_);
  (* positive chunk size; the elements of a chunk with overlap can be counted *)
  rb_req : length req = dims /\ Forall (fun r => 0 < r < 2 ^ 64)%N req;
  rb_volume : (N.of_nat (volume ((fun r => N.to_nat r + 2 * ov)%nat <$> req)) * N.of_nat (vd + 1) < 2 ^ 32)%N;
  rb_ids : (chunk_count start end_ req <= 2 ^ 32)%N;
  (* names for all chunks, different from each other *)
  rb_names : (forall i, (N.of_nat i < chunk_count start end_ req)%N -> uuids i <> [] /\ (N.of_nat (length (uuids i)) < 2 ^ 64)%N /\ Forall (fun b => b < 256)%N (uuids i)) /\
    (forall i j, (N.of_nat i < chunk_count start end_ req)%N -> (N.of_nat j < chunk_count start end_ req)%N -> uuids i = uuids j -> i = j) }.

(** The chunks [T] are the box [start, end_) of the array, rebuilt. *)
Record rebuilt (S : lstate) (start end_ ostart req : list N) (ov : nat) (T : list chunk) : Prop := {
  (* they fill the box to which it goes *)
  rt_box : forall ind, (exists c, c ∈ T /\ covers c ind) <-> inbox ostart (zip_with N.add ostart (zip_with N.sub end_ start)) ind;
  rt_form : forall c, c ∈ T -> c_ov c = N.of_nat ov /\ Forall2 (fun r se => se.2 - se.1 <= r)%N req (zip (c_start c) (c_end c));
  (* what is stored in a chunk or its overlap for an index of the array is the value of the array *)
  rt_value : forall c c' ind, c ∈ ls_chunks S -> covers c ind -> c' ∈ T -> reach c' (shifted start ostart (zind ind)) ->
    comes_back NullSuppressed (value c ind) (zvalue c' (shifted start ostart (zind ind))) }.

(** What is stored in the overlap of the chunks outside the array, for the cylindrical rule: zero at non-negative radius, and at negative
    radius the value at the opposite radius, if that index is in the array. *)
Definition cylinder_rule (S : lstate) (gs ge start ostart : list N) (T : list chunk) : Prop :=
  forall c' x, c' ∈ T -> length x = length start -> reach c' (shifted start ostart x) ->
    (~ in_zbox (zind gs) (zind ge) x -> (0 <= radial x)%Z -> zvalue c' (shifted start ostart x) = replicate vd 0%N) /\
    ((radial x < 0)%Z -> forall c ind, c ∈ ls_chunks S -> covers c ind -> zind ind = mirror x ->
       comes_back NullSuppressed (value c ind) (zvalue c' (shifted start ostart x))).
(** What is stored in the overlap of the chunks outside the array, for an evaluator that only looks at the index: its value. *)
Definition outer_rule (gs ge start ostart : list N) (f : list Z -> list N) (T : list chunk) : Prop :=
  forall c' x, c' ∈ T -> length x = length start -> reach c' (shifted start ostart x) -> ~ in_zbox (zind gs) (zind ge) x -> zvalue c' (shifted start ostart x) = f x.
End spec.
