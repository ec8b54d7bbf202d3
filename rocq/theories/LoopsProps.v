(** Property theorems C02, C03. *)
From stdpp Require Import base list list_numbers numbers option sorting.
From Verif Require Import IndexSpec LoopsModel LoopsProofs.

(** C02: the element loop terminates and calls its worker for exactly the
    indices of the box, in strictly increasing row-major order (hence once). *)
Lemma elem_loop_visits b e fuel :
  length b = length e -> (loop_fuel e <= fuel)%nat ->
  exists trace, elem_loop fuel b e = Some trace /\
    (forall x, x ∈ trace <-> in_box b e x) /\ NoDup trace /\ StronglySorted lex_lt trace.
Proof.
  intros. exists (box_elems b e). split_and!.
  - by apply elem_loop_spec.
  - apply elem_of_box_elems.
  - apply box_elems_NoDup.
  - apply box_elems_sorted.
Qed.
Theorem C02_element_loop_exactly_once_in_order b e fuel :
  length b = length e -> (loop_fuel e <= fuel)%nat ->
  exists trace, elem_loop fuel b e = Some trace /\
    (forall x, x ∈ trace <-> in_box b e x) /\ NoDup trace /\ StronglySorted lex_lt trace.
Proof. exact (elem_loop_visits b e fuel). Qed.
Print Assumptions C02_element_loop_exactly_once_in_order.
Example C02_nonvacuous :
  elem_loop 5 [1; 0; 2] [3; 1; 4] = Some [[1;0;2]; [1;0;3]; [2;0;2]; [2;0;3]]%nat.
Proof. reflexivity. Qed.

(** Number of calls when looping over a whole array. *)
Theorem C02_element_loop_count sh fuel :
  (loop_fuel sh <= fuel)%nat ->
  exists trace, elem_loop fuel (replicate (length sh) 0%nat) sh = Some trace /\ length trace = volume sh.
Proof.
  intros. exists (box_elems (replicate (length sh) 0%nat) sh). split.
  - apply elem_loop_spec; [by rewrite replicate_length|done].
  - apply box_elems_length_shape.
Qed.
Print Assumptions C02_element_loop_count.

(** C03: the chunk loop terminates and its chunks tile the region; each is at
    most the requested size. *)
Lemma chunk_loop_tiles b e cs fuel :
  length b = length e -> length cs = length e -> Forall (fun c => 0 < c)%nat cs ->
  (loop_fuel e <= fuel)%nat ->
  exists chunks, chunk_loop fuel b e cs = Some chunks /\ tiles chunks b e /\
    (forall c, c ∈ chunks -> Forall2 le (vsub c.2 c.1) cs).
Proof.
  intros. exists (box_chunks fuel b e cs). split_and!.
  - by apply chunk_loop_spec.
  - by apply box_chunks_tiles.
  - intros c Hc. by apply box_chunks_sizes in Hc as (_ & _ & _ & ? & _).
Qed.
Theorem C03_chunk_loop_tiles b e cs fuel :
  length b = length e -> length cs = length e -> Forall (fun c => 0 < c)%nat cs ->
  (loop_fuel e <= fuel)%nat ->
  exists chunks, chunk_loop fuel b e cs = Some chunks /\ tiles chunks b e /\
    (forall c, c ∈ chunks -> Forall2 le (vsub c.2 c.1) cs).
Proof. exact (chunk_loop_tiles b e cs fuel). Qed.
Print Assumptions C03_chunk_loop_tiles.
Example C03_nonvacuous :
  chunk_loop 5 [0; 1] [3; 4] [2; 2] =
  Some [([0;1],[2;3]); ([0;3],[2;4]); ([2;1],[3;3]); ([2;3],[3;4])]%nat.
Proof. reflexivity. Qed.

(** A zero chunk size along a non-empty axis never terminates. *)
Theorem C03_zero_chunk_size_diverges_refuted :
  exists b e cs, (b < e)%nat /\ forall fuel, chunk_loop fuel [b] [e] [cs] = None.
Proof.
  exists 0%nat, 1%nat, 0%nat. split; [lia|]. intros fuel. unfold chunk_loop; simpl.
  by rewrite chunk_steps_diverges by lia.
Qed.
Print Assumptions C03_zero_chunk_size_diverges_refuted.

(** With size_t arithmetic the loop is the unbounded one as long as the
    region's end plus the chunk size is representable ... *)
Theorem C03_no_wraparound fuel cb e cs :
  (e + cs < 2 ^ 64)%N ->
  chunk_steps_w fuel cb e cs =
    fmap (M := option) (fmap (fun s : nat * nat => (N.of_nat s.1, N.of_nat s.2)))
      (chunk_steps fuel (N.to_nat cb) (N.to_nat e) (N.to_nat cs)).
Proof. exact (chunk_steps_w_nowrap fuel cb e cs). Qed.
Print Assumptions C03_no_wraparound.
Example C03_no_wraparound_nonvacuous : (7 + 3 < 2 ^ 64)%N.
Proof. reflexivity. Qed.

(** ... and also for every size_t chunk size, "infinite" ones included, if the region starts at 0
    and is shorter than 2^63. *)
Theorem C03_no_wraparound_from_zero fuel e cs :
  (e < 2 ^ 63)%N -> (cs < 2 ^ 64)%N ->
  chunk_steps_w fuel 0 e cs =
    fmap (M := option) (fmap (fun s : nat * nat => (N.of_nat s.1, N.of_nat s.2)))
      (chunk_steps fuel 0 (N.to_nat e) (N.to_nat cs)).
Proof.
  intros He Hcs. destruct (N.lt_ge_cases (e + cs) (2 ^ 64)) as [H|H].
  - by apply (chunk_steps_w_nowrap fuel 0).
  - assert (e <= cs)%N as Hec by lia. destruct fuel as [|f]; cbn [chunk_steps chunk_steps_w].
    + destruct (N.ltb_spec 0 e), (Nat.ltb_spec 0 (N.to_nat e)); try lia; done.
    + destruct (N.ltb_spec 0 e), (Nat.ltb_spec 0 (N.to_nat e)); try lia.
      rewrite N.add_0_l, N.mod_small, N.min_r by lia. rewrite Nat.min_r by lia.
      destruct f; cbn [chunk_steps chunk_steps_w]; rewrite N.ltb_irrefl, Nat.ltb_irrefl; simpl; by rewrite N2Nat.id.
Qed.
Print Assumptions C03_no_wraparound_from_zero.
Example C03_no_wraparound_from_zero_nonvacuous : chunk_steps_w 5 0 7 (2 ^ 64 - 1) = Some [(0, 7)]%N.
Proof. vm_compute. reflexivity. Qed.

(** ... but an "infinite" chunk size (2^64-1) on a region not starting at 0 wraps:
    [chunk_begin + chunk_size] = chunk_begin - 1, so
    the loop revisits index 0, which lies outside the requested region [1, 3). *)
Theorem C03_infinite_chunk_size_refuted :
  exists chunks, chunk_steps_w 5 1 3 (2 ^ 64 - 1) = Some chunks /\
    exists s, s ∈ chunks /\ (s.1 < 1)%N.
Proof.
  exists [(1, 0); (0, 3)]%N. split; [vm_compute; done|].
  exists (0, 3)%N. split; [right; left|]. done.
Qed.
Print Assumptions C03_infinite_chunk_size_refuted.

(** empty_range does not detect a range that is empty along one axis only. *)
Theorem C03_empty_range_refuted :
  exists b e, (forall x, ~ in_box b e x) /\ empty_range b e = false.
Proof.
  exists [0; 5]%nat, [3; 5]%nat. split; [|done].
  intros [|x0 [|x1 [|]]]; simpl; try tauto. lia.
Qed.
Print Assumptions C03_empty_range_refuted.
