(** C56: merging arrays, and re-chunking an array with several processes (merge_mpi_chunks, rechunk_mpi). *)
From stdpp Require Import base list list_numbers numbers option gmap countable sets.
From Coq Require Import NArith ZArith Lia.
From Verif Require Import IndexSpec LoopsModel LoopsProofs NDArrayModel NDArrayProofs NDArrayProps StreamerModel StreamerProps NullSupModel CodecModel
  BBoxModel BBoxProps DownsampleModel DownsampleProps
  RTreeModel RTreeInsert RTreeRebuild RTreeProps ChunkMetaModel ChunkMetaProps ChunkCacheModel ChunkCacheSpec ChunkCacheProofs ChunkCacheProofs2 ChunkCacheProofs3 ChunkCacheProps
  LibraryModel LibrarySpec LibraryProofs LibraryProofs2 LibraryProofs3 LibraryProofs4 LibraryProofs5 LibraryProofs6 LibraryProofs7 LibraryProps LibraryFiles LibraryFilesProps
  BoundaryModel BoundaryProps RebuildModel RebuildSpec RebuildProofs RebuildProofs2 RebuildProofs3 RebuildProofs4 PartitionModel PartitionProps ParallelModel ParallelSpec ParallelProofs ParallelProofs2 ParallelProofs3 RebuildProps.
From Verif Require Import IndexSpec LibrarySpec.

Local Opaque lib_open lib_close lib_geometry rebuild_partial lib_import merge_dirs rechunk_one_job rechunk_mpi.
Section props.
Context (vd dims : nat) (junk : N) (L : lib).
Local Notation session := (session vd dims junk L).
Local Notation holds_array := (holds_array vd dims junk L).
Local Notation zero := (replicate dims 0%N).

(** * Merging: the merged directory can be opened as an array with all the chunks of all the arrays and no others ... *)
Theorem C56_merge ds Ss ord size cs : lib_ok L -> (0 < dims)%nat -> Forall2 holds_array ds Ss -> ForallOrdPairs compatible (ls_chunks <$> Ss) ->
  (N.of_nat (length (mjoin (ls_chunks <$> Ss))) <= 2 ^ 32)%N -> (forall k, ord k ≡ₚ k) -> acceptable_chunk dims cs ->
  exists d l S, merge_dirs vd dims junk L ord ds = Done d /\ holds_array d S /\ lib_open vd dims junk L size cs d = Done l /\ session l (reopened S cs) /\
    ls_chunks S = mjoin (ls_chunks <$> Ss).
Proof using.
  intros HL Hd Hds Hop Hn Hord Hcs. destruct (merge_ok vd dims junk L HL ds Ss ord Hd Hds Hop Hn Hord) as (d & l & S & E & Hl & Hc & HS).
  destruct (C53_closed_array_opens vd dims junk L l S ord d size cs HL Hl Hord Hcs Hc) as (l2 & E2 & H2).
  exists d, l2, S. refine (conj E (conj _ (conj E2 (conj H2 HS)))). exists l, ord. exact (conj Hl (conj Hord Hc)).
Qed.
(** ... in which the elements of all the arrays are read. *)
Theorem C56_merged_element ds Ss ord size cs k S c ind : lib_ok L -> (0 < dims)%nat -> Forall2 holds_array ds Ss -> ForallOrdPairs compatible (ls_chunks <$> Ss) ->
  (N.of_nat (length (mjoin (ls_chunks <$> Ss))) <= 2 ^ 32)%N -> (forall k, ord k ≡ₚ k) -> acceptable_chunk dims cs ->
  Ss !! k = Some S -> c ∈ ls_chunks S -> covers c ind -> (c_null c = true -> c_ov c = 0%N) ->
  exists d l v l2, merge_dirs vd dims junk L ord ds = Done d /\ lib_open vd dims junk L size cs d = Done l /\ lib_get vd dims junk ind l = Done (v, l2) /\
    comes_back NullSuppressed (value c ind) v.
Proof using.
  intros HL Hd Hds Hop Hn Hord Hcs Hk Hc Hcov Hnull. destruct (C56_merge ds Ss ord size cs HL Hd Hds Hop Hn Hord Hcs) as (d & l & T & E & _ & E2 & H2 & HT).
  assert (c ∈ ls_chunks (reopened T cs)) as HcT. { cbn [reopened ls_chunks]. rewrite HT. apply elem_mjoin. exists k, (ls_chunks S). split; [by rewrite list_lookup_fmap, Hk|done]. }
  destruct (C27_element_access vd dims junk L l _ c ind HL H2 HcT Hcov Hnull) as (v & l2 & Hg & _ & Hv). exists d, l, v, l2. exact (conj E (conj E2 (conj Hg Hv))).
Qed.

(** * Re-chunking with [jobs] processes, from the directory [d] of an array without gaps from the origin to [ge]: whatever the number of
    processes, the result can be opened as an array that consists of chunks of the requested size and overlap, fills the box from the origin to
    the shape without the padding, and stores in each chunk, and in its overlap, the values of the array [pre] further. *)
Theorem C56_rechunk ev d S ge pre post req ov uuids ord ordm size cs size2 cs2 fuel p0 jobs : lib_ok L -> (0 < dims)%nat -> total_evaluator vd ov ev -> (junk < 2 ^ 32)%N ->
  holds_array d S -> ok_rechunk vd dims S ge pre post req ov uuids -> (forall n k, ord n k ≡ₚ k) -> (forall k, ordm k ≡ₚ k) -> acceptable_chunk dims cs -> acceptable_chunk dims cs2 ->
  (1 <= jobs <= fuel)%nat -> (2 * Z.of_nat jobs <= 2 ^ 31)%Z -> (1 <= p0)%nat -> (Z.of_nat p0 ^ Z.of_nat dims < 2 ^ 31)%Z ->
  exists dout l2 S2, rechunk_mpi vd dims junk L ev size cs (fun sh => get_partition_size fuel p0 sh (vto_nat req) jobs) pre post req ov uuids ord ordm jobs d = Done dout /\
    holds_array dout S2 /\ lib_open vd dims junk L size2 cs2 dout = Done l2 /\ session l2 (reopened S2 cs2) /\
    rebuilt S pre (zip_with N.sub ge post) zero req ov (ls_chunks S2) /\ N.of_nat (length (ls_chunks S2)) = chunk_count pre (zip_with N.sub ge post) req /\
    (ev = cylindrical vd -> cylinder_rule vd S zero ge pre zero (ls_chunks S2)).
Proof using.
  intros HL Hd Hev Hj Ha Hok Hord Hordm Hcs Hcs2 Hjobs Hjobs2 Hp0 Hpow.
  pose proof Hok as [(Lz & Lg & _) _ (Lp & Lpo & Hpad) _ Hints [Lr Hreq] _ _ _]. rewrite F1_at in Hints.
  set (rsh := zip_with N.sub (zip_with N.sub ge pre) post). assert (length rsh = dims) as Lrs by (unfold rsh; rewrite !zip_with_length; lia).
  assert (length (vto_nat rsh) = dims) as Lv by (unfold vto_nat; rewrite fmap_length; lia).
  destruct (partition_size_spec fuel p0 (vto_nat rsh) (vto_nat req) jobs) as (p & Hps & Hmul).
  - intros E. rewrite E in Lv. cbn in Lv. lia.
  - unfold vto_nat in *. rewrite fmap_length. lia.
  - apply F1_at. intros i Hi. unfold vto_nat. rewrite fmap_at by lia. specialize (Hpad i ltac:(lia)). specialize (Hints i ltac:(lia)). cbn beta in Hints. unfold rsh. rewrite !zip_at by (rewrite ?zip_with_length; lia). split; [lia|].
    assert (2 ^ 31 < 2 ^ 64)%Z by done. assert (2 ^ 31 = Z.of_N (2 ^ 31))%Z by done. lia.
  - apply F1_at. intros i Hi. unfold vto_nat in *. rewrite fmap_length in Hi. rewrite fmap_at by lia. rewrite F1_at in Hreq. specialize (Hreq i ltac:(lia)). cbn beta in Hreq. split; [lia|].
    assert (2 ^ 64 = Z.of_N (2 ^ 64))%Z by done. lia.
  - done.
  - done.
  - done.
  - by rewrite Lv.
  - assert (0 < jobs)%nat as Hj0 by lia.
    destruct (rechunk_ok vd dims junk L HL ev d S ge pre post req ov uuids ord ordm size cs (fun sh => get_partition_size fuel p0 sh (vto_nat req) jobs) p jobs Hd Hj0 Hev Hj Ha Hok Hord Hordm Hcs Hps Hmul) as (dout & l' & S' & E1 & Hl' & Hc' & R1 & R2 & R3).
    destruct (C53_closed_array_opens vd dims junk L l' S' ordm dout size2 cs2 HL Hl' Hordm Hcs2 Hc') as (l2 & E2 & H2).
    exists dout, l2, S'. refine (conj E1 (conj _ (conj E2 (conj H2 (conj R1 (conj R2 R3)))))). exists l', ordm. exact (conj Hl' (conj Hordm Hc')).
Qed.

(** Every element outside the padding is read afterwards at its index without the padding (a null element possibly not if there is overlap,
    cf. C27_null_overlap_refuted). *)
Theorem C56_rechunked_element ev d S ge pre post req ov uuids ord ordm size cs size2 cs2 fuel p0 jobs c ind : lib_ok L -> (0 < dims)%nat -> total_evaluator vd ov ev -> (junk < 2 ^ 32)%N ->
  holds_array d S -> ok_rechunk vd dims S ge pre post req ov uuids -> (forall n k, ord n k ≡ₚ k) -> (forall k, ordm k ≡ₚ k) -> acceptable_chunk dims cs -> acceptable_chunk dims cs2 ->
  (1 <= jobs <= fuel)%nat -> (2 * Z.of_nat jobs <= 2 ^ 31)%Z -> (1 <= p0)%nat -> (Z.of_nat p0 ^ Z.of_nat dims < 2 ^ 31)%Z ->
  c ∈ ls_chunks S -> covers c ind -> inbox pre (zip_with N.sub ge post) ind -> ov = 0%nat \/ ~ null_vector (value c ind) ->
  exists dout l2 v l3, rechunk_mpi vd dims junk L ev size cs (fun sh => get_partition_size fuel p0 sh (vto_nat req) jobs) pre post req ov uuids ord ordm jobs d = Done dout /\
    lib_open vd dims junk L size2 cs2 dout = Done l2 /\ lib_get vd dims junk (zip_with N.sub ind pre) l2 = Done (v, l3) /\ comes_back NullSuppressed (value c ind) v.
Proof using.
  intros HL Hd Hev Hj Ha Hok Hord Hordm Hcs Hcs2 Hjobs Hjobs2 Hp0 Hpow Hc Hcov Hind Hnn.
  destruct (C56_rechunk ev d S ge pre post req ov uuids ord ordm size cs size2 cs2 fuel p0 jobs HL Hd Hev Hj Ha Hok Hord Hordm Hcs Hcs2 Hjobs Hjobs2 Hp0 Hpow) as (dout & l2 & S2 & E1 & _ & E2 & H2 & [Rb Rf Rv] & _ & _).
  pose proof Hok as [_ _ (Lp & Lpo & Hpad) _ _ _ _ _ _]. apply inbox_at in Hind as (I1 & I2 & I3). rewrite !zip_with_length in I2.
  destruct (proj2 (Rb (zip_with N.sub ind pre))) as (c' & Hc' & Hcov').
  { apply inbox_at. rewrite !zip_with_length, replicate_length. split; [lia|]. split; [lia|]. intros i Hi. specialize (I3 i ltac:(lia)). rewrite !zip_at in * by (rewrite ?zip_with_length, ?replicate_length; lia).
    rewrite lookup_total_replicate_2 by lia. lia. }
  assert (zind (zip_with N.sub ind pre) = shifted pre zero (zind ind)) as Es.
  { unfold shifted, zind. apply eq_at. rewrite !zip_with_length, !fmap_length, !zip_with_length, replicate_length. split; [lia|]. intros i Hi. specialize (I3 i ltac:(lia)).
    rewrite fmap_at by (rewrite zip_with_length; lia). rewrite !zip_at by (rewrite ?zip_with_length, ?fmap_length, ?replicate_length; lia). rewrite fmap_at by lia. rewrite lookup_total_replicate_2 by lia. lia. }
  destruct (zvalue_in c' _ Hcov') as [Hre Hz]. assert (comes_back NullSuppressed (value c ind) (value c' (zip_with N.sub ind pre))) as Hcb. { rewrite <- Hz, Es. apply (Rv c c' ind); [done|done|done|]. by rewrite <- Es. }
  destruct (C27_element_access vd dims junk L l2 _ c' _ HL H2 Hc' Hcov') as (v & l3 & Hg & _ & Hv).
  { intros Hnull. destruct Hnn as [->|Hnn]; [destruct (Rf c' Hc') as [-> _]; done|]. destruct Hnn. eapply comes_back_null; [exact Hcb|]. by eapply null_elements. }
  exists dout, l2, v, l3. refine (conj E1 (conj E2 (conj Hg _))). by eapply comes_back_trans.
Qed.
End props.

(** ** A concrete case: [1;2;3] at 0..2 and [8;9] at 3..4; padding 1 before and after; chunks of size 2, overlap 1. *)
Definition pl_uuids (n i : nat) : bytes := [N.of_nat (100 + 10 * n + i)].
Lemma pl_ok_rechunk : ok_rechunk 1 1 (nv_S rb_C) [5]%N [1]%N [1]%N [2]%N 1 pl_uuids.
Proof.
  pose proof rb_ok_rebuild as []. assert (chunk_count [1]%N (zip_with N.sub [5]%N [1]%N) [2]%N = 2%N) as E2 by reflexivity. split; rewrite ?E2; try done.
  - split; [done|]. split; [done|]. intros [|i] Hi; [done|lia].
  - intros n i Hn Hi. unfold pl_uuids. split; [done|]. split; [done|]. split; [constructor; [lia|constructor]|]. intros m j Hm Hj E. assert (forall a b : N, [a] = [b] -> a = b) as Hinj by (intros a b [= ->]; done). apply Hinj in E. lia.
Qed.
Example C56_hypotheses_nonvacuous : lib_ok lib0 /\ total_evaluator 1 1 (cylindrical 1) /\ (exists d, holds_array 1 1 0%N lib0 d (nv_S rb_C)) /\
  ok_rechunk 1 1 (nv_S rb_C) [5]%N [1]%N [1]%N [2]%N 1 pl_uuids /\ (1 <= 3 <= 3)%nat /\ (Z.of_nat 3 ^ Z.of_nat 1 < 2 ^ 31)%Z /\
  exists c ind, c ∈ ls_chunks (nv_S rb_C) /\ covers c ind /\ inbox [1]%N (zip_with N.sub [5]%N [1]%N) ind /\ ~ null_vector (value c ind).
Proof.
  split; [exact lib0_ok|]. split; [apply cylindrical_total|]. split.
  { destruct rb_session as (l & _ & H). destruct (close_ok 1 1 l _ id (fun k => Permutation_refl k) (session_inv 1 1 0%N lib0 lib0_ok _ _ H)) as (d & Ed & _). exists d, l, id. exact (conj H (conj (fun k => Permutation_refl k) Ed)). }
  split; [exact pl_ok_rechunk|]. split; [lia|]. split; [done|]. exists (nv_chunk 0 [1; 2; 3]%N 7), [1]%N. split; [left|]. split; [apply (nv_inbox 0 3); exists 1%N; split; [done|lia]|]. split.
  - apply inbox_at. split; [done|]. split; [done|]. intros [|i] Hi; [cbn; lia|cbn in Hi; lia].
  - intros H. apply list.Forall_cons in H as [[H|H] _]; discriminate H.
Qed.
(** The two halves of the array above, in directories of their own, can be merged. *)
Example C56_merge_nonvacuous : exists d1 d2 S1 S2, Forall2 (holds_array 1 1 0%N lib0) [d1; d2] [S1; S2] /\ ForallOrdPairs compatible (ls_chunks <$> [S1; S2]) /\
  ls_chunks S1 = [nv_chunk 0 [1; 2; 3]%N 7] /\ ls_chunks S2 = [nv_chunk 3 [8; 9]%N 8].
Proof.
  destruct (nv_new 1) as (l0 & E0 & H0).
  destruct (nv_register l0 [] 0 [1; 2; 3]%N 7 H0) as (l1 & E1 & H1); [simpl; lia|discriminate|lia|lia|simpl; lia|exact nv_small1|constructor|].
  destruct (nv_register l0 [] 3 [8; 9]%N 8 H0) as (l2 & E2 & H2); [simpl; lia|discriminate|lia|lia|simpl; lia|exact nv_small2|constructor|].
  destruct (close_ok 1 1 l1 _ id (fun k => Permutation_refl k) (session_inv 1 1 0%N lib0 lib0_ok _ _ H1)) as (d1 & Ed1 & _).
  destruct (close_ok 1 1 l2 _ id (fun k => Permutation_refl k) (session_inv 1 1 0%N lib0 lib0_ok _ _ H2)) as (d2 & Ed2 & _).
  exists d1, d2, (nv_S [nv_chunk 0 [1; 2; 3]%N 7]), (nv_S [nv_chunk 3 [8; 9]%N 8]). split; [|split; [|split; reflexivity]].
  - constructor; [|constructor; [|constructor]]; [exists l1, id; exact (conj H1 (conj (fun k => Permutation_refl k) Ed1))|exists l2, id; exact (conj H2 (conj (fun k => Permutation_refl k) Ed2))].
  - constructor; [|constructor; [constructor|constructor]]. constructor; [|constructor]. intros c c2 Hc Hc2. apply elem_of_list_singleton in Hc as ->. apply elem_of_list_singleton in Hc2 as ->.
    split; [|by intros [= ?]]. intros ind I1 I2. refine (nv_apart 0 3 3 2 _ ind I1 I2). lia.
Qed.
Definition pl_dir (C : list (N * list N * N)) : res dir := nv_prog 1 C ≫= fun l => lib_close 1 1 id l.
Definition pl_read (r : res dir) : res (list (list N * list N)) := r ≫= fun d => rb_read (lib_open 1 1 0%N lib0 1 [1]%nat d).
Definition pl_rechunk (jobs : nat) (part : nat) (ov : nat) : res dir := pl_dir [(0, [1; 2; 3], 7); (3, [8; 9], 8)]%N ≫= fun d =>
  rechunk_mpi 1 1 0%N lib0 (cylindrical 1) 1 [1]%nat (fun _ => Some [part]) [1]%N [1]%N [2]%N ov pl_uuids (fun _ => id) id jobs d.
Example ex_rechunk_1 : pl_read (pl_rechunk 1 4 1) = Done [([0], [2]); ([1], [3]); ([2], [8])]%N.
Proof. vm_compute. reflexivity. Qed.
Example ex_rechunk_2 : pl_read (pl_rechunk 2 2 1) = Done [([0], [2]); ([1], [3]); ([2], [8])]%N.
Proof. vm_compute. reflexivity. Qed.
Example ex_rechunk_3 : pl_read (pl_rechunk 3 2 0) = Done [([0], [2]); ([1], [3]); ([2], [8])]%N.
Proof. vm_compute. reflexivity. Qed.
Example ex_merge : pl_read (pl_dir [(0, [1; 2; 3], 7)]%N ≫= fun d1 => pl_dir [(3, [8; 9], 8)]%N ≫= fun d2 => merge_dirs 1 1 0%N lib0 id [d1; d2])
  = Done [([0], [1]); ([1], [2]); ([2], [3]); ([3], [8]); ([4], [9])]%N.
Proof. vm_compute. reflexivity. Qed.
Print Assumptions C56_merge.
Print Assumptions C56_merged_element.
Print Assumptions C56_rechunk.
Print Assumptions C56_rechunked_element.
