(** C33 and C34: re-chunking, for all histories of the array ([session], LibrarySpec.v). *)
From stdpp Require Import base list list_numbers numbers option gmap countable sets.
From Coq Require Import NArith ZArith Lia.
From Verif Require Import IndexSpec NDArrayModel NDArrayProps StreamerModel StreamerProps CodecModel
  BBoxModel BBoxProps DownsampleModel DownsampleProps RTreeModel RTreeInsert RTreeRebuild RTreeProps ChunkMetaModel ChunkCacheModel ChunkCacheSpec ChunkCacheProofs ChunkCacheProps
  LibraryModel LibrarySpec LibraryProofs LibraryProofs2 LibraryProofs3 LibraryProofs4 LibraryProofs5 LibraryProofs6 LibraryProofs7 LibraryProps
  BoundaryModel BoundaryProps RebuildModel RebuildSpec RebuildProofs RebuildProofs2 RebuildProofs3 RebuildProofs4.
From Verif Require Import IndexSpec LibrarySpec.

Section props.
Context (vd dims : nat) (junk : N) (L : lib) (ev : evaluator).
Local Notation session := (session vd dims junk L).
Local Notation zero := (replicate dims 0%N).

(** * C33: the array that is a part of another one, rebuilt, in its own directory: it can be opened, and its chunks have the requested sizes,
    fill the part, and store the values of the array, in the overlaps too ([rebuilt]). *)
Theorem C33_partial_rebuild l S gs ge start end_ ostart req ov uuids opt ord size cs : lib_ok L -> total_evaluator vd ov ev -> (junk < 2 ^ 32)%N -> session l S ->
  ok_rebuild vd dims S gs ge start end_ ostart req ov uuids -> (forall k, ord k ≡ₚ k) -> acceptable_chunk dims cs ->
  exists l' d l2 S2, rebuild_partial vd dims junk L ev start end_ ostart req (Dir None ∅) ov opt uuids ord l = Done (l', d) /\ session l' S /\
    lib_open vd dims junk L size cs d = Done l2 /\ session l2 S2 /\ rebuilt S start end_ ostart req ov (ls_chunks S2) /\
    (opt = false -> forall c, c ∈ ls_chunks S2 -> c_null c = false).
Proof using.
  intros HL Hev Hj Hl Hok Hord Hcs. destruct (rebuild_partial_ok vd dims junk L HL ev l S gs ge start end_ ostart req ov uuids opt ord Hev Hj Hl Hok Hord) as (l' & d & lt & T & E1 & H1 & Ht & Ec & Hr & _ & Hn & _).
  destruct (C53_closed_array_opens vd dims junk L lt T ord d size cs HL Ht Hord Hcs Ec) as (l2 & E2 & H2).
  exists l', d, l2, (reopened T cs). exact (conj E1 (conj H1 (conj E2 (conj H2 (conj Hr Hn))))).
Qed.

(** The whole array, which must start at the origin: the indices are those as before, each with its value, and the chunks with their overlaps
    are as above. *)
Theorem C33_rebuild l S gs ge req ov uuids opt ord : lib_ok L -> total_evaluator vd ov ev -> (junk < 2 ^ 32)%N -> session l S ->
  ok_rebuild vd dims S gs ge zero ge zero req ov uuids -> (ls_handed S + chunk_count zero ge req <= 2 ^ 32)%N -> (forall k, ord k ≡ₚ k) ->
  exists l' S', rebuild vd dims junk L ev req ov opt uuids ord l = Done l' /\ session l' S' /\ rebuilt S zero ge zero req ov (ls_chunks S') /\
    (forall c ind, c ∈ ls_chunks S -> covers c ind -> exists c', c' ∈ ls_chunks S' /\ covers c' ind /\ comes_back NullSuppressed (value c ind) (value c' ind)) /\
    (forall c' ind, c' ∈ ls_chunks S' -> covers c' ind -> exists c, c ∈ ls_chunks S /\ covers c ind) /\
    (opt = false -> forall c, c ∈ ls_chunks S' -> c_null c = false).
Proof using.
  intros HL Hev Hj Hl Hok Hids Hord. destruct (rebuild_ok vd dims junk L HL ev l S gs ge req ov uuids opt ord Hev Hj Hl Hok Hids Hord) as (l' & S' & E1 & H1 & Hr & Hn & _).
  destruct (rb_at _ _ _ _ _ _ _ _ _ _ _ Hok) as (Lg & Lh & _ & _ & _ & _ & Hat).
  assert (zip_with N.add zero (zip_with N.sub ge zero) = ge) as Ege.
  { apply eq_at. rewrite !zip_with_length, replicate_length. split; [lia|]. intros i Hi. rewrite !zip_at by (rewrite ?zip_with_length, ?replicate_length; lia). rewrite lookup_total_replicate_2 by lia. lia. }
  assert (gs = zero) as E0.
  { apply eq_at. rewrite replicate_length. split; [done|]. intros i Hi. destruct (Hat i Hi) as (A & _). rewrite lookup_total_replicate_2 in * by done. lia. }
  pose proof Hr as [Rb _ Rv]. rewrite Ege in Rb. destruct (rb_hull _ _ _ _ _ _ _ _ _ _ _ Hok) as (_ & _ & Hin & _). rewrite E0 in Hin.
  destruct (rb_full _ _ _ _ _ _ _ _ _ _ _ Hok) as [_ Hgf]. rewrite E0 in Hgf.
  exists l', S'. split; [exact E1|]. split; [exact H1|]. split; [exact Hr|]. split; [|split; [|exact Hn]].
  - intros c ind Hc Hcov. pose proof (Hin c ind Hc Hcov) as Hi. destruct (proj2 (Rb ind) Hi) as (c' & Hc' & Hcov'). exists c'. split; [done|]. split; [done|].
    destruct (zvalue_in c' ind Hcov') as [Hre Hz]. rewrite <- Hz. pose proof (proj1 (proj1 (inbox_at _ _ _) Hi)) as Hli. rewrite replicate_length in Hli.
    assert (shifted zero zero (zind ind) = zind ind) as Es. { apply shifted_same. unfold zind. by rewrite fmap_length, replicate_length. }
    rewrite <- Es in Hre |- *. by eapply Rv.
  - intros c' ind Hc' Hcov'. apply Hgf, Rb. eauto.
Qed.
(** Reading an element afterwards (with the optimisation, overlap and a null value it may be in an all-null chunk with overlap, cf. C27_null_overlap_refuted). *)
Theorem C33_rebuilt_element l S gs ge req ov uuids opt ord c ind : lib_ok L -> total_evaluator vd ov ev -> (junk < 2 ^ 32)%N -> session l S ->
  ok_rebuild vd dims S gs ge zero ge zero req ov uuids -> (ls_handed S + chunk_count zero ge req <= 2 ^ 32)%N -> (forall k, ord k ≡ₚ k) ->
  opt = false \/ ov = 0%nat \/ ~ null_vector (value c ind) -> c ∈ ls_chunks S -> covers c ind ->
  exists l' v l2, rebuild vd dims junk L ev req ov opt uuids ord l = Done l' /\ lib_get vd dims junk ind l' = Done (v, l2) /\ comes_back NullSuppressed (value c ind) v.
Proof using.
  intros HL Hev Hj Hl Hok Hids Hord Hopt Hc Hcov. destruct (C33_rebuild l S gs ge req ov uuids opt ord HL Hev Hj Hl Hok Hids Hord) as (l' & S' & E1 & H1 & Hr & Hv & _ & Hn).
  destruct (Hv c ind Hc Hcov) as (c' & Hc' & Hcov' & Hcb). destruct (C27_element_access vd dims junk L l' S' c' ind HL H1 Hc' Hcov') as (v & l2 & Hg & _ & Hcb2).
  { intros Hnull. destruct Hopt as [Ho|[->|Hnn]]; [rewrite (Hn Ho c' Hc') in Hnull; discriminate| |destruct Hnn; eapply comes_back_null; [exact Hcb|]; by eapply null_elements]. destruct (rt_form _ _ _ _ _ _ _ Hr c' Hc') as [-> _]. done. }
  exists l', v, l2. split; [exact E1|]. split; [exact Hg|]. by eapply comes_back_trans.
Qed.
End props.

(** * With the cylindrical rule, the overlaps outside the array are zero at non-negative radius, and at negative radius they are mirrored.
    Partial: nothing is said about indices at negative radius whose mirror image is not in the array (cf. C45_corner_refuted). *)
Theorem C33_cylinder_partial vd dims junk L l S gs ge req ov uuids opt ord : lib_ok L -> (junk < 2 ^ 32)%N -> session vd dims junk L l S ->
  ok_rebuild vd dims S gs ge (replicate dims 0%N) ge (replicate dims 0%N) req ov uuids -> (ls_handed S + chunk_count (replicate dims 0%N) ge req <= 2 ^ 32)%N -> (forall k, ord k ≡ₚ k) ->
  exists l' S', rebuild vd dims junk L (cylindrical vd) req ov opt uuids ord l = Done l' /\ session vd dims junk L l' S' /\
    forall c' x, c' ∈ ls_chunks S' -> length x = dims -> reach c' x ->
      (~ in_zbox (zind gs) (zind ge) x -> (0 <= radial x)%Z -> zvalue c' x = replicate vd 0%N) /\
      ((radial x < 0)%Z -> forall c ind, c ∈ ls_chunks S -> covers c ind -> zind ind = mirror x -> comes_back NullSuppressed (value c ind) (zvalue c' x)).
Proof.
  intros HL Hj Hl Hok Hids Hord. destruct (rebuild_ok vd dims junk L HL (cylindrical vd) l S gs ge req ov uuids opt ord (cylindrical_total vd ov) Hj Hl Hok Hids Hord) as (l' & S' & E1 & H1 & _ & _ & Hcyl).
  exists l', S'. split; [exact E1|]. split; [exact H1|]. intros c' x Hc' Hx Hre. pose proof (Hcyl eq_refl c' x Hc') as Hc. rewrite replicate_length in Hc.
  rewrite (shifted_same (replicate dims 0%N) x) in Hc by (by rewrite replicate_length). exact (Hc Hx Hre).
Qed.

(** ** A concrete array: [1;2;3] at 0..2 and [8;9] at 3..4, rebuilt with chunks of size 2 and overlap 1. *)
Definition rb_prog (C : list (N * list N * N)) (req : list N) (ov : nat) : res clib :=
  l ← nv_prog 1 C; rebuild 1 1 0%N lib0 (cylindrical 1) req ov false (fun i => [N.of_nat i + 100]%N) id l.
Definition rb_C : list chunk := [nv_chunk 0 [1; 2; 3]%N 7; nv_chunk 3 [8; 9]%N 8].
Lemma rb_session : exists l, nv_prog 1 [(0, [1; 2; 3], 7); (3, [8; 9], 8)]%N = Done l /\ session 1 1 0%N lib0 l (nv_S rb_C).
Proof.
  destruct (nv_new 1) as (l0 & E0 & H0).
  destruct (nv_register l0 [] 0 [1; 2; 3]%N 7 H0) as (l1 & E1 & H1); [simpl; lia|discriminate|lia|lia|simpl; lia|exact nv_small1|constructor|].
  destruct (nv_register l1 _ 3 [8; 9]%N 8 H1) as (l2 & E2 & H2); [simpl; lia|discriminate|lia|lia|simpl; lia|exact nv_small2| |].
  { constructor; [|constructor]. split; [|done]. intros ind I1 I2. refine (nv_apart 0 3 3 2 _ ind I2 I1). lia. }
  exists l2. split; [|exact H2]. unfold nv_prog. rewrite E0. cbn [mbind res_bind rfold]. rewrite E1. cbn [mbind res_bind rfold]. rewrite E2. reflexivity.
Qed.
Lemma rb_ok_rebuild : ok_rebuild 1 1 (nv_S rb_C) [0]%N [5]%N [0]%N [5]%N [0]%N [2]%N 1 (fun i => [N.of_nat i + 100]%N).
Proof.
  assert (forall x, covers (nv_chunk 0 [1; 2; 3]%N 7) [x] <-> (0 <= x < 3)%N) as H1.
  { intros x. unfold covers. cbn [c_start c_end nv_chunk]. rewrite (nv_inbox 0 3). split; [by intros (y & [= <-] & Hy)|eauto]. }
  assert (forall x, covers (nv_chunk 3 [8; 9]%N 8) [x] <-> (3 <= x < 5)%N) as H2.
  { intros x. unfold covers. cbn [c_start c_end nv_chunk]. rewrite (nv_inbox 3 2). split; [by intros (y & [= <-] & Hy)|eauto]. }
  assert (forall c ind, c ∈ rb_C -> covers c ind -> exists x, ind = [x] /\ (0 <= x < 5)%N) as H3.
  { intros c ind Hc Hcov. unfold rb_C in Hc. apply elem_of_cons in Hc as [->|Hc]; [|apply elem_of_list_singleton in Hc as ->].
    - apply (nv_inbox 0 3) in Hcov as (x & -> & Hx). exists x. split; [done|lia].
    - apply (nv_inbox 3 2) in Hcov as (x & -> & Hx). exists x. split; [done|lia]. }
  assert (chunk_count [0]%N [5]%N [2]%N = 3%N) as Hc3 by reflexivity.
  split; rewrite ?Hc3.
  - split; [done|]. split; [done|]. split; [intros c ind Hc Hcov; destruct (H3 c ind Hc Hcov) as (x & -> & Hx); apply (nv_inbox 0 5); eauto|]. split.
    + intros [|i] x Hx; [|done]. exists (nv_chunk 0 [1; 2; 3]%N 7). split; [left|]. exact Hx.
    + intros [|i] x Hx; [|done]. exists (nv_chunk 3 [8; 9]%N 8). split; [right; left|]. exact Hx.
  - split; [done|]. intros ind (x & -> & Hx)%(nv_inbox 0 5). destruct (decide (x < 3)%N) as [Hlt|Hge].
    + exists (nv_chunk 0 [1; 2; 3]%N 7). split; [left|]. apply H1. lia.
    + exists (nv_chunk 3 [8; 9]%N 8). split; [right; left|]. apply H2. lia.
  - split_and!; constructor; constructor || lia.
  - constructor; [lia|constructor].
  - constructor; [cbn [fst snd]; lia|constructor].
  - split; [done|]. constructor; [lia|constructor].
  - done.
  - done.
  - split.
    + intros i Hi. split; [done|]. split; [done|]. constructor; [lia|constructor].
    + intros i j Hi Hj [= E]. lia.
Qed.
Example C33_hypotheses_nonvacuous : lib_ok lib0 /\ total_evaluator 1 1 (cylindrical 1) /\ (exists l, session 1 1 0%N lib0 l (nv_S rb_C)) /\
  ok_rebuild 1 1 (nv_S rb_C) [0]%N [5]%N (replicate 1 0%N) [5]%N (replicate 1 0%N) [2]%N 1 (fun i => [N.of_nat i + 100]%N) /\
  (ls_handed (nv_S rb_C) + chunk_count (replicate 1 0%N) [5]%N [2]%N <= 2 ^ 32)%N.
Proof.
  split; [exact lib0_ok|]. split; [apply cylindrical_total|]. split; [destruct rb_session as (l & _ & H); eauto|]. split; [exact rb_ok_rebuild|]. done.
Qed.
Definition rb_read (r : res clib) : res (list (list N * list N)) := r ≫= fun l => lib_loop 1 1 0%N [0]%N [30]%N l ≫= fun x => Done x.1.
Example ex_rebuild : rb_read (rb_prog [(0, [1; 2; 3], 7); (3, [8; 9], 8)]%N [2]%N 1) = Done [([0], [1]); ([1], [2]); ([2], [3]); ([3], [8]); ([4], [9])]%N.
Proof. vm_compute. reflexivity. Qed.
(** What the three chunks of the rebuilt array store, with their overlaps: index -1 is the mirror image of index 1 (the only axis is the radial
    one), index 5 is outside the array. *)
Example ex_rebuild_stored :
  (rb_prog [(0, [1; 2; 3], 7); (3, [8; 9], 8)]%N [2]%N 1 ≫= fun l => of_opt (get_all_entries (l_tree l)) ≫= fun ms =>
     rfold (fun st m => retrieve_chunk 1 1 0%N m st.2 ≫= fun r => Done (st.1 ++ [a_data r.1], r.2)) ([], l_store l) ms ≫= fun st => Done (st.1 : list (list N)))
  = Done [[2; 1; 2; 3]; [2; 3; 8; 9]; [8; 9; 0]]%N.
Proof. vm_compute. reflexivity. Qed.

(** * C34 is false: RebuildChunks runs over [0, shape), where shape is that of the hull, or zero if there are gaps
    (DistributedNDVecArray.hxx:1349-1352).  An array with a gap is empty afterwards: *)
Theorem C34_gap_refuted :
  rb_read (nv_prog 1 [(10, [1; 2; 3], 7); (20, [8; 9], 8)]%N) = Done [([10], [1]); ([11], [2]); ([12], [3]); ([20], [8]); ([21], [9])]%N /\
  rb_read (rb_prog [(10, [1; 2; 3], 7); (20, [8; 9], 8)]%N [2]%N 1) = Done [].
Proof. split; vm_compute; reflexivity. Qed.
(** An array that starts at index 2 loses its last two elements, and gets two new ones, which are zero: *)
Theorem C34_offset_refuted :
  rb_read (nv_prog 1 [(2, [1; 2; 3], 7)]%N) = Done [([2], [1]); ([3], [2]); ([4], [3])]%N /\
  rb_read (rb_prog [(2, [1; 2; 3], 7)]%N [2]%N 1) = Done [([0], [0]); ([1], [0]); ([2], [1])]%N.
Proof. split; vm_compute; reflexivity. Qed.
(** What holds: an array that starts at the origin and has no gaps keeps every element (C33_rebuilt_element says more). *)
Theorem C34_full_arrays_partial vd dims junk L ev l S gs ge req ov uuids opt ord l' : lib_ok L -> total_evaluator vd ov ev -> (junk < 2 ^ 32)%N -> session vd dims junk L l S ->
  ok_rebuild vd dims S gs ge (replicate dims 0%N) ge (replicate dims 0%N) req ov uuids -> (ls_handed S + chunk_count (replicate dims 0%N) ge req <= 2 ^ 32)%N -> (forall k, ord k ≡ₚ k) ->
  rebuild vd dims junk L ev req ov opt uuids ord l = Done l' ->
  forall c ind, c ∈ ls_chunks S -> covers c ind -> opt = false \/ ov = 0%nat \/ ~ null_vector (value c ind) -> exists v l2, lib_get vd dims junk ind l' = Done (v, l2) /\ comes_back NullSuppressed (value c ind) v.
Proof.
  intros HL Hev Hj Hl Hok Hids Hord Er c ind Hc Hcov Hopt.
  destruct (C33_rebuilt_element vd dims junk L ev l S gs ge req ov uuids opt ord c ind HL Hev Hj Hl Hok Hids Hord Hopt Hc Hcov) as (l1 & v & l2 & Er' & Hg & Hv).
  rewrite Er in Er'. injection Er' as <-. exists v, l2. split; [exact Hg|exact Hv].
Qed.
Print Assumptions C33_partial_rebuild.
Print Assumptions C33_rebuild.
Print Assumptions C33_rebuilt_element.
Print Assumptions C33_cylinder_partial.
Print Assumptions C34_gap_refuted.
Print Assumptions C34_offset_refuted.
Print Assumptions C34_full_arrays_partial.
