(** C33: re-chunking with a boundary evaluator that asks for the whole array, for all histories of the array ([session], LibrarySpec.v). *)
From stdpp Require Import base list list_numbers numbers option gmap countable sets.
From Coq Require Import NArith ZArith Lia.
From Verif Require Import IndexSpec NDArrayModel NDArrayProps StreamerModel StreamerProps CodecModel
  BBoxModel BBoxProps DownsampleModel DownsampleProps RTreeModel RTreeInsert RTreeRebuild RTreeProps ChunkMetaModel ChunkCacheModel ChunkCacheSpec ChunkCacheProofs ChunkCacheProps
  LibraryModel LibrarySpec LibraryProofs LibraryProofs2 LibraryProofs3 LibraryProofs4 LibraryProofs5 LibraryProofs6 LibraryProofs7 LibraryProps
  BoundaryModel BoundaryProps RebuildModel RebuildSpec RebuildProofs RebuildProofs2 RebuildProofs3 RebuildProofs4 RebuildProps RebuildWholeModel RebuildWhole.
From Verif Require Import IndexSpec LibrarySpec.

Section props.
Context (vd dims : nat) (junk : N) (L : lib) (W : list Z -> clib -> res (list N * clib)).
Local Notation session := (session vd dims junk L).
Local Notation zero := (replicate dims 0%N).

(** * The array that is a part of another one, rebuilt, in its own directory, as C33_partial_rebuild; what is stored outside the array is what
    the evaluator returns. *)
Theorem C33_whole_partial_rebuild l S gs ge start end_ ostart req ov uuids opt ord f size cs : lib_ok L -> asks_array vd dims junk L S gs ge W f -> (junk < 2 ^ 32)%N -> session l S ->
  ok_rebuild vd dims S gs ge start end_ ostart req ov uuids -> (forall k, ord k ≡ₚ k) -> acceptable_chunk dims cs ->
  exists l' d l2 S2, rebuild_partial_whole vd dims junk L W start end_ ostart req (Dir None ∅) ov opt uuids ord l = Done (l', d) /\ session l' S /\
    lib_open vd dims junk L size cs d = Done l2 /\ session l2 S2 /\ rebuilt S start end_ ostart req ov (ls_chunks S2) /\
    (opt = false -> forall c, c ∈ ls_chunks S2 -> c_null c = false) /\ outer_rule gs ge start ostart f (ls_chunks S2).
Proof using.
  intros HL HW Hj Hl Hok Hord Hcs. destruct (whole_partial_ok vd dims junk L HL W S gs ge f HW ov start end_ ostart req uuids opt Hok l ord Hj Hl Hord) as (l' & d & lt & T & E1 & H1 & Ht & Ec & Hr & _ & Hn & Ho).
  destruct (C53_closed_array_opens vd dims junk L lt T ord d size cs HL Ht Hord Hcs Ec) as (l2 & E2 & H2).
  exists l', d, l2, (reopened T cs). exact (conj E1 (conj H1 (conj E2 (conj H2 (conj Hr (conj Hn Ho)))))).
Qed.

(** The whole array, as C33_rebuild: the indices are those as before, each with its value, and outside the array the overlaps hold what the
    evaluator returns. *)
Theorem C33_whole_rebuild l S gs ge req ov uuids opt ord f : lib_ok L -> asks_array vd dims junk L S gs ge W f -> (junk < 2 ^ 32)%N -> session l S ->
  ok_rebuild vd dims S gs ge zero ge zero req ov uuids -> (ls_handed S + chunk_count zero ge req <= 2 ^ 32)%N -> (forall k, ord k ≡ₚ k) ->
  exists l' S', rebuild_whole vd dims junk L W req ov opt uuids ord l = Done l' /\ session l' S' /\ rebuilt S zero ge zero req ov (ls_chunks S') /\
    (forall c ind, c ∈ ls_chunks S -> covers c ind -> exists c', c' ∈ ls_chunks S' /\ covers c' ind /\ comes_back NullSuppressed (value c ind) (value c' ind)) /\
    (forall c' ind, c' ∈ ls_chunks S' -> covers c' ind -> exists c, c ∈ ls_chunks S /\ covers c ind) /\
    (opt = false -> forall c, c ∈ ls_chunks S' -> c_null c = false) /\
    (forall c' x, c' ∈ ls_chunks S' -> length x = dims -> reach c' x -> ~ in_zbox (zind gs) (zind ge) x -> zvalue c' x = f x).
Proof using.
  intros HL HW Hj Hl Hok Hids Hord. destruct (whole_rebuild_ok vd dims junk L HL W S gs ge f HW l req ov uuids opt ord Hj Hl Hok Hids Hord) as (l' & S' & E1 & H1 & Hr & Hn & Ho).
  destruct (rb_at _ _ _ _ _ _ _ _ _ _ _ Hok) as (Lg & Lh & _ & _ & _ & _ & Hat).
  assert (zip_with N.add zero (zip_with N.sub ge zero) = ge) as Ege.
  { apply eq_at. rewrite !zip_with_length, replicate_length. split; [lia|]. intros i Hi. rewrite !zip_at by (rewrite ?zip_with_length, ?replicate_length; lia). rewrite lookup_total_replicate_2 by lia. lia. }
  assert (gs = zero) as E0.
  { apply eq_at. rewrite replicate_length. split; [done|]. intros i Hi. destruct (Hat i Hi) as (A & _). rewrite lookup_total_replicate_2 in * by done. lia. }
  pose proof Hr as [Rb _ Rv]. rewrite Ege in Rb. destruct (rb_hull _ _ _ _ _ _ _ _ _ _ _ Hok) as (_ & _ & Hin & _). rewrite E0 in Hin.
  destruct (rb_full _ _ _ _ _ _ _ _ _ _ _ Hok) as [_ Hgf]. rewrite E0 in Hgf.
  exists l', S'. split; [exact E1|]. split; [exact H1|]. split; [exact Hr|]. split; [|split; [|split; [exact Hn|]]].
  - intros c ind Hc Hcov. pose proof (Hin c ind Hc Hcov) as Hi. destruct (proj2 (Rb ind) Hi) as (c' & Hc' & Hcov'). exists c'. split; [done|]. split; [done|].
    destruct (zvalue_in c' ind Hcov') as [Hre Hz]. rewrite <- Hz. pose proof (proj1 (proj1 (inbox_at _ _ _) Hi)) as Hli. rewrite replicate_length in Hli.
    assert (shifted zero zero (zind ind) = zind ind) as Es. { apply shifted_same. unfold zind. by rewrite fmap_length, replicate_length. }
    rewrite <- Es in Hre |- *. by eapply Rv.
  - intros c' ind Hc' Hcov'. apply Hgf, Rb. eauto.
  - intros c' x Hc' Hx Hre Hnot. pose proof (Ho c' x Hc') as Hf. rewrite replicate_length in Hf.
    rewrite (shifted_same zero x) in Hf by (by rewrite replicate_length). exact (Hf Hx Hre Hnot).
Qed.
(** Reading an element afterwards. *)
Theorem C33_whole_rebuilt_element l S gs ge req ov uuids opt ord f c ind : lib_ok L -> asks_array vd dims junk L S gs ge W f -> (junk < 2 ^ 32)%N -> session l S ->
  ok_rebuild vd dims S gs ge zero ge zero req ov uuids -> (ls_handed S + chunk_count zero ge req <= 2 ^ 32)%N -> (forall k, ord k ≡ₚ k) ->
  opt = false \/ ov = 0%nat \/ ~ null_vector (value c ind) -> c ∈ ls_chunks S -> covers c ind ->
  exists l' v l2, rebuild_whole vd dims junk L W req ov opt uuids ord l = Done l' /\ lib_get vd dims junk ind l' = Done (v, l2) /\ comes_back NullSuppressed (value c ind) v.
Proof using.
  intros HL HW Hj Hl Hok Hids Hord Hopt Hc Hcov. destruct (C33_whole_rebuild l S gs ge req ov uuids opt ord f HL HW Hj Hl Hok Hids Hord) as (l' & S' & E1 & H1 & Hr & Hv & _ & Hn & _).
  destruct (Hv c ind Hc Hcov) as (c' & Hc' & Hcov' & Hcb). destruct (C27_element_access vd dims junk L l' S' c' ind HL H1 Hc' Hcov') as (v & l2 & Hg & _ & Hcb2).
  { intros Hnull. destruct Hopt as [Ho|[->|Hnn]]; [rewrite (Hn Ho c' Hc') in Hnull; discriminate| |destruct Hnn; eapply comes_back_null; [exact Hcb|]; by eapply null_elements]. destruct (rt_form _ _ _ _ _ _ _ Hr c' Hc') as [-> _]. done. }
  exists l', v, l2. split; [exact E1|]. split; [exact Hg|]. by eapply comes_back_trans.
Qed.
End props.

(** What is stored for an index is a vector of floats. *)
Lemma float_value vd dims junk L l S gs ge start end_ ostart req ov uuids c ind : lib_ok L -> (junk < 2 ^ 32)%N -> session vd dims junk L l S ->
  ok_rebuild vd dims S gs ge start end_ ostart req ov uuids -> c ∈ ls_chunks S -> covers c ind ->
  exists v, comes_back NullSuppressed (value c ind) v /\ length v = vd /\ Forall (fun b => b < 2 ^ 32)%N v.
Proof.
  intros HL Hj Hl Hok Hc Hcov. pose proof (session_inv vd dims junk L HL l S Hl) as Hr. pose proof (lrep_dims _ _ _ _ Hr) as Hd.
  destruct (rb_at _ _ _ _ _ _ _ _ _ _ _ Hok) as (Lg & Lh & _ & _ & _ & _ & Hat).
  destruct (rb_hull _ _ _ _ _ _ _ _ _ _ _ Hok) as (_ & _ & Hin & _). pose proof (proj1 (inbox_at _ _ _) (Hin c ind Hc Hcov)) as (I1 & I2 & I3).
  assert (replicate dims 1%nat <> []) as Hne by (destruct dims; [lia|done]).
  assert (ok_fill vd dims (anew vd junk (replicate dims 1%nat)) ind (N.succ <$> ind) (replicate dims 0%N)) as Hf.
  { split.
    - by apply api_new.
    - rewrite replicate_length. lia.
    - apply nonempty_at. rewrite fmap_length. split; [done|]. intros i Hi. rewrite fmap_at by done. specialize (I3 i ltac:(lia)). destruct (Hat i ltac:(lia)) as (_ & _ & H & _). lia.
    - cbn [a_shape anew]. apply F2_at. rewrite !zip_with_length, !replicate_length, fmap_length. split; [lia|]. intros i Hi.
      rewrite !zip_at by (rewrite ?zip_with_length, ?replicate_length, ?fmap_length; lia). rewrite fmap_at by lia. rewrite !lookup_total_replicate_2 by lia. cbn [fst snd]. lia.
    - cbn [a_shape anew]. apply Forall_replicate. lia. }
  destruct (fill_ok vd dims junk l S _ _ _ _ Hr Hf) as (b & l' & _ & _ & [_ Hfl] & _ & Hv & _). specialize (Hfl (anew_float vd junk _ Hj Hne)).
  destruct (Hv c ind Hc) as (v & Hrd & Hcb); [|exact Hcov|].
  { apply inbox_at. rewrite fmap_length. split; [done|]. split; [done|]. intros i Hi. rewrite fmap_at by lia. lia. }
  exists v. split; [exact Hcb|]. exact (StreamerProofs.aread_words vd b _ v (proj2 Hfl) Hrd).
Qed.

(** * An evaluator that copies an element of the array, as the one in the repository's test (tests/internals/testDistributedNDVecArray.cxx:252-259):
    outside the array, the overlaps hold that element (the sign of a null vector apart). *)
Theorem C33_copied_element vd dims junk L l S gs ge req ov uuids opt ord c ind : lib_ok L -> (junk < 2 ^ 32)%N -> session vd dims junk L l S ->
  ok_rebuild vd dims S gs ge (replicate dims 0%N) ge (replicate dims 0%N) req ov uuids -> (ls_handed S + chunk_count (replicate dims 0%N) ge req <= 2 ^ 32)%N -> (forall k, ord k ≡ₚ k) ->
  c ∈ ls_chunks S -> covers c ind -> c_null c = false -> ~ null_vector (value c ind) \/ value c ind = replicate vd 0%N ->
  exists l' S', rebuild_whole vd dims junk L (fun _ => lib_get vd dims junk ind) req ov opt uuids ord l = Done l' /\ session vd dims junk L l' S' /\
    (forall c ind, c ∈ ls_chunks S -> covers c ind -> exists c', c' ∈ ls_chunks S' /\ covers c' ind /\ comes_back NullSuppressed (value c ind) (value c' ind)) /\
    (forall c' x, c' ∈ ls_chunks S' -> length x = dims -> reach c' x -> ~ in_zbox (zind gs) (zind ge) x -> zvalue c' x = value c ind).
Proof.
  intros HL Hj Hl Hok Hids Hord Hc Hcov Hn Hnn.
  assert (forall v, comes_back NullSuppressed (value c ind) v -> v = value c ind) as Hcb.
  { intros v [->|(_ & Hnull & ->)]; [done|]. destruct Hnn as [H|H]; [by destruct H|]. rewrite H, replicate_length. done. }
  assert (asks_array vd dims junk L S gs ge (fun _ => lib_get vd dims junk ind) (fun _ => value c ind)) as HW.
  { destruct (float_value vd dims junk L l S gs ge _ _ _ req ov uuids c ind HL Hj Hl Hok Hc Hcov) as (w & Hw & Lw & Fw). rewrite (Hcb w Hw) in Lw, Fw.
    intros x Hx. split; [exact Lw|]. split; [exact Fw|].
    intros _ l1 Hl1. destruct (C27_element_access vd dims junk L l1 S c ind HL Hl1 Hc Hcov) as (v & l2 & E & H2 & Hv); [congruence|]. rewrite (Hcb v Hv) in E. eauto. }
  destruct (C33_whole_rebuild vd dims junk L _ l S gs ge req ov uuids opt ord _ HL HW Hj Hl Hok Hids Hord) as (l' & S' & E & H1 & _ & Hv & _ & _ & Ho).
  exists l', S'. exact (conj E (conj H1 (conj Hv Ho))).
Qed.

(** ** The concrete array of RebuildProps: [1;2;3] at 0..2 and [8;9] at 3..4, rebuilt with chunks of size 2 and overlap 1; outside the array the
    evaluator returns the element at index 4. *)
Example C33_whole_nonvacuous : exists l c, session 1 1 0%N lib0 l (nv_S rb_C) /\
  ok_rebuild 1 1 (nv_S rb_C) [0]%N [5]%N (replicate 1 0%N) [5]%N (replicate 1 0%N) [2]%N 1 (fun i => [N.of_nat i + 100]%N) /\
  (ls_handed (nv_S rb_C) + chunk_count (replicate 1 0%N) [5]%N [2]%N <= 2 ^ 32)%N /\
  c ∈ ls_chunks (nv_S rb_C) /\ covers c [4]%N /\ c_null c = false /\ ~ null_vector (value c [4]%N) /\ value c [4]%N = [9]%N.
Proof.
  destruct rb_session as (l & _ & H). exists l, (nv_chunk 3 [8; 9]%N 8). split; [exact H|]. split; [exact rb_ok_rebuild|]. split; [done|]. split; [right; left|].
  split; [apply (nv_inbox 3 2); exists 4%N; split; [done|lia]|]. split; [done|]. split; [|reflexivity].
  change (value (nv_chunk 3 [8; 9]%N 8) [4]%N) with [9]%N. intros Hn. apply list.Forall_cons in Hn as [[Hn|Hn] _]; discriminate.
Qed.
Example ex_whole_stored :
  (nv_prog 1 [(0, [1; 2; 3], 7); (3, [8; 9], 8)]%N ≫= fun l => rebuild_whole 1 1 0%N lib0 (fun _ => lib_get 1 1 0%N [4]%N) [2]%N 1 false (fun i => [N.of_nat i + 100]%N) id l ≫= fun l =>
     of_opt (get_all_entries (l_tree l)) ≫= fun ms =>
     rfold (fun st m => retrieve_chunk 1 1 0%N m st.2 ≫= fun r => Done (st.1 ++ [a_data r.1], r.2)) ([], l_store l) ms ≫= fun st => Done (st.1 : list (list N)))
  = Done [[9; 1; 2; 3]; [2; 3; 8; 9]; [8; 9; 9]]%N.
Proof. vm_compute. reflexivity. Qed.

Print Assumptions C33_whole_partial_rebuild.
Print Assumptions C33_whole_rebuild.
Print Assumptions C33_whole_rebuilt_element.
Print Assumptions C33_copied_element.
