(** Proofs about re-chunking, part 4: RebuildChunksPartial and RebuildChunks. *)
From stdpp Require Import base list list_numbers numbers option gmap countable sets.
From Coq Require Import NArith ZArith Lia.
From Verif Require Import IndexSpec LoopsModel LoopsProofs NDArrayModel NDArrayProofs NDArrayOps NDArrayOps2 NDArrayOps3 NDArrayProps StreamerModel StreamerProps NullSupModel CodecModel
  BBoxModel BBoxProps DownsampleModel DownsampleProps
  RTreeModel RTreeInsert RTreeRebuild RTreeProps ChunkMetaModel ChunkMetaProps ChunkCacheModel ChunkCacheSpec ChunkCacheProofs ChunkCacheProofs2 ChunkCacheProofs3 ChunkCacheProps
  LibraryModel LibrarySpec LibraryProofs LibraryProofs2 LibraryProofs3 LibraryProofs4 LibraryProofs5 LibraryProofs6 LibraryProofs7 LibraryProps
  BoundaryModel BoundaryProps RebuildModel RebuildSpec RebuildProofs RebuildProofs2 RebuildProofs3.
From Verif Require Import IndexSpec LibrarySpec.

Lemma anew_float vd (junk : N) sh : (junk < 2 ^ 32)%N -> sh <> [] -> float_array vd (anew vd junk sh).
Proof. intros Hj Hsh. split; [by apply api_new|]. cbn [a_data anew]. by apply Forall_replicate. Qed.

Lemma zvalue_in c ind : covers c ind -> reach c (zind ind) /\ zvalue c (zind ind) = value c ind.
Proof.
  intros (I1 & I2 & I3)%inbox_at. unfold reach, zvalue, value, position, zind. split.
  - apply in_zbox_at. rewrite !fmap_length. split; [lia|]. split; [lia|]. intros i Hi. rewrite !fmap_at by lia. specialize (I3 i ltac:(lia)). lia.
  - f_equal. apply eq_at. rewrite !zip_with_length, fmap_length. split; [lia|]. intros i Hi. rewrite !zip_at by (rewrite ?fmap_length; lia). rewrite fmap_at by lia. specialize (I3 i ltac:(lia)). lia.
Qed.
Lemma shifted_same v x : length x = length v -> shifted v v x = x.
Proof.
  intros Hl. unfold shifted. apply eq_at. rewrite !zip_with_length. split; [lia|]. intros i Hi. rewrite !zip_at by (rewrite ?zip_with_length; lia). lia.
Qed.

Section rb.
Context (vd dims : nat) (junk : N) (L : lib) (HL : lib_ok L) (ev : evaluator).
Notation session := (session vd dims junk L).

Lemma rebuild_partial_named l S gs ge start end_ ostart req ov uuids opt ord : total_evaluator vd ov ev -> (junk < 2 ^ 32)%N -> session l S ->
  ok_rebuild vd dims S gs ge start end_ ostart req ov uuids -> (forall k, ord k ≡ₚ k) ->
  exists l' d l2 T, rebuild_partial vd dims junk L ev start end_ ostart req (Dir None ∅) ov opt uuids ord l = Done (l', d) /\ session l' S /\
    session l2 T /\ lib_close vd dims ord l2 = Done d /\ rebuilt S start end_ ostart req ov (ls_chunks T) /\
    N.of_nat (length (ls_chunks T)) = chunk_count start end_ req /\
    (opt = false -> forall c, c ∈ ls_chunks T -> c_null c = false) /\ (ev = cylindrical vd -> cylinder_rule vd S gs ge start ostart (ls_chunks T)) /\
    (forall c, c ∈ ls_chunks T -> c_file c = [] \/ exists j, (N.of_nat j < chunk_count start end_ req)%N /\ c_file c = uuids j).
Proof using HL.
  intros Hev Hj Hl Hok Hord. pose proof (lrep_dims _ _ _ _ (session_inv vd dims junk L HL l S Hl)) as Hd.
  destruct (rb_at _ _ _ _ _ _ _ _ _ _ _ Hok) as (Lg & Lh & Ls & Le & Lo & Lr & Hat).
  destruct (open_new vd dims junk L HL 0 (rebuild_cs dims) (rebuild_cs_ok dims Hd)) as (dst & Edst & _).
  pose proof (ss_new vd dims junk L _ _ _ (rebuild_cs_ok dims Hd) Edst) as Hdst.
  destruct (geometry_lib_ok vd dims l S (session_inv vd dims junk L HL l S Hl)) as (g & l0 & Eg & Hl0 & Hgeo).
  pose proof (ss_geometry vd dims junk L _ _ _ _ Hl Eg) as Hs0.
  destruct (rb_full _ _ _ _ _ _ _ _ _ _ _ Hok) as [Hne Hgf]. destruct Hgeo as [_ Hgeo]. destruct (Hgeo Hne) as (Hhull & Hgne & _). clear Hgeo.
  assert (g_start g = gs /\ g_end g = ge) as [Egs Ege].
  { apply (hull_unique dims (ls_chunks S)); [|done|by apply (rb_hull _ _ _ _ _ _ _ _ _ _ _ Hok)]. intros c Hc. destruct Hl0 as (M & sz & H & Hr).
    apply elem_of_list_lookup in Hc as [i Hi]. destruct (lrep_get _ _ _ _ _ _ _ _ _ Hr Hi) as (m & _ & Hm & _). split; [apply Hm|apply Hm]. }
  assert (Forall (fun c => 0 < c)%nat (vto_nat req)) as Hpos.
  { unfold vto_nat. apply Forall_fmap, F1_at. intros i Hi. destruct (Hat i ltac:(lia)) as (_ & _ & _ & _ & H). cbn. lia. }
  set (chunks := box_chunks (loop_fuel (vto_nat end_)) (vto_nat start) (vto_nat end_) (vto_nat req)).
  assert (chunk_loop (loop_fuel (vto_nat end_)) (vto_nat start) (vto_nat end_) (vto_nat req) = Some chunks) as Ech.
  { apply chunk_loop_spec; [unfold vto_nat; rewrite !fmap_length; lia|unfold vto_nat; rewrite !fmap_length; lia|done|done]. }
  assert (N.of_nat (length chunks) = chunk_count start end_ req) as Hcount.
  { apply chunks_len; [lia|lia| |done]. apply F1_at. intros i Hi. destruct (Hat i ltac:(lia)) as (_ & _ & _ & _ & H). lia. }
  assert (Forall (piece dims start end_ req) chunks) as Hp.
  { apply list.Forall_forall. intros [cs ce] Hc. apply box_chunks_sizes in Hc as (A1 & A2 & A3 & A4 & A5 & A6); [|done]. cbn [fst snd] in *.
    unfold vto_nat in *. rewrite fmap_length in A1, A2. split; cbn [fst snd]; [lia|]. split; [lia|]. intros i Hi. rewrite F2_at in A3, A4, A5, A6.
    destruct A3 as [_ A3], A4 as [_ A4], A5 as [_ A5], A6 as [_ A6]. rewrite fmap_length in A4, A6. specialize (A3 i ltac:(lia)). specialize (A4 i ltac:(lia)). specialize (A5 i ltac:(lia)). specialize (A6 i ltac:(lia)).
    rewrite fmap_at in A4, A5, A6 by lia. unfold vsub in A4. rewrite zip_at in A4 by lia. lia. }
  destruct (rebuild_fold vd dims junk L HL ov ev Hev S gs ge start end_ ostart req uuids opt Hok chunks Hj Hp) with (rest := chunks) (done_ := @nil (list nat * list nat)) (buf := anew vd junk (vto_nat req))
    (src := l0) (dst := dst) (Tc := @nil chunk) as (b & l1 & dst1 & Tc & Ef & H1 & H2 & H3 & H4).
  - by apply box_chunks_disjoint.
  - exact Hcount.
  - done.
  - apply anew_float; [done|]. destruct req; [cbn in Lr; lia|done].
  - done.
  - exact Hdst.
  - constructor.
  - intros c Hc. destruct (proj1 (elem_of_nil c) Hc).
  - destruct (flush_ok vd dims dst1 _ ord Hord (session_inv vd dims junk L HL _ _ H2)) as (dst2 & E2 & _ & _).
    pose proof (ss_flush vd dims junk L _ _ _ _ H2 Hord E2) as Hs2.
    destruct (close_ok vd dims dst2 _ ord Hord (session_inv vd dims junk L HL _ _ Hs2)) as (d & Ed & _).
    exists l1, d, dst2. eexists. split; [|split; [exact H1|split; [exact Hs2|split; [exact Ed|]]]].
    + unfold rebuild_partial. rewrite Edst. cbn [mbind res_bind]. rewrite Eg. cbn [mbind res_bind]. rewrite Ech. cbn [of_opt mbind res_bind]. rewrite Egs, Ege.
      cbn [length Nat.add] in Ef. rewrite Ef. cbn [mbind res_bind]. rewrite E2. cbn [mbind res_bind]. rewrite Ed. reflexivity.
    + cbn [ls_chunks]. destruct (rebuilt_of vd dims ov ev S gs ge start end_ ostart req uuids opt Hok Tc chunks eq_refl H3) as (R1 & R2 & R3 & _).
      split; [exact R1|]. split; [|split; [exact R2|split; [exact R3|]]]; [rewrite <- Hcount; f_equal; by eapply Forall2_length|].
      intros c Hc. destruct (H4 c Hc) as [E|(j & Hlt & E)]; [by left|right]. exists j. split; [|done]. rewrite <- Hcount. lia.
Qed.

Lemma rebuild_partial_ok l S gs ge start end_ ostart req ov uuids opt ord : total_evaluator vd ov ev -> (junk < 2 ^ 32)%N -> session l S ->
  ok_rebuild vd dims S gs ge start end_ ostart req ov uuids -> (forall k, ord k ≡ₚ k) ->
  exists l' d l2 T, rebuild_partial vd dims junk L ev start end_ ostart req (Dir None ∅) ov opt uuids ord l = Done (l', d) /\ session l' S /\
    session l2 T /\ lib_close vd dims ord l2 = Done d /\ rebuilt S start end_ ostart req ov (ls_chunks T) /\
    N.of_nat (length (ls_chunks T)) = chunk_count start end_ req /\
    (opt = false -> forall c, c ∈ ls_chunks T -> c_null c = false) /\ (ev = cylindrical vd -> cylinder_rule vd S gs ge start ostart (ls_chunks T)).
Proof using HL.
  intros Hev Hj Hl Hok Hord. destruct (rebuild_partial_named l S gs ge start end_ ostart req ov uuids opt ord Hev Hj Hl Hok Hord) as (l' & d & l2 & T & H1 & H2 & H3 & H4 & H5 & H6 & H7 & H8 & _).
  exists l', d, l2, T. exact (conj H1 (conj H2 (conj H3 (conj H4 (conj H5 (conj H6 (conj H7 H8))))))).
Qed.

Lemma lib_clear_files ord l l' : lib_clear vd dims ord l = Done l' -> s_files (l_store l') = ∅.
Proof using.
  unfold lib_clear, clear_cache. destruct (rt_clear meta0 dims (l_tree l)) as [t|]; [|done]. cbn [of_opt mbind res_bind].
  destruct (flush_cache vd dims ord (l_store l)) as [s| |]; cbn [mbind res_bind]; try done. intros H. by injection H as <-.
Qed.

Lemma rebuild_phases l S gs ge req ov uuids opt ord : total_evaluator vd ov ev -> (junk < 2 ^ 32)%N -> session l S ->
  ok_rebuild vd dims S gs ge (replicate dims 0%N) ge (replicate dims 0%N) req ov uuids -> (ls_handed S + chunk_count (replicate dims 0%N) ge req <= 2 ^ 32)%N -> (forall k, ord k ≡ₚ k) ->
  exists g l0 l1 d lt T l2 l3 d3 l4, lib_geometry dims l = Done (g, l0) /\ g_shape g = ge /\
    rebuild_partial vd dims junk L ev (replicate dims 0%N) ge (replicate dims 0%N) req (Dir None ∅) ov opt uuids ord l0 = Done (l1, d) /\ session l1 S /\
    session lt T /\ lib_close vd dims ord lt = Done d /\ rebuilt S (replicate dims 0%N) ge (replicate dims 0%N) req ov (ls_chunks T) /\
    (opt = false -> forall c, c ∈ ls_chunks T -> c_null c = false) /\
    (ev = cylindrical vd -> cylinder_rule vd S gs ge (replicate dims 0%N) (replicate dims 0%N) (ls_chunks T)) /\
    lib_clear vd dims ord l1 = Done l2 /\ session l2 (cleared S) /\ lib_import dims L d false l2 = Done (l3, d3) /\
    session l3 (imported (cleared S) T) /\ lib_flush vd dims ord l3 = Done l4 /\ session l4 (imported (cleared S) T).
Proof using HL.
  intros Hev Hj Hl Hok Hids Hord. destruct (rb_at _ _ _ _ _ _ _ _ _ _ _ Hok) as (Lg & Lh & Ls & Le & Lo & Lr & Hat).
  destruct (geometry_lib_ok vd dims l S (session_inv vd dims junk L HL l S Hl)) as (g & l0 & Eg & Hl0 & Hgeo).
  pose proof (ss_geometry vd dims junk L _ _ _ _ Hl Eg) as Hs0.
  destruct (rb_full _ _ _ _ _ _ _ _ _ _ _ Hok) as [Hne Hgf]. destruct Hgeo as [_ Hgeo]. destruct (Hgeo Hne) as (Hhull & Hgne & Hshape). clear Hgeo.
  assert (g_start g = gs /\ g_end g = ge) as [Egs Ege].
  { apply (hull_unique dims (ls_chunks S)); [|done|by apply (rb_hull _ _ _ _ _ _ _ _ _ _ _ Hok)]. intros c Hc. destruct Hl0 as (M & sz & H & Hr).
    apply elem_of_list_lookup in Hc as [i Hi]. destruct (lrep_get _ _ _ _ _ _ _ _ _ Hr Hi) as (m & _ & Hm & _). split; [apply Hm|apply Hm]. }
  rewrite Egs, Ege in *. clear Egs.
  assert (gs = replicate dims 0%N) as E0.
  { apply eq_at. rewrite replicate_length. split; [done|]. intros i Hi. destruct (Hat i Hi) as (A & _). rewrite lookup_total_replicate_2 in * by done. lia. }
  assert (count gs ge < 2 ^ 64)%N as Hcnt.
  { subst gs. eapply N.le_lt_trans; [apply (count_bound _ _ req)|].
    - rewrite replicate_length. lia.
    - lia.
    - apply F1_at. intros i Hi. destruct (Hat i ltac:(lia)) as (_ & _ & _ & _ & H). lia.
    - pose proof (rb_volume _ _ _ _ _ _ _ _ _ _ _ Hok) as Hv. pose proof (rb_ids _ _ _ _ _ _ _ _ _ _ _ Hok) as Hi.
      assert (volume (vto_nat req) <= volume ((fun r => N.to_nat r + 2 * ov)%nat <$> req))%nat as Hm.
      { apply volume_mono, F2_at. unfold vto_nat. rewrite !fmap_length. split; [done|]. intros i Hi'. rewrite !fmap_at by lia. lia. }
      set (V := volume (vto_nat req)) in *. set (V' := volume _) in *. set (K := chunk_count _ _ _) in *. clearbody V V' K.
      assert (N.of_nat V < 2 ^ 32)%N. { apply inj_le in Hm. eapply N.le_lt_trans; [|exact Hv]. nia. } nia. }
  assert (g_shape g = ge) as Esh.
  { destruct (Hshape Hcnt) as [Hs _]. rewrite (Hs Hgf). subst gs. apply eq_at. rewrite zip_with_length, replicate_length. split; [lia|]. intros i Hi. rewrite zip_at by (rewrite ?replicate_length; lia).
    rewrite lookup_total_replicate_2 by lia. lia. }
  destruct (rebuild_partial_ok l0 S gs ge _ _ _ req ov uuids opt ord Hev Hj Hs0 Hok Hord) as (l1 & d & lt & T & Er & Hs1 & Ht & Ed & Hreb & Hlen & Hnull & Hcyl).
  destruct (clear_ok vd dims L HL l1 S ord Hord (session_inv vd dims junk L HL _ _ Hs1)) as (l2 & Ec & _).
  pose proof (ss_clear vd dims junk L _ _ _ _ Hs1 Hord Ec) as Hs2.
  destruct (close_ok vd dims lt T ord Hord (session_inv vd dims junk L HL _ _ Ht)) as (d' & Ed' & Hclosed). rewrite Ed in Ed'. injection Ed' as <-.
  assert (ok_import (cleared S) T l2 d) as Himp.
  { split.
    - intros c c2 Hc. destruct (proj1 (elem_of_nil c) Hc).
    - intros c c2 Hc. destruct (proj1 (elem_of_nil c) Hc).
    - rewrite (lib_clear_files _ _ _ Ec). apply map_disjoint_empty_r.
    - split; [done|]. cbn [ls_handed cleared]. rewrite Hlen. done. }
  destruct (import_lib_ok vd dims L HL l2 (cleared S) d T false (session_inv vd dims junk L HL _ _ Hs2) Hclosed Himp) as (l3 & d3 & Ei & _ & _).
  pose proof (ss_import vd dims junk L _ _ _ _ _ _ _ _ _ Hs2 Ht Hord Ed Himp Ei) as Hs3.
  destruct (flush_ok vd dims l3 _ ord Hord (session_inv vd dims junk L HL _ _ Hs3)) as (l4 & E4 & _ & _).
  pose proof (ss_flush vd dims junk L _ _ _ _ Hs3 Hord E4) as Hs4.
  exists g, l0, l1, d, lt, T, l2, l3, d3, l4.
  exact (conj Eg (conj Esh (conj Er (conj Hs1 (conj Ht (conj Ed (conj Hreb (conj Hnull (conj Hcyl (conj Ec (conj Hs2 (conj Ei (conj Hs3 (conj E4 Hs4)))))))))))))).
Qed.

Lemma rebuild_ok l S gs ge req ov uuids opt ord : total_evaluator vd ov ev -> (junk < 2 ^ 32)%N -> session l S ->
  ok_rebuild vd dims S gs ge (replicate dims 0%N) ge (replicate dims 0%N) req ov uuids -> (ls_handed S + chunk_count (replicate dims 0%N) ge req <= 2 ^ 32)%N -> (forall k, ord k ≡ₚ k) ->
  exists l' S', rebuild vd dims junk L ev req ov opt uuids ord l = Done l' /\ session l' S' /\ rebuilt S (replicate dims 0%N) ge (replicate dims 0%N) req ov (ls_chunks S') /\
    (opt = false -> forall c, c ∈ ls_chunks S' -> c_null c = false) /\
    (ev = cylindrical vd -> cylinder_rule vd S gs ge (replicate dims 0%N) (replicate dims 0%N) (ls_chunks S')).
Proof using HL.
  intros Hev Hj Hl Hok Hids Hord. destruct (rebuild_phases l S gs ge req ov uuids opt ord Hev Hj Hl Hok Hids Hord) as
    (g & l0 & l1 & d & lt & T & l2 & l3 & d3 & l4 & Eg & Esh & Er & _ & _ & _ & Hreb & Hnull & Hcyl & Ec & _ & Ei & _ & E4 & Hs4).
  exists l4, (imported (cleared S) T). split; [|split; [exact Hs4|split; [exact Hreb|split; [exact Hnull|exact Hcyl]]]].
  unfold rebuild. rewrite Eg. cbn [mbind res_bind]. rewrite Esh, Er. cbn [mbind res_bind]. rewrite Ec. cbn [mbind res_bind]. rewrite Ei. cbn [mbind res_bind]. exact E4.
Qed.
End rb.

(** ** Chunks recorded as all-null hold null vectors only *)
Lemma null_elements vd dims junk L l S c ind : lib_ok L -> session vd dims junk L l S -> c ∈ ls_chunks S -> c_null c = true -> covers c ind -> null_vector (value c ind).
Proof.
  intros HL Hl Hc Hn Hcov. destruct (session_inv vd dims junk L HL l S Hl) as (M & sz & H & Hr). apply elem_of_list_lookup in Hc as [i Hi].
  destruct (lrep_get _ _ _ _ _ _ _ _ _ Hr Hi) as (m & _ & Hm & Ha & _). destruct (local_pos dims m c ind Hm Hcov) as [_ Hp].
  assert (cm_type m = all_null) as Ht by (by rewrite (mr_type _ _ _ Hm), Hn).
  destruct (LibraryProofs6.null_values vd dims _ _ _ _ _ _ _ (lr_store _ _ _ _ _ _ _ Hr) Ha Ht) as (_ & _ & _ & Hv). by apply Hv.
Qed.
Lemma comes_back_null m v w : comes_back m v w -> null_vector w -> null_vector v.
Proof. intros [->|(_ & Hv & _)] H; [done|exact Hv]. Qed.
