(** C33, re-chunking with a boundary evaluator that asks for the whole array (RebuildWholeModel). *)
From stdpp Require Import base list list_numbers numbers option gmap countable sets.
From Coq Require Import NArith ZArith Lia.
From Verif Require Import IndexSpec LoopsModel LoopsProofs NDArrayModel NDArrayProofs NDArrayOps NDArrayOps2 NDArrayOps3 NDArrayProps StreamerModel StreamerProps NullSupModel CodecModel
  BBoxModel BBoxProps DownsampleModel DownsampleProps
  RTreeModel RTreeInsert RTreeRebuild RTreeProps ChunkMetaModel ChunkMetaProps ChunkCacheModel ChunkCacheSpec ChunkCacheProofs ChunkCacheProofs2 ChunkCacheProofs3 ChunkCacheProps
  LibraryModel LibrarySpec LibraryProofs LibraryProofs2 LibraryProofs3 LibraryProofs4 LibraryProofs5 LibraryProofs6 LibraryProofs7 LibraryProps
  BoundaryModel BoundaryProps RebuildModel RebuildSpec RebuildProofs RebuildProofs2 RebuildProofs3 RebuildProofs4 RebuildProps RebuildWholeModel.
From Verif Require Import IndexSpec LibrarySpec.

(** The evaluator of an array in state [S]: at every index outside the array it returns the vector of floats [f x], whatever happened to the
    array before that left it in state [S], and leaves it so. *)
Definition asks_array (vd dims : nat) (junk : N) (L : lib) (S : lstate) (gs ge : list N) (W : list Z -> clib -> res (list N * clib)) (f : list Z -> list N) : Prop :=
  forall x, length x = dims -> length (f x) = vd /\ Forall (fun b => b < 2 ^ 32)%N (f x) /\
    (~ in_zbox (zind gs) (zind ge) x -> forall l, session vd dims junk L l S -> exists l', W x l = Done (f x, l') /\ session vd dims junk L l' S).

Section rb.
Context (vd dims : nat) (junk : N) (L : lib) (HL : lib_ok L) (W : list Z -> clib -> res (list N * clib)).
Notation session := (session vd dims junk L).

Section state.
Context (S : lstate) (gs ge : list N) (f : list Z -> list N) (HW : asks_array vd dims junk L S gs ge W f).
Definition of_index : evaluator := fun _ _ _ x => Some (if decide (length x = dims) then f x else replicate vd 0%N).

Lemma of_index_total ov : total_evaluator vd ov of_index.
Proof using HW.
  intros buf cs ce x _ _ _ _ _. unfold of_index. destruct (decide (length x = dims)) as [E|E].
  - destruct (HW x E) as (H1 & H2 & _). eauto.
  - eexists. split; [reflexivity|]. rewrite replicate_length. split; [done|]. apply Forall_replicate. lia.
Qed.

Lemma filler_run es ee xs : length gs = dims -> length ge = dims -> Forall (fun x => length x = dims) xs -> forall b b' src, session src S ->
  foldM (filler vd of_index (vto_nat gs) (vto_nat ge) es ee) b xs = Some b' ->
  exists src', rfold (filler_whole vd W (vto_nat gs) (vto_nat ge) es) (b, src) xs = Done (b', src') /\ session src' S.
Proof using HW.
  intros Lg Lh. induction xs as [|x xs IH]; intros Hxs b b' src Hs E.
  - cbn [foldM] in E. injection E as <-. exists src. split; [reflexivity|exact Hs].
  - apply list.Forall_cons in Hxs as [Hx Hxs]. change (foldM (filler vd of_index (vto_nat gs) (vto_nat ge) es ee) b (x :: xs)) with
      (filler vd of_index (vto_nat gs) (vto_nat ge) es ee b x ≫= fun b1 => foldM (filler vd of_index (vto_nat gs) (vto_nat ge) es ee) b1 xs) in E.
    apply bind_Some in E as (b1 & E1 & E2).
    assert (exists src1, filler_whole vd W (vto_nat gs) (vto_nat ge) es (b, src) x = Done (b1, src1) /\ session src1 S) as (src1 & Er & Hs1).
    { unfold filler in E1. unfold filler_whole. cbn [fst snd]. destruct (is_boundary (vto_nat gs) (vto_nat ge) x) eqn:Eb; [|discriminate].
      apply bind_Some in E1 as (loc & El & E1). rewrite El. cbn [of_opt mbind res_bind]. unfold of_index in E1. rewrite decide_True in E1 by done. cbn [mbind option_bind] in E1.
      destruct (HW x Hx) as (_ & _ & Hrun). destruct (Hrun) with (l := src) as (src1 & Er & Hs1); [|exact Hs|].
      { intros Hin. apply zind_inside in Hin. apply is_boundary_false in Hin; [congruence|..]; unfold vto_nat; rewrite fmap_length; lia. }
      exists src1. rewrite Er. cbn [mbind res_bind]. rewrite E1. split; [reflexivity|exact Hs1]. }
    cbn [rfold]. rewrite Er. cbn [mbind res_bind]. exact (IH Hxs _ _ _ Hs1 E2).
Qed.

Lemma chunk_run ov start end_ ostart req uuids opt src buf dst cs ce uuid b src0 dst' : ok_rebuild vd dims S gs ge start end_ ostart req ov uuids -> session src S -> float_array vd buf -> (junk < 2 ^ 32)%N ->
  piece dims start end_ req (cs, ce) ->
  rebuild_chunk vd dims junk L of_index gs ge ov (vwsub ostart start) opt (buf, src, dst) (uuid, (cs, ce)) = Done (b, src0, dst') ->
  exists src', rebuild_chunk_whole vd dims junk L W gs ge ov (vwsub ostart start) opt (buf, src, dst) (uuid, (cs, ce)) = Done (b, src', dst') /\ session src' S.
Proof using HL HW.
  intros Hok Hsrc Hbuf Hj Hp E. pose proof (lrep_dims _ _ _ _ (session_inv vd dims junk L HL src S Hsrc)) as Hd.
  destruct (rb_at _ _ _ _ _ _ _ _ _ _ _ Hok) as (Lg & Lh & _).
  pose proof (piece_in _ _ _ _ _ _ _ _ _ _ _ Hok _ Hd Hp) as Hch. cbn [fst snd] in Hch. pose proof Hp as (P1 & P2 & P3). cbn [fst snd] in P1, P2, P3.
  destruct (buffer_ok vd dims junk L HL ov of_index (of_index_total ov) S gs ge src buf cs ce) as (out & b1 & b2 & src' & xs & b3 & E1 & E2 & E3 & Hsrc' & E4 & E5 & _);
    [done|done|done|apply Hok|apply (rb_full _ _ _ _ _ _ _ _ _ _ _ Hok)|apply Hok|done|].
  fold (ext_start ov cs) (ext_end ov ce) in E1, E2, E3, E4, E5. unfold ext_shape, vsub in E2.
  assert (Forall (fun x => length x = dims) xs) as Hxs.
  { apply list.Forall_forall. intros x Hx. destruct (penetrating_spec _ _ ov cs ce Hch) as (xs' & Exs & Hpen). rewrite E4 in Exs. injection Exs as <-.
    apply Hpen in Hx as [Hx _]. apply in_zbox_at in Hx as (Hx & _). unfold ext_start in Hx. rewrite fmap_length in Hx. lia. }
  destruct (filler_run _ _ xs Lg Lh Hxs b2 b3 src' Hsrc' E5) as (src2 & Er & Hs2). exists src2.
  unfold rebuild_chunk in E. unfold rebuild_chunk_whole.
  fold (ext_start ov cs) (ext_end ov ce) in E |- *.
  destruct (forallb _ ce); [|discriminate].
  rewrite E1 in E |- *. cbn [of_opt mbind res_bind] in E |- *. rewrite E2 in E |- *. cbn [of_opt mbind res_bind] in E |- *. rewrite E3 in E |- *. cbn [of_opt mbind res_bind] in E |- *.
  rewrite E4 in E |- *. cbn [of_opt mbind res_bind] in E |- *. rewrite E5 in E. rewrite Er. cbn [of_opt mbind res_bind] in E |- *.
  destruct (lib_register _ _ _ _ _ _ _ _ _ _ _) as [d1| |]; cbn [mbind res_bind] in E |- *; try discriminate. injection E as -> _ ->. split; [reflexivity|exact Hs2].
Qed.

Section chunks.
Context (ov : nat) (start end_ ostart req : list N) (uuids : nat -> bytes) (opt : bool) (Hok : ok_rebuild vd dims S gs ge start end_ ostart req ov uuids).
Notation good := (good_chunk vd ov of_index S gs ge start ostart opt).
Notation piece := (piece dims start end_ req).

Lemma whole_fold chunks : (junk < 2 ^ 32)%N -> Forall piece chunks -> disjoint_boxes chunks -> N.of_nat (length chunks) = chunk_count start end_ req -> forall rest done_ buf src dst Tc,
  chunks = done_ ++ rest -> float_array vd buf -> session src S ->
  session dst (LState Tc (N.of_nat (length done_)) false (rebuild_cs dims)) -> Forall2 good Tc done_ ->
  (forall c, c ∈ Tc -> c_file c = [] \/ exists j, (j < length done_)%nat /\ c_file c = uuids j) ->
  exists b src' dst' Tc', rfold (rebuild_chunk_whole vd dims junk L W gs ge ov (vwsub ostart start) opt) (buf, src, dst) (imap (fun i c => (uuids (length done_ + i)%nat, c)) rest) = Done (b, src', dst') /\
    session src' S /\ session dst' (LState Tc' (N.of_nat (length chunks)) false (rebuild_cs dims)) /\ Forall2 good Tc' chunks /\
    (forall c, c ∈ Tc' -> c_file c = [] \/ exists j, (j < length chunks)%nat /\ c_file c = uuids j).
Proof using HL HW Hok.
  intros Hj Hp Hdis Hcount. induction rest as [|[cs ce] rest IH]; intros done_ buf src dst Tc Hall Hbuf Hsrc Hdst Hgood Hfiles.
  - rewrite app_nil_r in Hall. subst chunks. exists buf, src, dst, Tc. done.
  - assert (piece (cs, ce)) as Hpc. { eapply list.Forall_forall; [exact Hp|]. rewrite Hall. apply elem_of_app. right. left. }
    assert (chunks !! length done_ = Some (cs, ce)) as Hlk. { rewrite Hall, lookup_app_r, Nat.sub_diag by lia. done. }
    pose proof (lookup_lt_Some _ _ _ Hlk) as Hlt. pose proof (rb_ids _ _ _ _ _ _ _ _ _ _ _ Hok) as Hids.
    destruct (rebuild_chunk_ok vd dims junk L HL ov of_index (of_index_total ov) S gs ge start end_ ostart req uuids opt Hok Hj src dst _ buf cs ce (uuids (length done_ + 0)%nat) Hsrc Hdst Hbuf Hpc)
      as (b & src0 & dst' & c' & E0 & Hb & _ & Hd' & Hg' & Hf'); cbn [ls_cs ls_reopened ls_handed ls_chunks] in *; [done|done|lia|..].
    + destruct (rb_names _ _ _ _ _ _ _ _ _ _ _ Hok) as [Hn Hinj]. destruct (Hn (length done_ + 0)%nat ltac:(lia)) as (N1 & N2 & N3). split; [done|]. split; [done|]. split; [done|].
      apply list.Forall_forall. intros c Hc Ef. destruct (Hfiles c Hc) as [E1|(j & Hj' & Ej)]; [congruence|]. rewrite Ej in Ef. apply Hinj in Ef; lia.
    + apply list.Forall_forall. intros c Hc. apply elem_of_list_lookup in Hc as [k Hk]. destruct (Forall2_lookup_l _ _ _ _ _ Hgood Hk) as (cc & Hcc & Hg). exists cc. split; [done|].
      assert (chunks !! k = Some cc) as Hk2. { rewrite Hall. by apply lookup_app_l_Some. }
      split; [by eapply Forall_lookup_1|]. intros x Hx1 Hx2. pose proof (Hdis _ _ _ _ x Hlk Hk2 Hx1 Hx2) as Ek. pose proof (lookup_lt_Some _ _ _ Hcc). lia.
    + destruct (chunk_run ov start end_ ostart req uuids opt src buf dst cs ce _ b src0 dst' Hok Hsrc Hbuf Hj Hpc E0) as (src' & E & Hs'). clear E0.
      destruct (IH (done_ ++ [(cs, ce)]) b src' dst' (Tc ++ [c'])) as (b' & src2 & dst2 & Tc' & E' & R1 & R2 & R3).
      * by rewrite <- app_assoc.
      * done.
      * done.
      * rewrite app_length. cbn [length]. rewrite Nat2N.inj_add. exact Hd'.
      * apply Forall2_app; [done|]. by constructor.
      * intros c. rewrite app_length. cbn [length]. rewrite elem_of_app, elem_of_list_singleton. intros [Hc| ->].
        -- destruct (Hfiles c Hc) as [E1|(j & Hj' & Ej)]; [by left|]. right. exists j. split; [lia|done].
        -- destruct Hf' as [E1|E1]; [by left|]. right. exists (length done_ + 0)%nat. split; [lia|done].
      * exists b', src2, dst2, Tc'. split; [|done]. cbn [imap rfold]. rewrite E. cbn [mbind res_bind]. rewrite <- E'. f_equal. apply imap_ext. intros i x _. cbn. rewrite app_length. cbn [length]. do 2 f_equal. lia.
Qed.

Lemma whole_partial_ok l ord : (junk < 2 ^ 32)%N -> session l S -> (forall k, ord k ≡ₚ k) ->
  exists l' d l2 T, rebuild_partial_whole vd dims junk L W start end_ ostart req (Dir None ∅) ov opt uuids ord l = Done (l', d) /\ session l' S /\
    session l2 T /\ lib_close vd dims ord l2 = Done d /\ rebuilt S start end_ ostart req ov (ls_chunks T) /\
    N.of_nat (length (ls_chunks T)) = chunk_count start end_ req /\
    (opt = false -> forall c, c ∈ ls_chunks T -> c_null c = false) /\ outer_rule gs ge start ostart f (ls_chunks T).
Proof using HL HW Hok.
  intros Hj Hl Hord. pose proof (lrep_dims _ _ _ _ (session_inv vd dims junk L HL l S Hl)) as Hd.
  destruct (rb_at _ _ _ _ _ _ _ _ _ _ _ Hok) as (Lg & Lh & Ls & Le & Lo & Lr & Hat).
  destruct (open_new vd dims junk L HL 0 (rebuild_cs dims) (rebuild_cs_ok dims Hd)) as (dst & Edst & _).
  pose proof (ss_new vd dims junk L _ _ _ (rebuild_cs_ok dims Hd) Edst) as Hdst.
  destruct (geometry_lib_ok vd dims l S (session_inv vd dims junk L HL l S Hl)) as (g & l0 & Eg & Hl0 & Hgeo).
  pose proof (ss_geometry vd dims junk L _ _ _ _ Hl Eg) as Hs0.
  destruct (rb_full _ _ _ _ _ _ _ _ _ _ _ Hok) as [Hne Hgf]. destruct Hgeo as [_ Hgeo]. destruct (Hgeo Hne) as (Hhull & Hgne & _). clear Hgeo.
  assert (g_start g = gs /\ g_end g = ge) as [Egs Ege].
  { apply (hull_unique dims (ls_chunks S)); [|done|by apply (rb_hull _ _ _ _ _ _ _ _ _ _ _ Hok)]. intros c Hc. destruct Hl0 as (M & sz & H & Hr).
    apply elem_of_list_lookup in Hc as [i Hi]. destruct (lrep_get _ _ _ _ _ _ _ _ _ Hr Hi) as (m & _ & Hm & _). split; [apply Hm|apply Hm]. }
  assert (Forall (fun c => 0 < c)%nat (vto_nat req)) as Hpos.
  { unfold vto_nat. apply Forall_fmap, F1_at. intros i Hi. destruct (Hat i ltac:(lia)) as (_ & _ & _ & _ & H). cbn. lia. }
  set (chunks := box_chunks (loop_fuel (vto_nat end_)) (vto_nat start) (vto_nat end_) (vto_nat req)).
  assert (chunk_loop (loop_fuel (vto_nat end_)) (vto_nat start) (vto_nat end_) (vto_nat req) = Some chunks) as Ech.
  { apply chunk_loop_spec; [unfold vto_nat; rewrite !fmap_length; lia|unfold vto_nat; rewrite !fmap_length; lia|done|done]. }
  assert (N.of_nat (length chunks) = chunk_count start end_ req) as Hcount.
  { apply chunks_len; [lia|lia| |done]. apply F1_at. intros i Hi. destruct (Hat i ltac:(lia)) as (_ & _ & _ & _ & H). lia. }
  assert (Forall (RebuildProofs2.piece dims start end_ req) chunks) as Hp.
  { apply list.Forall_forall. intros [cs ce] Hc. apply box_chunks_sizes in Hc as (A1 & A2 & A3 & A4 & A5 & A6); [|done]. cbn [fst snd] in *.
    unfold vto_nat in *. rewrite fmap_length in A1, A2. split; cbn [fst snd]; [lia|]. split; [lia|]. intros i Hi. rewrite F2_at in A3, A4, A5, A6.
    destruct A3 as [_ A3], A4 as [_ A4], A5 as [_ A5], A6 as [_ A6]. rewrite fmap_length in A4, A6. specialize (A3 i ltac:(lia)). specialize (A4 i ltac:(lia)). specialize (A5 i ltac:(lia)). specialize (A6 i ltac:(lia)).
    rewrite fmap_at in A4, A5, A6 by lia. unfold vsub in A4. rewrite zip_at in A4 by lia. lia. }
  destruct (whole_fold chunks Hj Hp) with (rest := chunks) (done_ := @nil (list nat * list nat)) (buf := anew vd junk (vto_nat req))
    (src := l0) (dst := dst) (Tc := @nil chunk) as (b & l1 & dst1 & Tc & Ef & H1 & H2 & H3 & H4).
  - by apply box_chunks_disjoint.
  - exact Hcount.
  - done.
  - apply anew_float; [done|]. destruct req; [cbn in Lr; lia|done].
  - done.
  - exact Hdst.
  - constructor.
  - intros c Hc. destruct (proj1 (elem_of_nil c) Hc).
  - destruct (flush_ok vd dims dst1 _ ord Hord (session_inv vd dims junk L HL _ _ H2)) as (dst2 & E2 & _ & _).
    pose proof (ss_flush vd dims junk L _ _ _ _ H2 Hord E2) as Hs2.
    destruct (close_ok vd dims dst2 _ ord Hord (session_inv vd dims junk L HL _ _ Hs2)) as (d & Ed & _).
    exists l1, d, dst2. eexists. split; [|split; [exact H1|split; [exact Hs2|split; [exact Ed|]]]].
    + unfold rebuild_partial_whole. rewrite Edst. cbn [mbind res_bind]. rewrite Eg. cbn [mbind res_bind]. rewrite Ech. cbn [of_opt mbind res_bind]. rewrite Egs, Ege.
      cbn [length Nat.add] in Ef. rewrite Ef. cbn [mbind res_bind]. rewrite E2. cbn [mbind res_bind]. rewrite Ed. reflexivity.
    + cbn [ls_chunks]. destruct (rebuilt_of vd dims ov of_index S gs ge start end_ ostart req uuids opt Hok Tc chunks eq_refl H3) as (R1 & R2 & _ & R4).
      split; [exact R1|]. split; [|split; [exact R2|]]; [rewrite <- Hcount; f_equal; by eapply Forall2_length|].
      intros c' x Hc' Hx Hre Hout. specialize (R4 (fun x => if decide (length x = dims) then f x else replicate vd 0%N) ltac:(intros; reflexivity) c' x Hc' Hx Hre Hout).
      cbn beta in R4. rewrite decide_True in R4 by lia. exact R4.
Qed.
End chunks.

Lemma whole_rebuild_ok l req ov uuids opt ord : (junk < 2 ^ 32)%N -> session l S ->
  ok_rebuild vd dims S gs ge (replicate dims 0%N) ge (replicate dims 0%N) req ov uuids -> (ls_handed S + chunk_count (replicate dims 0%N) ge req <= 2 ^ 32)%N -> (forall k, ord k ≡ₚ k) ->
  exists l' S', rebuild_whole vd dims junk L W req ov opt uuids ord l = Done l' /\ session l' S' /\ rebuilt S (replicate dims 0%N) ge (replicate dims 0%N) req ov (ls_chunks S') /\
    (opt = false -> forall c, c ∈ ls_chunks S' -> c_null c = false) /\
    outer_rule gs ge (replicate dims 0%N) (replicate dims 0%N) f (ls_chunks S').
Proof using HL HW.
  intros Hj Hl Hok Hids Hord.
  destruct (rebuild_phases vd dims junk L HL of_index l S gs ge req ov uuids opt ord (of_index_total ov) Hj Hl Hok Hids Hord) as (g & l0 & _ & _ & _ & _ & _ & _ & _ & _ & Eg & Esh & _).
  pose proof (ss_geometry vd dims junk L _ _ _ _ Hl Eg) as Hs0.
  destruct (whole_partial_ok ov _ _ _ req uuids opt Hok l0 ord Hj Hs0 Hord) as (l1 & d & lt & T & Er & Hs1 & Ht & Ed & Hreb & Hlen & Hnull & Hout).
  destruct (clear_ok vd dims L HL l1 S ord Hord (session_inv vd dims junk L HL _ _ Hs1)) as (l2 & Ec & _).
  pose proof (ss_clear vd dims junk L _ _ _ _ Hs1 Hord Ec) as Hs2.
  destruct (close_ok vd dims lt T ord Hord (session_inv vd dims junk L HL _ _ Ht)) as (d' & Ed' & Hclosed). rewrite Ed in Ed'. injection Ed' as <-.
  assert (ok_import (cleared S) T l2 d) as Himp.
  { split.
    - intros c c2 Hc. destruct (proj1 (elem_of_nil c) Hc).
    - intros c c2 Hc. destruct (proj1 (elem_of_nil c) Hc).
    - rewrite (lib_clear_files vd dims _ _ _ Ec). apply map_disjoint_empty_r.
    - split; [done|]. cbn [ls_handed cleared]. rewrite Hlen. done. }
  destruct (import_lib_ok vd dims L HL l2 (cleared S) d T false (session_inv vd dims junk L HL _ _ Hs2) Hclosed Himp) as (l3 & d3 & Ei & _ & _).
  pose proof (ss_import vd dims junk L _ _ _ _ _ _ _ _ _ Hs2 Ht Hord Ed Himp Ei) as Hs3.
  destruct (flush_ok vd dims l3 _ ord Hord (session_inv vd dims junk L HL _ _ Hs3)) as (l4 & E4 & _ & _).
  pose proof (ss_flush vd dims junk L _ _ _ _ Hs3 Hord E4) as Hs4.
  exists l4, (imported (cleared S) T). split; [|split; [exact Hs4|split; [exact Hreb|split; [exact Hnull|exact Hout]]]].
  unfold rebuild_whole. rewrite Eg. cbn [mbind res_bind]. rewrite Esh, Er. cbn [mbind res_bind]. rewrite Ec. cbn [mbind res_bind]. rewrite Ei. cbn [mbind res_bind]. exact E4.
Qed.
End state.
End rb.
