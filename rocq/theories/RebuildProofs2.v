(** Proofs about re-chunking, part 2: all chunks. *)
From stdpp Require Import base list list_numbers numbers option gmap countable sets.
From Coq Require Import NArith ZArith Lia.
From Verif Require Import IndexSpec LoopsModel LoopsProofs NDArrayModel NDArrayProofs NDArrayOps NDArrayOps2 NDArrayOps3 NDArrayProps StreamerModel StreamerProps NullSupModel CodecModel
  BBoxModel BBoxProps DownsampleModel DownsampleProps
  RTreeModel RTreeInsert RTreeRebuild RTreeProps ChunkMetaModel ChunkMetaProps ChunkCacheModel ChunkCacheSpec ChunkCacheProofs ChunkCacheProofs2 ChunkCacheProofs3 ChunkCacheProps
  LibraryModel LibrarySpec LibraryProofs LibraryProofs2 LibraryProofs3 LibraryProofs4 LibraryProofs5 LibraryProofs6 LibraryProofs7 LibraryProps
  BoundaryModel BoundaryProps RebuildModel RebuildSpec RebuildProofs.
From Verif Require Import IndexSpec LibrarySpec.

Lemma volume_mono sh sh' : Forall2 le sh sh' -> (volume sh <= volume sh')%nat.
Proof. induction 1 as [|x y sh sh' H Hs IH]; [done|]. cbn [volume]. by apply Nat.mul_le_mono. Qed.
Lemma rebuild_cs_ok dims : (0 < dims)%nat -> acceptable_chunk dims (rebuild_cs dims).
Proof.
  intros Hd. unfold rebuild_cs, acceptable_chunk. assert (N.of_nat (N.to_nat INFTY) = 2 ^ 64 - 1)%N as EI by (rewrite N2Nat.id; done).
  assert (0 < N.to_nat INFTY)%nat as PI. { apply Nat.neq_0_lt_0. intros E. rewrite E in EI. discriminate. }
  assert (N.of_nat (N.to_nat INFTY) < 2 ^ 64)%N as BI by (rewrite EI; done). set (I := N.to_nat INFTY) in *. clearbody I.
  destruct dims as [|[|d]]; [lia|..].
  - split; [done|]. split; [constructor; [|constructor]; split; [lia|done]|]. left. done.
  - split; [cbn [length]; by rewrite replicate_length|]. split; [|left; done]. constructor; [split; [lia|done]|]. apply Forall_replicate. done.
Qed.

Section rb.
Context (vd dims : nat) (junk : N) (L : lib) (HL : lib_ok L) (ov : nat) (ev : evaluator) (Hev : total_evaluator vd ov ev).
Context (S : lstate) (gs ge start end_ ostart req : list N) (uuids : nat -> bytes) (opt : bool)
  (Hok : ok_rebuild vd dims S gs ge start end_ ostart req ov uuids).

Lemma rb_at : length gs = dims /\ length ge = dims /\ length start = dims /\ length end_ = dims /\ length ostart = dims /\ length req = dims /\
  forall i, (i < dims)%nat -> (gs !!! i <= start !!! i <= end_ !!! i)%N /\ (end_ !!! i <= ge !!! i)%N /\ (ge !!! i + N.of_nat ov < 2 ^ 31)%N /\
    (ostart !!! i + (end_ !!! i - start !!! i) + N.of_nat ov < 2 ^ 64)%N /\ (0 < req !!! i < 2 ^ 64)%N.
Proof using Hok.
  destruct Hok as [(Hg & Hh & _) _ (P1 & P2 & P3) Hi Hs [Lr Hr] _ _ _]. apply F2_at in P1 as [L1 P1], P2 as [L2 P2], P3 as [L3 P3], Hs as [L4 Hs]. rewrite F1_at in Hi, Hr.
  rewrite zip_with_length in L4, Hs. assert (length start = dims) by lia. assert (length end_ = dims) by lia. assert (length ostart = dims) by lia.
  split_and!; try lia. intros i Hi'. specialize (P1 i ltac:(lia)). specialize (P2 i ltac:(lia)). specialize (P3 i ltac:(lia)). specialize (Hi i ltac:(lia)). specialize (Hr i ltac:(lia)).
  specialize (Hs i ltac:(lia)). rewrite zip_at in Hs by lia. cbn [fst snd] in Hs. done.
Qed.

Definition piece (cc : list nat * list nat) : Prop := length cc.1 = dims /\ length cc.2 = dims /\ forall i, (i < dims)%nat ->
  (start !!! i <= N.of_nat (cc.1 !!! i))%N /\ (cc.1 !!! i < cc.2 !!! i)%nat /\ (N.of_nat (cc.2 !!! i) <= end_ !!! i)%N /\ (N.of_nat (cc.2 !!! i - cc.1 !!! i) <= req !!! i)%N.

Lemma target_at v i : (i < dims)%nat -> length v = dims -> target start ostart v !!! i = (ostart !!! i + (N.of_nat (v !!! i) - start !!! i))%N.
Proof using Hok.
  intros Hi Hv. destruct rb_at as (_ & _ & L1 & _ & L2 & _). unfold target, vof_nat. rewrite !zip_at by (rewrite ?zip_with_length, ?fmap_length; lia). by rewrite fmap_at by lia.
Qed.
Lemma target_len v : length v = dims -> length (target start ostart v) = dims.
Proof using Hok. intros Hv. destruct rb_at as (_ & _ & L1 & _ & L2 & _). unfold target, vof_nat. rewrite !zip_with_length, fmap_length. lia. Qed.
Lemma target_shift v : length v = dims -> (forall i, (i < dims)%nat -> start !!! i <= N.of_nat (v !!! i) <= end_ !!! i)%N ->
  vwadd (vof_nat v) (vwsub ostart start) = target start ostart v.
Proof using Hok.
  intros Hv H. destruct rb_at as (_ & _ & L1 & _ & L2 & _ & Hat). apply eq_at. unfold vwadd, vwsub, vof_nat. rewrite !zip_with_length, fmap_length, target_len by done. split; [lia|].
  intros i Hi. rewrite target_at by done. rewrite !zip_at by (rewrite ?zip_with_length, ?fmap_length; lia). rewrite fmap_at by lia.
  specialize (H i Hi). destruct (Hat i Hi) as (H1 & H2 & H3 & H4 & H5). apply shift_word; lia.
Qed.
Lemma piece_in cc : (0 < dims)%nat -> piece cc -> chunk_in (vto_nat gs) (vto_nat ge) cc.1 cc.2.
Proof using Hok.
  intros Hd (P1 & P2 & P3). destruct rb_at as (Lg & Lh & _ & _ & _ & _ & Hat). split; [intros E; rewrite E in P1; cbn in P1; lia|].
  unfold vto_nat. rewrite !fmap_length. split; [lia|]. split; [lia|]. split; [lia|]. intros i g h c d Hg Hh Hc Hd'. pose proof (lookup_lt_Some _ _ _ Hc) as Hi.
  rewrite list_lookup_fmap, fmap_Some in Hg, Hh. destruct Hg as (g' & Hg & ->). destruct Hh as (h' & Hh & ->).
  destruct (P3 i ltac:(lia)) as (A1 & A2 & A3 & A4). destruct (Hat i ltac:(lia)) as (B1 & B2 & _).
  rewrite (list_lookup_total_correct _ _ _ Hc), (list_lookup_total_correct _ _ _ Hd') in *. rewrite (list_lookup_total_correct _ _ _ Hg), (list_lookup_total_correct _ _ _ Hh) in *. lia.
Qed.
Lemma target_inbox cc ind : piece cc -> inbox (target start ostart cc.1) (target start ostart cc.2) ind ->
  in_box cc.1 cc.2 (zip_with (fun x os => N.to_nat (x - os.1 + os.2)) ind (zip ostart start)).
Proof using Hok.
  intros (P1 & P2 & P3) (I1 & I2 & I3)%inbox_at. destruct rb_at as (Lg & Lh & Ls & _ & Lo & _ & Hat). rewrite !target_len in * by done.
  apply in_box_at. rewrite zip_with_length, zip_with_length. split; [lia|]. split; [lia|]. intros i Hi. specialize (I3 i ltac:(lia)). rewrite !target_at in I3 by lia.
  rewrite !zip_at by (rewrite ?zip_with_length; lia). cbn [fst snd]. destruct (P3 i ltac:(lia)). lia.
Qed.

Context (Hjunk : (junk < 2 ^ 32)%N).
Notation good := (good_chunk vd ov ev S gs ge start ostart opt).
Lemma rebuild_chunk_ok src dst T buf cs ce uuid : session vd dims junk L src S -> session vd dims junk L dst T -> float_array vd buf -> piece (cs, ce) ->
  ls_cs T = rebuild_cs dims -> ls_reopened T = false -> (ls_handed T < 2 ^ 32)%N -> ok_name (ls_chunks T) uuid ->
  Forall (fun c' => exists cc', good c' cc' /\ piece cc' /\ forall x, in_box cs ce x -> in_box cc'.1 cc'.2 x -> False) (ls_chunks T) ->
  exists b src' dst' c', rebuild_chunk vd dims junk L ev gs ge ov (vwsub ostart start) opt (buf, src, dst) (uuid, (cs, ce)) = Done (b, src', dst') /\
    float_array vd b /\ session vd dims junk L src' S /\
    session vd dims junk L dst' (LState (ls_chunks T ++ [c']) (ls_handed T + 1) false (rebuild_cs dims)) /\ good c' (cs, ce) /\ (c_file c' = [] \/ c_file c' = uuid).
Proof using HL Hev Hok Hjunk.
  intros Hsrc Hdst Hbuf Hp Hcs Hre Hh Hname Hap. pose proof (lrep_dims _ _ _ _ (session_inv vd dims junk L HL src S Hsrc)) as Hd.
  pose proof (piece_in _ Hd Hp) as Hch. cbn [fst snd] in Hch. destruct rb_at as (Lg & Lge & Ls & Le & Lo & Lr & Hat). pose proof Hp as (P1 & P2 & P3). cbn [fst snd] in P1, P2, P3.
  destruct (buffer_ok vd dims junk L HL ov ev Hev S gs ge src buf cs ce) as (out & b1 & b2 & src' & xs & b3 & E1 & E2 & E3 & Hsrc' & E4 & E5 & Hf3 & S3 & V3 & C3 & K3);
    [done|done|done|apply Hok|apply (rb_full _ _ _ _ _ _ _ _ _ _ _ Hok)|apply Hok|done|].
  destruct (null_exists vd b3 opt Hf3) as [null Hnull].
  assert (vwadd (vof_nat cs) (vwsub ostart start) = target start ostart cs) as Ecs.
  { apply target_shift; [done|]. intros i Hi. destruct (P3 i Hi) as (A1 & A2 & A3 & A4). lia. }
  assert (vwadd (vof_nat ce) (vwsub ostart start) = target start ostart ce) as Ece.
  { apply target_shift; [done|]. intros i Hi. destruct (P3 i Hi) as (A1 & A2 & A3 & A4). lia. }
  assert (length (ext_shape ov cs ce) = dims) as Lsh by (unfold ext_shape; rewrite fmap_length, zip_with_length; lia).
  assert (forall i, (i < dims)%nat -> ext_shape ov cs ce !!! i = (ce !!! i - cs !!! i + 2 * ov)%nat) as Hsh.
  { intros i Hi. unfold ext_shape. rewrite fmap_at by (rewrite zip_with_length; lia). by rewrite zip_at by lia. }
  assert (ok_register vd dims T b3 (target start ostart cs) (target start ostart ce) (N.of_nat ov) uuid) as Hreg.
  { split.
    - by apply target_len.
    - apply nonempty_at. rewrite !target_len by done. split; [done|]. intros i Hi. rewrite !target_at by done. destruct (P3 i Hi) as (A1 & A2 & A3 & A4). destruct (Hat i Hi) as (B1 & B2 & B3 & B4 & B5). lia.
    - rewrite S3. apply F2_at. rewrite zip_with_length, !target_len, Lsh by done. split; [lia|]. intros i Hi.
      rewrite zip_at by (rewrite target_len; lia). cbn [fst snd]. rewrite !target_at, Hsh by lia. destruct (P3 i ltac:(lia)) as (A1 & A2 & A3 & A4). lia.
    - apply F1_at. intros i Hi. rewrite target_len in Hi by done. rewrite !target_at by done. destruct (P3 i Hi) as (A1 & A2 & A3 & A4). destruct (Hat i Hi) as (B1 & B2 & B3 & B4 & B5). lia.
    - done.
    - rewrite S3, Hcs. pose proof (rb_volume _ _ _ _ _ _ _ _ _ _ _ Hok) as Hvol.
      assert (volume (ext_shape ov cs ce) <= volume ((fun r => N.to_nat r + 2 * ov)%nat <$> req))%nat as Hvm.
      { apply volume_mono. apply F2_at. rewrite fmap_length. split; [lia|]. intros i Hi. rewrite fmap_at, Hsh by lia. destruct (P3 i ltac:(lia)) as (A1 & A2 & A3 & A4). lia. }
      set (V := volume ((fun r => N.to_nat r + 2 * ov)%nat <$> req)) in *. clearbody V. apply inj_le in Hvm. 
      assert (N.of_nat (volume (ext_shape ov cs ce)) * N.of_nat (vd + 1) < 2 ^ 32)%N as Hv2.
      { eapply N.le_lt_trans; [|exact Hvol]. apply N.mul_le_mono_r. lia. }
      split; [|split].
      + apply F1_at. intros i Hi. rewrite Hsh by lia. destruct (P3 i ltac:(lia)) as (A1 & A2 & A3 & A4). destruct (Hat i ltac:(lia)) as (B1 & B2 & B3 & B4 & B5). lia.
      + rewrite Nat2N.inj_mul. eapply N.lt_trans; [exact Hv2|done].
      + intros _. assert (volume (zip_with Nat.min (rebuild_cs dims) (ext_shape ov cs ce)) <= volume (ext_shape ov cs ce))%nat as Hm.
        { apply volume_mono. apply F2_at. pose proof (rebuild_cs_ok dims Hd) as (Lc & _). rewrite zip_with_length. split; [lia|]. intros i Hi. rewrite zip_at by lia. lia. }
        apply inj_le in Hm. eapply N.le_lt_trans; [|exact Hv2]. set (V2 := volume (ext_shape ov cs ce)) in *. clearbody V2. set (V3' := volume (zip_with _ _ _)) in *. clearbody V3'. nia.
    - eapply list.Forall_impl; [exact Hap|]. intros c' (cc' & Hg & Hp' & Hno). cbn beta. rewrite (gc_start _ _ _ _ _ _ _ _ _ _ _ Hg), (gc_end _ _ _ _ _ _ _ _ _ _ _ Hg).
      intros ind Hi1 Hi2. eapply Hno; [apply (target_inbox (cs, ce) ind Hp Hi1)|apply (target_inbox cc' ind Hp' Hi2)].
    - done.
    - done. }
  destruct (register_lib_ok vd dims junk L HL dst T b3 _ _ _ opt null uuid (session_inv vd dims junk L HL dst T Hdst) Hreg Hnull) as (dst' & Hr & _).
  exists b3, src', dst'. eexists. split; [|split; [exact Hf3|split; [exact Hsrc'|split; [|split]]]].
  - unfold rebuild_chunk. cbv zeta. fold (ext_start ov cs) (ext_end ov ce) (ext_shape ov cs ce).
    replace (forallb _ ce) with true.
    2: { symmetry. apply forallb_forall. intros e He. apply elem_of_list_In, elem_of_list_lookup in He as [i He]. pose proof (lookup_lt_Some _ _ _ He) as Hi.
         destruct (P3 i ltac:(lia)) as (A1 & A2 & A3 & A4). destruct (Hat i ltac:(lia)) as (B1 & B2 & B3 & B4 & B5). rewrite (list_lookup_total_correct _ _ _ He) in *. apply N.ltb_lt. lia. }
    rewrite E1. cbn [of_opt mbind res_bind]. rewrite E2. cbn [of_opt mbind res_bind]. rewrite E3. cbn [of_opt mbind res_bind]. rewrite E4. cbn [of_opt mbind res_bind].
    rewrite E5. cbn [of_opt mbind res_bind]. rewrite Ecs, Ece, Hr. reflexivity.
  - pose proof (ss_register _ _ _ _ _ _ _ _ _ _ _ null _ _ Hdst Hreg Hnull Hr) as Hs. unfold registered in Hs. rewrite Hre, Hcs in Hs. exact Hs.
  - split; cbn [c_start c_end c_ov c_null c_val fst snd]; try done.
    intros ->. apply Hnull. done.
  - cbn [c_file]. destruct null; auto.
Qed.
End rb.
