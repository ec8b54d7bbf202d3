(** Proofs about re-chunking, part 3: the whole operation. *)
From stdpp Require Import base list list_numbers numbers option gmap countable sets.
From Coq Require Import NArith ZArith Lia.
From Verif Require Import IndexSpec LoopsModel LoopsProofs NDArrayModel NDArrayProofs NDArrayOps NDArrayOps2 NDArrayOps3 NDArrayProps StreamerModel StreamerProps NullSupModel CodecModel
  BBoxModel BBoxProps DownsampleModel DownsampleProps
  RTreeModel RTreeInsert RTreeRebuild RTreeProps ChunkMetaModel ChunkMetaProps ChunkCacheModel ChunkCacheSpec ChunkCacheProofs ChunkCacheProofs2 ChunkCacheProofs3 ChunkCacheProps
  LibraryModel LibrarySpec LibraryProofs LibraryProofs2 LibraryProofs3 LibraryProofs4 LibraryProofs5 LibraryProofs6 LibraryProofs7 LibraryProps
  BoundaryModel BoundaryProps RebuildModel RebuildSpec RebuildProofs RebuildProofs2.
From Verif Require Import IndexSpec LibrarySpec.

(** ** The number of chunks *)
Lemma steps_len fuel cb e cs : (0 < cs)%nat -> (e - cb <= fuel)%nat ->
  N.of_nat (length (steps_list fuel cb e cs)) = ((N.of_nat e - N.of_nat cb + N.of_nat cs - 1) / N.of_nat cs)%N.
Proof.
  intros Hcs. revert cb. induction fuel as [|f IH]; intros cb Hf; cbn [steps_list].
  - cbn [length]. rewrite N.div_small by lia. done.
  - destruct (Nat.ltb_spec cb e) as [H|H].
    + cbn [length]. rewrite Nat2N.inj_succ, IH by lia. destruct (Nat.le_gt_cases (cb + cs) e) as [H2|H2].
      * rewrite (Nat.min_l _ _ H2). replace (N.of_nat e - N.of_nat cb + N.of_nat cs - 1)%N with ((N.of_nat e - N.of_nat (cb + cs) + N.of_nat cs - 1) + 1 * N.of_nat cs)%N by lia.
        rewrite N.div_add by lia. lia.
      * rewrite (Nat.min_r (cb + cs) e) by lia. rewrite (N.div_small (N.of_nat e - N.of_nat e + N.of_nat cs - 1)) by lia.
        replace (N.of_nat e - N.of_nat cb + N.of_nat cs - 1)%N with ((N.of_nat e - N.of_nat cb - 1) + 1 * N.of_nat cs)%N by lia.
        rewrite N.div_add by lia. rewrite N.div_small by lia. done.
    + cbn [length]. rewrite N.div_small by lia. done.
Qed.
Lemma chunks_len fuel start end_ req : length start = length end_ -> length req = length end_ -> Forall (fun r => 0 < r)%N req -> (loop_fuel (vto_nat end_) <= fuel)%nat ->
  N.of_nat (length (box_chunks fuel (vto_nat start) (vto_nat end_) (vto_nat req))) = chunk_count start end_ req.
Proof.
  unfold chunk_count, vto_nat. revert end_ req. induction start as [|s start IH]; intros [|e end_] [|r req] Hl Hl2 Hp Hf; try done.
  apply list.Forall_cons in Hp as [Hr Hp]. rewrite !list.fmap_cons in *. cbn [box_chunks loop_fuel foldr zip_with] in *. 
  rewrite (mjoin_length_const _ (length (box_chunks fuel (N.to_nat <$> start) (N.to_nat <$> end_) (N.to_nat <$> req)))).
  - rewrite fmap_length, Nat2N.inj_mul, steps_len by lia. rewrite IH; [|by injection Hl|by injection Hl2|done|unfold loop_fuel; lia]. by rewrite !N2Nat.id.
  - apply Forall_fmap, list.Forall_forall. intros x _. cbn. by rewrite fmap_length.
Qed.
Lemma count_bound start end_ req : length start = length end_ -> length req = length end_ -> Forall (fun r => 0 < r)%N req ->
  (count start end_ <= chunk_count start end_ req * N.of_nat (volume (vto_nat req)))%N.
Proof.
  unfold chunk_count, count, vto_nat. revert end_ req. induction start as [|s start IH]; intros [|e end_] [|r req] Hl Hl2 Hp; try done.
  apply list.Forall_cons in Hp as [Hr Hp]. rewrite !list.fmap_cons in *. cbn [foldr zip_with volume] in *. rewrite Nat2N.inj_mul, N2Nat.id.
  specialize (IH end_ req ltac:(by injection Hl) ltac:(by injection Hl2) Hp).
  set (A := foldr N.mul 1%N (zip_with N.sub end_ start)) in *. set (B := foldr N.mul 1%N (zip_with (fun d r => (d + r - 1) / r)%N (zip_with N.sub end_ start) req)) in *. set (V := N.of_nat (volume _)) in *. clearbody A B V.
  assert (e - s <= (e - s + r - 1) / r * r)%N as Hd.
  { pose proof (N.div_mod (e - s + r - 1) r ltac:(lia)) as E. pose proof (N.mod_lt (e - s + r - 1) r ltac:(lia)). nia. }
  set (q := ((e - s + r - 1) / r)%N) in *. clearbody q. transitivity ((q * r) * (B * V))%N; [by apply N.mul_le_mono|]. apply N.eq_le_incl. ring.
Qed.

Lemma rfold_app {S B} (f : S -> B -> res S) s l1 l2 : rfold f s (l1 ++ l2) = s' ← rfold f s l1; rfold f s' l2.
Proof. revert s. induction l1 as [|b l1 IH]; intros s; cbn [app rfold]; [done|]. destruct (f s b); cbn [mbind res_bind]; auto. Qed.

(** ** Hulls are unique *)
Lemma hull_unique dims C s e s' e' : (forall c, c ∈ C -> length (c_start c) = dims /\ nonempty (c_start c) (c_end c)) -> is_hull dims C s e -> is_hull dims C s' e' -> s = s' /\ e = e'.
Proof.
  intros HC.
  assert (forall s e s' e', is_hull dims C s e -> is_hull dims C s' e' -> forall i, (i < dims)%nat -> (s' !!! i <= s !!! i)%N /\ (e !!! i <= e' !!! i)%N) as Hle.
  { clear s e s' e'. intros s e s' e' (L1 & L2 & A1 & A2 & A3) (L1' & L2' & B1 & B2 & B3) i Hi. split.
    - destruct (A2 i (s !!! i)) as (c & Hc & Hx); [apply list_lookup_lookup_total_lt; lia|]. destruct (HC c Hc) as [Lc Hne]. apply nonempty_at in Hne as [Le Hne].
      assert (covers c (c_start c)) as Hcov. { apply inbox_at. split; [done|]. split; [done|]. intros j Hj. specialize (Hne j Hj). lia. }
      specialize (B1 c _ Hc Hcov). apply inbox_at in B1 as (_ & _ & B1). specialize (B1 i ltac:(lia)). rewrite (list_lookup_total_correct _ _ _ Hx) in B1. lia.
    - destruct (A3 i (e !!! i)) as (c & Hc & Hx); [apply list_lookup_lookup_total_lt; lia|]. destruct (HC c Hc) as [Lc Hne]. apply nonempty_at in Hne as [Le Hne].
      assert (covers c ((fun x => x - 1)%N <$> c_end c)) as Hcov.
      { apply inbox_at. rewrite fmap_length. split; [done|]. split; [done|]. intros j Hj. rewrite fmap_at by lia. specialize (Hne j Hj). lia. }
      specialize (B1 c _ Hc Hcov). apply inbox_at in B1 as (_ & _ & B1). specialize (B1 i ltac:(lia)). rewrite fmap_at in B1 by lia. specialize (Hne i ltac:(lia)).
      rewrite (list_lookup_total_correct _ _ _ Hx) in *. lia. }
  intros H1 H2. pose proof (Hle _ _ _ _ H1 H2) as Ha. pose proof (Hle _ _ _ _ H2 H1) as Hb. destruct H1 as (L1 & L2 & _), H2 as (L1' & L2' & _).
  split; apply eq_at; (split; [lia|]); intros i Hi; specialize (Ha i ltac:(lia)); specialize (Hb i ltac:(lia)); lia.
Qed.

Section rb.
Context (vd dims : nat) (junk : N) (L : lib) (HL : lib_ok L) (ov : nat) (ev : evaluator) (Hev : total_evaluator vd ov ev).
Context (S : lstate) (gs ge start end_ ostart req : list N) (uuids : nat -> bytes) (opt : bool)
  (Hok : ok_rebuild vd dims S gs ge start end_ ostart req ov uuids).
Notation good := (good_chunk vd ov ev S gs ge start ostart opt).
Notation piece := (piece dims start end_ req).

Lemma rebuild_fold chunks : (junk < 2 ^ 32)%N -> Forall piece chunks -> disjoint_boxes chunks -> N.of_nat (length chunks) = chunk_count start end_ req -> forall rest done_ buf src dst Tc,
  chunks = done_ ++ rest -> float_array vd buf -> session vd dims junk L src S ->
  session vd dims junk L dst (LState Tc (N.of_nat (length done_)) false (rebuild_cs dims)) -> Forall2 good Tc done_ ->
  (forall c, c ∈ Tc -> c_file c = [] \/ exists j, (j < length done_)%nat /\ c_file c = uuids j) ->
  exists b src' dst' Tc', rfold (rebuild_chunk vd dims junk L ev gs ge ov (vwsub ostart start) opt) (buf, src, dst) (imap (fun i c => (uuids (length done_ + i)%nat, c)) rest) = Done (b, src', dst') /\
    session vd dims junk L src' S /\ session vd dims junk L dst' (LState Tc' (N.of_nat (length chunks)) false (rebuild_cs dims)) /\ Forall2 good Tc' chunks /\
    (forall c, c ∈ Tc' -> c_file c = [] \/ exists j, (j < length chunks)%nat /\ c_file c = uuids j).
Proof using HL Hev Hok.
  intros Hj Hp Hdis Hcount. induction rest as [|[cs ce] rest IH]; intros done_ buf src dst Tc Hall Hbuf Hsrc Hdst Hgood Hfiles.
  - rewrite app_nil_r in Hall. subst chunks. exists buf, src, dst, Tc. done.
  - assert (piece (cs, ce)) as Hpc. { eapply list.Forall_forall; [exact Hp|]. rewrite Hall. apply elem_of_app. right. left. }
    assert (chunks !! length done_ = Some (cs, ce)) as Hlk. { rewrite Hall, lookup_app_r, Nat.sub_diag by lia. done. }
    pose proof (lookup_lt_Some _ _ _ Hlk) as Hlt. pose proof (rb_ids _ _ _ _ _ _ _ _ _ _ _ Hok) as Hids.
    destruct (rebuild_chunk_ok vd dims junk L HL ov ev Hev S gs ge start end_ ostart req uuids opt Hok Hj src dst _ buf cs ce (uuids (length done_ + 0)%nat) Hsrc Hdst Hbuf Hpc)
      as (b & src' & dst' & c' & E & Hb & Hs' & Hd' & Hg' & Hf'); cbn [ls_cs ls_reopened ls_handed ls_chunks] in *; [done|done|lia|..].
    + destruct (rb_names _ _ _ _ _ _ _ _ _ _ _ Hok) as [Hn Hinj]. destruct (Hn (length done_ + 0)%nat ltac:(lia)) as (N1 & N2 & N3). split; [done|]. split; [done|]. split; [done|].
      apply list.Forall_forall. intros c Hc Ef. destruct (Hfiles c Hc) as [E0|(j & Hj' & Ej)]; [congruence|]. rewrite Ej in Ef. apply Hinj in Ef; lia.
    + apply list.Forall_forall. intros c Hc. apply elem_of_list_lookup in Hc as [k Hk]. destruct (Forall2_lookup_l _ _ _ _ _ Hgood Hk) as (cc & Hcc & Hg). exists cc. split; [done|].
      assert (chunks !! k = Some cc) as Hk2. { rewrite Hall. by apply lookup_app_l_Some. }
      split; [by eapply Forall_lookup_1|]. intros x Hx1 Hx2. pose proof (Hdis _ _ _ _ x Hlk Hk2 Hx1 Hx2) as Ek. pose proof (lookup_lt_Some _ _ _ Hcc). lia.
    + destruct (IH (done_ ++ [(cs, ce)]) b src' dst' (Tc ++ [c'])) as (b' & src2 & dst2 & Tc' & E' & R1 & R2 & R3).
      * by rewrite <- app_assoc.
      * done.
      * done.
      * rewrite app_length. cbn [length]. rewrite Nat2N.inj_add. exact Hd'.
      * apply Forall2_app; [done|]. by constructor.
      * intros c. rewrite app_length. cbn [length]. rewrite elem_of_app, elem_of_list_singleton. intros [Hc| ->].
        -- destruct (Hfiles c Hc) as [E0|(j & Hj' & Ej)]; [by left|]. right. exists j. split; [lia|done].
        -- destruct Hf' as [E0|E0]; [by left|]. right. exists (length done_ + 0)%nat. split; [lia|done].
      * exists b', src2, dst2, Tc'. split; [|done]. cbn [imap rfold]. rewrite E. cbn [mbind res_bind]. rewrite <- E'. f_equal. apply imap_ext. intros i x _. cbn. rewrite app_length. cbn [length]. do 2 f_equal. lia.
Qed.

(** ** What the chunks amount to *)
Lemma rebuilt_of Tc chunks : chunks = box_chunks (loop_fuel (vto_nat end_)) (vto_nat start) (vto_nat end_) (vto_nat req) -> Forall2 good Tc chunks ->
  rebuilt S start end_ ostart req ov Tc /\ (opt = false -> forall c, c ∈ Tc -> c_null c = false) /\ (ev = cylindrical vd -> cylinder_rule vd S gs ge start ostart Tc) /\
  (forall f, (forall b es ee x, ev b es ee x = Some (f x)) -> outer_rule gs ge start ostart f Tc).
Proof using Hok.
  intros Ech Hg. destruct (rb_at _ _ _ _ _ _ _ _ _ _ _ Hok) as (Lg & Lh & Ls & Le & Lo & Lr & Hat).
  assert (Forall (fun c => 0 < c)%nat (vto_nat req)) as Hpos.
  { unfold vto_nat. apply Forall_fmap, F1_at. intros i Hi. destruct (Hat i ltac:(lia)) as (_ & _ & _ & _ & H). cbn. lia. }
  assert (Forall piece chunks) as Hp.
  { apply list.Forall_forall. intros [cs ce] Hc. rewrite Ech in Hc. apply box_chunks_sizes in Hc as (A1 & A2 & A3 & A4 & A5 & A6); [|done]. cbn [fst snd] in *.
    unfold vto_nat in *. rewrite fmap_length in A1, A2. split; cbn [fst snd]; [lia|]. split; [lia|]. intros i Hi. rewrite F2_at in A3, A4, A5, A6.
    destruct A3 as [_ A3], A4 as [_ A4], A5 as [_ A5], A6 as [_ A6]. rewrite fmap_length in A4, A6. specialize (A3 i ltac:(lia)). specialize (A4 i ltac:(lia)). specialize (A5 i ltac:(lia)). specialize (A6 i ltac:(lia)).
    rewrite fmap_at in A4, A5, A6 by lia. unfold vsub in A4. rewrite zip_at in A4 by lia. lia. }
  assert (forall c', c' ∈ Tc -> exists cc, cc ∈ chunks /\ good c' cc /\ piece cc) as Hget.
  { intros c' Hc'. apply elem_of_list_lookup in Hc' as [k Hk]. destruct (Forall2_lookup_l _ _ _ _ _ Hg Hk) as (cc & Hcc & Hgc). exists cc.
    split; [by eapply elem_of_list_lookup_2|]. split; [done|]. by eapply Forall_lookup_1. }
  assert (forall c' cc x, good c' cc -> piece cc -> length x = dims -> reach c' (shifted start ostart x) -> in_zbox (ext_start ov cc.1) (ext_end ov cc.2) x /\ zvalue c' (shifted start ostart x) = k_at (c_val c') (pos_in (ext_start ov cc.1) x)) as Hreach.
  { intros c' cc x Hgc (P1 & P2 & P3) Lx Hr. unfold reach in Hr. apply in_zbox_at in Hr as (R1 & R2 & R3). unfold zvalue.
    rewrite (gc_start _ _ _ _ _ _ _ _ _ _ _ Hgc), (gc_end _ _ _ _ _ _ _ _ _ _ _ Hgc), (gc_ov _ _ _ _ _ _ _ _ _ _ _ Hgc) in *. rewrite !fmap_length in *.
    assert (length (shifted start ostart x) = dims) as Lsx by (unfold shifted; rewrite !zip_with_length; lia).
    pose proof (target_len _ _ _ _ _ _ _ _ _ _ _ Hok cc.1 P1) as Lt1. pose proof (target_len _ _ _ _ _ _ _ _ _ _ _ Hok cc.2 P2) as Lt2.
    assert (forall i, (i < dims)%nat -> shifted start ostart x !!! i = (x !!! i + (Z.of_N (ostart !!! i) - Z.of_N (start !!! i)))%Z) as Hsx.
    { intros i Hi. unfold shifted. by rewrite !zip_at by (rewrite ?zip_with_length; lia). }
    split.
    - apply in_zbox_at. unfold ext_start, ext_end. rewrite !fmap_length. split; [lia|]. split; [lia|]. intros i Hi. specialize (R3 i ltac:(lia)). rewrite !fmap_at in R3 by lia. rewrite !fmap_at by lia.
      rewrite !(target_at _ _ _ _ _ _ _ _ _ _ _ Hok), Hsx in R3 by lia. destruct (P3 i ltac:(lia)) as (A1 & A2 & A3 & A4). lia.
    - f_equal. apply eq_at. rewrite pos_len by (unfold ext_start; rewrite fmap_length; lia). rewrite zip_with_length. split; [lia|]. intros i Hi. rewrite pos_at by (unfold ext_start; rewrite ?fmap_length; lia).
      rewrite zip_at by lia. rewrite (target_at _ _ _ _ _ _ _ _ _ _ _ Hok), Hsx by lia. unfold ext_start. rewrite fmap_at by lia. destruct (P3 i ltac:(lia)) as (A1 & A2 & A3 & A4). f_equal. lia. }
  split; [split|split; [|split]].
  - intros ind. split.
    + intros (c' & Hc' & Hcov). destruct (Hget c' Hc') as (cc & _ & Hgc & P1 & P2 & P3). unfold covers in Hcov. rewrite (gc_start _ _ _ _ _ _ _ _ _ _ _ Hgc), (gc_end _ _ _ _ _ _ _ _ _ _ _ Hgc) in Hcov.
      apply inbox_at in Hcov as (I1 & I2 & I3). rewrite (target_len _ _ _ _ _ _ _ _ _ _ _ Hok) in I1, I3 by done. apply inbox_at. rewrite !zip_with_length. split; [lia|]. split; [lia|]. intros i Hi.
      specialize (I3 i ltac:(lia)). rewrite !(target_at _ _ _ _ _ _ _ _ _ _ _ Hok) in I3 by lia. rewrite !zip_at by (rewrite ?zip_with_length; lia). destruct (P3 i ltac:(lia)) as (A1 & A2 & A3 & A4). lia.
    + intros (I1 & I2 & I3)%inbox_at. rewrite !zip_with_length in I2. set (x := zip_with (fun x os => N.to_nat (x - os.1 + os.2)) ind (zip ostart start)).
      assert (length x = dims) as Lx by (unfold x; rewrite !zip_with_length; lia).
      assert (forall i, (i < dims)%nat -> x !!! i = N.to_nat (ind !!! i - ostart !!! i + start !!! i)) as Hx. { intros i Hi. unfold x. by rewrite !zip_at by (rewrite ?zip_with_length; lia). }
      destruct (box_chunks_cover (loop_fuel (vto_nat end_)) (vto_nat start) (vto_nat end_) (vto_nat req) x) as (cc & Hcc & Hin);
        [done|unfold vto_nat; rewrite !fmap_length; lia|done| |].
      { apply in_box_at. unfold vto_nat. rewrite !fmap_length. split; [lia|]. split; [lia|]. intros i Hi. rewrite !fmap_at by lia. rewrite Hx by lia. specialize (I3 i ltac:(lia)).
        rewrite !zip_at in I3 by (rewrite ?zip_with_length; lia). destruct (Hat i ltac:(lia)) as (B1 & B2 & B3 & B4 & B5). lia. }
      rewrite <- Ech in Hcc. apply elem_of_list_lookup in Hcc as [k Hk]. destruct (Forall2_lookup_r _ _ _ _ _ Hg Hk) as (c' & Hc' & Hgc). exists c'. split; [by eapply elem_of_list_lookup_2|].
      destruct (Forall_lookup_1 _ _ _ _ Hp Hk) as (P1 & P2 & P3). apply in_box_at in Hin as (J1 & J2 & J3). unfold covers.
      rewrite (gc_start _ _ _ _ _ _ _ _ _ _ _ Hgc), (gc_end _ _ _ _ _ _ _ _ _ _ _ Hgc). apply inbox_at. rewrite !(target_len _ _ _ _ _ _ _ _ _ _ _ Hok) by done. split; [lia|]. split; [lia|].
      intros i Hi. rewrite !(target_at _ _ _ _ _ _ _ _ _ _ _ Hok) by lia. specialize (J3 i ltac:(lia)). rewrite Hx in J3 by lia. specialize (I3 i ltac:(lia)). destruct (P3 i ltac:(lia)) as (A1 & A2 & A3 & A4). lia.
  - intros c' Hc'. destruct (Hget c' Hc') as (cc & _ & Hgc & P1 & P2 & P3). split; [by apply (gc_ov _ _ _ _ _ _ _ _ _ _ _ Hgc)|].
    rewrite (gc_start _ _ _ _ _ _ _ _ _ _ _ Hgc), (gc_end _ _ _ _ _ _ _ _ _ _ _ Hgc). apply F2_at. rewrite !zip_with_length, !(target_len _ _ _ _ _ _ _ _ _ _ _ Hok) by done. split; [lia|].
    intros i Hi. rewrite zip_at by (rewrite !(target_len _ _ _ _ _ _ _ _ _ _ _ Hok) by done; lia). cbn [fst snd]. rewrite !(target_at _ _ _ _ _ _ _ _ _ _ _ Hok) by lia. destruct (P3 i ltac:(lia)) as (A1 & A2 & A3 & A4). lia.
  - intros c c' ind Hc Hcov Hc' Hr. destruct (Hget c' Hc') as (cc & _ & Hgc & Hpc).
    assert (length (zind ind) = dims) as Lz. { destruct (rb_hull _ _ _ _ _ _ _ _ _ _ _ Hok) as (_ & _ & Hh & _). specialize (Hh c ind Hc Hcov). apply inbox_at in Hh as (? & _). unfold zind. rewrite fmap_length. lia. }
    destruct (Hreach c' cc _ Hgc Hpc Lz Hr) as [Hz ->]. by apply (gc_val _ _ _ _ _ _ _ _ _ _ _ Hgc).
  - intros Ho c' Hc'. destruct (Hget c' Hc') as (cc & _ & Hgc & _). pose proof (gc_null _ _ _ _ _ _ _ _ _ _ _ Hgc) as Hn. destruct (c_null c'); [|done]. rewrite Ho in Hn. by specialize (Hn eq_refl).
  - intros Hcyl c' x Hc' Lx Hr. destruct (Hget c' Hc') as (cc & _ & Hgc & Hpc). destruct (Hreach c' cc x Hgc Hpc ltac:(lia) Hr) as [Hz ->].
    exact (gc_cyl _ _ _ _ _ _ _ _ _ _ _ Hgc Hcyl x Hz).
  - intros f Hf c' x Hc' Lx Hr Hnot. destruct (Hget c' Hc') as (cc & _ & Hgc & Hpc). destruct (Hreach c' cc x Hgc Hpc ltac:(lia) Hr) as [Hz ->].
    exact (gc_const _ _ _ _ _ _ _ _ _ _ _ Hgc f Hf x Hz Hnot).
Qed.
End rb.
