(** Proofs about the distributed array, part 7: ranges (continued). *)
From stdpp Require Import base list list_numbers numbers option gmap countable sets.
From Coq Require Import NArith Lia Permutation.
From Verif Require Import IndexSpec LoopsProofs NDArrayModel NDArrayProofs NDArrayOps NDArrayOps2 NDArrayOps3 NDArrayProps StreamerModel StreamerProps
  BBoxModel BBoxProps DownsampleModel DownsampleProps
  RTreeModel RTreeInsert RTreeRebuild RTreeProps ChunkMetaModel ChunkMetaProps ChunkCacheModel ChunkCacheSpec ChunkCacheProofs ChunkCacheProofs2 ChunkCacheProofs3 ChunkCacheProps
  LibraryModel LibrarySpec LibraryProofs LibraryProofs2 LibraryProofs3 LibraryProofs4 LibraryProofs5 LibraryProofs6 LibrarySwap.
From Verif Require Import IndexSpec.

Section range.
Context (vd dims : nat) (junk : N) (L : lib) (HL : lib_ok L).
Local Notation lrep := (lrep vd dims).
Local Notation lrep_ := (lrep_ vd dims).
Local Notation overlaps_range := (overlaps_range dims).

Lemma overlapping_range m c is ie : meta_rep dims m c -> length is = dims -> nonempty is ie ->
  overlapping (is, ie) (item_of m).1 <-> overlaps_range c is ie.
Proof using.
  intros Hr His Hne. destruct (mr_at dims m c Hr) as (R1 & R2 & R3 & R4). apply nonempty_at in Hne as [Hl1 Hl2].
  unfold overlapping, LibraryProofs6.overlaps_range, item_of. cbn [fst snd]. rewrite (mr_start _ _ _ Hr), (mr_end _ _ _ Hr), F1_at. rewrite !zip_with_length.
  split; intros H i Hi; specialize (H i ltac:(lia)).
  - rewrite zip_at in H by (rewrite ?zip_with_length; lia). rewrite !zip_at in H by lia. cbn [fst snd] in H. lia.
  - rewrite zip_at by (rewrite ?zip_with_length; lia). rewrite !zip_at by lia. cbn [fst snd]. lia.
Qed.
Lemma common_overlaps m c is ie ind : meta_rep dims m c -> inbox is ie ind -> covers c ind -> overlaps_range c is ie.
Proof using.
  intros Hr Hi1 Hi2 i Hi. destruct (mr_at dims m c Hr) as (R1 & R2 & R3 & R4). apply inbox_at in Hi1 as (I1 & I2 & I3). apply inbox_at in Hi2 as (J1 & J2 & J3).
  specialize (I3 i ltac:(lia)). specialize (J3 i ltac:(lia)). lia.
Qed.

Lemma filter_NoDup_fmap {A B} (f : A -> B) (P : A -> Prop) `{!forall x, Decision (P x)} (l : list A) : NoDup (f <$> l) -> NoDup (f <$> filter P l).
Proof using.
  induction l as [|x l IH]; [done|]. rewrite list.fmap_cons, list.NoDup_cons, filter_cons. intros [H1 H2]. destruct (decide (P x)); [|auto].
  rewrite list.fmap_cons, list.NoDup_cons. split; [|auto]. intros (y & E & Hy)%elem_of_list_fmap. apply elem_of_list_filter in Hy as [_ Hy]. apply H1. rewrite E. by apply elem_of_list_fmap_1.
Qed.
(** The chunks found for a range. *)
Lemma range_ok l S M sz H is ie : lrep_ l S M sz H -> length is = dims -> nonempty is ie ->
  exists Q : list (chunk_meta * chunk), search_range (l_tree l) is ie = Some Q.*1 /\
    (forall m c, (m, c) ∈ Q <-> (m, c) ∈ zip M (ls_chunks S) /\ overlaps_range c is ie) /\
    (forall i j m c m' c', Q !! i = Some (m, c) -> Q !! j = Some (m', c') -> i <> j -> apart (c_start c) (c_end c) (c_start c') (c_end c')).
Proof using.
  intros Hl His Hne. pose proof (lrep_len _ _ _ _ _ _ _ Hl) as Hlen.
  destruct (sim_ranges (P := chunk_meta) dims 1 (l_tree l) (item_of <$> M) H (lr_tree _ _ _ _ _ _ _ Hl) (is, ie)) as (ps & Hps & Hperm).
  { split; cbn [fst snd]; [|done]. destruct Hne as [N1 N2]. split; [done|]. intros i x y Hx Hy. specialize (N2 i x y Hx Hy). lia. }
  cbn [fst snd] in Hps.
  assert ((filter (fun x : item => overlapping (is, ie) x.1) (item_of <$> M)).*2 =
          (filter (fun mc : chunk_meta * chunk => overlapping (is, ie) (item_of mc.1).1) (zip M (ls_chunks S))).*1) as E.
  { clear -Hlen. revert Hlen. generalize (ls_chunks S). induction M as [|m M IH]; intros [|c C] Hlen; try done. rewrite list.fmap_cons. cbn [zip_with]. rewrite !filter_cons.
    cbn [fst]. destruct (decide _) as [Hd|Hd]; rewrite ?list.fmap_cons; [f_equal|]; apply IH; simpl in Hlen; lia. }
  rewrite E in Hperm. apply Permutation_map_inv in Hperm as (Q & -> & HQ). exists Q. split; [done|].
  assert (forall m c, (m, c) ∈ zip M (ls_chunks S) -> meta_rep dims m c) as Hrep.
  { intros m c (i & Hi)%elem_of_list_lookup. apply lookup_zip_with_Some in Hi as (m' & c' & [= -> ->] & Hm & Hc).
    exact (Forall2_lookup_lr _ _ _ _ _ _ (lr_metas _ _ _ _ _ _ _ Hl) Hm Hc). }
  split.
  - intros m c. rewrite <- HQ, elem_of_list_filter. cbn [fst]. split.
    + intros [H1 H2]. split; [done|]. by apply (overlapping_range m c is ie (Hrep _ _ H2)).
    + intros [H1 H2]. split; [|done]. by apply (overlapping_range m c is ie (Hrep _ _ H1)).
  - assert (NoDup (cm_id <$> Q.*1)) as Hnd.
    { assert (cm_id <$> Q.*1 ≡ₚ cm_id <$> (filter (fun mc : chunk_meta * chunk => overlapping (is, ie) (item_of mc.1).1) (zip M (ls_chunks S))).*1) as -> by (by rewrite HQ).
      rewrite <- list_fmap_compose. apply filter_NoDup_fmap. rewrite list_fmap_compose, fst_zip by lia. exact (lr_ids _ _ _ _ _ _ _ Hl). }
    intros i j m c m' c' Hi Hj Hij ind I1 I2.
    assert ((m, c) ∈ zip M (ls_chunks S)) as Z1. { apply elem_of_list_lookup_2 in Hi. rewrite <- HQ in Hi. apply elem_of_list_filter in Hi. tauto. }
    assert ((m', c') ∈ zip M (ls_chunks S)) as Z2. { apply elem_of_list_lookup_2 in Hj. rewrite <- HQ in Hj. apply elem_of_list_filter in Hj. tauto. }
    apply elem_of_list_lookup in Z1 as (i1 & Z1). apply elem_of_list_lookup in Z2 as (j1 & Z2).
    apply lookup_zip_with_Some in Z1 as (? & ? & [= <- <-] & Z1 & Z1'). apply lookup_zip_with_Some in Z2 as (? & ? & [= <- <-] & Z2 & Z2').
    destruct (decide (i1 = j1)) as [->|Hne1].
    + assert (m' = m) as -> by congruence. apply Hij. eapply NoDup_lookup; [exact Hnd| |]; rewrite !list_lookup_fmap.
      * by rewrite Hi.
      * by rewrite Hj.
    + exact (lr_apart _ _ _ _ _ _ _ Hl i1 j1 c c' Z1' Z2' Hne1 ind I1 I2).
Qed.

(** ** FillArray *)
Lemma fill_fold cs sz (A : sstate) buf is ie os (Q : list (chunk_meta * chunk)) : (0 < dims)%nat -> (forall k, acceptable_chunk dims (sz k)) ->
  ok_fill vd dims buf is ie os -> (forall m c, (m, c) ∈ Q -> meta_rep dims m c /\ A !! cm_id m = Some (m, c_val c) /\ overlaps_range c is ie) ->
  (forall i j m c m' c', Q !! i = Some (m, c) -> Q !! j = Some (m', c') -> i <> j -> apart (c_start c) (c_end c) (c_start c') (c_end c')) ->
  forall b s, sinv vd dims cs sz s A -> api_array vd b -> a_shape b = a_shape buf ->
  exists b' s', rfold (fill_chunk vd dims junk is ie os) (b, s) Q.*1 = Done (b', s') /\ sinv vd dims cs sz s' A /\ (api_array vd b' /\ (float_array vd b -> float_array vd b')) /\ a_shape b' = a_shape buf /\
    (forall m c ind, (m, c) ∈ Q -> inbox is ie ind -> covers c ind -> exists v, aread vd b' (place is os ind) = Some v /\ comes_back NullSuppressed (value c ind) v) /\
    (forall y, in_shape (a_shape buf) y -> (forall m c ind, (m, c) ∈ Q -> inbox is ie ind -> covers c ind -> y <> place is os ind) -> aread vd b' y = aread vd b y).
Proof using.
  intros Hd Hacc Hok. induction Q as [|[m c] Q IH]; intros HQ Hap b s Hs Hwf Hsh.
  - exists b, s. split_and!; auto; try done. intros m c ind Hq. by apply elem_of_nil in Hq.
  - destruct (HQ m c) as (Hr & HA & Hov); [by left|].
    destruct (fill_chunk_ok vd dims junk cs sz s A buf b is ie os m c Hd Hacc Hs Hok Hwf Hsh Hr HA Hov) as (b1 & s1 & Hf & Hs1 & [Hwf1 Hfl1] & Hsh1 & Hv1 & Hu1).
    destruct (IH ltac:(intros m' c' Hq; apply HQ; by right)) with (b := b1) (s := s1) as (b2 & s2 & Hf2 & Hs2 & [Hwf2 Hfl2] & Hsh2 & Hv2 & Hu2); auto.
    { intros i j m1 c1 m2 c2 Hi Hj Hij. apply (Hap (Datatypes.S i) (Datatypes.S j) m1 c1 m2 c2 Hi Hj). lia. }
    exists b2, s2. split. { rewrite list.fmap_cons. cbn [rfold fst]. rewrite Hf. exact Hf2. } split_and!; auto.
    + intros m' c' ind [[= -> ->]|Hq]%elem_of_cons Hi1 Hi2; [|by eapply Hv2].
      rewrite Hu2; [by apply Hv1| |].
      * pose proof (out_in_box vd dims _ _ _ _ _ _ _ Hok Hr Hi1 Hi2) as Hb. apply in_box_forall2 in Hb as [_ Hb]. apply in_shape_forall2. eapply Forall2_lt_le_trans; [exact Hb|].
        destruct (of_at vd dims _ _ _ _ Hok) as (H1 & H2 & H3 & H4 & H5). destruct (mr_at dims m c Hr) as (R1 & R2 & R3 & R4).
        apply F2_at. rewrite out_len with (dims := dims); auto; [|unfold chi; rewrite zip_with_length; lia]. split; [done|]. intros i Hi.
        rewrite out_at; [|unfold chi; rewrite zip_with_length; lia|lia|lia]. unfold chi. rewrite zip_at by lia. specialize (H5 i ltac:(lia)). specialize (R4 i ltac:(lia)). specialize (Hov i ltac:(lia)). lia.
      * intros m' c' ind' Hq Hi1' Hi2' E. assert (ind = ind') as <- by (eapply out_inj; eauto). apply elem_of_list_lookup in Hq as (j & Hj).
        exact (Hap 0%nat (Datatypes.S j) m c m' c' eq_refl Hj ltac:(lia) ind Hi2 Hi2').
    + intros y Hy Hno. rewrite Hu2; [apply Hu1; auto|done|].
      * intros ind Hi1 Hi2. apply (Hno m c ind); auto. by left.
      * intros m' c' ind Hq Hi1 Hi2. apply (Hno m' c' ind); auto. by right.
Qed.

Lemma fill_checks buf is ie os : ok_fill vd dims buf is ie os ->
  has_index (a_shape buf) (vto_nat os) && has_index (a_shape buf) (vto_nat ((fun x => wsub x 1) <$> vwadd os (vwsub ie is))) = true.
Proof using.
  intros Hok. destruct (of_at vd dims _ _ _ _ Hok) as (H1 & H2 & H3 & H4 & H5). apply andb_true_iff. split; apply has_index_true, in_shape_forall2, F2_at; unfold vto_nat, vwadd, vwsub.
  - rewrite fmap_length. split; [lia|]. intros i Hi. rewrite fmap_at by lia. specialize (H5 i ltac:(lia)). lia.
  - rewrite !fmap_length, !zip_with_length. split; [lia|]. intros i Hi. rewrite fmap_at by (rewrite fmap_length, !zip_with_length; lia). rewrite fmap_at by (rewrite !zip_with_length; lia).
    rewrite zip_at by (rewrite ?zip_with_length; lia). rewrite zip_at by lia. specialize (H5 i ltac:(lia)).
    rewrite (wsub_small (ie !!! i)) by lia. rewrite wadd_small by lia. rewrite wsub_small by lia. lia.
Qed.

Lemma fill_ok l S buf is ie os : lrep l S -> ok_fill vd dims buf is ie os ->
  exists b l', lib_fill vd dims junk buf is ie os l = Done (b, l') /\ lrep l' S /\ (api_array vd b /\ (float_array vd buf -> float_array vd b)) /\ a_shape b = a_shape buf /\
    (forall c ind, c ∈ ls_chunks S -> inbox is ie ind -> covers c ind -> exists v, aread vd b (place is os ind) = Some v /\ comes_back NullSuppressed (value c ind) v) /\
    (forall y, in_shape (a_shape buf) y -> (forall c ind, c ∈ ls_chunks S -> inbox is ie ind -> covers c ind -> y <> place is os ind) -> aread vd b y = aread vd buf y).
Proof using.
  intros Hl0 Hok. pose proof (lrep_dims _ _ _ _ Hl0) as Hd. destruct Hl0 as (M & sz & H & Hl).
  destruct (range_ok _ _ _ _ _ is ie Hl) as (Q & Hs & HQ & Hap); [apply Hok|apply Hok|].
  assert (forall m c, (m, c) ∈ zip M (ls_chunks S) -> meta_rep dims m c /\ c ∈ ls_chunks S /\ amap M (ls_chunks S) !! cm_id m = Some (m, c_val c)) as Hz.
  { intros m c (i & Hi)%elem_of_list_lookup. apply lookup_zip_with_Some in Hi as (m' & c' & [= <- <-] & Hm & Hc).
    destruct (lrep_get _ _ _ _ _ _ _ _ _ Hl Hc) as (m1 & Hm1 & Hr & Ha & _). assert (m1 = m) as -> by congruence. split_and!; auto. by eapply elem_of_list_lookup_2. }
  destruct (fill_fold (ls_cs S) sz (amap M (ls_chunks S)) buf is ie os Q Hd (lr_acc _ _ _ _ _ _ _ Hl) Hok) with (b := buf) (s := l_store l) as (b & s' & Hf & Hs' & [Hwf Hfl] & Hsh & Hv & Hu).
  { intros m c [Hq1 Hq2]%HQ. destruct (Hz _ _ Hq1) as (? & ? & ?). auto. }
  { exact Hap. }
  { exact (lr_store _ _ _ _ _ _ _ Hl). }
  { apply Hok. }
  { done. }
  exists b, (with_store l s'). split. { unfold lib_fill. rewrite (fill_checks _ _ _ _ Hok), Hs. cbn [of_opt mbind res_bind]. rewrite Hf. reflexivity. }
  split; [exists M, sz, H; by apply with_store_ok|]. split_and!; auto.
  - intros c ind Hc Hi1 Hi2. apply elem_of_list_lookup in Hc as (i & Hc). destruct (lrep_get _ _ _ _ _ _ _ _ _ Hl Hc) as (m & Hm & Hr & Ha & _).
    apply (Hv m c ind); auto. apply HQ. split; [|by eapply common_overlaps]. apply elem_of_list_lookup. exists i. rewrite lookup_zip_with, Hm. cbn. by rewrite Hc.
  - intros y Hy Hno. apply Hu; auto. intros m c ind [Hq1 _]%HQ Hi1 Hi2. destruct (Hz _ _ Hq1) as (_ & Hc & _). by apply (Hno c ind).
Qed.

(** ** index_loop_over_elements *)
Lemma global_of m c is ie p : meta_rep dims m c -> length is = dims -> length ie = dims -> overlaps_range c is ie ->
  in_box (position c (clo c is)) (position c (chi c ie)) p ->
  exists ind, inbox is ie ind /\ covers c ind /\ p = position c ind /\ vwadd (cm_off m) (vof_nat p) = ind.
Proof using.
  intros Hr H1 H2 Hov Hp. destruct (mr_at dims m c Hr) as (R1 & R2 & R3 & R4).
  assert (length (clo c is) = dims) as Ll by (unfold clo; rewrite zip_with_length; lia). assert (length (chi c ie) = dims) as Lh by (unfold chi; rewrite zip_with_length; lia).
  assert (length (position c (clo c is)) = dims) as Lpl by (unfold position; rewrite zip_with_length; lia).
  assert (length (position c (chi c ie)) = dims) as Lph by (unfold position; rewrite zip_with_length; lia).
  apply in_box_at in Hp as (P1 & P2 & P3).
  assert (forall i, (i < dims)%nat -> (N.max (is !!! i) (c_start c !!! i) + c_ov c - c_start c !!! i <= N.of_nat (p !!! i) < N.min (ie !!! i) (c_end c !!! i) + c_ov c - c_start c !!! i)%N) as Hp.
  { intros i Hi. specialize (P3 i ltac:(lia)). rewrite !position_at in P3 by lia. unfold clo, chi in P3. rewrite !zip_at in P3 by lia. lia. }
  assert (length (zip_with (fun (n : nat) s => N.of_nat n + s - c_ov c)%N p (c_start c)) = dims) as Lz by (rewrite zip_with_length; lia).
  exists (zip_with (fun (n : nat) s => N.of_nat n + s - c_ov c)%N p (c_start c)). split_and!.
  - apply inbox_at. split_and!; try lia. intros i Hi. rewrite zip_at by lia. specialize (Hp i ltac:(lia)). specialize (R4 i ltac:(lia)). lia.
  - apply inbox_at. split_and!; try lia. intros i Hi. rewrite zip_at by lia. specialize (Hp i ltac:(lia)). specialize (R4 i ltac:(lia)). lia.
  - apply eq_at. unfold position at 1. rewrite !zip_with_length. split; [lia|]. intros i Hi.
    assert (i < dims)%nat as Hi'. { unfold position in Hi. rewrite !zip_with_length in Hi. lia. }
    rewrite position_at by lia. rewrite zip_at by lia. specialize (Hp i ltac:(lia)). specialize (R4 i ltac:(lia)). lia.
  - unfold vwadd, vof_nat. rewrite (off_eq dims m c Hr). apply eq_at. rewrite zip_with_length, !fmap_length. split; [lia|]. intros i Hi.
    rewrite zip_at by (rewrite fmap_length; lia). rewrite !fmap_at by lia. rewrite zip_at by lia. specialize (Hp i ltac:(lia)). specialize (R4 i ltac:(lia)).
    specialize (Hov i ltac:(lia)).
    assert (c_start c !!! i < 2 ^ 64)%N by lia. assert (c_ov c < 2 ^ 64)%N by lia.
    destruct (N.le_gt_cases (c_ov c) (c_start c !!! i)) as [Hle|Hgt].
    + rewrite wsub_small by lia. rewrite wadd_small by lia. lia.
    + unfold wsub, wadd, W in *. rewrite ?(N.mod_small (c_ov c)) by lia. rewrite (N.mod_small (c_start c !!! i + 2 ^ 64 - c_ov c)) by lia.
      symmetry. apply N.mod_unique with 1%N; lia.
Qed.
Lemma position_in m c is ie ind : meta_rep dims m c -> inbox is ie ind -> covers c ind -> in_box (position c (clo c is)) (position c (chi c ie)) (position c ind).
Proof using.
  intros Hr Hi1 Hi2. destruct (mr_at dims m c Hr) as (R1 & R2 & R3 & R4). apply inbox_at in Hi1 as (I1 & I2 & I3). apply inbox_at in Hi2 as (J1 & J2 & J3).
  assert (length (clo c is) = dims) as Ll by (unfold clo; rewrite zip_with_length; lia). assert (length (chi c ie) = dims) as Lh by (unfold chi; rewrite zip_with_length; lia).
  assert (length (position c (clo c is)) = dims) as Lpl by (unfold position; rewrite zip_with_length; lia).
  assert (length (position c (chi c ie)) = dims) as Lph by (unfold position; rewrite zip_with_length; lia).
  assert (length (position c ind) = dims) as Lpi by (unfold position; rewrite zip_with_length; lia).
  apply in_box_at. split_and!; try lia. intros i Hi. rewrite !position_at by lia. unfold clo, chi. rewrite !zip_at by lia. specialize (I3 i ltac:(lia)). specialize (J3 i ltac:(lia)). lia.
Qed.

Lemma loop_chunk_ok cs sz s (A : sstate) is ie m c vs0 : (0 < dims)%nat -> (forall k, acceptable_chunk dims (sz k)) -> sinv vd dims cs sz s A ->
  length is = dims -> length ie = dims -> meta_rep dims m c -> A !! cm_id m = Some (m, c_val c) -> overlaps_range c is ie -> (c_null c = true -> c_ov c = 0%N) ->
  exists vs s', loop_chunk vd dims junk is ie (vs0, s) m = Done (vs0 ++ vs, s') /\ sinv vd dims cs sz s' A /\ NoDup vs.*1 /\
    (forall ind, inbox is ie ind -> covers c ind -> ind ∈ vs.*1) /\
    (forall ind v, (ind, v) ∈ vs -> inbox is ie ind /\ covers c ind /\ comes_back NullSuppressed (value c ind) v).
Proof using.
  intros Hd Hacc Hs H1 H2 Hr HA Hov Hn. destruct (mr_at dims m c Hr) as (R1 & R2 & R3 & R4).
  assert (length (clo c is) = dims) as Ll by (unfold clo; rewrite zip_with_length; lia). assert (length (chi c ie) = dims) as Lh by (unfold chi; rewrite zip_with_length; lia).
  assert (overlap_lo m is = clo c is) as Elo by (unfold overlap_lo, clo; by rewrite (mr_start _ _ _ Hr)).
  assert (overlap_hi m ie = chi c ie) as Ehi by (unfold overlap_hi, chi; by rewrite (mr_end _ _ _ Hr)).
  assert (forall i, (i < dims)%nat -> clo c is !!! i = N.max (is !!! i) (c_start c !!! i)) as Alo by (intros i Hi; unfold clo; apply zip_at; lia).
  assert (forall i, (i < dims)%nat -> chi c ie !!! i = N.min (ie !!! i) (c_end c !!! i)) as Ahi by (intros i Hi; unfold chi; apply zip_at; lia).
  assert (length (position c (clo c is)) = dims) as Lpl by (unfold position; rewrite zip_with_length; lia).
  assert (length (position c (chi c ie)) = dims) as Lph by (unfold position; rewrite zip_with_length; lia).
  destruct (retrieve_ok vd dims junk cs sz Hacc Hd s A m (c_val c) Hs HA) as (d & s' & Hret & Hs' & _ & Hfd & Hdsh & Hv); [by eapply mr_readable|].
  unfold loop_chunk. cbn [fst snd]. rewrite Hret. cbn [mbind res_bind]. rewrite Elo, Ehi.
  rewrite (local_vec dims m c (clo c is)); [|done|done|].
  2:{ intros i Hi. rewrite Alo by done. specialize (Hov i Hi). specialize (R4 i Hi). lia. }
  rewrite (local_vec dims m c (chi c ie)); [|done|done|].
  2:{ intros i Hi. rewrite Ahi by done. specialize (Hov i Hi). specialize (R4 i Hi). lia. }
  pose proof (wf_owned_wf _ _ (api_array_wf _ _ (proj1 Hfd))) as Hwf. destruct Hwf as [(st & Hst & Hsl) Hb].
  rewrite Hst, index_loop_positions_spec.
  2:{ intros E. rewrite E in Lpl. simpl in Lpl. lia. }
  2:{ lia. }
  2:{ rewrite Hsl, Hdsh. lia. }
  cbn [of_opt mbind res_bind]. rewrite <- Hst.
  set (g := fun p : list nat * nat => (vwadd (cm_off m) (vof_nat p.1), default [] (block (a_data d) p.2 vd))).
  assert (forall p, in_box (position c (clo c is)) (position c (chi c ie)) p -> exists ind v, inbox is ie ind /\ covers c ind /\ p = position c ind /\
     block (a_data d) (flat_ind (a_strides d) (a_off d) p) vd = Some v /\ g (p, flat_ind (a_strides d) (a_off d) p) = (ind, v) /\ comes_back NullSuppressed (value c ind) v) as Hg.
  { intros p Hp. destruct (global_of m c is ie p Hr H1 H2 Hov Hp) as (ind & Hi1 & Hi2 & -> & E). destruct (local_pos dims m c ind Hr Hi2) as [_ Hin].
    destruct (Hv _ Hin) as (v & Hrd & Hcb). rewrite <- Hdsh in Hin. unfold aread in Hrd. rewrite (proj2 (has_index_true _ _) Hin) in Hrd.
    exists ind, v. split_and!; auto. unfold g. cbn [fst snd]. by rewrite E, Hrd. }
  rewrite (mapM_Some_const _ g).
  2:{ intros p Hp. apply elem_of_list_fmap in Hp as (x & -> & Hx%elem_of_box_elems). destruct (Hg x Hx) as (ind & v & _ & _ & _ & Hbl & _). cbn [fst snd]. rewrite Hbl. unfold g. cbn [fst snd]. by rewrite Hbl. }
  cbn [of_opt mbind res_bind]. eexists _, s'. split; [reflexivity|]. split; [done|]. split; [|split].
  - rewrite <- !list_fmap_compose. apply NoDup_fmap_2_strong; [|apply box_elems_NoDup].
    intros x y Hx%elem_of_box_elems Hy%elem_of_box_elems E. destruct (Hg x Hx) as (i1 & v1 & _ & _ & -> & _ & E1 & _). destruct (Hg y Hy) as (i2 & v2 & _ & _ & -> & _ & E2 & _).
    apply (f_equal fst) in E1, E2. cbn in E, E1, E2. assert (i1 = i2) as -> by congruence. done.
  - intros ind Hi1 Hi2. pose proof (position_in m c is ie ind Hr Hi1 Hi2) as Hp. destruct (global_of m c is ie _ Hr H1 H2 Hov Hp) as (ind' & J1 & J2 & J3 & J4).
    assert (ind' = ind) as ->.
    { apply inbox_at in Hi2 as (I1 & I2 & I3). apply inbox_at in J2 as (K1 & K2 & K3). apply eq_at. split; [lia|]. intros i Hi.
      assert (position c ind !!! i = position c ind' !!! i) as E by (by rewrite J3). rewrite !position_at in E by lia. specialize (I3 i ltac:(lia)). specialize (K3 i ltac:(lia)). lia. }
    rewrite <- !list_fmap_compose. apply elem_of_list_fmap. exists (position c ind). split; [|by apply elem_of_box_elems]. symmetry. exact J4.
  - intros ind v Hin. rewrite <- list_fmap_compose in Hin. apply elem_of_list_fmap in Hin as (p & E & Hp%elem_of_box_elems). destruct (Hg p Hp) as (i1 & v1 & K1 & K2 & _ & _ & E1 & Hcb).
    assert ((ind, v) = (i1, v1)) as E2 by (rewrite <- E1; exact E). injection E2 as -> ->. auto.
Qed.

Lemma loop_fold cs sz (A : sstate) is ie (Q : list (chunk_meta * chunk)) : (0 < dims)%nat -> (forall k, acceptable_chunk dims (sz k)) ->
  length is = dims -> length ie = dims ->
  (forall m c, (m, c) ∈ Q -> meta_rep dims m c /\ A !! cm_id m = Some (m, c_val c) /\ overlaps_range c is ie /\ (c_null c = true -> c_ov c = 0%N)) ->
  (forall i j m c m' c', Q !! i = Some (m, c) -> Q !! j = Some (m', c') -> i <> j -> apart (c_start c) (c_end c) (c_start c') (c_end c')) ->
  forall vs0 s, sinv vd dims cs sz s A ->
  exists vs s', rfold (loop_chunk vd dims junk is ie) (vs0, s) Q.*1 = Done (vs0 ++ vs, s') /\ sinv vd dims cs sz s' A /\ NoDup vs.*1 /\
    (forall m c ind, (m, c) ∈ Q -> inbox is ie ind -> covers c ind -> ind ∈ vs.*1) /\
    (forall ind v, (ind, v) ∈ vs -> inbox is ie ind /\ exists m c, (m, c) ∈ Q /\ covers c ind /\ comes_back NullSuppressed (value c ind) v).
Proof using.
  intros Hd Hacc H1 H2. induction Q as [|[m c] Q IH]; intros HQ Hap vs0 s Hs.
  - exists [], s. rewrite app_nil_r. split_and!; auto; try done. { apply NoDup_nil_2. } { intros m c ind Hq. by apply elem_of_nil in Hq. } intros ind v Hq. by apply elem_of_nil in Hq.
  - destruct (HQ m c) as (Hr & HA & Hov & Hn); [by left|].
    destruct (loop_chunk_ok cs sz s A is ie m c vs0 Hd Hacc Hs H1 H2 Hr HA Hov Hn) as (vs1 & s1 & Hf & Hs1 & Hnd1 & Hv1 & Hu1).
    destruct (IH ltac:(intros m' c' Hq; apply HQ; by right)) with (vs0 := vs0 ++ vs1) (s := s1) as (vs2 & s2 & Hf2 & Hs2 & Hnd2 & Hv2 & Hu2); auto.
    { intros i j m1 c1 m2 c2 Hi Hj Hij. apply (Hap (Datatypes.S i) (Datatypes.S j) m1 c1 m2 c2 Hi Hj). lia. }
    exists (vs1 ++ vs2), s2. split. { rewrite list.fmap_cons. cbn [rfold fst]. rewrite Hf. cbn [mbind res_bind]. rewrite Hf2. by rewrite app_assoc. } split; [done|]. split; [|split].
    + rewrite fmap_app. apply NoDup_app. split_and!; auto. intros ind (x1 & -> & Hx1)%elem_of_list_fmap (x2 & E & Hx2)%elem_of_list_fmap.
      destruct x1 as [ind v1], x2 as [ind2 v2]. cbn in E. subst ind2. destruct (Hu1 _ _ Hx1) as (_ & Hc1 & _). destruct (Hu2 _ _ Hx2) as (_ & m' & c' & Hq & Hc2 & _).
      apply elem_of_list_lookup in Hq as (j & Hj). exact (Hap 0%nat (Datatypes.S j) m c m' c' eq_refl Hj ltac:(lia) ind Hc1 Hc2).
    + intros m' c' ind [[= -> ->]|Hq]%elem_of_cons Hi1 Hi2; rewrite fmap_app; apply elem_of_app; [left; by apply Hv1|right; by eapply Hv2].
    + intros ind v [Hx|Hx]%elem_of_app.
      * destruct (Hu1 _ _ Hx) as (K1 & K2 & K3). split; [done|]. exists m, c. split; [by left|done].
      * destruct (Hu2 _ _ Hx) as (K1 & m' & c' & K2 & K3). split; [done|]. exists m', c'. split; [by right|done].
Qed.

Lemma loop_ok l S is ie : lrep l S -> length is = dims -> nonempty is ie -> (forall c, c ∈ ls_chunks S -> c_null c = true -> c_ov c = 0%N) ->
  exists vs l', lib_loop vd dims junk is ie l = Done (vs, l') /\ lrep l' S /\ NoDup vs.*1 /\
    (forall c ind, c ∈ ls_chunks S -> inbox is ie ind -> covers c ind -> ind ∈ vs.*1) /\
    (forall ind v, (ind, v) ∈ vs -> inbox is ie ind /\ exists c, c ∈ ls_chunks S /\ covers c ind /\ comes_back NullSuppressed (value c ind) v).
Proof using.
  intros Hl0 His Hne Hnull. pose proof (lrep_dims _ _ _ _ Hl0) as Hd. destruct Hl0 as (M & sz & H & Hl).
  destruct (range_ok _ _ _ _ _ is ie Hl) as (Q & Hs & HQ & Hap); [done|done|].
  assert (forall m c, (m, c) ∈ zip M (ls_chunks S) -> meta_rep dims m c /\ c ∈ ls_chunks S /\ amap M (ls_chunks S) !! cm_id m = Some (m, c_val c)) as Hz.
  { intros m c (i & Hi)%elem_of_list_lookup. apply lookup_zip_with_Some in Hi as (m' & c' & [= <- <-] & Hm & Hc).
    destruct (lrep_get _ _ _ _ _ _ _ _ _ Hl Hc) as (m1 & Hm1 & Hr & Ha & _). assert (m1 = m) as -> by congruence. split_and!; auto. by eapply elem_of_list_lookup_2. }
  assert (length ie = dims) as Hie by (destruct Hne as [-> _]; done).
  destruct (loop_fold (ls_cs S) sz (amap M (ls_chunks S)) is ie Q Hd (lr_acc _ _ _ _ _ _ _ Hl) His Hie) with (vs0 := @nil (list N * list N)) (s := l_store l) as (vs & s' & Hf & Hs' & Hnd & Hv & Hu).
  { intros m c [Hq1 Hq2]%HQ. destruct (Hz _ _ Hq1) as (? & ? & ?). split_and!; auto. }
  { exact Hap. }
  { exact (lr_store _ _ _ _ _ _ _ Hl). }
  exists vs, (with_store l s'). split. { unfold lib_loop. rewrite Hs. cbn [of_opt mbind res_bind]. rewrite Hf. reflexivity. }
  split; [exists M, sz, H; by apply with_store_ok|]. split; [done|]. split.
  - intros c ind Hc Hi1 Hi2. apply elem_of_list_lookup in Hc as (i & Hc). destruct (lrep_get _ _ _ _ _ _ _ _ _ Hl Hc) as (m & Hm & Hr & Ha & _).
    apply (Hv m c ind); auto. apply HQ. split; [|by eapply common_overlaps]. apply elem_of_list_lookup. exists i. rewrite lookup_zip_with, Hm. cbn. by rewrite Hc.
  - intros ind v Hin. destruct (Hu _ _ Hin) as (K1 & m & c & [Hq1 _]%HQ & K2 & K3). split; [done|]. destruct (Hz _ _ Hq1) as (_ & Hc & _). eauto.
Qed.

(** ** All permitted histories keep the invariant *)
Theorem session_inv l S : session vd dims junk L l S -> lrep l S.
Proof using HL.
  induction 1 as [size cs l Hcs Ho|l0 S ord d size cs l _ IH Hord Hc Hcs Ho|l S a s e ov opt null uuid l' _ IH Hok Hn Ho|l S i c start slice l' _ IH Hok Ho
    |l S l2 S2 ord d move l' d' _ IH _ IH2 Hord Hc Hok Ho|l S ind v l' _ IH Ho (c & Hc & Hcov & Hn)|l S g l' _ IH Ho|l S ord l' _ IH Hord Ho|l S ord l' _ IH Hord Ho|l S ord l' d _ IH Hord Ho
    |l S buf is ie os b l' _ IH Hok Ho|l S is ie vs l' _ IH His Hne Hn Ho
    |l S ind r l' _ IH Hne Hlen Hsm Ho|l S ms m d l' _ IH Hms Hm Hty Ho|l S i j l' ds _ IH Hok Ho].
  - destruct (open_new vd dims junk L HL size cs Hcs) as (l2 & Ho2 & Hl). rewrite Ho2 in Ho. by injection Ho as ->.
  - destruct (close_ok _ _ _ _ _ Hord IH) as (d2 & Hc2 & Hcl). rewrite Hc2 in Hc. injection Hc as ->.
    destruct (reopen_ok vd dims junk L HL d S size cs Hcl Hcs) as (l2 & Ho2 & Hl). rewrite Ho2 in Ho. by injection Ho as ->.
  - destruct (register_lib_ok vd dims junk L HL l S a s e ov opt null uuid IH Hok Hn) as (l2 & Ho2 & Hl). rewrite Ho2 in Ho. by injection Ho as ->.
  - destruct (append_lib_ok vd dims junk L HL l S i c start slice IH Hok) as (l2 & Ho2 & Hl). rewrite Ho2 in Ho. by injection Ho as ->.
  - destruct (close_ok _ _ _ _ _ Hord IH2) as (d2 & Hc2 & Hcl). rewrite Hc2 in Hc. injection Hc as ->.
    destruct (import_lib_ok vd dims L HL l S d S2 move IH Hcl Hok) as (l3 & d3 & Ho2 & Hl & _). rewrite Ho2 in Ho. by injection Ho as -> _.
  - apply elem_of_list_lookup in Hc as (i & Hc). destruct (get_ok vd dims junk l S i c ind IH Hc Hcov Hn) as (v2 & l2 & Ho2 & Hl & _). rewrite Ho2 in Ho. by injection Ho as _ ->.
  - destruct (geometry_lib_ok vd dims l S IH) as (g2 & l2 & Ho2 & Hl & _). rewrite Ho2 in Ho. by injection Ho as _ ->.
  - destruct (flush_ok _ _ _ _ _ Hord IH) as (l2 & Ho2 & Hl & _). rewrite Ho2 in Ho. by injection Ho as ->.
  - destruct (clear_ok vd dims L HL l S ord Hord IH) as (l2 & Ho2 & Hl). rewrite Ho2 in Ho. by injection Ho as ->.
  - destruct (move_ok vd dims l S ord Hord IH) as (l2 & Ho2 & Hl). rewrite Ho2 in Ho. by injection Ho as -> _.
  - destruct (fill_ok l S buf is ie os IH Hok) as (b2 & l2 & Ho2 & Hl & _). rewrite Ho2 in Ho. by injection Ho as _ ->.
  - destruct (loop_ok l S is ie IH His Hne Hn) as (v2 & l2 & Ho2 & Hl & _). rewrite Ho2 in Ho. by injection Ho as _ ->.
  - destruct (lib_find_ok vd dims l S ind IH Hne Hlen Hsm) as (r2 & l2 & Ho2 & Hl). rewrite Ho2 in Ho. by injection Ho as _ ->.
  - destruct IH as (M & sz & H & Hl). rewrite (lrep_all _ _ _ _ _ _ _ Hl) in Hms. injection Hms as <-. apply elem_of_list_lookup in Hm as (i & Hm).
    destruct (lrep_get_m _ _ _ _ _ _ _ _ _ Hl Hm) as (c & Hc & _). destruct (lib_retrieve_ok vd dims junk l S M sz H i m c Hl Hm Hc Hty) as (d2 & s2 & Ho2 & Hl2 & _).
    rewrite Ho2 in Ho. injection Ho as _ <-. by exists M, sz, H.
  - destruct (swap_lib_ok vd dims junk L HL l S i j IH Hok) as (l2 & ds2 & Ho2 & Hl & _). rewrite Ho2 in Ho. by injection Ho as -> ->.
Qed.
End range.
