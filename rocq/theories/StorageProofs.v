(** Proofs about StorageModel: boxes, the stored portion of a chunk, the field buffer. *)
From stdpp Require Import base list list_numbers numbers option gmap countable sets.
From Coq Require Import NArith ZArith Lia.
From Verif Require Import IndexSpec LoopsModel LoopsProofs NDArrayModel NDArrayProofs NDArrayOps NDArrayProps StreamerModel StreamerProps CodecModel
  BBoxModel BBoxProps DownsampleModel DownsampleProps RTreeModel ChunkMetaModel ChunkCacheModel ChunkCacheSpec LibraryModel LibrarySpec LibraryProofs6
  RebuildModel RebuildSpec RebuildProofs RebuildProofs4 RecordModel RecordSpec StorageModel StorageSpec.
From Verif Require Import IndexSpec.

Lemma WE : W = 18446744073709551616%N. Proof. reflexivity. Qed.
Lemma domain_at s sh x : length sh = length s -> domain s sh x <-> length x = length s /\ forall i, (i < length s)%nat -> (s !!! i <= x !!! i < s !!! i + sh !!! i)%N.
Proof.
  intros Hl. unfold domain. rewrite !F2_at, zip_with_length. split.
  - intros [[H1 H2] [H3 H4]]. split; [lia|]. intros i Hi. specialize (H2 i ltac:(lia)). specialize (H4 i ltac:(lia)). rewrite zip_at in H4 by lia. lia.
  - intros [H1 H2]. split; (split; [lia|]); intros i Hi; specialize (H2 i ltac:(lia)); [lia|]. rewrite zip_at by lia. lia.
Qed.

(** * contains, overlaps, get_chunk_overlap *)
Lemma contains_at s sh x : length sh = length s -> length x = length s -> Forall2 (fun a n => a + n < W)%N s sh -> Forall (fun a => a < W)%N x ->
  chunk_contains s sh x = true <-> forall i, (i < length s)%nat -> (s !!! i <= x !!! i < s !!! i + sh !!! i)%N.
Proof.
  revert sh x. induction s as [|a s IH]; intros [|n sh] [|b x]; try discriminate 1; try discriminate 2.
  - intros _ _ _ _. split; [intros _ i Hi; cbn [length] in Hi; lia|done].
  - intros H1 H2 HF HG. apply Forall2_cons_1 in HF as [Ha HF]. apply list.Forall_cons in HG as [Hb HG]. cbn [length] in H1, H2. injection H1 as H1. injection H2 as H2.
    cbn [chunk_contains]. specialize (IH sh x H1 H2 HF HG).
    assert ((n <= wsub b a)%N <-> ~ (a <= b < a + n)%N) as Hw.
    { unfold wsub. rewrite WE in *. destruct (N.le_gt_cases a b).
      - replace (b + 18446744073709551616 - a)%N with (b - a + 1 * 18446744073709551616)%N by lia. rewrite N.mod_add by lia. rewrite N.mod_small by lia. lia.
      - rewrite N.mod_small by lia. lia. }
    destruct (N.leb_spec n (wsub b a)) as [Hle|Hlt].
    + split; [done|]. intros Hall. exfalso. apply (proj1 Hw Hle). exact (Hall 0%nat ltac:(cbn [length]; lia)).
    + rewrite IH. split.
      * intros Hall [|i] Hi. { change ((a :: s) !!! 0%nat) with a. change ((b :: x) !!! 0%nat) with b. change ((n :: sh) !!! 0%nat) with n. lia. }
        exact (Hall i ltac:(cbn [length] in Hi; lia)).
      * intros Hall i Hi. exact (Hall (Datatypes.S i) ltac:(cbn [length]; lia)).
Qed.
Lemma overlaps_at sa na sb nb : length na = length sa -> length sb = length sa -> length nb = length sa ->
  Forall2 (fun a n => a + n < W)%N sa na -> Forall2 (fun a n => a + n < W)%N sb nb ->
  chunk_overlaps sa na sb nb = true <-> forall i, (i < length sa)%nat -> (sa !!! i < sb !!! i + nb !!! i /\ sb !!! i < sa !!! i + na !!! i)%N.
Proof.
  revert na sb nb. induction sa as [|a sa IH]; intros [|n na] [|b sb] [|m nb]; try discriminate 1; try discriminate 2; try discriminate 3.
  - intros _ _ _ _ _. split; [intros _ i Hi; cbn [length] in Hi; lia|done].
  - intros H1 H2 H3 HF HG. apply Forall2_cons_1 in HF as [Ha HF]. apply Forall2_cons_1 in HG as [Hb HG]. cbn [length] in H1, H2, H3. injection H1 as H1. injection H2 as H2. injection H3 as H3.
    cbn [chunk_overlaps]. specialize (IH na sb nb H1 H2 H3 HF HG). unfold wadd. rewrite !N.mod_small by done.
    assert (forall P : nat -> Prop, (forall i, (i < length (a :: sa))%nat -> P i) <-> P 0%nat /\ forall i, (i < length sa)%nat -> P (Datatypes.S i)) as Hall.
    { intros P. cbn [length]. split; [intros H; split; [apply H; lia|intros i Hi; apply H; lia]|intros [H0 HS] [|i] Hi; [done|apply HS; lia]]. }
    rewrite Hall. change ((a :: sa) !!! 0%nat) with a. change ((b :: sb) !!! 0%nat) with b. change ((n :: na) !!! 0%nat) with n. change ((m :: nb) !!! 0%nat) with m.
    destruct (N.leb_spec (b + m) a); [split; [done|lia]|]. destruct (N.leb_spec (a + n) b); [split; [done|lia]|].
    rewrite IH. split; [intros Hi; split; [lia|exact Hi]|intros [_ Hi]; exact Hi].
Qed.
Lemma overlap_spec sa na sb nb : length na = length sa -> length sb = length sa -> length nb = length sa ->
  Forall2 (fun a n => a + n < W)%N sa na -> Forall2 (fun a n => a + n < W)%N sb nb ->
  (forall i, (i < length sa)%nat -> (sa !!! i < sb !!! i + nb !!! i /\ sb !!! i < sa !!! i + na !!! i)%N) ->
  chunk_overlap sa na sb nb = (zip_with N.max sa sb, zip_with N.sub (zip_with N.min (zip_with N.add sa na) (zip_with N.add sb nb)) (zip_with N.max sa sb)).
Proof.
  intros H1 H2 H3 HF HG Ho. apply F2_at in HF as [_ HF]. apply F2_at in HG as [_ HG].
  assert (vwadd sa na = zip_with N.add sa na) as Ea.
  { apply eq_at. unfold vwadd. rewrite !zip_with_length. split; [done|]. intros i Hi. rewrite !zip_at by lia. unfold wadd. rewrite N.mod_small; [done|]. apply HF; lia. }
  assert (vwadd sb nb = zip_with N.add sb nb) as Eb.
  { apply eq_at. unfold vwadd. rewrite !zip_with_length. split; [done|]. intros i Hi. rewrite !zip_at by lia. unfold wadd. rewrite N.mod_small; [done|]. apply HG; lia. }
  unfold chunk_overlap. rewrite Ea, Eb.
  assert (zip_with N.min (zip_with N.add sa na) (zip_with N.max sa sb) = zip_with N.max sa sb) as Es.
  { apply eq_at. rewrite !zip_with_length. split; [lia|]. intros i Hi. specialize (Ho i ltac:(lia)). rewrite !zip_at by (rewrite ?zip_with_length; lia). lia. }
  rewrite Es. f_equal. apply vwsub_le.
  - apply F2_at. rewrite !zip_with_length. split; [lia|]. intros i Hi. specialize (Ho i ltac:(lia)). rewrite !zip_at by (rewrite ?zip_with_length; lia). lia.
  - apply F1_at. intros i Hi. rewrite !zip_with_length in Hi. rewrite !zip_at by (rewrite ?zip_with_length; lia). specialize (HF i ltac:(lia)). lia.
Qed.

(** * A simulation chunk as a box *)
Section chunk.
Context (n : nat) (c : list Z * list Z) (Hc : sim_chunk n c).
Definition lo : list N := (fun i => Z.to_N (i / 2)) <$> c.1.
Lemma odd_half i : Z.Odd i -> (i = 2 * (i / 2) + 1)%Z.
Proof. intros [k ->]. rewrite Z.mul_comm, Z.div_add_l by lia. replace (1 / 2)%Z with 0%Z by reflexivity. lia. Qed.
Lemma chunk_at : length c.1 = n /\ length c.2 = n /\ forall i, (i < n)%nat ->
  (c.1 !!! i = 2 * (c.1 !!! i / 2) + 1 /\ c.2 !!! i = 2 * (c.2 !!! i / 2) + 1 /\ 0 <= c.1 !!! i / 2 <= c.2 !!! i / 2 /\ c.2 !!! i < 2 ^ 31)%Z.
Proof using Hc.
  destruct Hc as (H1 & H2 & H3 & H4 & H5). split; [done|]. split; [done|]. intros i Hi. rewrite F2_at in H3. rewrite F1_at in H4, H5. destruct H3 as [_ H3].
  specialize (H3 i ltac:(lia)). destruct (H4 i ltac:(lia)) as [H6 H7]. destruct (H5 i ltac:(lia)) as [H8 H9]. split; [by apply odd_half|]. split; [by apply odd_half|]. split; [|lia].
  split; [apply Z.div_pos; lia|apply Z.div_le_mono; lia].
Qed.
Lemma start_ok : chunk_start c.1 = Some lo.
Proof using Hc.
  destruct chunk_at as (L1 & _ & Hat). destruct Hc as (_ & _ & _ & H4 & _). unfold chunk_start. replace (forallb (λ i, (0 <=? i)%Z) c.1) with true.
  - f_equal. unfold lo. apply eq_at. rewrite !fmap_length. split; [done|]. intros i Hi. rewrite !fmap_at by lia. destruct (Hat i ltac:(lia)) as (E1 & _). unfold grid_index.
    f_equal. rewrite E1 at 1. replace (2 * (c.1 !!! i / 2) + 1 - 1)%Z with ((c.1 !!! i / 2) * 2)%Z by lia. by rewrite Z.quot_mul by lia.
  - symmetry. apply forallb_forall. intros i Hi. apply elem_of_list_In in Hi. rewrite list.Forall_forall in H4. destruct (H4 i Hi). lia.
Qed.
Lemma shape_at i : (i < n)%nat -> chunk_shape c.1 c.2 !!! i = (Z.to_N (c.2 !!! i / 2) + 1 - lo !!! i)%N /\ lo !!! i = Z.to_N (c.1 !!! i / 2).
Proof using Hc.
  intros Hi. destruct chunk_at as (L1 & L2 & Hat). destruct (Hat i Hi) as (E1 & E2 & E3 & _). assert (lo !!! i = Z.to_N (c.1 !!! i / 2)) as El by (unfold lo; by rewrite fmap_at by lia). split; [|done]. rewrite El.
  unfold chunk_shape. rewrite zip_at by lia. rewrite E1, E2 at 1. replace (2 * (c.2 !!! i / 2) + 1 - (2 * (c.1 !!! i / 2) + 1))%Z with ((c.2 !!! i / 2 - c.1 !!! i / 2) * 2)%Z by lia. rewrite Z.quot_mul by lia.
  rewrite !Z.div_add_l || idtac. lia.
Qed.
Lemma lo_length : length lo = n. Proof using Hc. unfold lo. rewrite fmap_length. by destruct Hc. Qed.
Lemma shape_length : length (chunk_shape c.1 c.2) = n.
Proof using Hc. unfold chunk_shape. rewrite zip_with_length. destruct Hc as (H1 & H2 & _). lia. Qed.
Lemma chunk_small : Forall2 (fun a m => 0 < m /\ a + m < 2 ^ 31)%N lo (chunk_shape c.1 c.2).
Proof using Hc.
  apply F2_at. rewrite lo_length, shape_length. split; [done|]. intros i Hi. destruct (shape_at i Hi) as [-> ->]. destruct chunk_at as (_ & _ & Hat). destruct (Hat i Hi) as (E1 & E2 & E3 & E4). lia.
Qed.
Lemma cell_in_at x : cell_in c x <-> length x = n /\ forall i, (i < n)%nat -> (lo !!! i <= x !!! i < lo !!! i + chunk_shape c.1 c.2 !!! i)%N.
Proof using Hc.
  destruct chunk_at as (L1 & L2 & Hat). unfold cell_in. rewrite !F2_at. unfold centre. rewrite !fmap_length. split.
  - intros [[H1 H2] [H3 H4]]. split; [lia|]. intros i Hi. specialize (H2 i ltac:(lia)). specialize (H4 i ltac:(lia)). rewrite fmap_at in H2, H4 by lia. destruct (shape_at i Hi) as [-> ->]. destruct (Hat i Hi) as (E1 & E2 & E3 & E4). lia.
  - intros [H1 H2]. split; (split; [lia|]); intros i Hi; specialize (H2 i ltac:(lia)); rewrite fmap_at by lia; destruct (shape_at i ltac:(lia)) as [E5 E6]; rewrite E5, E6 in H2; destruct (Hat i ltac:(lia)) as (E1 & E2 & E3 & E4); lia.
Qed.
Lemma centre_index x : grid_index <$> centre x = x.
Proof using.
  unfold centre. rewrite <- list_fmap_compose. rewrite <- (list_fmap_id x) at 2. apply list_fmap_ext. intros _ i _. unfold compose, grid_index. cbn [id].
  replace (2 * Z.of_N i + 1 - 1)%Z with (Z.of_N i * 2)%Z by lia. rewrite Z.quot_mul by lia. lia.
Qed.
(** The points of the loop are the centres of the cells of the chunk. *)
Lemma points_ok : exists pts, grid_points c = Some pts /\ (forall p, p ∈ pts <-> exists x, p = centre x /\ cell_in c x).
Proof using Hc.
  destruct chunk_at as (L1 & L2 & Hat). unfold grid_points. set (m := vto_nat (chunk_shape c.1 c.2)).
  assert (length m = n) as Lm by (unfold m, vto_nat; rewrite fmap_length; apply shape_length).
  rewrite elem_loop_spec by (rewrite ?replicate_length; lia). cbn [mbind option_bind]. eexists. split; [reflexivity|].
  assert (forall k, in_box (replicate (length m) 0%nat) m k -> zip_with (λ (i : Z) (k0 : nat), (i + 2 * Z.of_nat k0)%Z) c.1 k = centre (zip_with N.add lo (vof_nat k))) as Hp.
  { intros k (_ & Lk & _)%in_box_at. apply eq_at. unfold centre, vof_nat. rewrite fmap_length, !zip_with_length, fmap_length, lo_length. split; [lia|]. intros i Hi. rewrite fmap_at by (rewrite zip_with_length, fmap_length, lo_length; lia).
    rewrite !zip_at by (rewrite ?fmap_length, ?lo_length; lia). rewrite fmap_at by lia. destruct (shape_at i ltac:(lia)) as [_ ->]. destruct (Hat i ltac:(lia)) as (E1 & _ & E3 & _). lia. }
  assert (forall i, (i < n)%nat -> m !!! i = N.to_nat (chunk_shape c.1 c.2 !!! i)) as Em. { intros i Hi. unfold m, vto_nat. rewrite fmap_at; [done|]. by rewrite shape_length. }
  intros p. rewrite elem_of_list_fmap. split.
  - intros (k & -> & Hk). apply elem_of_box_elems in Hk. exists (zip_with N.add lo (vof_nat k)). split; [by apply Hp|]. apply in_box_at in Hk as (_ & Lk & Hk). apply cell_in_at.
    unfold vof_nat. rewrite zip_with_length, fmap_length, lo_length. split; [lia|]. intros i Hi. rewrite zip_at by (rewrite ?fmap_length, ?lo_length; lia). rewrite fmap_at by lia. specialize (Hk i ltac:(lia)). rewrite Em in Hk by done. lia.
  - intros (x & -> & Hx). apply cell_in_at in Hx as [Lx Hx]. exists (vto_nat (zip_with N.sub x lo)).
    assert (in_box (replicate (length m) 0%nat) m (vto_nat (zip_with N.sub x lo))) as Hk.
    { apply in_box_at. unfold vto_nat. rewrite replicate_length, fmap_length, zip_with_length, lo_length. split; [done|]. split; [lia|]. intros i Hi. rewrite lookup_total_replicate_2 by done.
      rewrite fmap_at by (rewrite zip_with_length, lo_length; lia). rewrite zip_at by (rewrite ?lo_length; lia). rewrite Em by lia. specialize (Hx i ltac:(lia)). lia. }
    split; [|by apply elem_of_box_elems]. rewrite (Hp _ Hk). f_equal. rewrite vof_to. apply eq_at. rewrite !zip_with_length, lo_length. split; [lia|]. intros i Hi.
    rewrite !zip_at by (rewrite ?zip_with_length, ?lo_length; lia). specialize (Hx i ltac:(lia)). lia.
Qed.
End chunk.
