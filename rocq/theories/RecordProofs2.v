(** Proofs about recording: the cells of the regions, and one cell in one step. *)
From stdpp Require Import base list list_numbers numbers option gmap countable sets.
From Coq Require Import NArith ZArith Lia.
From Verif Require Import IndexSpec LoopsModel LoopsProofs NDArrayModel NDArrayProofs NDArrayProps StreamerModel StreamerProps NullSupModel CodecModel
  BBoxModel BBoxProps DownsampleModel DownsampleProps
  RTreeModel RTreeInsert RTreeRebuild RTreeProps ChunkMetaModel ChunkMetaProps ChunkCacheModel ChunkCacheSpec ChunkCacheProofs ChunkCacheProofs2 ChunkCacheProofs3 ChunkCacheProps
  LibraryModel LibrarySpec LibraryProofs LibraryProofs2 LibraryProofs3 LibraryProofs4 LibraryProofs5 LibraryProofs6 LibraryProofs7 LibraryProps LibraryFiles LibraryFilesProps
  BoundaryModel BoundaryProps RebuildModel RebuildSpec RebuildProofs RebuildProofs2 RebuildProofs3 RebuildProofs4 PartitionModel PartitionProps.
From Verif Require Import RecordModel RecordSpec RecordProofs IndexSpec LibrarySpec.

(** * Downsampling *)
Lemma downsample_start {A} vd (junk : A) src start ds dst o os : downsample vd junk src start ds dst = Some (o, os) -> os = ds_first start ds.
Proof.
  unfold downsample. cbv zeta. destruct (aresize _ _ _ _) as [d1|]; [|done]. cbn [mbind option_bind]. destruct (elem_loop _ _ _) as [ks|]; [|done]. cbn [mbind option_bind].
  destruct (foldM _ _ _) as [d2|]; [|done]. cbn [mbind option_bind]. by intros [= _ <-].
Qed.
Lemma ds_last_small s sh d : region_ok s sh d -> Forall (fun x => x < W)%N (ds_last (vwadd s (vof_nat sh)) d).
Proof.
  revert sh d. induction s as [|s0 s IH]; intros [|n sh] [|d0 d]; cbn [region_ok]; try tauto; [constructor|].
  intros [H0 Hr]. change (vwadd (s0 :: s) (vof_nat (n :: sh))) with (wadd s0 (N.of_nat n) :: vwadd s (vof_nat sh)). rewrite ds_last_cons. constructor; [|by apply IH].
  by destruct (ds_axis s0 (N.of_nat n) d0 0 H0) as (_ & _ & _ & _ & Hl & _).
Qed.
(** The time axis is not downsampled. *)
Lemma region_ok_time t rs sh ds : (N.of_nat t + 1 < 2 ^ 64)%N -> region_ok rs sh ds -> region_ok (N.of_nat t :: rs) (1%nat :: sh) (1%N :: ds).
Proof. intros Ht H. cbn [region_ok]. split; [|done]. assert (W = 2 ^ 64)%N by done. lia. Qed.
Lemma time_first t rs ds : (N.of_nat t + 1 < 2 ^ 64)%N -> ds_first (N.of_nat t :: rs) (1%N :: ds) = N.of_nat t :: ds_first rs ds.
Proof. intros Ht. rewrite ds_first_cons. f_equal. rewrite wadd_small by lia. rewrite wsub_small by lia. rewrite N.div_1_r. lia. Qed.
Lemma time_shape t rs sh ds : (N.of_nat t + 1 < 2 ^ 64)%N -> get_downsampled_shape (N.of_nat t :: rs) (vof_nat (1%nat :: sh)) (1%N :: ds) = 1%N :: get_downsampled_shape rs (vof_nat sh) ds.
Proof.
  intros Ht. unfold get_downsampled_shape. change (vwadd (N.of_nat t :: rs) (vof_nat (1%nat :: sh))) with (wadd (N.of_nat t) (N.of_nat 1) :: vwadd rs (vof_nat sh)).
  rewrite time_first by done. rewrite ds_last_cons, ds_shape_cons. f_equal. change (N.of_nat 1) with 1%N. rewrite (wadd_small (N.of_nat t) 1) by lia. rewrite (wsub_small (N.of_nat t + 1) 1) by lia. rewrite N.div_1_r.
  replace (N.of_nat t + 1 - 1)%N with (N.of_nat t) by lia. rewrite wadd_small by lia. rewrite wsub_small by lia. lia.
Qed.

Lemma downsample_region vd junk f proc t rs sh ds : (N.of_nat t + 1 < 2 ^ 64)%N -> region_ok rs sh ds -> float_array vd f -> a_shape f = 1%nat :: sh -> float_array vd proc ->
  exists p, downsample vd junk f (N.of_nat t :: rs) (1%N :: ds) proc = Some (p, N.of_nat t :: ds_first rs ds) /\ float_array vd p /\
    a_shape p = 1%nat :: vto_nat (get_downsampled_shape rs (vof_nat sh) ds) /\
    forall k, on_grid rs sh ds k -> aread vd p (0%nat :: at_pos (ds_first rs ds) k) = aread vd f (0%nat :: at_pos rs (times k ds)).
Proof.
  intros Ht Hr Hf Hsf Hp. pose proof (region_ok_time t rs sh ds Ht Hr) as Hrt. rewrite <- Hsf in Hrt.
  destruct (C36_downsample_keeps_every_dth_sample vd junk f proc (N.of_nat t :: rs) (1%N :: ds)) as (p & os & E & Hpa & Hsp & Hg & Hv); [apply Hf|apply Hp|done|].
  pose proof (downsample_start _ _ _ _ _ _ _ _ E) as ->. rewrite time_first in * by done. rewrite Hsf in *. rewrite time_shape in Hsp by done.
  assert (a_shape p = 1%nat :: vto_nat (get_downsampled_shape rs (vof_nat sh) ds)) as Hsh. { rewrite <- (vto_of (a_shape p)), Hsp. unfold vto_nat. by rewrite list.fmap_cons. }
  exists p. split; [done|]. split; [|split; [done|]].
  - split; [done|]. apply (data_from_reads _ vd); [done|]. intros x v Hx Hxv.
    assert (placed (N.of_nat t :: ds_first rs ds) (a_shape p) (zip_with N.add (N.of_nat t :: ds_first rs ds) (vof_nat x)) /\ at_pos (N.of_nat t :: ds_first rs ds) (zip_with N.add (N.of_nat t :: ds_first rs ds) (vof_nat x)) = x) as [Hpl Hat].
    { assert (length x = length (N.of_nat t :: ds_first rs ds)) as Lx.
      { apply in_shape_forall2, Forall2_length in Hx. rewrite Hx, Hsh. cbn [length]. unfold vto_nat. rewrite fmap_length. destruct (ds_region _ _ _ Hr) as (L1 & L2 & Es & _). unfold get_downsampled_shape. rewrite Es, zip_with_length, L1, L2. lia. }
      assert (at_pos (N.of_nat t :: ds_first rs ds) (zip_with N.add (N.of_nat t :: ds_first rs ds) (vof_nat x)) = x) as Hat.
      { unfold at_pos, vto_nat, vof_nat. apply eq_at. rewrite fmap_length, !zip_with_length, fmap_length. split; [lia|]. intros i Hi. rewrite fmap_at by (rewrite !zip_with_length, fmap_length; lia).
        rewrite !zip_at by (rewrite ?zip_with_length, ?fmap_length; lia). rewrite fmap_at by lia. lia. }
      split; [|done]. split; [|by rewrite Hat]. apply F2_at. unfold vof_nat. rewrite zip_with_length, fmap_length. split; [lia|]. intros i Hi. rewrite zip_at by (rewrite ?fmap_length; lia). lia. }
    apply Hg in Hpl. destruct (Hv _ Hpl) as [_ Hv']. rewrite Hat, Hxv in Hv'. symmetry in Hv'. exact (float_reads vd f _ v Hf Hv').
  - intros k Hk. destruct (Hv (N.of_nat t :: k)) as [_ Hv'].
    { cbn [on_grid]. split; [lia|done]. }
    unfold at_pos, times, vto_nat in *. cbn [zip_with] in Hv'. rewrite !list.fmap_cons in Hv'. replace (N.to_nat (N.of_nat t - N.of_nat t)) with 0%nat in Hv' by lia.
    replace (N.to_nat (N.of_nat t * 1 - N.of_nat t)) with 0%nat in Hv' by lia. exact Hv'.
Qed.

(** * The cells *)
Lemma at_S `{Inhabited A} (a : A) l x : (a :: l) !!! Datatypes.S x = l !!! x.
Proof. done. Qed.
Lemma no_cells fuel b sh cs : length b = length sh -> Forall (fun c => 0 < c)%nat cs -> volume sh = 0%nat -> box_chunks fuel b sh cs = [].
Proof.
  intros Lb Hcs Hv. destruct (box_chunks fuel b sh cs) as [|c l] eqn:E; [done|]. exfalso.
  destruct (box_chunks_sizes fuel b sh cs c Hcs) as (L1 & L2 & H1 & _ & _ & H2); [rewrite E; left|].
  assert (Forall (fun s => 0 < s)%nat sh) as Hp. { apply F1_at. intros i Hi. rewrite F2_at in H1, H2. destruct H1 as [_ H1], H2 as [_ H2]. specialize (H1 i ltac:(lia)). specialize (H2 i ltac:(lia)). lia. }
  clear -Hp Hv. induction Hp as [|s sh Hs Hp IH]; cbn [volume foldr] in Hv; [done|]. apply Nat.eq_mul_0 in Hv as [Hv|Hv]; [lia|auto].
Qed.

Section record.
Context (vd dims : nat) (junk : N) (L : lib) (HL : lib_ok L) (ct cl : nat) (ds : list N).
Context (regions : list (list N)) (shape : nat -> list nat) (field : nat -> nat -> ndarr N) (uuids : nat -> nat -> nat -> bytes) (T : nat).
Context (Hok : ok_record vd dims ct cl ds regions shape field uuids T).
Notation session := (session vd dims junk L).

Definition psh (j : nat) (rs : list N) : list nat := vto_nat (get_downsampled_shape rs (vof_nat (shape j)) ds).
Definition cells (j : nat) (rs : list N) : list (list nat * list nat) :=
  box_chunks (loop_fuel (1%nat :: psh j rs)) (replicate dims 0%nat) (1%nat :: psh j rs) (replicate dims cl).
(** Cell [(j, k)]: the [k]-th chunk of region [j]. *)
Definition cell_at (i : nat * nat) : option (list N * (list nat * list nat)) := rs ← regions !! i.1; c ← cells i.1 rs !! i.2; Some (rs, c).
Definition c_valid (i : nat * nat) : Prop := is_Some (cell_at i).
Definition c_lo (i : nat * nat) : list N := match cell_at i with Some (rs, c) => zip_with N.add (ds_first rs ds) (vof_nat (tail c.1)) | None => [] end.
Definition c_hi (i : nat * nat) : list N := match cell_at i with Some (rs, c) => zip_with N.add (ds_first rs ds) (vof_nat (tail c.2)) | None => [] end.
Definition samp (t : nat) (i : nat * nat) (k : list N) : list N :=
  match cell_at i with Some (rs, c) => default [] (aread vd (field t i.1) (0%nat :: at_pos rs (times k ds))) | None => [] end.
Definition c_name (t : nat) (i : nat * nat) : bytes := uuids t i.1 i.2.

Lemma cl_pos : Forall (fun c => 0 < c)%nat (replicate dims cl).
Proof using Hok. apply Forall_replicate. apply (rc_sizes _ _ _ _ _ _ _ _ _ _ Hok). Qed.
Lemma region_at j rs : regions !! j = Some rs -> region_ok rs (shape j) ds /\ length rs = (dims - 1)%nat /\ length ds = (dims - 1)%nat /\ length (shape j) = (dims - 1)%nat /\
  length (ds_first rs ds) = (dims - 1)%nat /\ length (psh j rs) = (dims - 1)%nat /\
  (forall i, (i < dims - 1)%nat -> (ds_first rs ds !!! i + N.of_nat (psh j rs !!! i) < 2 ^ 64)%N) /\
  forall k, on_grid rs (shape j) ds k <-> inbox (ds_first rs ds) (zip_with N.add (ds_first rs ds) (vof_nat (psh j rs))) k.
Proof using Hok.
  intros Hj. pose proof (rc_regions _ _ _ _ _ _ _ _ _ _ Hok j rs Hj) as Hr. pose proof (rc_dims _ _ _ _ _ _ _ _ _ _ Hok) as Hd. destruct (region_ok_length _ _ _ Hr) as [L1 L2].
  destruct (ds_region _ _ _ Hr) as (L3 & L4 & Es & Hle & Hg & HfW). pose proof (ds_last_small _ _ _ Hr) as HlW. cbv zeta in *.
  assert (psh j rs = vto_nat (zip_with N.sub (ds_last (vwadd rs (vof_nat (shape j))) ds) (ds_first rs ds))) as Ep by (unfold psh, get_downsampled_shape; by rewrite Es).
  assert (length (psh j rs) = length rs) as L5. { rewrite Ep. unfold vto_nat. rewrite fmap_length, zip_with_length. lia. }
  set (f := ds_first rs ds) in *. set (l := ds_last _ ds) in *. rewrite F2_at in Hle. destruct Hle as [_ Hle]. rewrite F1_at in HlW.
  assert (forall i, (i < length rs)%nat -> N.of_nat (psh j rs !!! i) = (l !!! i - f !!! i)%N) as Hp.
  { intros i Hi. rewrite Ep. unfold vto_nat. rewrite fmap_at by (rewrite zip_with_length; lia). rewrite zip_at by lia. lia. }
  split; [done|]. split; [lia|]. split; [lia|]. split; [lia|]. split; [lia|]. split; [lia|]. split.
  - intros i Hi. rewrite Hp by lia. specialize (Hle i ltac:(lia)). specialize (HlW i ltac:(lia)). cbn beta in HlW. change W with (2 ^ 64)%N in HlW. lia.
  - intros k. rewrite Hg, inbox_at, !F2_at, zip_with_length. unfold vof_nat. rewrite fmap_length. split.
    + intros [[A1 A2] [B1 B2]]. split; [lia|]. split; [lia|]. intros i Hi. rewrite zip_at by (rewrite ?fmap_length; lia). rewrite fmap_at by lia. rewrite Hp by lia. specialize (A2 i ltac:(lia)). specialize (B2 i ltac:(lia)). lia.
    + intros (A1 & A2 & A3). split; (split; [lia|]); intros i Hi; specialize (A3 i ltac:(lia)); rewrite zip_at in A3 by (rewrite ?fmap_length; lia); rewrite fmap_at in A3 by lia; rewrite Hp in A3 by lia; specialize (Hle i ltac:(lia)); lia.
Qed.
Lemma cell_sizes j rs k c : regions !! j = Some rs -> cells j rs !! k = Some c -> exists cs ce, c = (0%nat :: cs, 1%nat :: ce) /\ length cs = (dims - 1)%nat /\ length ce = (dims - 1)%nat /\
  forall i, (i < dims - 1)%nat -> (cs !!! i < ce !!! i <= psh j rs !!! i)%nat /\ (ce !!! i - cs !!! i <= cl)%nat.
Proof using Hok.
  intros Hj Hc. destruct (region_at j rs Hj) as (_ & _ & _ & _ & _ & L5 & _). pose proof (rc_dims _ _ _ _ _ _ _ _ _ _ Hok) as Hd. 
  destruct (box_chunks_sizes _ _ _ _ c cl_pos (elem_of_list_lookup_2 _ _ _ Hc)) as (S1 & S2 & S3 & S4 & S5 & S6). rewrite replicate_length in *.
  destruct c as [c1 c2]. cbn [fst snd] in *. destruct c1 as [|a cs]; [cbn [length] in S1; lia|]. destruct c2 as [|b ce]; [cbn [length] in S2; lia|]. cbn [length] in *.
  apply Forall2_cons_1 in S3 as [A1 A2]. apply Forall2_cons_1 in S6 as [B1 B2]. unfold vsub in S4. destruct dims as [|d']; [lia|]. cbn [replicate zip_with] in S4. apply Forall2_cons_1 in S4 as [C1 C2].
  assert (a = 0%nat) as -> by lia. assert (b = 1%nat) as -> by lia. exists cs, ce. split; [done|]. split; [lia|]. split; [lia|]. intros i Hi.
  rewrite F2_at in A2, B2, C2. destruct A2 as [_ A2], B2 as [_ B2], C2 as [_ C2]. rewrite replicate_length in C2. specialize (A2 i ltac:(lia)). specialize (B2 i ltac:(lia)). specialize (C2 i ltac:(lia)).
  rewrite zip_at in C2 by lia. rewrite lookup_total_replicate_2 in C2 by lia. lia.
Qed.
Lemma cell_at_Some i rs c : cell_at i = Some (rs, c) -> regions !! i.1 = Some rs /\ cells i.1 rs !! i.2 = Some c.
Proof using. unfold cell_at. destruct (regions !! i.1) as [rs'|]; [|done]. cbn [mbind option_bind]. destruct (cells i.1 rs' !! i.2) as [c'|] eqn:E; [|done]. cbn [mbind option_bind]. intros [= <- <-]. done. Qed.
(** The indices of a cell. *)
Lemma cell_inbox i rs c k : cell_at i = Some (rs, c) -> inbox (c_lo i) (c_hi i) k <-> Forall2 N.le (ds_first rs ds) k /\ in_box c.1 c.2 (0%nat :: at_pos (ds_first rs ds) k).
Proof using Hok.
  intros Hi. destruct (cell_at_Some _ _ _ Hi) as [Hj Hc]. destruct (region_at _ rs Hj) as (_ & _ & _ & _ & L4 & _). destruct (cell_sizes _ _ _ _ Hj Hc) as (cs & ce & -> & Lc & Le & Hsz).
  unfold c_lo, c_hi. rewrite Hi. cbn [fst snd tail]. rewrite inbox_at, in_box_at, F2_at. unfold at_pos, vof_nat, vto_nat. cbn [length]. rewrite !zip_with_length, !fmap_length, zip_with_length. split.
  - intros (A1 & A2 & A3). assert (forall x, (x < dims - 1)%nat -> (ds_first rs ds !!! x + N.of_nat (cs !!! x) <= k !!! x < ds_first rs ds !!! x + N.of_nat (ce !!! x))%N) as A.
    { intros x Hx. specialize (A3 x ltac:(lia)). rewrite !zip_at in A3 by (rewrite ?fmap_length; lia). rewrite !fmap_at in A3 by lia. exact A3. }
    split; [split; [lia|]|].
    + intros x Hx. specialize (A x ltac:(lia)). lia.
    + split; [lia|]. split; [lia|]. intros [|x] Hx; [cbn; lia|]. specialize (A x ltac:(lia)). rewrite !at_S. rewrite fmap_at by (rewrite zip_with_length; lia). rewrite zip_at by lia. lia.
  - intros [[A1 A2] (B1 & B2 & B3)]. split; [lia|]. split; [lia|]. intros x Hx. rewrite !zip_at by (rewrite ?fmap_length; lia). rewrite !fmap_at by lia.
    specialize (A2 x ltac:(lia)). specialize (B3 (Datatypes.S x) ltac:(lia)). rewrite !at_S in B3. rewrite fmap_at in B3 by (rewrite zip_with_length; lia). rewrite zip_at in B3 by lia. lia.
Qed.
Lemma cell_grid i rs c k : cell_at i = Some (rs, c) -> inbox (c_lo i) (c_hi i) k -> on_grid rs (shape i.1) ds k.
Proof using Hok.
  intros Hi Hk. destruct (cell_at_Some _ _ _ Hi) as [Hj Hc]. destruct (region_at _ rs Hj) as (_ & _ & _ & _ & L4 & L5 & _ & Hg). destruct (cell_sizes _ _ _ _ Hj Hc) as (cs & ce & -> & Lc & Le & Hsz).
  apply Hg. unfold c_lo, c_hi in Hk. rewrite Hi in Hk. cbn [fst snd tail] in Hk. rewrite inbox_at in *. unfold vof_nat in *. rewrite !zip_with_length, !fmap_length in *. destruct Hk as (A1 & A2 & A3).
  split; [lia|]. split; [lia|]. intros x Hx. specialize (A3 x ltac:(lia)). rewrite !zip_at in * by (rewrite ?fmap_length; lia). rewrite !fmap_at in * by lia. specialize (Hsz x ltac:(lia)). lia.
Qed.
(** Every sample is in a cell. *)
Lemma grid_cell j rs k : regions !! j = Some rs -> on_grid rs (shape j) ds k -> exists n, c_valid (j, n) /\ inbox (c_lo (j, n)) (c_hi (j, n)) k.
Proof using Hok.
  intros Hj Hk. destruct (region_at _ rs Hj) as (_ & _ & _ & _ & L4 & L5 & _ & Hg). apply Hg in Hk. rewrite inbox_at in Hk. unfold vof_nat in Hk. rewrite zip_with_length, fmap_length in Hk. destruct Hk as (A1 & A2 & A3).
  pose proof (rc_dims _ _ _ _ _ _ _ _ _ _ Hok) as Hd.
  assert (forall x, (x < dims - 1)%nat -> (ds_first rs ds !!! x <= k !!! x < ds_first rs ds !!! x + N.of_nat (psh j rs !!! x))%N) as A.
  { intros x Hx. specialize (A3 x ltac:(lia)). rewrite zip_at in A3 by (rewrite ?fmap_length; lia). rewrite fmap_at in A3 by lia. exact A3. }
  destruct (box_chunks_cover (loop_fuel (1%nat :: psh j rs)) (replicate dims 0%nat) (1%nat :: psh j rs) (replicate dims cl) (0%nat :: at_pos (ds_first rs ds) k)) as (c & Hc & Hin).
  - exact cl_pos.
  - rewrite replicate_length. cbn [length]. lia.
  - done.
  - apply in_box_at. rewrite replicate_length. unfold at_pos, vto_nat. cbn [length]. rewrite fmap_length, zip_with_length. split; [lia|]. split; [lia|]. intros [|x] Hx.
    + rewrite lookup_total_replicate_2 by lia. cbn. lia.
    + rewrite lookup_total_replicate_2 by lia. rewrite !at_S. rewrite fmap_at by (rewrite zip_with_length; lia). rewrite zip_at by lia. specialize (A x ltac:(lia)). lia.
  - apply elem_of_list_lookup in Hc as [n Hn]. assert (cell_at (j, n) = Some (rs, c)) as Hca. { unfold cell_at. cbn [fst snd]. rewrite Hj. cbn [mbind option_bind]. unfold cells. rewrite Hn. done. }
    exists n. split; [by exists (rs, c)|]. apply (cell_inbox _ _ _ _ Hca). split; [|done]. apply F2_at. split; [lia|]. intros x Hx. specialize (A x ltac:(lia)). lia.
Qed.

Lemma volume_le (a b : list nat) : Forall2 le a b -> (volume a <= volume b)%nat.
Proof. intros H. induction H as [|x y a b Hx H IH]; cbn [volume foldr]; [done|]. by apply Nat.mul_le_mono. Qed.
Lemma volume_repl n m : volume (replicate n m) = (m ^ n)%nat.
Proof. induction n as [|n IH]; cbn [replicate volume foldr Nat.pow]; [done|]. fold (volume (replicate n m)). by rewrite IH. Qed.
Lemma cells_len j rs : regions !! j = Some rs -> N.of_nat (length (cells j rs)) = region_cells cl ds rs (shape j).
Proof using Hok.
  intros Hj. destruct (region_at _ rs Hj) as (_ & _ & _ & _ & L4 & L5 & _). pose proof (rc_dims _ _ _ _ _ _ _ _ _ _ Hok) as Hd. destruct (rc_sizes _ _ _ _ _ _ _ _ _ _ Hok) as [_ Hcl].
  pose proof (chunks_len (loop_fuel (vto_nat (1%N :: get_downsampled_shape rs (vof_nat (shape j)) ds))) (replicate dims 0%N) (1%N :: get_downsampled_shape rs (vof_nat (shape j)) ds) (replicate dims (N.of_nat cl))) as H.
  assert (length (get_downsampled_shape rs (vof_nat (shape j)) ds) = (dims - 1)%nat) as Lp. { unfold psh, vto_nat in L5. by rewrite fmap_length in L5. }
  rewrite replicate_length in H. cbn [length] in H. specialize (H ltac:(lia) ltac:(rewrite replicate_length; lia) ltac:(apply Forall_replicate; lia) ltac:(lia)).
  unfold vto_nat in H. rewrite list.fmap_cons, !fmap_replicate in H. fold (vto_nat (get_downsampled_shape rs (vof_nat (shape j)) ds)) in H. fold (psh j rs) in H.
  change (N.to_nat 0) with 0%nat in H. change (N.to_nat 1) with 1%nat in H. rewrite Nat2N.id in H. unfold cells. rewrite H. unfold region_cells. rewrite Lp.
  destruct dims as [|d']; [lia|]. replace (Datatypes.S d' - 1)%nat with d' by lia. unfold chunk_count. cbn [replicate zip_with foldr]. replace (1 - 0 + N.of_nat cl - 1)%N with (N.of_nat cl) by lia. rewrite N.div_same by lia. lia.
Qed.

Lemma cells_are_ok : cells_ok vd dims ct T (rebuild_cs dims) c_valid c_lo c_hi c_name.
Proof using Hok.
  pose proof (rc_dims _ _ _ _ _ _ _ _ _ _ Hok) as Hd. destruct (rc_sizes _ _ _ _ _ _ _ _ _ _ Hok) as [Hct Hcl].
  assert (forall i, c_valid i -> exists rs cs ce, cell_at i = Some (rs, (0%nat :: cs, 1%nat :: ce)) /\ length cs = (dims - 1)%nat /\ length ce = (dims - 1)%nat /\ (forall x, (x < dims - 1)%nat -> (cs !!! x < ce !!! x <= psh i.1 rs !!! x)%nat /\ (ce !!! x - cs !!! x <= cl)%nat) /\
    length (ds_first rs ds) = (dims - 1)%nat /\ length (c_lo i) = (dims - 1)%nat /\ length (c_hi i) = (dims - 1)%nat /\
    (forall x, (x < dims - 1)%nat -> c_lo i !!! x = (ds_first rs ds !!! x + N.of_nat (cs !!! x))%N /\ c_hi i !!! x = (ds_first rs ds !!! x + N.of_nat (ce !!! x))%N /\ (c_hi i !!! x < 2 ^ 64)%N)) as Hv.
  { intros i [[rs c] Hi]. destruct (cell_at_Some _ _ _ Hi) as [Hj Hc]. destruct (region_at _ rs Hj) as (_ & _ & _ & _ & L4 & L5 & Hlt & Hg). destruct (cell_sizes _ _ _ _ Hj Hc) as (cs & ce & -> & Lc & Le & Hsz).
    exists rs, cs, ce. split; [done|]. split; [done|]. split; [done|]. split; [done|]. split; [done|]. unfold c_lo, c_hi. rewrite Hi. cbn [fst snd tail]. unfold vof_nat. rewrite !zip_with_length, !fmap_length. split; [lia|]. split; [lia|].
    intros x Hx. rewrite !zip_at by (rewrite ?fmap_length; lia). rewrite !fmap_at by lia. split; [done|]. split; [done|]. specialize (Hsz x Hx). specialize (Hlt x Hx). lia. }
  split.
  - done.
  - unfold rebuild_cs. destruct dims as [|[|d']]; [lia|by exists []|]. eexists. split; [done|]. by apply Forall_replicate.
  - apply (rc_steps _ _ _ _ _ _ _ _ _ _ Hok).
  - intros i Hi. destruct (Hv i Hi) as (rs & cs & ce & _ & _ & _ & _ & _ & Ll & _). split; [done|lia].
  - intros i Hi. destruct (Hv i Hi) as (rs & cs & ce & _ & _ & _ & Hsz & _ & Ll & Lh & Hx). apply nonempty_at. split; [lia|]. intros x Hx'. destruct (Hx x ltac:(lia)) as (E1 & E2 & E3). specialize (Hsz x ltac:(lia)). lia.
  - intros i j k [[rs c] Hi] [[rs' c'] Hj] Hki Hkj. destruct (cell_at_Some _ _ _ Hi) as [Hi1 Hi2]. destruct (cell_at_Some _ _ _ Hj) as [Hj1 Hj2].
    assert (i.1 = j.1) as E. { eapply (rc_apart _ _ _ _ _ _ _ _ _ _ Hok); [exact Hi1|exact Hj1|by eapply cell_grid|by eapply cell_grid]. }
    rewrite <- E, Hi1 in Hj1. injection Hj1 as <-. rewrite <- E in Hj2. apply (cell_inbox _ _ _ _ Hi) in Hki as [_ Hki]. apply (cell_inbox _ _ _ _ Hj) in Hkj as [_ Hkj].
    pose proof (box_chunks_disjoint _ _ _ _ cl_pos _ _ _ _ _ Hi2 Hj2 Hki Hkj) as E2. destruct i, j. cbn in *. by subst.
  - intros i n Hi Hn. destruct (Hv i Hi) as (rs & cs & ce & _ & _ & _ & Hsz & _ & Ll & Lh & Hx). destruct (rc_volume _ _ _ _ _ _ _ _ _ _ Hok) as [V1 V2].
    assert (length ds = (dims - 1)%nat) as Lds by lia. rewrite Lds in V1, V2.
    assert (forall x, (x < dims - 1)%nat -> zip_with N.sub (c_hi i) (c_lo i) !!! x = N.of_nat (ce !!! x - cs !!! x)) as Hz. { intros x Hx'. rewrite zip_at by lia. destruct (Hx x Hx') as (-> & -> & _). specialize (Hsz x Hx'). lia. }
    assert (Forall2 le (vto_nat (zip_with N.sub (c_hi i) (c_lo i))) (replicate (dims - 1) cl)) as Hle.
    { apply F2_at. unfold vto_nat. rewrite fmap_length, zip_with_length, replicate_length. split; [lia|]. intros x Hx'. rewrite fmap_at by (rewrite zip_with_length; lia). rewrite Hz by lia. rewrite lookup_total_replicate_2 by lia. specialize (Hsz x ltac:(lia)). lia. }
    apply volume_le in Hle. rewrite volume_repl in Hle. set (V := volume (vto_nat (zip_with N.sub (c_hi i) (c_lo i)))) in *.
    split; [|split].
    + constructor; [pose proof (rc_steps _ _ _ _ _ _ _ _ _ _ Hok); lia|]. apply F1_at. intros x Hx'. unfold vto_nat in *. rewrite fmap_length, zip_with_length in Hx'. rewrite fmap_at by (rewrite zip_with_length; lia). rewrite Hz by lia.
      destruct (Hx x ltac:(lia)) as (E1 & E2 & E3). specialize (Hsz x ltac:(lia)). lia.
    + cbn [volume foldr]. change (foldr Nat.mul 1%nat (vto_nat (zip_with N.sub (c_hi i) (c_lo i)))) with V. assert (n * V <= Nat.min ct T * cl ^ (dims - 1))%nat by (by apply Nat.mul_le_mono). nia.
    + intros _. assert (volume (zip_with Nat.min (rebuild_cs dims) (n :: vto_nat (zip_with N.sub (c_hi i) (c_lo i)))) <= V)%nat; [|lia].
      unfold rebuild_cs. destruct dims as [|[|d']]; [lia| |].
      * cbn [zip_with volume foldr]. unfold V. assert (c_hi i = []) as -> by (destruct (c_hi i); [done|discriminate Lh]). cbn [zip_with]. change (volume (vto_nat [])) with 1%nat. lia.
      * cbn [zip_with volume foldr]. transitivity (1 * volume (zip_with Nat.min (replicate (Datatypes.S d') (N.to_nat INFTY)) (vto_nat (zip_with N.sub (c_hi i) (c_lo i)))))%nat; [apply Nat.mul_le_mono; [lia|done]|]. rewrite Nat.mul_1_l. apply volume_le.
        apply F2_at. rewrite zip_with_length, replicate_length. unfold vto_nat. rewrite fmap_length, zip_with_length. split; [lia|]. intros x Hx'. rewrite zip_at by (rewrite ?replicate_length, ?fmap_length, ?zip_with_length; lia). lia.
  - intros t i Ht [[rs c] Hi]. destruct (cell_at_Some _ _ _ Hi) as [Hi1 Hi2]. pose proof (lookup_lt_Some _ _ _ Hi2) as Hk. assert (N.of_nat i.2 < region_cells cl ds rs (shape i.1))%N as Hk' by (rewrite <- cells_len by done; lia).
    destruct (rc_names _ _ _ _ _ _ _ _ _ _ Hok t i.1 rs i.2 Ht Hi1 Hk') as (N1 & N2 & N3 & N4). split; [done|]. split; [done|]. split; [done|].
    intros t' j Ht' [[rs' c'] Hj]. destruct (cell_at_Some _ _ _ Hj) as [Hj1 Hj2]. pose proof (lookup_lt_Some _ _ _ Hj2) as Hkj. unfold c_name. intros E.
    destruct (N4 t' j.1 rs' j.2 Ht' Hj1) as (-> & E1 & E2); [rewrite <- cells_len by done; lia|done|]. split; [done|]. destruct i, j. cbn in *. by subst.
Qed.
End record.
