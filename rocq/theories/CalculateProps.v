(** C60: the array that a whole calculation leaves holds the field in the requested region. *)
From stdpp Require Import base list list_numbers numbers option gmap countable sets.
From Coq Require Import NArith ZArith Lia.
From Verif Require Import IndexSpec LoopsModel LoopsProofs NDArrayModel NDArrayProofs NDArrayOps NDArrayProps StreamerModel StreamerProps CodecModel
  BBoxModel BBoxProps DownsampleModel DownsampleProps RTreeModel RTreeInsert RTreeProps ChunkMetaModel ChunkMetaProps ChunkCacheModel ChunkCacheSpec
  LibraryModel LibrarySpec LibraryProofs LibraryProofs2 LibraryProofs5 LibraryProofs6 LibraryProofs7 LibraryProps
  BoundaryModel BoundaryProps RebuildModel RebuildSpec RebuildProofs RebuildProofs2 RebuildProofs3 RebuildProofs4 RebuildProps PartitionModel PartitionProps ParallelModel ParallelSpec ParallelProofs ParallelProofs2 ParallelProps
  RecordModel RecordSpec StorageModel StorageSpec StorageProofs StorageProps CalculateModel CalculateSpec CalculateProofs CalculateProofs2.
From Verif Require Import IndexSpec LibrarySpec.
Local Opaque lib_open lib_swap_axes lib_move lib_close lib_get lib_geometry save_job merge_dirs rechunk_mpi.

Section props.
Context (vd : nat) (junk : N) (L : lib) (cz cr sz sr nz nr : N) (d : N) (ov : nat) (csize : N) (ct cl jobs : nat) (chunks : nat -> list (list Z * list Z)) (E : nat -> list Z -> list N)
    (cut : nat -> nat -> nat -> list nat -> bool) (names : nat -> nat -> nat -> nat -> bytes) (T : nat) (uuids2 : nat -> nat -> bytes).
Context (fuel p0 size : nat) (ord : nat -> list N -> list N) (ordm : list N -> list N) (ord2 : nat -> list N -> list N) (ordm2 : list N -> list N).
Local Notation run := (calculate vd junk L [cz; cr] [sz; sr] [nz; nr] d ov csize ct cl fuel p0 size jobs chunks E cut names T ord ordm uuids2 ord2 ordm2).
Local Notation ok := (ok_calculate vd cz cr sz sr nz nr d ov csize ct cl jobs chunks E names T uuids2).
(** The orders in which the caches are iterated are orders; the loop that looks for a partition size does not run out of steps and its numbers are ints. *)
Definition orders : Prop := (forall m k, ord m k ≡ₚ k) /\ (forall k, ordm k ≡ₚ k) /\ (forall m k, ord2 m k ≡ₚ k) /\ (forall k, ordm2 k ≡ₚ k).
Definition partition_steps : Prop := (jobs <= fuel)%nat /\ (1 <= p0)%nat /\ (Z.of_nat p0 ^ 3 < 2 ^ 31)%Z.

(** However the simulation is cut into chunks and however these are distributed over the processes: the calculation terminates without a failed
    assertion, its output directory can be opened, and holds the field in every [d]-th cell of the storage domain for every step, with the
    requested chunk size and overlap. *)
Theorem C60_calculate size2 cs2 : lib_ok L -> (junk < 2 ^ 32)%N -> ok -> orders -> partition_steps -> acceptable_chunk 3 cs2 ->
  exists dout l2 S2, run = Done dout /\ holds_array vd 3 junk L dout S2 /\ lib_open vd 3 junk L size2 cs2 dout = Done l2 /\ session vd 3 junk L l2 (reopened S2 cs2) /\
    calculated vd cz cr sz sr nz nr d ov csize jobs chunks E cut T (ls_chunks S2) /\
    N.of_nat (length (ls_chunks S2)) = foldr N.mul 1%N ((fun n => samples n csize) <$> out_shape nz nr d T).
Proof using.
  intros HL Hj Hok (O1 & O2 & O3 & O4) (P1 & P2 & P3) Hcs2.
  destruct (merged vd junk L HL cz cr sz sr nz nr d ov csize ct cl jobs chunks E names T uuids2 Hok cut ord ordm O1 O2 Hj) as (ds & dm & S & E1 & E2 & Ha & Hm).
  pose proof Ha as (l & o & Hl & Ho & Ec). pose proof (rechunkable vd junk L HL cz cr sz sr nz nr d ov csize ct cl jobs chunks E names T uuids2 Hok cut S l Hl Hm) as Hre.
  assert (acceptable_chunk 3 (rebuild_cs 3)) as Hcs by (apply rebuild_cs_ok; lia).
  destruct (ca_jobs _ _ _ _ _ _ _ _ _ _ _ _ _ _ _ _ _ _ Hok) as [J1 J2].
  destruct (C56_rechunk vd 3 junk L (cylindrical vd) dm S _ _ _ (replicate 3 csize) ov uuids2 ord2 ordm2 size (rebuild_cs 3) size2 cs2 fuel p0 jobs HL ltac:(lia) (cylindrical_total vd ov) Hj Ha Hre O3 O4 Hcs Hcs2 ltac:(lia) J2 P2 P3)
    as (dout & l2 & S2 & E3 & H3 & H4 & H5 & H6 & H7 & H8).
  destruct (calc_is vd cz cr sz sr nz nr d ov csize ct cl jobs chunks E names T uuids2 Hok) as (I1 & I2 & I3 & I4 & I5).
  exists dout, l2, S2. refine (conj _ (conj H3 (conj H4 (conj H5 (conj _ _))))).
  - unfold calculate. cbv zeta. rewrite I5, I3, I4, E1. cbn [mbind res_bind]. rewrite E2. cbn [mbind res_bind]. rewrite I1, I2. exact E3.
  - exact (result vd cz cr sz sr nz nr d ov csize ct cl jobs chunks E names T uuids2 Hok cut S _ Hm H6 (H8 eq_refl)).
  - rewrite H7. apply count2.
Qed.
(** The shape of the result is reported: as many samples as there are every [d] cells, and the steps (the assertion of line 733). *)
Theorem C60_shape size2 cs2 : lib_ok L -> (junk < 2 ^ 32)%N -> ok -> orders -> partition_steps -> acceptable_chunk 3 cs2 ->
  exists dout l2 g l3, run = Done dout /\ lib_open vd 3 junk L size2 cs2 dout = Done l2 /\ lib_geometry 3 l2 = Done (g, l3) /\ g_shape g = out_shape nz nr d T /\ g_start g = [0; 0; 0]%N.
Proof using.
  intros HL Hj Hok Ho Hp Hcs2. destruct (C60_calculate size2 cs2 HL Hj Hok Ho Hp Hcs2) as (dout & l2 & S2 & E1 & _ & E2 & Hl & [Hbox _ _ _ _] & _).
  destruct (C30_shape_partial vd 3 junk L l2 _ HL Hl) as (g & l3 & E3 & _ & _ & Hg). exists dout, l2, g, l3. refine (conj E1 (conj E2 (conj E3 _))). clear E1 E2 E3.
  cbn [reopened ls_chunks] in Hg. destruct (ca_domain _ _ _ _ _ _ _ _ _ _ _ _ _ _ _ _ _ _ Hok) as (D1 & D2 & D3 & _). destruct (ca_steps _ _ _ _ _ _ _ _ _ _ _ _ _ _ _ _ _ _ Hok) as [D4 _].
  pose proof (samples_le nz d D1 D3) as S1. pose proof (samples_le nr d D2 D3) as S2'.
  assert (forall i, (i < 3)%nat -> ([0; 0; 0]%N !!! i < out_shape nz nr d T !!! i)%N) as Hlt.
  { intros [|[|[|i]]] Hi; [change (0 < samples nr d)%N; lia|change (0 < samples nz d)%N; lia|change (0 < N.of_nat T)%N; lia|lia]. }
  assert (forall c, c ∈ ls_chunks S2 -> length (c_start c) = 3%nat /\ length (c_end c) = 3%nat /\ forall i, (i < 3)%nat -> (c_start c !!! i < c_end c !!! i)%N) as Hcb by (intros c Hc; exact (chunk_boxes vd 3 junk L l2 _ c HL Hl Hc)).
  assert (is_hull 3 (ls_chunks S2) [0; 0; 0]%N (out_shape nz nr d T)) as Hh by (apply hull_of_box; done).
  destruct Hg as [Hg1 Hg2]. { intros Hn. destruct (proj2 (Hbox [0; 0; 0]%N)) as (c & Hc & _); [|rewrite Hn in Hc; by apply elem_of_nil in Hc]. apply inbox_at. split; [done|]. split; [done|]. intros i Hi. split; [done|]. by apply Hlt. }
  destruct (hull_unique 3 (ls_chunks S2) (g_start g) (g_end g) [0; 0; 0]%N (out_shape nz nr d T)) as [E1 E2]; [|done|done|].
  { intros c Hc. destruct (session_inv vd 3 junk L HL _ _ Hl) as (M & szs & H & Hr). apply elem_of_list_lookup in Hc as (i & Hi). destruct (lrep_get _ _ _ _ _ _ _ i c Hr Hi) as (m & _ & Hm & _). exact (conj (mr_dims _ _ _ Hm) (mr_box _ _ _ Hm)). }
  rewrite E1, E2 in Hg2. split; [|done].
  assert (zip_with N.sub (out_shape nz nr d T) [0; 0; 0]%N = out_shape nz nr d T) as Ez by (unfold out_shape; cbn [zip_with]; rewrite !N.sub_0_r; done).
  destruct Hg2 as [Hg2 _].
  - unfold count. rewrite Ez. eapply N.le_lt_trans; [|exact (ca_count _ _ _ _ _ _ _ _ _ _ _ _ _ _ _ _ _ _ Hok)]. unfold out_shape, wide_out. cbn [foldr]. repeat (apply N.mul_le_mono; try lia).
  - rewrite Ez in Hg2. apply Hg2. intros ind Hi. by apply Hbox.
Qed.
(** Reading: the element at r, z, t is the field in cell z*d, r*d of the storage domain at step t (a null value possibly not, if there is overlap, cf.
    C27_null_overlap_refuted). *)
Theorem C60_element size2 cs2 (r z : N) (t : nat) v : lib_ok L -> (junk < 2 ^ 32)%N -> ok -> orders -> partition_steps -> acceptable_chunk 3 cs2 ->
  (r * d < nr)%N -> (z * d < nz)%N -> (t < T)%nat -> kept_field vd sz sr d ov jobs chunks E cut t [sz + z * d; sr + r * d]%N v -> ov = 0%nat \/ ~ null_vector v ->
  exists dout l2 w l3, run = Done dout /\ lib_open vd 3 junk L size2 cs2 dout = Done l2 /\ lib_get vd 3 junk [r; z; N.of_nat t] l2 = Done (w, l3) /\ comes_back NullSuppressed v w.
Proof using.
  intros HL Hj Hok Ho Hp Hcs2 Hr Hz Ht Hk Hnn. destruct (C60_calculate size2 cs2 HL Hj Hok Ho Hp Hcs2) as (dout & l2 & S2 & E1 & _ & E2 & Hl & [Hbox Hform Hval _ _] & _).
  destruct (ca_domain _ _ _ _ _ _ _ _ _ _ _ _ _ _ _ _ _ _ Hok) as (D1 & D2 & D3 & D4 & D5).
  pose proof (axis_z vd cz cr sz sr nz nr d ov csize ct cl jobs chunks E names T uuids2 Hok) as (_ & _ & _ & _ & Z5 & Z6 & _). pose proof (axis_r vd cz cr sz sr nz nr d ov csize ct cl jobs chunks E names T uuids2 Hok) as (_ & _ & _ & _ & R5 & R6 & _).
  assert (inbox [0; 0; 0]%N (out_shape nz nr d T) [r; z; N.of_nat t]) as Hin.
  { apply inbox_at. split; [done|]. split; [done|]. apply samples_iff in Hr; [|done..]. apply samples_iff in Hz; [|done..]. intros [|[|[|i]]] Hi; cbn [length] in Hi; [exact (conj (N.le_0_l _) Hr)|exact (conj (N.le_0_l _) Hz)| |lia]. change ((0 <= N.of_nat t < N.of_nat T)%N). lia. }
  destruct (proj2 (Hbox _) Hin) as (c & Hc & Hcov).
  destruct (zvalue_in c _ Hcov) as [Hre Hzv]. unfold zind in Hre, Hzv. rewrite !list.fmap_cons, list.fmap_nil in Hre, Hzv. replace (Z.of_N (N.of_nat t)) with (Z.of_nat t) in Hre, Hzv by lia.
  assert (comes_back NullSuppressed v (value c [r; z; N.of_nat t])) as Hcb.
  { rewrite <- Hzv. apply (Hval c (Z.of_N r) (Z.of_N z) t [sz + z * d; sr + r * d]%N v Hc Hre Ht); [| |exact Hk].
    - unfold wide_start, wide_shape. split; cbn [zip_with]; repeat constructor; lia.
    - unfold zind. rewrite !list.fmap_cons, list.fmap_nil. apply list2; lia. }
  destruct (C27_element_access vd 3 junk L l2 _ c _ HL Hl Hc Hcov) as (w & l3 & Hg & _ & Hw).
  { intros Hnull. destruct Hnn as [->|Hnn]; [by destruct (Hform c Hc) as [-> _]|]. destruct Hnn. eapply comes_back_null; [exact Hcb|]. eapply (null_elements vd 3 junk L l2 (reopened S2 cs2) c); done. }
  exists dout, l2, w, l3. refine (conj E1 (conj E2 (conj Hg _))). eapply comes_back_trans; [exact Hcb|exact Hw].
Qed.
End props.
Print Assumptions C60_calculate.
Print Assumptions C60_shape.
Print Assumptions C60_element.

(** * The hypotheses are met: 6 x 4 cells, two processes (r = 0, 1 and r = 2, 3), storage domain of 2 x 3 cells at (2, 0), every second cell, overlap 1. *)
Definition ca_ex_chunks (m : nat) : list (list Z * list Z) := match m with 0%nat => [([1; 1], [11; 3])%Z] | _ => [([1; 5], [11; 7])%Z] end.
Definition ca_ex_names (m t j k : nat) : bytes := [N.of_nat m; N.of_nat t; N.of_nat j; N.of_nat k].
Definition ca_ex_names2 (n i : nat) : bytes := [N.of_nat n; N.of_nat i].
Example C60_hypotheses_nonvacuous : ok_calculate 1 6 4 2 0 2 3 2 1 2%N 2 2 2 ca_ex_chunks st_E ca_ex_names 3 ca_ex_names2 /\ partition_steps 2 5 1 /\
  kept_field 1 2 0 2 1 2 ca_ex_chunks st_E (fun _ _ _ _ => false) 1 [2 + 0 * 2; 0 + 1 * 2]%N [155%N] /\ ~ null_vector [155%N] /\
  wide_start 2 0 2 1 = [0; 0]%N /\ wide_shape 6 4 2 0 2 3 2 1 = [6; 3]%N /\ out_shape 2 3 2 3 = [2; 1; 3]%N.
Proof.
  assert (forall m j c, (m < 2)%nat -> ca_ex_chunks m !! j = Some c -> j = 0%nat /\ ((m = 0%nat /\ c = ([1; 1], [11; 3])%Z) \/ (m = 1%nat /\ c = ([1; 5], [11; 7])%Z))) as Hreg.
  { intros [|[|m]] [|j] c Hm Hj; cbn in Hj; try discriminate Hj; try lia; injection Hj as <-; auto. }
  assert (forall c m, (m < 2)%nat -> c ∈ ca_ex_chunks m -> sim_chunk 2 c) as Hsc.
  { intros c m Hm (j & Hj)%elem_of_list_lookup. destruct (Hreg m j c Hm Hj) as [_ [[_ ->]|[_ ->]]]; (split; [done|]); (split; [done|]); (split; [by repeat constructor|]); split; repeat constructor; try done; match goal with |- Z.Odd ?z => exists (z / 2)%Z; done end. }
  split; [|split; [split; [lia|]; split; [lia|done]|]; split; [|split; [|done]]].
  - split.
    + lia.
    + done.
    + split; [lia|done].
    + lia.
    + split; [lia|done].
    + intros m c Hm Hc. by apply (Hsc c m).
    + intros m m' j j' c c' x Hm Hm' Hj Hj' [Hx Hy] [Hx' Hy']. destruct (Hreg m j c Hm Hj) as [-> [[-> ->]|[-> ->]]], (Hreg m' j' c' Hm' Hj') as [-> [[-> ->]|[-> ->]]]; try done; exfalso; cbn [fst snd] in *;
      (destruct x as [|x0 [|x1 [|? ?]]]; unfold centre in *; rewrite ?list.fmap_cons, ?list.fmap_nil in *; repeat match goal with H : Forall2 _ _ _ |- _ => inversion_clear H end; lia).
    + intros x [H1 H2]. destruct x as [|x0 [|x1 [|? ?]]]; cbn [zip_with] in H2; repeat match goal with H : Forall2 _ _ _ |- _ => inversion_clear H end.
      destruct (N.lt_ge_cases x1 2) as [Hx|Hx]; [exists 0%nat, 0%nat, ([1; 1], [11; 3])%Z|exists 1%nat, 0%nat, ([1; 5], [11; 7])%Z]; (split; [lia|]); (split; [done|]); unfold cell_in, centre; rewrite !list.fmap_cons, list.fmap_nil; cbn [fst snd]; split; repeat constructor; lia.
    + intros t p. split; [done|]. constructor; [|done]. unfold st_E. pose proof (Z.mod_pos_bound (100 * Z.of_nat t + 10 * default 0%Z (p !! 0%nat) + default 0%Z (p !! 1%nat)) 1000 ltac:(lia)). lia.
    + vm_compute. done.
    + vm_compute. done.
    + vm_compute. done.
    + vm_compute. done.
    + vm_compute. done.
    + intros m t j c k Hm Ht Hj Hk. split; [done|]. split; [done|]. assert (N.of_nat k < 3)%N as Hk2. { destruct (Hreg m j c Hm Hj) as [_ [[_ ->]|[_ ->]]]; (eapply N.lt_le_trans; [exact Hk|vm_compute; done]). }
      destruct (Hreg m j c Hm Hj) as [-> _]. split; [repeat constructor; lia|]. intros m' t' j' c' k' _ _ _ _ Heq. unfold ca_ex_names in Heq. injection Heq as E1 E2 E3 E4. lia.
    + assert (foldr N.mul 1%N ((fun n => samples n 2) <$> out_shape 2 3 2 3) = 2%N) as -> by reflexivity. intros n i Hn Hi. split; [done|]. split; [done|]. split; [repeat constructor; lia|]. intros m j _ _ Heq. unfold ca_ex_names2 in Heq. injection Heq as E1 E2. lia.
  - exists 1%nat, 0%nat, ([1; 5], [11; 7])%Z. split; [lia|]. split; [done|]. split; [split; vm_compute; repeat constructor; done|vm_compute; done].
  - intros H. apply list.Forall_cons in H as [[H|H] _]; discriminate H.
Qed.
