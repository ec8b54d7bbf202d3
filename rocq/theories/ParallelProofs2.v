(** Proofs about merging and parallel re-chunking, part 2: all jobs together. *)
From stdpp Require Import base list list_numbers numbers option gmap countable sets.
From Coq Require Import NArith ZArith Lia.
From Verif Require Import IndexSpec LoopsModel LoopsProofs NDArrayModel NDArrayProofs NDArrayProps StreamerModel StreamerProps NullSupModel CodecModel
  BBoxModel BBoxProps DownsampleModel DownsampleProps
  RTreeModel RTreeInsert RTreeRebuild RTreeProps ChunkMetaModel ChunkMetaProps ChunkCacheModel ChunkCacheSpec ChunkCacheProofs ChunkCacheProofs2 ChunkCacheProofs3 ChunkCacheProps
  LibraryModel LibrarySpec LibraryProofs LibraryProofs2 LibraryProofs3 LibraryProofs4 LibraryProofs5 LibraryProofs6 LibraryProofs7 LibraryProps LibraryFiles LibraryFilesProps
  BoundaryModel BoundaryProps RebuildModel RebuildSpec RebuildProofs RebuildProofs2 RebuildProofs3 RebuildProofs4 PartitionModel PartitionProps ParallelModel ParallelSpec ParallelProofs.
From Verif Require Import IndexSpec LibrarySpec.

Lemma shifted_part (s pre : list N) x : length s = length pre -> length x = length pre -> (forall i, (i < length pre)%nat -> (pre !!! i <= s !!! i)%N) ->
  shifted s (zip_with N.sub s pre) x = shifted pre (replicate (length pre) 0%N) x.
Proof.
  intros Ls Lx Hle. unfold shifted. apply eq_at. rewrite !zip_with_length, replicate_length. split; [lia|]. intros i Hi.
  rewrite !zip_at by (rewrite ?zip_with_length, ?replicate_length; lia). rewrite lookup_total_replicate_2 by lia. specialize (Hle i ltac:(lia)). lia.
Qed.
Lemma elem_mjoin {A} (x : A) (l : list (list A)) : x ∈ mjoin l <-> exists i y, l !! i = Some y /\ x ∈ y.
Proof.
  rewrite elem_of_list_join. split.
  - intros (y & Hx & (i & Hi)%elem_of_list_lookup). eauto.
  - intros (i & y & Hi & Hx). exists y. split; [done|]. by eapply elem_of_list_lookup_2.
Qed.

Lemma mjoin_len {A B} (f : A -> list B) q l : q ∈ l -> (length (f q) <= length (mjoin (f <$> l)))%nat.
Proof.
  induction l as [|a l IH]; intros Hq; [destruct (proj1 (elem_of_nil q) Hq)|]. rewrite list.fmap_cons. cbn [mjoin list_join]. rewrite app_length. apply elem_of_cons in Hq as [->|Hq]; [lia|]. etransitivity; [exact (IH Hq)|]. apply Nat.le_add_l.
Qed.

Section comb.
Context (vd dims : nat).
(** A partition [p] inside the region [pre, e). *)
Definition inside_region (pre e : list N) (p : list nat * list nat) : Prop := length p.1 = dims /\ length p.2 = dims /\
  forall i, (i < dims)%nat -> (pre !!! i <= N.of_nat (p.1 !!! i))%N /\ (p.1 !!! i < p.2 !!! i)%nat /\ (N.of_nat (p.2 !!! i) <= e !!! i)%N.
Definition part_rebuilt (S : lstate) (pre req : list N) (ov : nat) (p : list nat * list nat) (T : list chunk) : Prop :=
  rebuilt S (vof_nat p.1) (vof_nat p.2) (zip_with N.sub (vof_nat p.1) pre) req ov T.

(** The output box of a partition. *)
Lemma part_box pre e p ind : length pre = dims -> length e = dims -> inside_region pre e p ->
  inbox (zip_with N.sub (vof_nat p.1) pre) (zip_with N.add (zip_with N.sub (vof_nat p.1) pre) (zip_with N.sub (vof_nat p.2) (vof_nat p.1))) ind <->
  length ind = dims /\ in_box p.1 p.2 (vto_nat (zip_with N.add ind pre)).
Proof using.
  intros Lp Le (P1 & P2 & P3). rewrite inbox_at, in_box_at. unfold vto_nat, vof_nat. rewrite !zip_with_length, !fmap_length, !zip_with_length. split.
  - intros (I1 & I2 & I3). assert (length ind = dims) as Li by lia. split; [lia|]. split; [lia|]. split; [lia|]. intros i Hi. specialize (I3 i ltac:(lia)). rewrite fmap_at by (rewrite zip_with_length; lia). rewrite !zip_at in * by (rewrite ?zip_with_length, ?fmap_length; lia).
    rewrite !fmap_at in I3 by lia. destruct (P3 i ltac:(lia)) as (? & ? & ?). lia.
  - intros (Li & I1 & I2 & I3). split; [lia|]. split; [lia|]. intros i Hi. specialize (I3 i ltac:(lia)). rewrite fmap_at in I3 by (rewrite zip_with_length; lia). rewrite !zip_at in * by (rewrite ?zip_with_length, ?fmap_length; lia).
    rewrite !fmap_at by lia. destruct (P3 i ltac:(lia)) as (? & ? & ?). lia.
Qed.

Lemma parts_rebuilt S pre e req ov parts Cs : length pre = dims -> length e = dims -> (forall i, (i < dims)%nat -> (pre !!! i <= e !!! i)%N) ->
  (forall c ind, c ∈ ls_chunks S -> covers c ind -> length ind = dims) ->
  tiles parts (vto_nat pre) (vto_nat e) -> Forall (inside_region pre e) parts -> Forall2 (part_rebuilt S pre req ov) parts Cs ->
  rebuilt S pre e (replicate dims 0%N) req ov (mjoin Cs).
Proof using.
  intros Lp Le Hpe HSd (_ & T2 & T3) Hin HC.
  assert (forall i T, Cs !! i = Some T -> exists p, parts !! i = Some p /\ inside_region pre e p /\ part_rebuilt S pre req ov p T) as Hget.
  { intros i T Hi. destruct (Forall2_lookup_r _ _ _ _ _ HC Hi) as (p & Hp & Hr). exists p. split; [done|]. split; [|done]. by eapply Forall_lookup_1. }
  assert (forall ind, length ind = dims -> in_box (vto_nat pre) (vto_nat e) (vto_nat (zip_with N.add ind pre)) <-> inbox (replicate dims 0%N) (zip_with N.add (replicate dims 0%N) (zip_with N.sub e pre)) ind) as Hbox.
  { intros ind Li. rewrite inbox_at, in_box_at. unfold vto_nat. rewrite !fmap_length, !zip_with_length, replicate_length. split.
    - intros (I1 & I2 & I3). split; [lia|]. split; [lia|]. intros i Hi. specialize (I3 i ltac:(lia)). rewrite !fmap_at in I3 by (rewrite ?zip_with_length; lia). rewrite !zip_at in * by (rewrite ?zip_with_length, ?replicate_length; lia).
      rewrite !lookup_total_replicate_2 by lia. specialize (Hpe i Hi). lia.
    - intros (I1 & I2 & I3). split; [lia|]. split; [lia|]. intros i Hi. specialize (I3 i ltac:(lia)). rewrite !fmap_at by (rewrite ?zip_with_length; lia). rewrite !zip_at in * by (rewrite ?zip_with_length, ?replicate_length; lia).
      rewrite !lookup_total_replicate_2 in I3 by lia. specialize (Hpe i ltac:(lia)). lia. }
  split.
  - intros ind. split.
    + intros (c & (i & T & Hi & Hc)%elem_mjoin & Hcov). destruct (Hget i T Hi) as (p & Hp & Hpi & [Rb _ _]). destruct (proj1 (part_box pre e p ind Lp Le Hpi) (proj1 (Rb ind) (ex_intro _ c (conj Hc Hcov)))) as [Li Hx].
      apply Hbox; [done|]. apply (T2 p); [by eapply elem_of_list_lookup_2|done].
    + intros Hind. assert (length ind = dims) as Li by (apply inbox_at in Hind as (Li & _); rewrite replicate_length in Li; lia).
      apply (Hbox ind Li) in Hind. destruct (T3 _ Hind) as (k & p & Hk & Hx & _). destruct (Forall2_lookup_l _ _ _ _ _ HC Hk) as (T & HT & [Rb _ _]).
      destruct (proj2 (Rb ind)) as (c & Hc & Hcov); [apply (part_box pre e p ind Lp Le); [by eapply Forall_lookup_1|done]|]. exists c. split; [|done]. apply elem_mjoin. eauto.
  - intros c (i & T & Hi & Hc)%elem_mjoin. destruct (Hget i T Hi) as (p & Hp & Hpi & [_ Rf _]). by apply Rf.
  - intros c c' ind Hc Hcov (i & T & Hi & Hc')%elem_mjoin Hr. destruct (Hget i T Hi) as (p & Hp & (P1 & P2 & P3) & [_ _ Rv]). pose proof (HSd c ind Hc Hcov) as Li.
    assert (shifted (vof_nat p.1) (zip_with N.sub (vof_nat p.1) pre) (zind ind) = shifted pre (replicate dims 0%N) (zind ind)) as E.
    { rewrite <- Lp. apply shifted_part; [unfold vof_nat; rewrite fmap_length; lia|unfold zind; rewrite fmap_length; lia|]. intros j Hj. unfold vof_nat. rewrite fmap_at by lia. apply P3. lia. }
    rewrite <- E in *. by apply Rv.
Qed.
Lemma parts_cylinder S gs ge pre e parts Cs : length pre = dims -> Forall (inside_region pre e) parts ->
  Forall2 (fun p T => cylinder_rule vd S gs ge (vof_nat p.1) (zip_with N.sub (vof_nat p.1) pre) T) parts Cs -> cylinder_rule vd S gs ge pre (replicate dims 0%N) (mjoin Cs).
Proof using.
  intros Lp Hin HC c' x (i & T & Hi & Hc')%elem_mjoin Lx Hr. destruct (Forall2_lookup_r _ _ _ _ _ HC Hi) as (p & Hp & Hcyl). destruct (Forall_lookup_1 _ _ _ _ Hin Hp) as (P1 & P2 & P3).
  assert (shifted (vof_nat p.1) (zip_with N.sub (vof_nat p.1) pre) x = shifted pre (replicate dims 0%N) x) as E.
  { rewrite <- Lp. apply shifted_part; [unfold vof_nat; rewrite fmap_length; lia|lia|]. intros j Hj. unfold vof_nat. rewrite fmap_at by lia. apply P3. lia. }
  rewrite <- E in *. apply Hcyl; [done| |done]. unfold vof_nat. rewrite fmap_length. lia.
Qed.
(** Chunks of different partitions have no common index. *)
Lemma parts_apart S pre e req ov parts Cs i j T T' c c' : length pre = dims -> length e = dims -> disjoint_boxes parts -> Forall (inside_region pre e) parts -> Forall2 (part_rebuilt S pre req ov) parts Cs ->
  Cs !! i = Some T -> Cs !! j = Some T' -> i <> j -> c ∈ T -> c' ∈ T' -> apart (c_start c) (c_end c) (c_start c') (c_end c').
Proof using.
  intros Lp Le Hd Hin HC Hi Hj Hij Hc Hc' ind I1 I2. destruct (Forall2_lookup_r _ _ _ _ _ HC Hi) as (p & Hp & [Rb _ _]), (Forall2_lookup_r _ _ _ _ _ HC Hj) as (p' & Hp' & [Rb' _ _]).
  destruct (proj1 (part_box pre e p ind Lp Le (Forall_lookup_1 _ _ _ _ Hin Hp)) (proj1 (Rb ind) (ex_intro _ c (conj Hc I1)))) as [_ X1].
  destruct (proj1 (part_box pre e p' ind Lp Le (Forall_lookup_1 _ _ _ _ Hin Hp')) (proj1 (Rb' ind) (ex_intro _ c' (conj Hc' I2)))) as [_ X2].
  apply Hij. symmetry. exact (Hd _ _ _ _ _ Hp Hp' X1 X2).
Qed.
End comb.

Local Opaque lib_open lib_close lib_geometry rebuild_partial lib_import merge_dirs.
Section all.
Context (vd dims : nat) (junk : N) (L : lib) (HL : lib_ok L) (ev : evaluator).
Notation session := (session vd dims junk L).

Lemma rebuilt_chunks S S' start end_ ostart req ov T : ls_chunks S = ls_chunks S' -> rebuilt S start end_ ostart req ov T -> rebuilt S' start end_ ostart req ov T.
Proof using. intros E [R1 R2 R3]. split; [done|done|]. rewrite <- E. exact R3. Qed.
Lemma ok_rechunk_chunks S S' ge pre post req ov uuids : ls_chunks S = ls_chunks S' -> ok_rechunk vd dims S ge pre post req ov uuids -> ok_rechunk vd dims S' ge pre post req ov uuids.
Proof using. intros E []. rewrite E in *. by split. Qed.

(** What is known about the directory of partition [n]. *)
Definition part_result (S : lstate) (ge pre req : list N) (ov : nat) (uuids : nat -> nat -> bytes) (ord : nat -> list N -> list N) (parts : list (list nat * list nat)) (n : nat) (d : dir) (T : lstate) : Prop :=
  holds_array vd dims junk L d T /\ exists p, parts !! n = Some p /\ part_rebuilt S pre req ov p (ls_chunks T) /\
    N.of_nat (length (ls_chunks T)) = chunk_count (vof_nat p.1) (vof_nat p.2) req /\
    (ev = cylindrical vd -> cylinder_rule vd S (replicate dims 0%N) ge (vof_nat p.1) (zip_with N.sub (vof_nat p.1) pre) (ls_chunks T)) /\
    (forall c, c ∈ ls_chunks T -> c_file c = [] \/ exists j, (N.of_nat j < chunk_count (vof_nat p.1) (vof_nat p.2) req)%N /\ c_file c = uuids n j).

(** One job opens the array and processes its partitions. *)
Lemma one_job_ok d S ge pre post req ov uuids ord size cs ps p jobs job : total_evaluator vd ov ev -> (junk < 2 ^ 32)%N -> holds_array vd dims junk L d S ->
  ok_rechunk vd dims S ge pre post req ov uuids -> (forall n k, ord n k ≡ₚ k) -> acceptable_chunk dims cs ->
  ps (vto_nat (zip_with N.sub (zip_with N.sub ge pre) post)) = Some p -> Forall2 (fun p c => exists m, (1 <= m)%nat /\ p = (m * c)%nat) p (vto_nat req) ->
  let parts := box_chunks (loop_fuel (vto_nat (zip_with N.sub ge post))) (vto_nat pre) (vto_nat (zip_with N.sub ge post)) p in
  exists D, rechunk_one_job vd dims junk L ev size cs ps pre post req ov uuids ord d jobs job = Done (length parts, D) /\
    forall n, (n < length parts)%nat -> if (n mod jobs =? job)%nat then exists d' T, D !! n = Some d' /\ part_result S ge pre req ov uuids ord parts n d' T else D !! n = None.
Proof using HL.
  intros Hev Hj (l0 & ord0 & Hl0 & Hord0 & Hc0) Hok0 Hord Hcs Hps Hmul parts. destruct (C53_closed_array_opens vd dims junk L l0 S ord0 d size cs HL Hl0 Hord0 Hcs Hc0) as (l & El & Hl).
  assert (ok_rechunk vd dims (reopened S cs) ge pre post req ov uuids) as Hok by (by apply (ok_rechunk_chunks S)).
  destruct (geometry_lib_ok vd dims l _ (session_inv vd dims junk L HL _ _ Hl)) as (g & l1 & Eg & Hr1 & Hgeo). pose proof (ss_geometry vd dims junk L _ _ _ _ Hl Eg) as Hl1.
  pose proof Hok as [Hhull [Hne Hgf] (Lp & Lpo & Hpad) Hcnt Hints [Lr Hreq] Hvol Hids Hnames]. destruct Hhull as (Lz & Lg & Hh).
  assert (g_shape g = ge) as Esh.
  { destruct Hgeo as [_ Hgeo]. destruct (Hgeo Hne) as (Hhull & _ & Hshape).
    destruct (hull_unique dims (ls_chunks (reopened S cs)) (g_start g) (g_end g) (replicate dims 0%N) ge) as [E1 E2]; [|exact Hhull|exact (conj Lz (conj Lg Hh))|].
    { intros c Hc. destruct Hr1 as (M & sz & H & Hr). apply elem_of_list_lookup in Hc as [i Hi]. destruct (lrep_get _ _ _ _ _ _ _ _ _ Hr Hi) as (m & _ & Hm & _). split; apply Hm. }
    rewrite E1, E2 in Hshape. destruct (Hshape Hcnt) as [Hs _]. rewrite (Hs Hgf). apply eq_at. rewrite zip_with_length, replicate_length. split; [lia|]. intros i Hi. rewrite zip_at by (rewrite ?replicate_length; lia).
    rewrite lookup_total_replicate_2 by lia. lia. }
  assert (forall i, (i < dims)%nat -> (ge !!! i + N.of_nat ov < 2 ^ 31)%N) as Hlt by (intros i Hi; rewrite F1_at in Hints; apply Hints; lia).
  assert (vwsub (vwsub ge pre) post = zip_with N.sub (zip_with N.sub ge pre) post) as E1.
  { rewrite (vwsub_le pre ge).
    - apply vwsub_le; [apply F2_at|apply F1_at]; rewrite !zip_with_length; [split; [lia|]|]; intros i Hi; rewrite zip_at by lia; specialize (Hpad i ltac:(lia)); specialize (Hlt i ltac:(lia)); change W with (2 ^ 64)%N; lia.
    - apply F2_at. split; [lia|]. intros i Hi. specialize (Hpad i ltac:(lia)). lia.
    - apply F1_at. intros i Hi. specialize (Hlt i ltac:(lia)). change W with (2 ^ 64)%N. lia. }
  assert (vwadd pre (zip_with N.sub (zip_with N.sub ge pre) post) = zip_with N.sub ge post) as E2.
  { unfold vwadd. apply eq_at. rewrite !zip_with_length. split; [lia|]. intros i Hi. rewrite !zip_at by (rewrite ?zip_with_length; lia). specialize (Hpad i ltac:(lia)). specialize (Hlt i ltac:(lia)). rewrite wadd_small; lia. }
  assert (Forall (fun c => 0 < c)%nat (vto_nat req)) as Hrpos. { unfold vto_nat. apply Forall_fmap. eapply list.Forall_impl; [exact Hreq|]. intros r Hr. cbn beta in Hr. unfold compose. lia. }
  assert (Forall (fun c => 0 < c)%nat p) as Hppos.
  { clear -Hmul Hrpos. induction Hmul as [|a c ps cs (m & Hm & ->) Hpm IH]; [constructor|]. apply list.Forall_cons in Hrpos as [? ?]. constructor; [nia|auto]. }
  assert (length (zip_with N.sub ge post) = dims) as Le by (rewrite zip_with_length; lia).
  assert (length p = dims) as Lps. { apply Forall2_length in Hmul. unfold vto_nat in Hmul. rewrite fmap_length in Hmul. lia. }
  set (e := zip_with N.sub ge post) in *.
  assert (chunk_loop (loop_fuel (vto_nat e)) (vto_nat pre) (vto_nat e) p = Some parts) as Ech.
  { apply chunk_loop_spec; [unfold vto_nat; rewrite !fmap_length; lia|unfold vto_nat; rewrite !fmap_length; lia|done|done]. }
  (* sizes *)
  assert (Permutation (mjoin ((fun p => box_chunks (loop_fuel p.2) p.1 p.2 (vto_nat req)) <$> parts)) (box_chunks (loop_fuel (vto_nat e)) (vto_nat pre) (vto_nat e) (vto_nat req))) as Hperm.
  { apply parts_perm; [unfold vto_nat; rewrite !fmap_length; lia|unfold vto_nat; rewrite !fmap_length; lia|done|done]. }
  assert (Forall (fun r => 0 < r)%N req) as Hreq0 by (eapply list.Forall_impl; [exact Hreq|]; cbn beta; intros; lia).
  assert (forall n q, parts !! n = Some q -> (N.of_nat n < chunk_count pre e req)%N /\ (chunk_count (vof_nat q.1) (vof_nat q.2) req <= chunk_count pre e req)%N) as Hsz.
  { intros n q Hq. pose proof (lookup_lt_Some _ _ _ Hq) as Hn. rewrite <- (chunks_len (loop_fuel (vto_nat e)) pre e req) by (try exact Hreq0; try exact (le_n _); lia). rewrite <- Hperm.
    assert (q ∈ parts) as Hqp by (by eapply elem_of_list_lookup_2). pose proof (box_chunks_sizes _ _ _ _ _ Hppos Hqp) as (A1 & A2 & _). unfold vto_nat in A1, A2. rewrite fmap_length in A1, A2. split.
    - assert (forall ps0, Forall (fun p => exists x, x ∈ box_chunks (loop_fuel p.2) p.1 p.2 (vto_nat req)) ps0 -> (length ps0 <= length (mjoin ((fun p => box_chunks (loop_fuel p.2) p.1 p.2 (vto_nat req)) <$> ps0)))%nat) as Hle.
      { clear. induction ps0 as [|a ps0 IH]; intros H; [cbn; lia|]. apply list.Forall_cons in H as [(x & Hx) H]. rewrite list.fmap_cons. cbn [mjoin list_join length]. rewrite app_length. specialize (IH H).
        assert (0 < length (box_chunks (loop_fuel a.2) a.1 a.2 (vto_nat req)))%nat as Hpos. { destruct (box_chunks (loop_fuel a.2) a.1 a.2 (vto_nat req)); [by apply elem_of_nil in Hx|cbn [length]; lia]. }
        etransitivity; [|apply Nat.add_le_mono; [exact Hpos|exact IH]]. lia. }
      specialize (Hle parts). apply N.compare_lt_iff. apply N.compare_lt_iff. assert (length parts <= length (mjoin ((fun p => box_chunks (loop_fuel p.2) p.1 p.2 (vto_nat req)) <$> parts)))%nat; [|lia].
      apply Hle. apply list.Forall_forall. intros a Ha. pose proof (box_chunks_sizes _ _ _ _ _ Hppos Ha) as (B1 & B2 & B3 & _). unfold vto_nat in B1, B2. rewrite fmap_length in B1, B2.
      destruct (box_chunks_cover (loop_fuel a.2) a.1 a.2 (vto_nat req) a.1) as (x & Hx & _); [exact Hrpos|unfold vto_nat; rewrite fmap_length; lia|lia|by apply in_box_lower|]. eauto.
    - rewrite <- (chunks_len (loop_fuel (vto_nat (vof_nat q.2)))); [|unfold vof_nat; rewrite !fmap_length; lia|unfold vof_nat; rewrite !fmap_length; lia|exact Hreq0|lia]. rewrite !vto_of.
      pose proof (mjoin_len (fun p0 => box_chunks (loop_fuel p0.2) p0.1 p0.2 (vto_nat req)) q parts Hqp) as Hml. cbn beta in Hml. lia. }
  assert (exists l' D', rfold (rechunk_part vd dims junk L ev pre req ov uuids ord jobs job) (l1, ∅) (imap (fun i p => ((0 + i)%nat, p)) parts) = Done (l', D') /\ session l' (reopened S cs) /\
    (forall n, (n < 0)%nat -> D' !! n = (∅ : gmap nat dir) !! n) /\
    forall i, (i < length parts)%nat -> if ((0 + i) mod jobs =? job)%nat then exists d T, D' !! (0 + i)%nat = Some d /\ part_result S ge pre req ov uuids ord parts (0 + i)%nat d T else D' !! (0 + i)%nat = (∅ : gmap nat dir) !! (0 + i)%nat) as (l' & D' & Ef & Hl' & _ & Hres).
  { apply (job_fold vd dims junk L ev (reopened S cs) pre req ov uuids ord jobs job (part_result S ge pre req ov uuids ord parts) parts); [|intros i q Hq; exact Hq|exact Hl1].
    intros n q lx Hq Hlx. destruct (Hsz n q Hq) as [Hn Hcc]. destruct (part_ok vd dims (reopened S cs) ge pre post req ov uuids p n q Hok Hppos (elem_of_list_lookup_2 _ _ _ Hq) Hn Hcc) as (Hrb & Ews & Hq3).
    destruct (rebuild_partial_named vd dims junk L HL ev lx (reopened S cs) _ _ _ _ _ req ov (uuids n) true (ord n) Hev Hj Hlx Hrb (Hord n)) as (l' & d' & l2 & T & R1 & R2 & R3 & R4 & R5 & R6 & _ & R8 & R9).
    exists l', d', T. rewrite Ews. refine (conj R1 (conj R2 (conj _ _))).
    - exists l2, (ord n). exact (conj R3 (conj (Hord n) R4)).
    - exists q. refine (conj Hq (conj _ (conj R6 (conj R8 R9)))). exact (rebuilt_chunks (reopened S cs) S _ _ _ _ _ _ eq_refl R5). }
  exists D'. split.
  - unfold rechunk_one_job. rewrite El. cbn [mbind res_bind]. rewrite Eg. cbn [mbind res_bind]. rewrite Esh, E1, E2. rewrite Hps. cbn [of_opt mbind res_bind]. rewrite Ech. cbn [of_opt mbind res_bind].
    cbn [Nat.add] in Ef. change (imap pair parts) with (imap (fun i p => (i, p)) parts). rewrite Ef. reflexivity.
  - intros n Hn. specialize (Hres n Hn). cbn [Nat.add] in Hres. destruct (n mod jobs =? job)%nat; [exact Hres|]. rewrite Hres. apply lookup_empty.
Qed.
End all.
