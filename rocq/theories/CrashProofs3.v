(** Crashes, part 3: re-chunking, and what is on the disk since the last flush. *)
From stdpp Require Import base list list_numbers numbers option gmap countable sets.
From Coq Require Import NArith ZArith Lia.
From Verif Require Import IndexSpec LoopsModel NDArrayModel NDArrayProps NullSupModel CodecModel StreamerModel StreamerProps CacheModel CacheProofs BBoxModel BBoxProps DownsampleModel
  RTreeModel RTreeInsert RTreeRebuild RTreeProps ChunkMetaModel ChunkMetaProps ChunkCacheModel ChunkCacheSpec ChunkCacheProofs ChunkCacheProofs2 ChunkCacheProofs3
  LibraryModel LibrarySpec LibraryProofs LibraryProofs2 LibraryProofs3 LibraryProofs4 LibraryProofs5 LibraryProofs6 LibraryProofs7 LibraryProps
  BoundaryModel RebuildModel CrashModel CrashSpec CrashProofs CrashProofs2.
From Verif Require Import LibrarySpec.

Section rebuild.
Context (vd dims : nat) (junk : N) (L : lib) (ev : evaluator) (P : bytes -> Prop).
Notation quietF := (quiet any).

(** The array and the library with the rebuilt chunks. *)
Definition rstep (src dst : clib) (ops : list fop) (src' dst' : clib) : Prop :=
  quiet P (l_store src') /\ quietF (l_store dst') /\ Forall (safe P) ops /\ run (disk src, disk dst) ops = (disk src', disk dst').
Lemma any_nil : ~ any []. Proof using. by intros []. Qed.
Lemma flip_run d1 l ops l' : (forall o, run (disk l, o) ops = (disk l', o)) -> run (d1, disk l) (flip <$> ops) = (d1, disk l').
Proof using. intros H. change (d1, disk l) with (flipw (disk l, d1)). rewrite run_flip, H. reflexivity. Qed.

Lemma rebuild_chunk_step gs ge ov shift opt buf src dst uc buf' src' dst' : quiet P (l_store src) -> quietF (l_store dst) ->
  rebuild_chunk vd dims junk L ev gs ge ov shift opt (buf, src, dst) uc = Done (buf', src', dst') ->
  rstep src dst (rebuild_chunk_ops vd dims junk ev gs ge ov shift opt (buf, src, dst) uc) src' dst'.
Proof using.
  intros Hq1 Hq2 H. destruct uc as [uuid [cs ce]]. unfold rebuild_chunk in H. unfold rebuild_chunk_ops. destruct (forallb _ _); [|done].
  destruct (to_local _ _) as [out|]; cbn [of_opt mbind res_bind] in H |- *; try done. destruct (aresize vd junk _ buf) as [b1|]; cbn [of_opt mbind res_bind] in H |- *; try done. cbn [rdone fst snd].
  destruct (lib_fill vd dims junk b1 _ _ _ src) as [[b2 src1]| |] eqn:Ef; cbn [mbind res_bind] in H |- *; try done. cbn [fst snd].
  destruct (penetrating _ _ _ _) as [xs|]; cbn [of_opt mbind res_bind] in H |- *; try done. destruct (foldM _ _ _) as [b3|]; cbn [of_opt mbind res_bind] in H |- *; try done. cbn [rdone].
  destruct (lib_register _ _ _ _ _ _ _ _ _ _ _) as [dst1| |] eqn:Er; cbn [mbind res_bind] in H; try done. injection H as <- <- <-.
  destruct (fill_lstep vd dims junk P _ _ _ _ _ _ _ Hq1 Ef) as (F1 & F2 & F3 & F4).
  destruct (register_lstep vd dims junk L any any_nil _ _ _ _ _ _ _ _ Hq2 ltac:(by intros []) Er) as (R1 & R2 & R3 & R4).
  split; [done|]. split; [done|]. split; [apply Forall_app; split; [done|by apply flip_safe]|]. rewrite run_app, F4. by apply flip_run.
Qed.
Lemma rebuild_fold_step gs ge ov shift opt chunks : forall buf src dst buf' src' dst', quiet P (l_store src) -> quietF (l_store dst) ->
  rfold (rebuild_chunk vd dims junk L ev gs ge ov shift opt) (buf, src, dst) chunks = Done (buf', src', dst') ->
  rstep src dst (rfold_ops (rebuild_chunk_ops vd dims junk ev gs ge ov shift opt) (rebuild_chunk vd dims junk L ev gs ge ov shift opt) (buf, src, dst) chunks) src' dst'.
Proof using.
  induction chunks as [|c chunks IH]; intros buf src dst buf' src' dst' Hq1 Hq2 H; cbn [rfold rfold_ops] in *. { injection H as <- <- <-. split; [done|]. split; [done|]. split; [constructor|reflexivity]. }
  destruct (rebuild_chunk _ _ _ _ _ _ _ _ _ _ _ c) as [[[b1 s1] d1]| |] eqn:E; cbn [mbind res_bind] in H; try done. cbn [rdone].
  destruct (rebuild_chunk_step _ _ _ _ _ _ _ _ _ _ _ _ Hq1 Hq2 E) as (A1 & A2 & A3 & A4). destruct (IH _ _ _ _ _ _ A1 A2 H) as (B1 & B2 & B3 & B4).
  split; [done|]. split; [done|]. split; [by apply Forall_app|]. by rewrite run_app, A4.
Qed.
Lemma open_disk size cs d l : lib_open vd dims junk L size cs d = Done l -> (0 < dims)%nat -> disk l = d /\ quietF (l_store l).
Proof using.
  intros H Hd. unfold lib_open in H. destruct (rt_new meta0 dims 100); cbn [of_opt mbind res_bind] in H; try done.
  match type of H with (?x ≫= _) = _ => destruct x as [t| |] end; cbn [mbind res_bind] in H; try done. unfold copen in H.
  destruct (cnew_inv (K := N) (Nat.max 1 size) (CEntry (mk_meta 0 [] 0 [] [] 0) (anew vd junk (replicate dims 1%nat)) Nothing)) as (c & Ec & Hc); [lia|].
  rewrite Ec in H. cbn [of_opt mbind option_bind res_bind] in H. injection H as <-. split; [by destruct d|]. exists []. split; [done|]. by intros k e ?%elem_of_nil.
Qed.
Lemma rebuild_partial_step start end_ ostart req ov opt uuids ord l l' d : (0 < dims)%nat -> quiet P (l_store l) ->
  rebuild_partial vd dims junk L ev start end_ ostart req (Dir None ∅) ov opt uuids ord l = Done (l', d) ->
  let ops := rebuild_partial_ops vd dims junk L ev start end_ ostart req ov opt uuids ord l in
  Forall (safe P) ops /\ run (disk l, Dir None ∅) ops = (disk l', d) /\ quiet P (l_store l').
Proof using.
  intros Hd Hq H. cbv zeta. unfold rebuild_partial in H. unfold rebuild_partial_ops. destruct (lib_open _ _ _ _ _ _ _) as [dst| |] eqn:Eo; cbn [mbind res_bind] in H |- *; try discriminate H.
  destruct (open_disk _ _ _ _ Eo Hd) as [Ed Hqd]. destruct (lib_geometry dims l) as [[g l0]| |] eqn:Eg; cbn [mbind res_bind] in H |- *; try discriminate H.
  destruct (geometry_disk dims _ _ _ Eg) as [Es Ei]. destruct (chunk_loop _ _ _ _) as [chunks|]; cbn [of_opt mbind res_bind] in H |- *; try discriminate H. cbn [rdone].
  destruct (rfold _ _ _) as [[[b l1] dst1]| |] eqn:Ef; cbn [mbind res_bind] in H; try discriminate H. cbn [rdone snd].
  destruct (lib_flush vd dims ord dst1) as [dst2| |] eqn:Efl; cbn [mbind res_bind] in H; try discriminate H. destruct (lib_close vd dims ord dst2) as [d'| |] eqn:Ec; cbn [mbind res_bind] in H; try discriminate H. injection H as <- <-. cbn [rdone].
  assert (quiet P (l_store l0)) as Hq0 by (by rewrite Es). destruct (rebuild_fold_step _ _ _ _ _ _ _ _ _ _ _ _ Hq0 Hqd Ef) as (A1 & A2 & A3 & A4).
  destruct (flush_replay vd dims ord _ _ A2 Efl) as ((B1 & B2) & B3). destruct (close_replay vd dims ord _ _ B3 Ec) as (C1 & C2).
  split; [|split; [|done]].
  - apply Forall_app. split; [done|]. apply Forall_app. split; by apply flip_safe.
  - rewrite !run_app. replace (disk l, Dir None ∅) with (disk l0, disk dst) by (rewrite Ed; unfold disk; by rewrite Es, Ei). rewrite A4, (flip_run _ _ _ _ B2).
    change (disk l1, disk dst2) with (flipw (disk dst2, disk l1)). rewrite run_flip, C2. reflexivity.
Qed.
End rebuild.

(** ** What is on the disk since the last flush *)
Definition kept (S : lstate) (n : bytes) : Prop := n <> [] /\ exists c, c ∈ ls_chunks S /\ c_file c = n.
Section since.
Context (vd dims : nat) (junk : N) (L : lib) (HL : lib_ok L).

Lemma closed_alike d d' S : closed vd dims d S -> alike (kept S) d d' -> closed vd dims d' S.
Proof using.
  intros (M & sz & H1 & H2 & H3 & H4 & H5 & H6 & H7 & H8) [E1 E2]. exists M, sz. split_and!; try done; [by rewrite E1|].
  intros k m c Hk. destruct (H8 k m c Hk) as (A1 & A2 & A3 & A4). split_and!; auto. eapply on_disk_ext; [|exact A4]. intros Hp. apply E2. split; [done|].
  apply amap_inv in Hk as (i & m' & c' & Hm & Hc & -> & [= <- ->]). exists c'. split; [by eapply elem_of_list_lookup_2|]. destruct (Forall2_lookup_lr _ _ _ _ _ _ H1 Hm Hc). done.
Qed.
Lemma crashed_run w ops : crashed w ops (run w ops).
Proof using. revert w. induction ops as [|o ops IH]; intros w; [constructor|]. apply crash_later. apply IH. Qed.
Lemma lstep_closed S0 l ops l' : closed vd dims (disk l) S0 -> Forall (safe (kept S0)) ops -> (forall o, run (disk l, o) ops = (disk l', o)) -> closed vd dims (disk l') S0.
Proof using.
  intros Hc Hs Hr. eapply closed_alike; [exact Hc|]. pose proof (safe_crashed (kept S0) ops (disk l, disk l) _ Hs (crashed_run _ _)) as Ha. rewrite Hr in Ha. exact Ha.
Qed.
Lemma kept_nil S : ~ kept S []. Proof using. by intros [? _]. Qed.
Lemma closed_reads d S : closed vd dims d S -> reads_as vd dims junk L d (ls_chunks S).
Proof using HL.
  intros Hcl size cs Hcs. destruct (reopen_ok vd dims junk L HL _ S size cs Hcl Hcs) as (l2 & Ho & Hr2). exists l2. split; [done|].
  intros c ind Hc Hcov Hn. apply elem_of_list_lookup in Hc as (i & Hi). destruct (get_ok vd dims junk l2 (reopened S cs) i c ind Hr2 Hi Hcov Hn) as (v & l3 & Hg & _ & Hv). eauto.
Qed.
Lemma session_quiet l S : session vd dims junk L l S -> quiet any (l_store l).
Proof using HL.
  intros Hl. destruct (session_inv vd dims junk L HL l S Hl) as (M & sz & H & Hr). destruct (lr_store _ _ _ _ _ _ _ Hr) as (la & _ & Hc & _). exists la. split; [done|]. by intros k e _ _ [].
Qed.
Lemma since_ok S0 l S : since_flush vd dims junk L S0 l S -> session vd dims junk L l S /\ quiet (kept S0) (l_store l) /\ closed vd dims (disk l) S0 /\
  (forall c, c ∈ ls_chunks S0 -> c ∈ ls_chunks S).
Proof using HL.
  induction 1 as [l ord l' Hl Hord Hf|l S a s e ov opt null uuid l' Hl IH Hok Hn Hr|l S ind v l' Hl IH Hg Hc|l S g l' Hl IH Hg|l S buf is ie os b l' Hl IH Hok Hf|l S is ie vs l' Hl IH Hd Hne Hc Hlp].
  - pose proof (ss_flush vd dims junk L _ _ _ _ Hl Hord Hf) as Hs. destruct (flush_ok vd dims l S0 ord Hord (session_inv vd dims junk L HL l S0 Hl)) as (l1 & Hf' & _ & Hcl).
    rewrite Hf in Hf'. injection Hf' as <-. split; [done|]. split; [|split; [exact Hcl|done]].
    pose proof (session_inv vd dims junk L HL l S0 Hl) as (M & sz & H & Hr). pose proof (lrep_dims vd dims l S0 ltac:(by exists M, sz, H)) as Hd.
    unfold lib_flush in Hf. destruct (flush_index_ok _ _ _ _ _ _ _ Hr) as [Hfi Hl1]. rewrite Hfi in Hf. cbn [mbind res_bind] in Hf.
    destruct (flush_cache_ok vd dims (ls_cs S0) sz (lr_acc _ _ _ _ _ _ _ Hr) Hd ord _ _ Hord (lr_store _ _ _ _ _ _ _ Hl1)) as (s & Hfc & Hs' & _). rewrite Hfc in Hf. cbn [mbind res_bind] in Hf. injection Hf as <-.
    cbn [l_store with_store]. exists []. split; [apply Hs'|]. by intros k e ?%elem_of_nil.
  - destruct IH as (I1 & I2 & I3 & I4). assert (~ kept S0 uuid) as Hu.
    { intros [Hu (c & Hc & E)]. pose proof (or_name _ _ _ _ _ _ _ _ Hok) as (_ & _ & _ & Hnm). rewrite list.Forall_forall in Hnm. exact (Hnm c (I4 c Hc) E). }
    destruct (register_lstep vd dims junk L _ (kept_nil S0) _ _ _ _ _ _ _ _ I2 Hu Hr) as (A1 & A2 & A3 & A4). split; [by eapply ss_register|]. split; [done|]. split.
    + exact (lstep_closed _ _ _ _ I3 A2 A4).
    + intros c Hc. cbn [ls_chunks registered]. apply elem_of_app. left. by apply I4.
  - destruct IH as (I1 & I2 & I3 & I4). destruct (get_lstep vd dims junk _ _ _ _ _ I2 Hg) as (A1 & A2 & A3 & A4). split; [by eapply ss_get|]. split; [done|]. split; [|done].
    exact (lstep_closed _ _ _ _ I3 A2 A4).
  - destruct IH as (I1 & I2 & I3 & I4). destruct (geometry_disk _ _ _ _ Hg) as [E1 E2]. split; [by eapply ss_geometry|]. split; [by rewrite E1|]. split; [|done]. unfold disk. by rewrite E1, E2.
  - destruct IH as (I1 & I2 & I3 & I4). destruct (fill_lstep vd dims junk _ _ _ _ _ _ _ _ I2 Hf) as (A1 & A2 & A3 & A4). split; [by eapply ss_fill|]. split; [done|]. split; [|done].
    exact (lstep_closed _ _ _ _ I3 A2 A4).
  - destruct IH as (I1 & I2 & I3 & I4). destruct (loop_lstep vd dims junk _ _ _ _ _ _ I2 Hlp) as (A1 & A2 & A3 & A4). split; [by eapply ss_loop|]. split; [done|]. split; [|done].
    exact (lstep_closed _ _ _ _ I3 A2 A4).
Qed.
End since.
