(** C35: crashes, for all histories since the last flush and all crash points. *)
From stdpp Require Import base list list_numbers numbers option gmap countable sets.
From Coq Require Import NArith ZArith Lia.
From Verif Require Import IndexSpec LoopsModel NDArrayModel NDArrayProps NullSupModel CodecModel StreamerModel StreamerProps CacheModel CacheProofs BBoxModel BBoxProps DownsampleModel
  RTreeModel RTreeInsert RTreeRebuild RTreeProps ChunkMetaModel ChunkMetaProps ChunkCacheModel ChunkCacheSpec ChunkCacheProofs ChunkCacheProofs2 ChunkCacheProofs3 ChunkCacheProps
  LibraryModel LibrarySpec LibraryProofs LibraryProofs2 LibraryProofs3 LibraryProofs4 LibraryProofs5 LibraryProofs6 LibraryProofs7 LibraryProps
  BoundaryModel BoundaryProps RebuildModel RebuildSpec RebuildProofs RebuildProofs2 RebuildProofs3 RebuildProofs4 RebuildProps CrashModel CrashSpec CrashProofs CrashProofs2 CrashProofs3.
From Verif Require Import IndexSpec LibrarySpec.

(** ** The other directory *)
Lemma crashed_other ops w w' : Forall (fun o => match o with Put Own _ _ | Patch Own _ _ | Del Own _ | Cp Other _ => True | _ => False end) ops -> crashed w ops w' -> w'.2 = w.2.
Proof.
  intros Hs Hc. induction Hc as [w ops|w o ops w' Ht|w o ops w' Hc IH]; [done| |]; apply list.Forall_cons in Hs as [Ho Hs].
  - destruct Ht as [w s n b b' Hb|w s n b b'|w s n b b' Hg Hb|w s n b b' Hg Hb]; by destruct s.
  - rewrite (IH Hs). clear -Ho. by destruct o as [[]|[]|[]|[]|[]].
Qed.
Lemma crashed_own ops w w' : Forall (fun o => match o with Del Other _ => True | _ => False end) ops -> crashed w ops w' -> w'.1 = w.1.
Proof.
  intros Hs Hc. induction Hc as [w ops|w o ops w' Ht|w o ops w' Hc IH]; [done| |]; apply list.Forall_cons in Hs as [Ho Hs].
  - by destruct Ht as [w s n b b' Hb|w s n b b'|w s n b b' Hg Hb|w s n b b' Hg Hb].
  - rewrite (IH Hs). clear -Ho. by destruct o as [[]|[]|[]|[]|[]].
Qed.
Lemma own_other ops : Forall own_op ops -> Forall (fun o => match o with Put Own _ _ | Patch Own _ _ | Del Own _ | Cp Other _ => True | _ => False end) ops.
Proof. intros H. eapply list.Forall_impl; [exact H|]. by intros [[]|[]|[]|[]|[]]. Qed.

(** The operations in the middle of which the crash happens. *)
Inductive operation (vd dims : nat) (junk : N) (l : clib) (S : lstate) : list fop -> Prop :=
  | op_register a s e ov opt null uuid : ok_register vd dims S a s e ov uuid -> is_null_chunk vd a opt null ->
      operation vd dims junk l S (lib_register_ops vd dims junk a s e ov opt uuid l)
  | op_get c ind : c ∈ ls_chunks S -> covers c ind -> (c_null c = true -> c_ov c = 0%N) -> operation vd dims junk l S (lib_get_ops vd dims ind l)
  | op_fill buf is ie os : ok_fill vd dims buf is ie os -> operation vd dims junk l S (lib_fill_ops vd dims junk buf is ie os l)
  | op_loop is ie : length is = dims -> nonempty is ie -> (forall c, c ∈ ls_chunks S -> c_null c = true -> c_ov c = 0%N) -> operation vd dims junk l S (lib_loop_ops vd dims junk is ie l).

Section props.
Context (vd dims : nat) (junk : N) (L : lib).
Local Notation session := (session vd dims junk L).
Local Notation since_flush := (since_flush vd dims junk L).
Local Notation reads_as := (reads_as vd dims junk L).

Lemma kept_file S0 l S n : lib_ok L -> since_flush S0 l S -> kept S0 n -> is_Some (s_files (l_store l) !! n).
Proof using.
  intros HL Hl (Hn & c & Hc & <-). destruct (since_ok vd dims junk L HL _ _ _ Hl) as (_ & _ & (M & sz & H1 & _ & _ & H4 & _ & _ & _ & H8) & _).
  apply elem_of_list_lookup in Hc as [i Hi]. destruct (Forall2_lookup_r _ _ _ _ _ H1 Hi) as (m & Hm & Hr).
  destruct (H8 _ _ _ (amap_lookup _ _ _ _ _ (Forall2_length _ _ _ H1) H4 Hm Hi)) as (_ & _ & _ & Hd). rewrite <- (mr_path _ _ _ Hr) in *.
  destruct Hd as [(_ & _ & f & Hf & _)|(_ & Hp & _)]; [by exists f|done].
Qed.

(** Only some of the files that the index lists are there. *)
Lemma sparse_reads d d2 S C : lib_ok L -> closed vd dims d2 S -> d_index d = d_index d2 -> (forall c, c ∈ C -> c ∈ ls_chunks S) ->
  (forall c, c ∈ C -> c_file c <> [] -> d_files d !! c_file c = d_files d2 !! c_file c) -> reads_as d C.
Proof using.
  intros HL Hcl Ei Hsub Hfs size cs Hcs. destruct (reopen_ok vd dims junk L HL _ S size cs Hcl Hcs) as (l2 & Ho & Hr2).
  unfold lib_open, copen in Ho |- *. destruct (rt_new meta0 dims 100) as [t0|]; cbn [of_opt mbind res_bind] in Ho |- *; [|discriminate Ho]. rewrite Ei.
  match type of Ho with (?x ≫= _) = _ => destruct x as [t| |] end; cbn [mbind res_bind] in Ho |- *; try discriminate Ho.
  destruct (cnew_inv (K := N) (Nat.max 1 size) (CEntry (mk_meta 0 [] 0 [] [] 0) (anew vd junk (replicate dims 1%nat)) Nothing)) as (ca & Ec & Hca); [lia|].
  rewrite Ec in Ho |- *. cbn [of_opt mbind option_bind res_bind] in Ho |- *. injection Ho as <-. eexists. split; [reflexivity|].
  intros c ind Hc Hcov Hn. pose proof (Hsub c Hc) as Hc2. apply elem_of_list_lookup in Hc2 as (i & Hi). destruct (get_ok vd dims junk _ (reopened S cs) i c ind Hr2 Hi Hcov Hn) as (v & l3 & Hg & _ & Hv).
  destruct Hr2 as (M & sz & H & Hr). destruct (find_ok _ _ _ _ _ _ _ _ _ _ Hr Hi Hcov) as (slot & m & t' & Hm & Hmr & Hf & _).
  unfold lib_get in Hg |- *. rewrite Hf in Hg. cbn [mbind res_bind] in Hg.
  assert (find_chunk ind (CLib 0 None t (d_index d2) (CStore size cs ca (d_files d))) = Done (slot, m, with_tree (CLib 0 None t (d_index d2) (CStore size cs ca (d_files d))) t')) as ->.
  { clear -Hf. unfold find_chunk in *. cbn [l_tree] in *. destruct (search_point t ind) as [[[sl|] t1]|]; cbn [of_opt mbind res_bind] in Hf |- *; try discriminate Hf. destruct (payload_at t1 sl); cbn [of_opt mbind res_bind] in Hf |- *; [|discriminate Hf]. by injection Hf as -> -> <-. }
  cbn [mbind res_bind l_store with_tree] in Hg |- *. unfold retrieve_chunk in Hg |- *. cbn [s_cache] in Hg |- *.
  rewrite (ccontains_spec _ _ _ Hca) in Hg |- *. cbn [fmap list_fmap] in Hg |- *. rewrite bool_decide_false in Hg |- * by (by intros ?%elem_of_nil).
  unfold deserialize_into_cache, make_room in Hg |- *. cbn [s_cache] in Hg |- *. destruct (has_free_slot_spec _ _ Hca) as [Hfr _].
  assert ((length (@nil (N * centry)) <? c_depth ca)%nat = true) as Hlt. { apply Nat.ltb_lt. destruct Hca as (free & used & _ & _ & _ & Hpos & _). exact Hpos. }
  rewrite Hlt in Hfr. rewrite Hfr in Hg |- *. cbn [mbind res_bind s_files s_cache s_size s_cs] in Hg |- *.
  assert (load_chunk vd dims junk m (d_files d) = load_chunk vd dims junk m (d_files d2)) as ->.
  { unfold load_chunk. destruct (cm_type m =? specified)%N eqn:Et; [|done]. rewrite (mr_path _ _ _ Hmr). rewrite Hfs; [done|done|].
    destruct Hr. destruct Hcl as (M2 & sz2 & G1 & _ & _ & G4 & _ & _ & _ & G8). destruct (Forall2_lookup_r _ _ _ _ _ G1 Hi) as (m2 & Hm2 & Hmr2).
    destruct (G8 _ _ _ (amap_lookup _ _ _ _ _ (Forall2_length _ _ _ G1) G4 Hm2 Hi)) as (_ & _ & _ & Hd). destruct Hd as [(_ & Hp & _)|(Hty & _)].
    - by rewrite <- (mr_path _ _ _ Hmr2).
    - rewrite (mr_type _ _ _ Hmr2) in Hty. rewrite (mr_type _ _ _ Hmr) in Et. destruct (c_null c); [by apply N.eqb_eq in Et|done]. }
  destruct (load_chunk vd dims junk m (d_files d2)) as [dd| |]; cbn [mbind res_bind] in Hg |- *; try discriminate Hg.
  destruct (cinsert ca (cm_id m) (CEntry m dd Nothing)) as [c1|]; cbn [of_opt mbind res_bind] in Hg |- *; [|discriminate Hg].
  destruct (aread vd dd _) as [v'|]; cbn [of_opt mbind res_bind] in Hg |- *; [|discriminate Hg]. injection Hg as <- _. eauto.
Qed.

(** * A crash while chunks are registered, elements, ranges or all elements are read (or between these operations): the state of the last
    flush is still there. *)
Theorem C35_reading_and_registering S0 l S ops o w : lib_ok L -> since_flush S0 l S -> operation vd dims junk l S ops -> crashed (disk l, o) ops w ->
  reads_as w.1 (ls_chunks S0).
Proof using.
  intros HL Hl Hop Hc. destruct (since_ok vd dims junk L HL _ _ _ Hl) as (Hs & Hq & Hcl & Hsub). apply closed_reads; [done|]. eapply closed_alike; [exact Hcl|].
  change (disk l) with (disk l, o).1. eapply safe_crashed; [|exact Hc]. pose proof (session_inv vd dims junk L HL l S Hs) as Hr.
  destruct Hop as [a s e ov opt null uuid Hok Hn|c ind Hin Hcov Hn|buf is ie os Hok|is ie H1 H2 H3].
  - destruct (register_lib_ok vd dims junk L HL l S a s e ov opt null uuid Hr Hok Hn) as (l' & E & _).
    eapply register_lstep; [apply kept_nil|done| |exact E]. intros [Hu (c & Hin & Ec)]. pose proof (or_name _ _ _ _ _ _ _ _ Hok) as (_ & _ & _ & Hnm). rewrite list.Forall_forall in Hnm. exact (Hnm c (Hsub c Hin) Ec).
  - apply elem_of_list_lookup in Hin as (i & Hi). destruct (get_ok vd dims junk l S i c ind Hr Hi Hcov Hn) as (v & l' & E & _). by eapply get_lstep.
  - destruct (fill_ok vd dims junk l S buf is ie os Hr Hok) as (b & l' & E & _). by eapply fill_lstep.
  - destruct (C52_loop vd dims junk L l S is ie HL Hs H1 H2 H3) as (vs & l' & E & _). by eapply loop_lstep.
Qed.

(** * Import of a copy: the source is as before, and in the target the state of the last flush is still there. *)
Theorem C35_import_copy S0 l S l2 S2 ord dord d w : lib_ok L -> since_flush S0 l S -> session l2 S2 -> (forall k, ord k ≡ₚ k) -> (forall k, dord k ≡ₚ k) ->
  lib_close vd dims ord l2 = Done d -> ok_import S S2 l d -> crashed (disk l, d) (lib_import_ops dord d false) w ->
  w.2 = d /\ reads_as w.2 (ls_chunks S2) /\ reads_as w.1 (ls_chunks S0).
Proof using.
  intros HL Hl H2 Hord Hdo Ed Hok Hc. assert (w.2 = d) as Ew.
  { refine (crashed_other _ (disk l, d) w _ Hc). unfold lib_import_ops. apply Forall_fmap, Forall_true. done. }
  split; [done|]. split.
  - rewrite Ew. destruct (close_ok vd dims l2 S2 ord Hord (session_inv vd dims junk L HL _ _ H2)) as (d' & Ed' & Hcl). rewrite Ed in Ed'. injection Ed' as <-. by apply closed_reads.
  - destruct (since_ok vd dims junk L HL _ _ _ Hl) as (_ & _ & Hcl & _). apply closed_reads; [done|]. eapply closed_alike; [exact Hcl|]. change (disk l) with (disk l, d).1. eapply safe_crashed; [|exact Hc].
    unfold lib_import_ops. apply Forall_fmap, list.Forall_forall. intros n Hn. rewrite Hdo, elem_of_names in Hn. cbn. intros Hk. destruct (kept_file _ _ _ _ HL Hl Hk) as [b Hb]. destruct Hn as [b' Hb'].
    exact (proj1 (map_disjoint_spec _ _) (oi_files _ _ _ _ Hok) n b' b Hb' Hb).
Qed.

(** * Flush, after the index has been written: the state of the last flush is still there.  (Not before: C35_flush_refuted.) *)
Theorem C35_flush_partial S0 l S ord o w : lib_ok L -> since_flush S0 l S -> (forall k, ord k ≡ₚ k) ->
  crashed (run (disk l, o) (flush_index_ops dims Own l)) (flush_cache_ops vd dims ord (l_store l)) w -> reads_as w.1 (ls_chunks S0).
Proof using.
  intros HL Hl Hord Hc. destruct (since_ok vd dims junk L HL _ _ _ Hl) as (Hs & Hq & Hcl & Hsub).
  destruct (flush_ok vd dims l S ord Hord (session_inv vd dims junk L HL l S Hs)) as (l1 & Hf & _ & Hcl1).
  unfold lib_flush in Hf. destruct (flush_index dims l) as [l0| |] eqn:Ei; cbn [mbind res_bind] in Hf; try discriminate Hf.
  destruct (flush_index_replay _ _ _ Ei) as (E1 & _ & _ & _ & Hr). rewrite E1 in Hf. destruct (flush_cache vd dims ord (l_store l)) as [s| |] eqn:Ef; cbn [mbind res_bind] in Hf; try discriminate Hf. injection Hf as <-.
  destruct (flush_cache_step vd dims (kept S0) ord _ _ Hq Ef) as (_ & Hsafe & _ & Hrun). unfold disk in Hc. rewrite Hr in Hc.
  pose proof (safe_crashed _ _ _ _ Hsafe Hc) as [A1 A2]. pose proof (safe_crashed _ _ _ _ Hsafe (crashed_run (Dir (l_index l0) (s_files (l_store l)), o) _)) as [B1 B2]. rewrite Hrun in B1, B2. cbn [fst d_index d_files] in *.
  apply (sparse_reads _ (Dir (l_index l0) (s_files s)) S); [done|exact Hcl1|exact A1|exact Hsub|].
  intros c Hin Hne. rewrite A2 by (split; eauto). cbn [d_files]. symmetry. apply B2. split; eauto.
Qed.

(** * Move: no chunk file of the last flush is lost.  (But the index is: C35_move_refuted.) *)
Lemma mv_stays ns sd n b w w' : n ∉ ns -> crashed w ((fun n => Mv sd (File n)) <$> ns) w' -> fget w (other sd) (File n) = Some b -> fget w' (other sd) (File n) = Some b.
Proof using.
  revert w. induction ns as [|a ns IH]; intros w Hn Hc Hg; cbn [fmap list_fmap] in Hc. { inversion Hc; subst. done. }
  apply not_elem_of_cons in Hn as [Hne Hn]. inversion Hc as [|? ? ? ? Ht|? ? ? ? Hc']; subst.
  - done.
  - inversion Ht; subst. destruct w as [w1 w2], sd; cbn in *; by rewrite lookup_partial_alter_ne.
  - apply (IH (run1 w (Mv sd (File a))) Hn Hc'). destruct w as [w1 w2], sd; cbn in *; by rewrite !lookup_partial_alter_ne.
Qed.
Lemma mv_crashed ns sd w w' : NoDup ns -> crashed w ((fun n => Mv sd (File n)) <$> ns) w' ->
  forall n b, fget w sd (File n) = Some b -> fget w' sd (File n) = Some b \/ fget w' (other sd) (File n) = Some b.
Proof using.
  revert w. induction ns as [|a ns IH]; intros w Hnd Hc n b Hg; cbn [fmap list_fmap] in Hc. { inversion Hc; subst. by left. }
  apply list.NoDup_cons in Hnd as [Ha Hnd]. inversion Hc as [|? ? ? ? Ht|? ? ? ? Hc']; subst.
  - by left.
  - inversion Ht; subst. left. by destruct w as [w1 w2], sd.
  - destruct (decide (n = a)) as [->|Hne].
    + right. apply (mv_stays ns sd a b _ _ Ha Hc'). destruct w as [w1 w2], sd; cbn in *; by rewrite lookup_partial_alter.
    + apply (IH _ Hnd Hc'). destruct w as [w1 w2], sd; cbn in *; by rewrite lookup_partial_alter_ne.
Qed.
Lemma mv_done ns sd n w : NoDup ns -> n ∈ ns -> fget (run w ((fun n => Mv sd (File n)) <$> ns)) (other sd) (File n) = fget w sd (File n).
Proof using.
  revert w. induction ns as [|a ns IH]; intros w Hnd Hin; [by apply elem_of_nil in Hin|]. apply list.NoDup_cons in Hnd as [Ha Hnd]. cbn [fmap list_fmap run foldl].
  apply elem_of_cons in Hin as [->|Hin].
  - clear IH. change (foldl run1 (run1 w (Mv sd (File a))) ((fun n => Mv sd (File n)) <$> ns)) with (run (run1 w (Mv sd (File a))) ((fun n => Mv sd (File n)) <$> ns)).
    assert (forall w', fget (run w' ((fun n => Mv sd (File n)) <$> ns)) (other sd) (File a) = fget w' (other sd) (File a)) as ->.
    { clear -Ha. induction ns as [|x ns IH]; intros w'; [done|]. apply not_elem_of_cons in Ha as [Hne Ha]. cbn [fmap list_fmap run foldl]. etrans; [by apply IH|]. destruct w' as [w1 w2], sd; cbn; by rewrite !lookup_partial_alter_ne. }
    destruct w as [w1 w2], sd; cbn; by rewrite lookup_partial_alter.
  - etrans; [apply (IH _ Hnd Hin)|]. assert (n <> a) by (by intros ->). destruct w as [w1 w2], sd; cbn; by rewrite !lookup_partial_alter_ne.
Qed.
Lemma names_nodup (fs : gmap bytes bytes) : NoDup (names fs).
Proof using. apply NoDup_fst_map_to_list. Qed.
Lemma index_crashed ops w w' : Forall (fun o => match o with Del _ Index | Put _ Index _ => True | _ => False end) ops -> crashed w ops w' -> d_files w'.1 = d_files w.1 /\ d_files w'.2 = d_files w.2.
Proof using.
  intros Hs Hc. induction Hc as [w ops|w o ops w' Ht|w o ops w' Hc IH]; [done| |]; apply list.Forall_cons in Hs as [Ho Hs].
  - destruct Ht as [[w1 w2] s n b b' Hb|w s n b b'|w s n b b' Hg Hb|w s n b b' Hg Hb]; try done. by destruct s, n.
  - destruct (IH Hs) as [E1 E2]. rewrite E1, E2. clear -Ho. by destruct w as [w1 w2], o as [[] []|[] []|[] []|[] []|[] []].
Qed.
Theorem C35_move_partial S0 l S ord dord o w c : lib_ok L -> since_flush S0 l S -> (forall k, ord k ≡ₚ k) -> (forall k, dord k ≡ₚ k) ->
  crashed (disk l, o) (lib_move_ops vd dims ord dord l) w -> c ∈ ls_chunks S0 -> c_file c <> [] ->
  exists f, d_files (disk l) !! c_file c = Some f /\ (d_files w.1 !! c_file c = Some f \/ d_files w.2 !! c_file c = Some f).
Proof using.
  intros HL Hl Hord Hdo Hc Hin Hne. assert (kept S0 (c_file c)) as Hk by (split; eauto). destruct (kept_file _ _ _ _ HL Hl Hk) as [f Hf]. exists f. split; [done|].
  destruct (since_ok vd dims junk L HL _ _ _ Hl) as (Hs & Hq & _ & _). pose proof (session_inv vd dims junk L HL l S Hs) as Hr.
  pose proof (lrep_dims vd dims l S Hr) as Hd. destruct Hr as (M & sz & H & Hr).
  destruct (flush_cache_ok vd dims (ls_cs S) sz (lr_acc _ _ _ _ _ _ _ Hr) Hd ord _ _ Hord (lr_store _ _ _ _ _ _ _ Hr)) as (s & Ef & _ & _).
  destruct (flush_cache_step vd dims (kept S0) ord _ _ Hq Ef) as (_ & Hsafe & _ & Hrun). unfold lib_move_ops, names_after in Hc. rewrite Ef in Hc. cbn [rdone] in Hc.
  apply crashed_app in Hc as [Hc|Hc].
  { left. destruct (safe_crashed _ _ _ _ Hsafe Hc) as [_ Ha]. rewrite (Ha _ Hk). exact Hf. }
  unfold disk in Hc. rewrite Hrun in Hc.
  assert (s_files s !! c_file c = Some f) as Hf2.
  { destruct (safe_crashed _ _ _ _ Hsafe (crashed_run (disk l, o) _)) as [_ Ha]. unfold disk in Ha. rewrite Hrun in Ha. specialize (Ha _ Hk). cbn in Ha. by rewrite Ha. }
  set (ns := dord (names (s_files s))) in *. assert (NoDup ns) as Hnd. { unfold ns. rewrite Hdo. apply names_nodup. }
  apply crashed_app in Hc as [Hc|Hc].
  - exact (mv_crashed ns Own _ _ Hnd Hc _ _ Hf2).
  - right. assert (Forall (fun o => match o with Del _ Index | Put _ Index _ => True | _ => False end) (remove_index_ops l ++ flush_index_ops dims Other l)) as Hidx.
    { apply Forall_app. split; [unfold remove_index_ops; destruct (l_index l); by repeat constructor|]. unfold flush_index_ops. destruct (of_opt _); by repeat constructor. }
    destruct (index_crashed _ _ _ Hidx Hc) as [_ ->]. change (d_files ?x.2 !! ?n) with (fget x Other (File n)).
    pose proof (mv_done ns Own (c_file c) (Dir (l_index l) (s_files s), o) Hnd) as Hm. etrans; [apply Hm|exact Hf2]. unfold ns. rewrite Hdo, elem_of_names. by exists f.
Qed.

(** * Import that moves the files: the state of the last flush is still there in the target, and no chunk file is lost.
    (But the index of the source is: C35_import_refuted.) *)
Theorem C35_import_move_partial S0 l S l2 S2 ord dord d w : lib_ok L -> since_flush S0 l S -> session l2 S2 -> (forall k, ord k ≡ₚ k) -> (forall k, dord k ≡ₚ k) ->
  lib_close vd dims ord l2 = Done d -> ok_import S S2 l d -> crashed (disk l, d) (lib_import_ops dord d true) w ->
  reads_as w.1 (ls_chunks S0) /\ forall n f, d_files d !! n = Some f -> d_files w.1 !! n = Some f \/ d_files w.2 !! n = Some f.
Proof using.
  intros HL Hl H2 Hord Hdo Ed Hok Hc. unfold lib_import_ops in Hc. set (ns := dord (names (d_files d))) in *.
  assert (NoDup ns) as Hnd. { unfold ns. rewrite Hdo. apply names_nodup. } split.
  - destruct (since_ok vd dims junk L HL _ _ _ Hl) as (_ & _ & Hcl & _). apply closed_reads; [done|]. eapply closed_alike; [exact Hcl|]. change (disk l) with (disk l, d).1. eapply safe_crashed; [|exact Hc].
    apply Forall_app. split; [by repeat constructor|]. apply Forall_fmap, list.Forall_forall. intros n Hn. unfold ns in Hn. rewrite Hdo, elem_of_names in Hn. cbn. intros Hk.
    destruct (kept_file _ _ _ _ HL Hl Hk) as [b Hb]. destruct Hn as [b' Hb']. exact (proj1 (map_disjoint_spec _ _) (oi_files _ _ _ _ Hok) n b' b Hb' Hb).
  - intros n f Hf. apply crashed_app in Hc as [Hc|Hc].
    + right. assert (Forall (fun o => match o with Del _ Index | Put _ Index _ => True | _ => False end) [Del Other Index]) as Hidx by (by repeat constructor). destruct (index_crashed _ _ _ Hidx Hc) as [_ ->]. exact Hf.
    + destruct (mv_crashed ns Other _ _ Hnd Hc n f) as [G|G]; [exact Hf|by right|by left].
Qed.

(** * RebuildChunks: the state of the last flush is still there, in the directory of the array or in the temporary directory.
    (With all-null detection and overlap, chunks cannot be read afterwards: C27_null_overlap_refuted.) *)
Local Notation zero := (replicate dims 0%N).
Lemma rebuilt_reads d S T gs ge req ov uuids opt : lib_ok L -> ok_rebuild vd dims S gs ge zero ge zero req ov uuids -> closed vd dims d T ->
  rebuilt S zero ge zero req ov (ls_chunks T) -> (opt = false -> forall c, c ∈ ls_chunks T -> c_null c = false) -> opt = false \/ ov = 0%nat -> reads_as d (ls_chunks S).
Proof using.
  intros HL Hok Hcl Hr Hnull Hopt size cs Hcs. destruct (closed_reads vd dims junk L HL d T Hcl size cs Hcs) as (l & El & Hrd). exists l. split; [exact El|]. clear El.
  intros c ind Hc Hcov _. destruct (rb_at _ _ _ _ _ _ _ _ _ _ _ Hok) as (Lg & Lh & _ & _ & _ & _ & Hat).
  assert (zip_with N.add zero (zip_with N.sub ge zero) = ge) as Ege.
  { apply eq_at. rewrite !zip_with_length, replicate_length. split; [lia|]. intros i Hi. rewrite !zip_at by (rewrite ?zip_with_length, ?replicate_length; lia). rewrite lookup_total_replicate_2 by lia. lia. }
  assert (gs = zero) as E0.
  { apply eq_at. rewrite replicate_length. split; [done|]. intros i Hi. destruct (Hat i Hi) as (A & _). rewrite lookup_total_replicate_2 in * by done. lia. }
  pose proof Hr as [Rb _ Rv]. rewrite Ege in Rb. destruct (rb_hull _ _ _ _ _ _ _ _ _ _ _ Hok) as (_ & _ & Hin & _). rewrite E0 in Hin.
  pose proof (Hin c ind Hc Hcov) as Hi. destruct (proj2 (Rb ind) Hi) as (c' & Hc' & Hcov').
  destruct (Hrd c' ind Hc' Hcov') as (v & l' & Hg & Hv).
  { intros Hn. destruct Hopt as [Ho| ->]; [rewrite (Hnull Ho c' Hc') in Hn; discriminate Hn|]. destruct (rt_form _ _ _ _ _ _ _ Hr c' Hc') as [-> _]. done. }
  exists v, l'. split; [exact Hg|]. eapply comes_back_trans; [|exact Hv].
  destruct (zvalue_in c' ind Hcov') as [Hre Hz]. rewrite <- Hz. pose proof (proj1 (proj1 (inbox_at _ _ _) Hi)) as Hli. rewrite replicate_length in Hli.
  assert (shifted zero zero (zind ind) = zind ind) as Es. { apply shifted_same. unfold zind. by rewrite fmap_length, replicate_length. }
  rewrite <- Es in Hre |- *. by eapply Rv.
Qed.
Lemma reads_sub d C C' : (forall c, c ∈ C -> c ∈ C') -> reads_as d C' -> reads_as d C.
Proof using.
  intros Hsub Hr size cs Hcs. destruct (Hr size cs Hcs) as (l & El & Hrd). exists l. split; [exact El|]. clear El. intros c ind Hc. exact (Hrd c ind (Hsub c Hc)).
Qed.
Theorem C35_rebuild ev S0 l S gs ge req ov uuids opt ord dord rord w : lib_ok L -> total_evaluator vd ov ev -> (junk < 2 ^ 32)%N -> since_flush S0 l S ->
  ok_rebuild vd dims S gs ge zero ge zero req ov uuids -> (ls_handed S + chunk_count zero ge req <= 2 ^ 32)%N -> opt = false \/ ov = 0%nat ->
  (forall k, ord k ≡ₚ k) -> (forall k, dord k ≡ₚ k) -> 
  crashed (disk l, Dir None ∅) (rebuild_ops vd dims junk L ev req ov opt uuids ord dord rord l) w ->
  reads_as w.1 (ls_chunks S0) \/ reads_as w.2 (ls_chunks S0).
Proof using.
  intros HL Hev Hj Hl Hok Hids Hopt Hord Hdo Hc. destruct (since_ok vd dims junk L HL _ _ _ Hl) as (Hs & Hq & Hcl & Hsub).
  pose proof (lrep_dims _ _ _ _ (session_inv vd dims junk L HL l S Hs)) as Hd.
  destruct (rebuild_phases vd dims junk L HL ev l S gs ge req ov uuids opt ord Hev Hj Hs Hok Hids Hord) as
    (g & l0 & l1 & d & lt & T & l2 & l3 & d3 & l4 & Eg & Esh & Er & Hs1 & Ht & Ed & Hreb & Hnull & _ & Ec & Hs2 & Ei & Hs3 & E4 & Hs4).
  destruct (geometry_disk dims _ _ _ Eg) as [Es Eix]. assert (disk l0 = disk l) as Edl by (unfold disk; by rewrite Es, Eix).
  unfold rebuild_ops in Hc. rewrite Eg in Hc. cbn [rdone fst snd] in Hc. rewrite Esh, Er in Hc. cbn [rdone fst snd] in Hc. rewrite Ec in Hc. cbn [rdone] in Hc. rewrite Ei in Hc. cbn [rdone fst] in Hc.
  rewrite <- Edl in Hc, Hcl. assert (quiet (kept S0) (l_store l0)) as Hq0 by (by rewrite Es).
  destruct (rebuild_partial_step vd dims junk L ev (kept S0) _ _ _ _ _ _ _ _ _ _ _ Hd Hq0 Er) as (P1 & P2 & P3). cbv zeta in P1, P2.
  apply crashed_app in Hc as [Hc|Hc].
  { left. apply closed_reads; [done|]. eapply closed_alike; [exact Hcl|]. change (disk l0) with (disk l0, Dir None ∅).1. eapply safe_crashed; [exact P1|exact Hc]. }
  rewrite P2 in Hc. destruct (close_ok vd dims lt T ord Hord (session_inv vd dims junk L HL _ _ Ht)) as (d' & Ed' & Hcld). rewrite Ed in Ed'. injection Ed' as <-.
  assert (reads_as d (ls_chunks S0)) as Hrd. { eapply reads_sub; [exact Hsub|]. eapply rebuilt_reads; eassumption. }
  assert (forall x : world, x.2 = d -> reads_as x.1 (ls_chunks S0) \/ reads_as x.2 (ls_chunks S0)) as Htmp. { intros x ->. by right. }
  destruct (clear_replay vd dims ord dord _ _ Hdo (session_quiet vd dims junk L HL _ _ Hs1) Ec) as ((C1 & C2) & _).
  apply crashed_app in Hc as [Hc|Hc]. { apply Htmp. refine (crashed_other _ (disk l1, d) w _ Hc). by apply own_other. }
  rewrite C2 in Hc. apply crashed_app in Hc as [Hc|Hc].
  { apply Htmp. refine (crashed_other _ (disk l2, d) w _ Hc). unfold lib_import_ops. apply Forall_fmap, Forall_true. done. }
  destruct (import_replay dims L dord _ _ _ _ Hdo Ei) as (I1 & _). rewrite I1 in Hc.
  destruct (flush_replay vd dims ord _ _ (session_quiet vd dims junk L HL _ _ Hs3) E4) as ((F1 & F2) & _).
  apply crashed_app in Hc as [Hc|Hc]. { apply Htmp. refine (crashed_other _ (disk l3, d) w _ Hc). by apply own_other. }
  rewrite F2 in Hc. left. assert (w.1 = disk l4) as ->. { refine (crashed_own _ (disk l4, d) w _ Hc). apply Forall_fmap, Forall_true. done. }
  destruct (flush_ok vd dims l3 _ ord Hord (session_inv vd dims junk L HL _ _ Hs3)) as (l4' & E4' & _ & Hcl4). rewrite E4 in E4'. injection E4' as <-.
  eapply reads_sub; [exact Hsub|]. eapply rebuilt_reads; eassumption.
Qed.

(** * What is wrong: flush, move and import that moves. *)
Lemma rt_new_root init (t : rtree chunk_meta) : rt_new meta0 dims init = Some t -> t_root t = None /\ t_last t = None.
Proof using.
  unfold rt_new. destruct (PoolModel.pool_new (dflt_node dims) init) as [a|]; cbn [mbind option_bind]; [|discriminate].
  destruct (PoolModel.pool_new (dflt_entry meta0 dims) init) as [b|]; cbn [mbind option_bind]; [|discriminate]. intros [= <-]. done.
Qed.
Lemma no_index_unreadable fs C c ind : (0 < dims)%nat -> c ∈ C -> covers c ind -> (c_null c = true -> c_ov c = 0%N) -> ~ reads_as (Dir None fs) C.
Proof using.
  intros Hd Hc Hcov Hn Hr. destruct (Hr 0%nat (rebuild_cs dims) (rebuild_cs_ok dims Hd)) as (l & El & Hrd). destruct (Hrd c ind Hc Hcov Hn) as (v & l' & Hg & _).
  unfold lib_open in El. destruct (rt_new meta0 dims 100) as [t|] eqn:Et; cbn [of_opt mbind res_bind d_index d_files] in El; [|discriminate El].
  destruct (copen vd dims junk 0 (rebuild_cs dims) fs) as [s|]; cbn [of_opt mbind res_bind] in El; [|discriminate El]. injection El as <-.
  destruct (rt_new_root _ _ Et) as [E1 E2].
  unfold lib_get, find_chunk, search_point in Hg. cbn [l_tree] in Hg. rewrite E2 in Hg. cbn [mbind option_bind] in Hg. rewrite E1 in Hg. discriminate Hg.
Qed.
Lemma empty_index_unreadable fs C : (0 < dims)%nat -> ~ reads_as (Dir (Some []) fs) C.
Proof using.
  intros Hd Hr. destruct (Hr 0%nat (rebuild_cs dims) (rebuild_cs_ok dims Hd)) as (l & El & _). unfold lib_open in El.
  destruct (rt_new meta0 dims 100) as [t|] eqn:Et; cbn [of_opt mbind res_bind d_index d_files] in El; [|discriminate El].
  destruct (rt_clear meta0 dims t) as [t1|]; cbn [of_opt mbind res_bind] in El; [|discriminate El]. discriminate El.
Qed.
(** Flush truncates the index file before it writes the new one, in place (FlushIndex, 578-588): there is always a crash point after which the
    directory cannot be opened, whatever was flushed before. *)
Lemma crashed_at_end w ops ops' : crashed w (ops ++ ops') (run w ops).
Proof using. revert w. induction ops as [|o ops IH]; intros w; [constructor|]. apply crash_later. apply IH. Qed.
Theorem C35_flush_refuted S0 l S ord o : lib_ok L -> since_flush S0 l S ->
  exists w, crashed (disk l, o) (lib_flush_ops vd dims ord l) w /\ ~ reads_as w.1 (ls_chunks S0) /\ w.2 = o.
Proof using.
  intros HL Hl. destruct (since_ok vd dims junk L HL _ _ _ Hl) as (Hs & _). pose proof (session_inv vd dims junk L HL l S Hs) as Hr. pose proof (lrep_dims vd dims l S Hr) as Hd.
  destruct (flush_ok vd dims l S id (fun k => reflexivity k) Hr) as (l1 & Hf & _). unfold lib_flush, flush_index in Hf. unfold lib_flush_ops, flush_index_ops.
  destruct (get_all_entries (l_tree l)) as [ms|]; cbn [of_opt mbind res_bind] in Hf; [|discriminate Hf]. cbn [of_opt rdone].
  exists (fset (disk l, o) Own Index (Some [])). split; [|split].
  - apply crash_torn, torn_put. apply prefix_nil.
  - by apply empty_index_unreadable.
  - reflexivity.
Qed.
(** Move removes the index of the old place before it writes that of the new one (MoveIndex, 590-602): there is always a crash point after which
    the array can be read from neither directory (the new one was empty). *)
Theorem C35_move_refuted S0 l S ord dord c ind : lib_ok L -> since_flush S0 l S -> (forall k, ord k ≡ₚ k) -> (forall k, dord k ≡ₚ k) ->
  c ∈ ls_chunks S0 -> covers c ind -> (c_null c = true -> c_ov c = 0%N) ->
  exists w, crashed (disk l, Dir None ∅) (lib_move_ops vd dims ord dord l) w /\ ~ reads_as w.1 (ls_chunks S0) /\ ~ reads_as w.2 (ls_chunks S0).
Proof using.
  intros HL Hl Hord Hdo Hc Hcov Hn. destruct (since_ok vd dims junk L HL _ _ _ Hl) as (Hs & Hq & _). pose proof (session_inv vd dims junk L HL l S Hs) as Hr. pose proof (lrep_dims vd dims l S Hr) as Hd.
  destruct Hr as (M & sz & H & Hr). destruct (flush_cache_ok vd dims (ls_cs S) sz (lr_acc _ _ _ _ _ _ _ Hr) Hd ord _ _ Hord (lr_store _ _ _ _ _ _ _ Hr)) as (s & Ef & _ & _).
  destruct (flush_cache_step vd dims (kept S0) ord _ _ Hq Ef) as (_ & _ & _ & Hrun).
  unfold lib_move_ops, names_after. rewrite Ef. cbn [rdone]. set (ns := dord (names (s_files s))).
  exists (run (disk l, Dir None ∅) (flush_cache_ops vd dims ord (l_store l) ++ ((fun n => Mv Own (File n)) <$> ns) ++ remove_index_ops l)). split; [|].
  - rewrite app_assoc, app_assoc, <- (app_assoc (flush_cache_ops vd dims ord (l_store l))). apply crashed_at_end.
  - rewrite !run_app. unfold disk. rewrite Hrun.
    assert (forall ns i1 f1 i2 f2, exists g1 g2, run (Dir i1 f1, Dir i2 f2) ((fun n => Mv Own (File n)) <$> ns) = (Dir i1 g1, Dir i2 g2)) as Hmv.
    { clear. induction ns as [|n ns IH]; intros i1 f1 i2 f2; [by exists f1, f2|]. cbn [fmap list_fmap run foldl]. apply IH. }
    destruct (Hmv ns (l_index l) (s_files s) None ∅) as (g1 & g2 & ->). unfold remove_index_ops.
    assert (exists i, run (Dir (l_index l) g1, Dir None g2) match l_index l with Some _ => [Del Own Index] | None => [] end = (Dir i g1, Dir None g2) /\ i = None) as (i & -> & ->).
    { destruct (l_index l); by exists None. }
    cbn [fst snd]. split; by eapply no_index_unreadable.
Qed.
Lemma uncovered_unreadable l S ind v l' : lrep vd dims l S -> coord_ok dims ind -> (forall c, c ∈ ls_chunks S -> ~ covers c ind) -> lib_get vd dims junk ind l <> Done (v, l').
Proof using.
  intros (M & sz & H & Hr) Hind Hno Hg. unfold lib_get, find_chunk in Hg. pose proof (lr_tree _ _ _ _ _ _ _ Hr) as Ht.
  destruct (decide (M = [])) as [EM|HM].
  - pose proof (sim_empty dims _ _ _ Ht) as He. rewrite EM in He. cbn [fmap list_fmap] in He. unfold rt_empty in He. destruct (t_root (l_tree l)) eqn:Er; [discriminate He|].
    unfold search_point in Hg. destruct (t_last (l_tree l)) as [sl|] eqn:El; cbn [mbind option_bind] in Hg.
    + destruct Ht as (_ & _ & _ & ae & _ & Hes & Hla). rewrite EM in Hes. apply Forall2_nil_inv_r in Hes as ->. apply Hla in El. destruct (proj1 (elem_of_nil sl) El).
    + rewrite Er in Hg. discriminate Hg.
  - destruct (sim_find_none (P := chunk_meta) dims (l_tree l) (item_of <$> M) H ind Ht Hind) as (t' & E & _).
    + by intros ?%fmap_nil_inv.
    + intros x Hx Hat. apply elem_of_list_fmap in Hx as (m & -> & Hm). apply elem_of_list_lookup in Hm as [i Hi].
      destruct (lrep_get_m _ _ _ _ _ _ _ _ _ Hr Hi) as (c & Hc & Hmr & _). apply (Hno c); [by eapply elem_of_list_lookup_2|]. by apply (mr_at_point dims m c).
    + rewrite E in Hg. cbn [of_opt mbind res_bind] in Hg. discriminate Hg.
Qed.
(** Import that moves removes the index of the source at once, and the index of the target is only written by the next flush: the array that was
    imported can then be read from neither directory. *)
Theorem C35_import_move_refuted S0 l S l2 S2 ord dord d c ind : lib_ok L -> since_flush S0 l S -> session l2 S2 -> (forall k, ord k ≡ₚ k) -> (forall k, dord k ≡ₚ k) ->
  lib_close vd dims ord l2 = Done d -> ok_import S S2 l d -> c ∈ ls_chunks S2 -> covers c ind -> (c_null c = true -> c_ov c = 0%N) ->
  exists w, crashed (disk l, d) (lib_import_ops dord d true) w /\ ~ reads_as w.1 (ls_chunks S2) /\ ~ reads_as w.2 (ls_chunks S2).
Proof using.
  intros HL Hl H2 Hord Hdo Ed Hok Hc Hcov Hn. destruct (since_ok vd dims junk L HL _ _ _ Hl) as (Hs & _ & Hcl & Hsub). pose proof (session_inv vd dims junk L HL l S Hs) as Hr. pose proof (lrep_dims vd dims l S Hr) as Hd.
  unfold lib_import_ops. exists (run (disk l, d) [Del Other Index]). split; [apply crashed_at_end|]. split.
  - change (run (disk l, d) [Del Other Index]).1 with (disk l). intros Hrd. destruct (reopen_ok vd dims junk L HL _ S0 0%nat _ Hcl (rebuild_cs_ok dims Hd)) as (l3 & Eo & Hr3).
    destruct (Hrd 0%nat _ (rebuild_cs_ok dims Hd)) as (l3' & Eo' & Hg). rewrite Eo in Eo'. injection Eo' as <-. destruct (Hg c ind Hc Hcov Hn) as (v & l4 & Hg' & _).
    refine (uncovered_unreadable _ _ _ _ _ Hr3 _ _ Hg').
    + destruct (session_inv vd dims junk L HL _ _ H2) as (M2 & sz2 & G2 & Hr2). apply elem_of_list_lookup in Hc as [i Hi]. destruct (lrep_get _ _ _ _ _ _ _ _ _ Hr2 Hi) as (m & _ & Hm & _). by eapply covers_coord.
    + intros c1 Hc1 Hcov1. exact (oi_apart _ _ _ _ Hok c1 c (Hsub c1 Hc1) Hc ind Hcov1 Hcov).
  - change (run (disk l, d) [Del Other Index]).2 with (Dir None (d_files d)). by eapply no_index_unreadable.
Qed.
End props.

(** ** Concrete cases *)
Lemma nv_flushed : exists l S, since_flush 1 1 0%N lib0 S l S /\ ls_chunks S = rb_C /\ S = nv_S rb_C.
Proof.
  destruct rb_session as (l & _ & Hl). destruct (flush_ok 1 1 l _ id (fun k => reflexivity k) (session_inv 1 1 0%N lib0 lib0_ok _ _ Hl)) as (l' & Hf & _).
  exists l', (nv_S rb_C). split; [|done]. exact (sf_flush 1 1 0%N lib0 _ l id l' Hl (fun k => reflexivity k) Hf).
Qed.
Example C35_hypotheses_nonvacuous : exists l S0 S, since_flush 1 1 0%N lib0 S0 l S /\ ls_chunks S0 = rb_C /\ (length (ls_chunks S0) < length (ls_chunks S))%nat /\
  (exists ops, operation 1 1 0%N l S ops) /\
  total_evaluator 1 1 (cylindrical 1) /\ (exists l0 T, since_flush 1 1 0%N lib0 T l0 T /\
    ok_rebuild 1 1 T [0]%N [5]%N (replicate 1 0%N) [5]%N (replicate 1 0%N) [2]%N 1 (fun i => [N.of_nat i + 100]%N) /\
    (ls_handed T + chunk_count (replicate 1 0%N) [5]%N [2]%N <= 2 ^ 32)%N).
Proof.
  destruct nv_flushed as (l & S & Hl & HC & ->).
  assert (ok_register 1 1 (nv_S rb_C) (nv_arr [4; 0; 6]%N) [30]%N [33]%N 0 [9]%N) as Hok.
  { apply (nv_ok_register rb_C 30 [4; 0; 6]%N 9); [simpl; lia|discriminate|lia|lia|simpl; lia|exact nv_small3|]. constructor; [|constructor; [|constructor]]; (split; [|done]); intros ind I1 I2.
    - exact (nv_apart 0 3 30 3 ltac:(done) ind I2 I1).
    - exact (nv_apart 3 2 30 3 ltac:(done) ind I2 I1). }
  assert (is_null_chunk 1 (nv_arr [4; 0; 6]%N) false false) as Hn by (split; [done|intros [? _]; done]).
  pose proof (since_ok 1 1 0%N lib0 lib0_ok _ _ _ Hl) as (Hs & _).
  destruct (register_lib_ok 1 1 0%N lib0 lib0_ok l (nv_S rb_C) _ _ _ _ false false _ (session_inv 1 1 0%N lib0 lib0_ok _ _ Hs) Hok Hn) as (l' & Hr & _).
  exists l', (nv_S rb_C), (registered 1 (nv_S rb_C) (nv_arr [4; 0; 6]%N) [30]%N [33]%N 0 false [9]%N). split; [by eapply sf_register|]. split; [done|]. split; [cbn; lia|].
  split.
  { eexists. eapply (op_get _ _ _ _ _ (nv_chunk 3 [8; 9]%N 8) [4]%N); [|apply (nv_inbox 3 2); exists 4%N; split; [done|lia]|done]. right. left. }
  split; [apply cylindrical_total|]. exists l, (nv_S rb_C). split; [exact Hl|]. split; [exact rb_ok_rebuild|]. done.
Qed.
Print Assumptions C35_reading_and_registering.
Print Assumptions C35_import_copy.
Print Assumptions C35_flush_partial.
Print Assumptions C35_move_partial.
Print Assumptions C35_import_move_partial.
Print Assumptions C35_rebuild.
Print Assumptions C35_flush_refuted.
Print Assumptions C35_move_refuted.
Print Assumptions C35_import_move_refuted.
