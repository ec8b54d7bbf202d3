(** Crashes, part 2: the operations of the library and re-chunking. *)
From stdpp Require Import base list list_numbers numbers option gmap countable sets.
From Coq Require Import NArith ZArith Lia.
From Verif Require Import LoopsModel NDArrayModel NullSupModel CodecModel StreamerModel CacheModel CacheProofs BBoxModel DownsampleModel RTreeModel ChunkMetaModel ChunkCacheModel LibraryModel
  BoundaryModel RebuildModel CrashModel CrashSpec CrashProofs.

Definition any (n : bytes) : Prop := False.
Section lib.
Context (vd dims : nat) (junk : N) (L : lib) (P : bytes -> Prop) (HP : ~ P []).

Definition lstep (l : clib) (ops : list fop) (l' : clib) : Prop :=
  quiet P (l_store l') /\ Forall (safe P) ops /\ Forall own_op ops /\ forall o, run (disk l, o) ops = (disk l', o).
Lemma lstep_of l ops l' : l_index l' = l_index l -> step P (l_store l) ops (l_store l') -> lstep l ops l'.
Proof. intros Ei (H1 & H2 & H3 & H4). split; [done|]. split; [done|]. split; [done|]. intros o. unfold disk. rewrite H4. by rewrite Ei. Qed.

Lemma register_lstep a s e ov opt uuid l l' : quiet P (l_store l) -> ~ P uuid -> lib_register vd dims junk L a s e ov opt uuid l = Done l' ->
  lstep l (lib_register_ops vd dims junk a s e ov opt uuid l) l'.
Proof using HP.
  intros Hq Hu H. unfold lib_register in H. unfold lib_register_ops. destruct (bool_decide _); [|done].
  destruct (if opt then of_opt (ais_all_null vd is_zero_bits a) else Done false) as [null| |]; cbn [mbind res_bind] in H; try done. cbn [rdone].
  destruct (tree_insert dims L (l_tree l) _) as [t| |]; cbn [mbind res_bind] in H; try done.
  destruct (register_new_chunk vd dims junk _ a (l_store l)) as [st| |] eqn:E; cbn [mbind res_bind] in H; try done. injection H as <-.
  apply lstep_of; [done|]. cbn [l_store]. apply register_step; [done|exact E|]. cbn [cm_path mk_meta]. by destruct null.
Qed.
Lemma get_lstep ind l v l' : quiet P (l_store l) -> lib_get vd dims junk ind l = Done (v, l') -> lstep l (lib_get_ops vd dims ind l) l'.
Proof using.
  intros Hq H. unfold lib_get in H. unfold lib_get_ops. destruct (find_chunk ind l) as [[[slot m] l1]| |] eqn:Ef; cbn [mbind res_bind] in H; try done. cbn [rdone fst snd].
  assert (l_store l1 = l_store l /\ l_index l1 = l_index l) as [E1 E2].
  { unfold find_chunk in Ef. destruct (search_point (l_tree l) ind) as [[r t]|]; cbn [of_opt mbind res_bind] in Ef; try done. destruct r; [|done].
    destruct (payload_at t n); cbn [of_opt mbind res_bind] in Ef; try done. injection Ef as _ _ <-. done. }
  destruct (retrieve_chunk vd dims junk m (l_store l1)) as [[d s]| |] eqn:Er; cbn [mbind res_bind] in H; try done. destruct (aread vd d _); cbn [of_opt mbind res_bind] in H; try done. injection H as _ <-.
  apply lstep_of; [done|]. cbn [l_store with_store]. rewrite E1 in *. by eapply retrieve_step.
Qed.
Lemma rfold_step {S B} (st : S -> cstore) (ops : S -> B -> list fop) (f : S -> B -> res S) l :
  (forall s b s', quiet P (st s) -> f s b = Done s' -> step P (st s) (ops s b) (st s')) ->
  forall s s', quiet P (st s) -> rfold f s l = Done s' -> step P (st s) (rfold_ops ops f s l) (st s').
Proof using.
  intros Hf. induction l as [|b l IH]; intros s s' Hq H; cbn [rfold rfold_ops] in *. { injection H as <-. by apply step_id. }
  destruct (f s b) as [s1| |] eqn:E; cbn [mbind res_bind] in H; try done. cbn [rdone]. pose proof (Hf s b s1 Hq E) as H1. eapply step_trans; [exact H1|]. destruct H1 as (Hq1 & _). by apply IH.
Qed.
Lemma fill_lstep buf is ie os l b l' : quiet P (l_store l) -> lib_fill vd dims junk buf is ie os l = Done (b, l') -> lstep l (lib_fill_ops vd dims junk buf is ie os l) l'.
Proof using.
  intros Hq H. unfold lib_fill in H. unfold lib_fill_ops. destruct (_ && _); [|done]. destruct (search_range (l_tree l) is ie) as [ms|]; cbn [of_opt mbind res_bind] in H; try done. cbn [of_opt rdone].
  destruct (rfold _ _ _) as [[b' s]| |] eqn:Er; cbn [mbind res_bind] in H; try done. injection H as <- <-. apply lstep_of; [done|]. cbn [l_store with_store].
  refine (rfold_step (fun x : ndarr N * cstore => x.2) _ _ ms _ (buf, l_store l) (b', s) Hq Er). clear. intros [b s] m [b' s'] Hq H. cbn [snd] in *. unfold fill_chunk in H. unfold fill_chunk_ops. cbn [fst snd] in *.
  destruct (cm_type m =? all_null)%N.
  { destruct (afill _ _ _ _ _); cbn [of_opt mbind res_bind] in H; try done. injection H as <- <-. by apply step_id. }
  destruct (cm_type m =? specified)%N; [|done]. destruct (retrieve_chunk vd dims junk m s) as [[d s1]| |] eqn:Er; cbn [mbind res_bind] in H; try done.
  destruct (afill_from _ _ _ _ _ _); cbn [of_opt mbind res_bind] in H; try done. injection H as <- <-. by eapply retrieve_step.
Qed.
Lemma loop_lstep is ie l vs l' : quiet P (l_store l) -> lib_loop vd dims junk is ie l = Done (vs, l') -> lstep l (lib_loop_ops vd dims junk is ie l) l'.
Proof using.
  intros Hq H. unfold lib_loop in H. unfold lib_loop_ops. destruct (search_range (l_tree l) is ie) as [ms|]; cbn [of_opt mbind res_bind] in H; try done. cbn [of_opt rdone].
  destruct (rfold _ _ _) as [[b' s]| |] eqn:Er; cbn [mbind res_bind] in H; try done. injection H as <- <-. apply lstep_of; [done|]. cbn [l_store with_store].
  refine (rfold_step (fun x : list (list N * list N) * cstore => x.2) _ _ ms _ ([], l_store l) (b', s) Hq Er). clear. intros [b s] m [b' s'] Hq H. cbn [snd] in *. unfold loop_chunk in H. cbn [fst snd] in *.
  destruct (retrieve_chunk vd dims junk m s) as [[d s1]| |] eqn:Er; cbn [mbind res_bind] in H; try done.
  destruct (index_loop_positions _ _ _ _ _); cbn [of_opt mbind res_bind] in H; try done. destruct (mapM _ _); cbn [of_opt mbind res_bind] in H; try done. injection H as <- <-. by eapply retrieve_step.
Qed.
Lemma geometry_disk l g l' : lib_geometry dims l = Done (g, l') -> l_store l' = l_store l /\ l_index l' = l_index l.
Proof using.
  unfold lib_geometry. destruct (l_geo l); [intros [= <- <-]; done|]. destruct (calc_geo dims (l_tree l)); cbn [of_opt mbind res_bind]; [|done]. intros [= <- <-]. done.
Qed.
End lib.

(** ** Operations whose result is only on the own directory: replay *)
Section replay.
Context (vd dims : nat) (junk : N) (L : lib).
Notation quietF := (quiet any).

Definition replays (l : clib) (ops : list fop) (l' : clib) : Prop :=
  Forall own_op ops /\ forall o, run (disk l, o) ops = (disk l', o).
Lemma flush_index_replay l l1 : flush_index dims l = Done l1 ->
  l_store l1 = l_store l /\ l_index l1 = d_index (run (disk l, disk l) (flush_index_ops dims Own l)).1 /\ Forall own_op (flush_index_ops dims Own l) /\ l_tree l1 = l_tree l /\
  forall s o, run (Dir (l_index l) s, o) (flush_index_ops dims Own l) = (Dir (l_index l1) s, o).
Proof using.
  unfold flush_index, flush_index_ops. destruct (get_all_entries (l_tree l)) as [ms|]; cbn [of_opt mbind res_bind rdone]; [|done]. intros [= <-]. split; [done|]. split; [done|]. split; [by repeat constructor|]. split; [done|]. reflexivity.
Qed.
Lemma flush_replay ord l l' : quietF (l_store l) -> lib_flush vd dims ord l = Done l' -> replays l (lib_flush_ops vd dims ord l) l' /\ quietF (l_store l').
Proof using.
  intros Hq H. unfold lib_flush in H. unfold lib_flush_ops. destruct (flush_index dims l) as [l1| |] eqn:Ei; cbn [mbind res_bind] in H; try done.
  destruct (flush_index_replay _ _ Ei) as (E1 & _ & Ho & _ & Hr). rewrite E1 in H. destruct (flush_cache vd dims ord (l_store l)) as [s| |] eqn:Ef; cbn [mbind res_bind] in H; try done. injection H as <-.
  destruct (flush_cache_step vd dims any ord _ _ Hq Ef) as (Hq' & _ & Ho2 & Hr2). split; [|done]. split; [by apply Forall_app|]. intros o. unfold disk. rewrite run_app, Hr, Hr2. reflexivity.
Qed.
Lemma close_replay ord l d : quietF (l_store l) -> lib_close vd dims ord l = Done d ->
  Forall own_op (lib_close_ops vd dims ord l) /\ forall o, run (disk l, o) (lib_close_ops vd dims ord l) = (d, o).
Proof using.
  intros Hq H. unfold lib_close in H. unfold lib_close_ops. destruct (flush_cache vd dims ord (l_store l)) as [s| |] eqn:Ef; cbn [mbind res_bind] in H; try done.
  destruct (flush_index dims (with_store l s)) as [l1| |] eqn:Ei; cbn [mbind res_bind] in H; try done. injection H as <-.
  destruct (flush_index_replay _ _ Ei) as (E1 & _ & Ho & _ & Hr). destruct (flush_cache_step vd dims any ord _ _ Hq Ef) as (Hq' & _ & Ho2 & Hr2).
  change (flush_index_ops dims Own (with_store l s)) with (flush_index_ops dims Own l) in *. change (l_index (with_store l s)) with (l_index l) in *.
  split; [by apply Forall_app|]. intros o. unfold disk. rewrite run_app, Hr2, Hr, E1. reflexivity.
Qed.
Lemma del_all (ns : list bytes) i fs o : run (Dir i fs, o) ((fun n => Del Own (File n)) <$> ns) = (Dir i (foldl (fun m n => delete n m) fs ns), o).
Proof using. revert fs. induction ns as [|n ns IH]; intros fs; [done|]. cbn [fmap list_fmap foldl]. rewrite <- IH. reflexivity. Qed.
Lemma delete_all (ns : list bytes) (fs : gmap bytes bytes) n : foldl (fun m n => delete n m) fs ns !! n = if decide (n ∈ ns) then None else fs !! n.
Proof using.
  revert fs. induction ns as [|a ns IH]; intros fs; cbn [foldl]; [by rewrite decide_False by apply not_elem_of_nil|]. rewrite IH. destruct (decide (n ∈ ns)) as [Hin|Hni].
  - rewrite decide_True by (by right). done.
  - destruct (decide (n = a)) as [->|Hne]; [rewrite lookup_delete, decide_True by left; done|]. rewrite lookup_delete_ne by done. rewrite decide_False; [done|]. rewrite not_elem_of_cons. done.
Qed.
Lemma elem_of_names (fs : gmap bytes bytes) n : n ∈ names fs <-> is_Some (fs !! n).
Proof using.
  unfold names. rewrite elem_of_list_fmap. split.
  - intros ([a b] & -> & H). apply elem_of_map_to_list in H. cbn [fst]. eauto.
  - intros [b Hb]. exists (n, b). split; [done|]. by apply elem_of_map_to_list.
Qed.
Lemma clear_replay ord dord l l' : (forall k, dord k ≡ₚ k) -> quietF (l_store l) -> lib_clear vd dims ord l = Done l' ->
  replays l (lib_clear_ops vd dims ord dord l) l' /\ quietF (l_store l').
Proof using.
  intros Hdo Hq H. unfold lib_clear, clear_cache in H. unfold lib_clear_ops, names_after. destruct (rt_clear meta0 dims (l_tree l)) as [t|]; cbn [of_opt mbind res_bind] in H; try done.
  destruct (flush_cache vd dims ord (l_store l)) as [s| |] eqn:Ef; cbn [mbind res_bind] in H; try done. injection H as <-. cbn [rdone].
  destruct (flush_cache_step vd dims any ord _ _ Hq Ef) as (Hq' & _ & Ho2 & Hr2). split; [|done]. split.
  - apply Forall_app. split; [unfold remove_index_ops; destruct (l_index l); by repeat constructor|]. apply Forall_app. split; [done|]. apply Forall_fmap, Forall_true. done.
  - intros o. assert (run (disk l, o) (remove_index_ops l) = (Dir None (s_files (l_store l)), o)) as E0.
    { unfold remove_index_ops, disk. destruct (l_index l) eqn:E; reflexivity. }
    rewrite !run_app, E0, Hr2, del_all. unfold disk. cbn [l_index l_store s_files]. do 2 f_equal. apply map_eq. intros n. rewrite delete_all, lookup_empty.
    destruct (decide (n ∈ dord (names (s_files s)))) as [|Hn]; [done|]. rewrite Hdo, elem_of_names in Hn. by apply eq_None_not_Some.
Qed.
Lemma cp_all (ns : list bytes) d1 d2 : (forall n, n ∈ ns -> is_Some (d_files d2 !! n)) ->
  exists fs, run (d1, d2) ((fun n => Cp Other (File n)) <$> ns) = (Dir (d_index d1) fs, d2) /\ forall n, fs !! n = if decide (n ∈ ns) then d_files d2 !! n else d_files d1 !! n.
Proof using.
  revert d1. induction ns as [|a ns IH]; intros d1 Hns; cbn [fmap list_fmap]. { exists (d_files d1). split; [by destruct d1|]. intros n. by rewrite decide_False by apply not_elem_of_nil. }
  destruct (IH (dset d1 (File a) (d_files d2 !! a))) as (fs & E & Hfs). { intros n Hn. apply Hns. by right. }
  exists fs. split; [exact E|]. intros n. rewrite Hfs. destruct (decide (n ∈ ns)) as [Hin|Hni]; [rewrite decide_True by (by right); done|]. cbn [d_files dset].
  destruct (decide (n = a)) as [->|Hne]; [rewrite lookup_partial_alter, decide_True by left; done|]. rewrite lookup_partial_alter_ne by done. rewrite decide_False; [done|]. rewrite not_elem_of_cons. done.
Qed.
Lemma import_replay dord d l l' d' : (forall k, dord k ≡ₚ k) -> lib_import dims L d false l = Done (l', d') ->
  run (disk l, d) (lib_import_ops dord d false) = (disk l', d) /\ d' = d /\ l_index l' = l_index l /\ s_cache (l_store l') = s_cache (l_store l).
Proof using.
  intros Hdo H. unfold lib_import, import_cache in H. destruct (d_index d) as [b|] eqn:Ed; cbn [of_opt mbind res_bind] in H; try done. destruct (read_index dims b) as [ms| |]; cbn [mbind res_bind] in H; try done.
  destruct (rfold _ _ _) as [t| |]; cbn [mbind res_bind] in H; try done. destruct (bool_decide _) eqn:Eb; [|done]. apply bool_decide_eq_true in Eb. cbn [mbind res_bind] in H. injection H as <- <-.
  destruct (cp_all (dord (names (d_files d))) (disk l) d) as (fs & E & Hfs). { intros n. by rewrite Hdo, elem_of_names. }
  unfold lib_import_ops. split; [|split; [|done]].
  - rewrite E. unfold disk. cbn [l_index l_store s_files d_index d_files]. do 2 f_equal. apply map_eq. intros n. rewrite Hfs. unfold disk. cbn [d_files].
    destruct (decide (n ∈ dord (names (d_files d)))) as [Hin|Hni].
    + rewrite Hdo, elem_of_names in Hin. destruct Hin as [x Hx]. rewrite Hx. symmetry. by apply lookup_union_Some_l.
    + rewrite Hdo, elem_of_names, <- eq_None_not_Some in Hni. by rewrite lookup_union_r.
  - destruct d. cbn in *. by rewrite Ed.
Qed.
End replay.
