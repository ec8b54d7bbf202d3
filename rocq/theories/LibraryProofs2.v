(** Proofs about the distributed array, part 2: the invariant, and that opening, closing, flushing, registering, importing, clearing and
    moving preserve it. *)
From stdpp Require Import base list list_numbers numbers option gmap countable sets.
From Coq Require Import NArith Lia.
From Verif Require Import IndexSpec NDArrayModel NDArrayProofs NDArrayOps NDArrayProps NullSupModel CodecModel StreamerModel StreamerProps CacheModel CacheProofs
  BBoxModel BBoxProps DownsampleModel
  RTreeModel RTreeInsert RTreeRebuild RTreeProps ChunkMetaModel ChunkMetaProps ChunkCacheModel ChunkCacheSpec ChunkCacheProofs ChunkCacheProofs2 ChunkCacheProofs3 ChunkCacheProps
  LibraryModel LibrarySpec LibraryProofs.

Notation sstate := (gmap N (chunk_meta * content)).

Section metas.
Context (vd dims : nat).

(** Metadata record of a chunk. *)
Record meta_rep (m : chunk_meta) (c : chunk) : Prop := {
  mr_of : meta_of dims m;
  mr_start : cm_start m = c_start c;
  mr_end : cm_end m = c_end c;
  mr_ov : cm_overlap m = c_ov c;
  mr_path : cm_path m = c_file c;
  mr_type : cm_type m = if c_null c then all_null else specified;
  mr_dims : length (c_start c) = dims;
  mr_box : nonempty (c_start c) (c_end c);
  mr_shape : Forall2 (fun n se => N.of_nat n = se.2 - se.1 + 2 * c_ov c)%N (k_shape (c_val c)) (zip (c_start c) (c_end c));
  mr_small : Forall (fun n => N.of_nat n < 2 ^ 64)%N (k_shape (c_val c));
  mr_fits : Forall (fun x => x + c_ov c < 2 ^ 64)%N (c_end c);
  mr_ser : acceptable_chunk dims (c_ser c) }.

Definition item_of (m : chunk_meta) : item (P := chunk_meta) := ((cm_start m, cm_end m), m).
Definition amap (M : list chunk_meta) (C : list chunk) : sstate :=
  list_to_map (zip_with (fun m c => (cm_id m, (m, c_val c))) M C).

Lemma amap_keys M C : length M = length C -> (zip_with (fun m c => (cm_id m, (m, c_val c))) M C).*1 = cm_id <$> M.
Proof. revert C. induction M as [|m M IH]; intros [|c C] H; try done. cbn [zip_with]. rewrite !list.fmap_cons. simpl in H. f_equal. auto. Qed.
Lemma amap_lookup M C i m c : length M = length C -> NoDup (cm_id <$> M) -> M !! i = Some m -> C !! i = Some c ->
  amap M C !! cm_id m = Some (m, c_val c).
Proof.
  intros Hl Hn Hm Hc. unfold amap. apply elem_of_list_to_map_1; [by rewrite amap_keys|].
  apply elem_of_list_lookup. exists i. rewrite lookup_zip_with, Hm. cbn. by rewrite Hc.
Qed.
Lemma amap_inv M C k x : amap M C !! k = Some x -> exists i m c, M !! i = Some m /\ C !! i = Some c /\ k = cm_id m /\ x = (m, c_val c).
Proof.
  intros H. apply elem_of_list_to_map_2, elem_of_list_lookup in H as (i & Hi). rewrite lookup_zip_with_Some in Hi.
  destruct Hi as (m & c & E & Hm & Hc). injection E as -> ->. eauto 10.
Qed.
Lemma amap_none M C k : k ∉ cm_id <$> M -> amap M C !! k = None.
Proof.
  intros H. destruct (amap M C !! k) as [x|] eqn:E; [|done]. apply amap_inv in E as (i & m & c & Hm & _ & -> & _).
  exfalso. apply H. apply elem_of_list_fmap. exists m. split; [done|]. by eapply elem_of_list_lookup_2.
Qed.
Lemma amap_app M1 C1 M2 C2 : length M1 = length C1 -> amap (M1 ++ M2) (C1 ++ C2) = amap M1 C1 ∪ amap M2 C2.
Proof. intros H. unfold amap. rewrite zip_with_app by done. apply list_to_map_app. Qed.
Lemma amap_snoc M C m c : length M = length C -> cm_id m ∉ cm_id <$> M -> amap (M ++ [m]) (C ++ [c]) = <[cm_id m := (m, c_val c)]> (amap M C).
Proof.
  intros H Hn. rewrite amap_app by done. unfold amap at 2. cbn [zip_with list_to_map foldr fst snd]. rewrite insert_empty.
  rewrite <- (insert_union_singleton_r (amap M C)); [done|]. by apply amap_none.
Qed.
Lemma amap_insert M C i m c m' c' : length M = length C -> NoDup (cm_id <$> M) -> M !! i = Some m -> C !! i = Some c -> cm_id m' = cm_id m ->
  amap (<[i := m']> M) (<[i := c']> C) = <[cm_id m := (m', c_val c')]> (amap M C).
Proof.
  intros Hl Hn Hm Hc Hid. apply map_eq. intros k.
  assert (cm_id <$> <[i := m']> M = cm_id <$> M) as Hids.
  { rewrite list_fmap_insert, Hid. apply list_insert_id. by rewrite list_lookup_fmap, Hm. }
  pose proof (lookup_lt_Some _ _ _ Hm) as Hlt. pose proof (lookup_lt_Some _ _ _ Hc) as Hltc.
  destruct (decide (k = cm_id m)) as [->|Hk].
  - rewrite lookup_insert. rewrite <- Hid. apply amap_lookup with i.
    + by rewrite !insert_length.
    + by rewrite Hids.
    + by rewrite list_lookup_insert.
    + by rewrite list_lookup_insert.
  - rewrite lookup_insert_ne by done. destruct (amap M C !! k) as [x|] eqn:E.
    + apply amap_inv in E as (j & m1 & c1 & Hm1 & Hc1 & -> & ->). apply amap_lookup with j.
      * by rewrite !insert_length.
      * by rewrite Hids.
      * rewrite list_lookup_insert_ne; [done|]. intros ->. congruence.
      * rewrite list_lookup_insert_ne; [done|]. intros ->. congruence.
    + apply amap_none. rewrite Hids. intros (m1 & -> & (j & Hj)%elem_of_list_lookup)%elem_of_list_fmap.
      destruct (lookup_lt_is_Some_2 C j) as [c1 Hc1]. { rewrite <- Hl. by eapply lookup_lt_Some. }
      by rewrite (amap_lookup M C j m1 c1) in E.
Qed.

Lemma mr_box_ok m c : meta_rep m c -> box_ok dims (item_of m).1.
Proof.
  intros []. unfold item_of. cbn [fst snd]. split; cbn [fst snd]; [|congruence]. rewrite mr_start0, mr_end0. destruct mr_box0 as [B1 B2].
  split; [done|]. intros i x y Hx Hy. specialize (B2 i x y Hx Hy). lia.
Qed.
Lemma mr_at_point m c ind : meta_rep m c -> at_point (item_of m) ind <-> covers c ind.
Proof. intros []. unfold at_point, item_of, covers. cbn [fst snd]. by rewrite mr_start0, mr_end0. Qed.
Lemma mr_end_len m c : meta_rep m c -> length (c_end c) = dims.
Proof. intros []. destruct mr_box0 as [-> _]. done. Qed.
Lemma mr_shape_len m c : meta_rep m c -> length (k_shape (c_val c)) = dims.
Proof. intros Hr. pose proof (mr_end_len _ _ Hr). destruct Hr. rewrite (Forall2_length _ _ _ mr_shape0), zip_with_length. lia. Qed.
Lemma mr_pos m c : meta_rep m c -> Forall (fun n => 0 < n)%nat (k_shape (c_val c)).
Proof.
  intros Hr. apply Forall_lookup_2. intros i n Hn. destruct (Forall2_lookup_l _ _ _ _ _ (mr_shape _ _ Hr) Hn) as ([s e] & Hse & E).
  apply lookup_zip_with_Some in Hse as (s' & e' & [= -> ->] & Hs & He). cbn [fst snd] in E. destruct (mr_box _ _ Hr) as [_ HB].
  specialize (HB i s' e' Hs He). lia.
Qed.
(** The recorded shape. *)
Lemma mr_cshape m c : meta_rep m c -> Forall2 (fun x se => x = se.2 - se.1)%N (cm_shape m) (zip (c_start c) (c_end c)).
Proof.
  intros Hr. pose proof (mr_end_len _ _ Hr) as Hle. destruct Hr. pose proof (coherent_of _ _ mr_of0) as [Hdom Hm]. destruct Hdom as (_ & _ & _ & (D1 & D2) & (D3 & D4) & D5).
  assert (cm_end m = vwadd (cm_start m) (cm_shape m)) as He by (by rewrite Hm at 1).
  apply Forall2_same_length_lookup_2. { rewrite zip_with_length. lia. }
  intros i x [s e] Hx Hse. apply lookup_zip_with_Some in Hse as (s' & e' & [= -> ->] & Hs & He'). cbn [fst snd].
  rewrite <- mr_end0, He in He'. unfold vwadd in He'. rewrite lookup_zip_with_Some in He'. destruct He' as (s2 & x2 & -> & Hs2 & Hx2).
  rewrite mr_start0 in Hs2. assert (s2 = s') as -> by congruence. assert (x2 = x) as -> by congruence.
  destruct mr_box0 as [_ HB]. specialize (HB i s' (wadd s' x) Hs).
  rewrite <- mr_end0, He in HB. unfold vwadd in HB. rewrite lookup_zip_with, mr_start0, Hs in HB. cbn in HB. rewrite Hx in HB. specialize (HB eq_refl).
  assert (x < W)%N as Hxw by exact (Forall_lookup_1 _ _ _ _ D4 Hx). unfold wadd, W in *.
  destruct (N.lt_ge_cases (s' + x) (2 ^ 64)) as [Hlt|Hge]; [rewrite N.mod_small by done; lia|].
  exfalso. assert ((s' + x) mod 2 ^ 64 = s' + x - 2 ^ 64)%N as Hmm; [|lia].
  assert (s' < 2 ^ 64)%N by lia. symmetry. apply N.mod_unique with 1%N; lia.
Qed.
Lemma mr_readable m c : meta_rep m c -> (c_null c = true -> c_ov c = 0%N) -> readable m (c_val c).
Proof.
  intros Hr Hn. unfold readable. rewrite (mr_type _ _ Hr). destruct (c_null c); [right|by left]. specialize (Hn eq_refl).
  pose proof (mr_cshape _ _ Hr) as H1. pose proof (mr_shape _ _ Hr) as H2. rewrite Hn in H2.
  apply list_eq_same_length with dims.
  - by rewrite (mr_shape_len _ _ Hr).
  - rewrite fmap_length, (Forall2_length _ _ _ H1), zip_with_length, (mr_end_len _ _ Hr), (mr_dims _ _ Hr). lia.
  - intros i x y _ Hx Hy. rewrite list_lookup_fmap_Some in Hx. destruct Hx as (n & Hn2 & ->).
    destruct (Forall2_lookup_l _ _ _ _ _ H1 Hn2) as (se & Hse & ->).
    pose proof (Forall2_lookup_lr _ _ _ _ _ _ H2 Hy Hse) as E. cbn beta in E. lia.
Qed.
End metas.

Lemma nodup_bound (l : list N) (n : N) : NoDup l -> Forall (fun x => x < n)%N l -> (N.of_nat (length l) <= n)%N.
Proof.
  intros Hn Hb. assert (length (N.to_nat <$> l) <= length (seq 0 (N.to_nat n)))%nat as H.
  { apply submseteq_length, NoDup_submseteq.
    - apply NoDup_fmap_2; [|done]. intros x y E. lia.
    - intros x (y & -> & Hy)%elem_of_list_fmap. apply elem_of_seq. pose proof (proj1 (list.Forall_forall _ _) Hb y Hy). cbn beta in *. lia. }
  rewrite fmap_length, seq_length in H. lia.
Qed.

Section inv.
Context (vd dims : nat) (junk : N) (L : lib) (HL : lib_ok L).

Record lrep_ (l : clib) (S : lstate) (M : list chunk_meta) (sz : N -> list nat) (H : list box) : Prop := {
  lr_metas : Forall2 (meta_rep dims) M (ls_chunks S);
  lr_acc : forall k, acceptable_chunk dims (sz k);
  lr_cs : acceptable_chunk dims (ls_cs S);
  lr_sz : Forall2 (fun m c => sz (cm_id m) = c_ser c) M (ls_chunks S);
  lr_tree : sim dims 1 (l_tree l) (item_of <$> M) H;
  lr_hist : forall h, h ∈ H -> exists c, c ∈ ls_chunks S /\ within h (c_start c, c_end c);
  lr_store : sinv vd dims (ls_cs S) sz (l_store l) (amap M (ls_chunks S));
  lr_ids : NoDup (cm_id <$> M);
  lr_apart : forall i j c c', ls_chunks S !! i = Some c -> ls_chunks S !! j = Some c' -> i <> j -> apart (c_start c) (c_end c) (c_start c') (c_end c');
  lr_fresh : ls_reopened S = false -> Forall (fun m => cm_id m < ls_handed S)%N M;
  lr_next : l_next l = (ls_handed S mod 2 ^ 32)%N;
  lr_handed : (ls_handed S <= 2 ^ 32)%N;
  lr_geo : forall g, l_geo l = Some g -> calc_geo dims (l_tree l) = Some g }.
Definition lrep (l : clib) (S : lstate) : Prop := exists M sz H, lrep_ l S M sz H.

Lemma lrep_dims l S : lrep l S -> (0 < dims)%nat.
Proof using. intros (M & sz & H & []). by eapply acceptable_pos. Qed.
Lemma lrep_len l S M sz H : lrep_ l S M sz H -> length M = length (ls_chunks S).
Proof using. intros []. by eapply Forall2_length. Qed.
Lemma lrep_count l S M sz H : lrep_ l S M sz H -> (N.of_nat (length M) <= 2 ^ 32)%N.
Proof using.
  intros []. rewrite <- (fmap_length cm_id). apply nodup_bound; [done|]. apply list.Forall_forall. intros x (m & -> & Hm)%elem_of_list_fmap.
  apply elem_of_list_lookup in Hm as [i Hm]. destruct (Forall2_lookup_l _ _ _ _ _ lr_metas0 Hm) as (c & _ & Hr).
  destruct (coherent_of _ _ (mr_of _ _ _ Hr)) as [(_ & _ & D & _) _]. done.
Qed.
Lemma lrep_get l S M sz H i c : lrep_ l S M sz H -> ls_chunks S !! i = Some c -> exists m, M !! i = Some m /\ meta_rep dims m c /\
  amap M (ls_chunks S) !! cm_id m = Some (m, c_val c) /\ sz (cm_id m) = c_ser c.
Proof using.
  intros Hl Hc. pose proof (lrep_len _ _ _ _ _ Hl) as Hlen. destruct Hl. destruct (Forall2_lookup_r _ _ _ _ _ lr_metas0 Hc) as (m & Hm & Hr). exists m. split_and!; auto.
  - by eapply amap_lookup.
  - exact (Forall2_lookup_lr _ _ _ _ _ _ lr_sz0 Hm Hc).
Qed.
Lemma lrep_get_m l S M sz H i m : lrep_ l S M sz H -> M !! i = Some m -> exists c, ls_chunks S !! i = Some c /\ meta_rep dims m c /\
  amap M (ls_chunks S) !! cm_id m = Some (m, c_val c) /\ sz (cm_id m) = c_ser c.
Proof using.
  intros Hl Hm. destruct (lookup_lt_is_Some_2 (ls_chunks S) i) as [c Hc]. { rewrite <- (lrep_len _ _ _ _ _ Hl). by eapply lookup_lt_Some. }
  exists c. split; [done|]. destruct (lrep_get _ _ _ _ _ _ _ Hl Hc) as (m' & Hm' & Hr). by assert (m' = m) as -> by congruence.
Qed.
Lemma lrep_boxes l S M sz H : lrep_ l S M sz H -> Forall (fun m => box_ok dims (item_of m).1) M.
Proof using. intros Hl. apply Forall_lookup_2. intros i m Hm. destruct (lrep_get_m _ _ _ _ _ _ _ Hl Hm) as (c & _ & Hr & _). by eapply mr_box_ok. Qed.
Lemma lrep_coherent l S M sz H : lrep_ l S M sz H -> Forall (coherent dims) M.
Proof using. intros Hl. apply Forall_lookup_2. intros i m Hm. destruct (lrep_get_m _ _ _ _ _ _ _ Hl Hm) as (c & _ & Hr & _). apply coherent_of, Hr. Qed.

(** ** Inserting several chunks in the index *)
Lemma insert_all t M H ms : (0 < dims)%nat -> sim dims 1 t (item_of <$> M) H -> Forall (fun m => box_ok dims (item_of m).1) ms ->
  exists t', rfold (tree_insert dims L) t ms = Done t' /\ sim dims 1 t' (item_of <$> (M ++ ms)) (H ++ ((fun m => (item_of m).1) <$> ms)).
Proof using HL.
  intros Hd. revert t M H. induction ms as [|m ms IH]; intros t M H Hs Hb.
  - exists t. rewrite fmap_nil, !app_nil_r. done.
  - apply list.Forall_cons in Hb as [Hb1 Hb2].
    destruct (sim_insert meta0 dims L HL Hd t (item_of <$> M) H m (item_of m).1 Hs Hb1) as (s & t' & Hi & Hs').
    assert (sim dims 1 t' (item_of <$> (M ++ [m])) (H ++ [(item_of m).1])) as Hs2 by (by rewrite fmap_app).
    destruct (IH t' (M ++ [m]) (H ++ [(item_of m).1]) Hs2 Hb2) as (t2 & Ht2 & Hs3).
    exists t2. split.
    + assert (tree_insert dims L t m = Done t') as Hti. { unfold tree_insert. unfold item_of in Hi. cbn [fst snd] in Hi. by rewrite Hi. }
      cbn [rfold]. rewrite Hti. cbn [mbind res_bind]. exact Ht2.
    + rewrite <- app_assoc in Hs3. rewrite <- app_assoc in Hs3. done.
Qed.

(** ** Opening *)
Lemma within_refl (b : box) : within b b.
Proof using. split; intros i x y Hx Hy; assert (x = y) as -> by congruence; lia. Qed.
Lemma boxes_hist M (C : list chunk) : Forall2 (meta_rep dims) M C -> forall h, h ∈ (fun m => (item_of m).1) <$> M -> exists c, c ∈ C /\ within h (c_start c, c_end c).
Proof using.
  intros HF h (m & -> & Hm)%elem_of_list_fmap. apply elem_of_list_lookup in Hm as [i Hm]. destruct (Forall2_lookup_l _ _ _ _ _ HF Hm) as (c & Hc & Hr).
  exists c. split; [by eapply elem_of_list_lookup_2|]. unfold item_of. cbn [fst]. rewrite (mr_start _ _ _ Hr), (mr_end _ _ _ Hr). apply within_refl.
Qed.
Lemma linv_nil cs' sz' files (A : sstate) :
  (forall k m c, A !! k = Some (m, c) -> cm_id m = k /\ own_file A m /\ length (k_shape c) = dims /\ on_disk vd dims sz' m c files) ->
  linv vd dims cs' sz' [] files A.
Proof using. intros H. split; [intros k e He; by apply elem_of_nil in He|]. intros k m c Hk. destruct (H k m c Hk) as (H1 & H2 & H3 & H4). split_and!; auto.
  intros e He. by apply elem_of_nil in He. Qed.
Lemma linv_nil_inv cs sz files (A : sstate) : linv vd dims cs sz [] files A ->
  forall k m c, A !! k = Some (m, c) -> cm_id m = k /\ own_file A m /\ length (k_shape c) = dims /\ on_disk vd dims sz m c files.
Proof using. intros [_ H] k m c Hk. destruct (H k m c Hk) as (H1 & H2 & H3 & _ & H4). split_and!; auto. apply H4, not_elem_of_nil. Qed.

Lemma open_new size cs : acceptable_chunk dims cs -> exists l, lib_open vd dims junk L size cs (Dir None ∅) = Done l /\ lrep l (LState [] 0 false cs).
Proof using HL.
  intros Hcs. pose proof (acceptable_pos _ _ Hcs) as Hd.
  destruct (sim_new meta0 dims L HL Hd 100) as (t & Ht & Hs); [lia|].
  destruct (copen_ok vd dims junk cs (fun _ => cs) Hd size ∅ ∅) as (s & H0 & Hs0 & _); [apply linv_empty|].
  eexists. split.
  { unfold lib_open. rewrite Ht. cbn [of_opt mbind res_bind d_index d_files]. rewrite H0. reflexivity. }
  clear Ht H0. exists [], (fun _ => cs), []. split; cbn [ls_chunks ls_cs l_tree l_store ls_handed ls_reopened l_next l_geo reopened cleared]; auto.
  - intros h Hh. by apply elem_of_nil in Hh.
  - apply NoDup_nil_2.
  - intros i j c c' Hc. by rewrite lookup_nil in Hc.
  - lia.
  - done.
Qed.

(** ** Closing and opening again *)
(** What a closed array leaves behind. *)
Definition closed (d : dir) (S : lstate) : Prop := exists M sz,
  Forall2 (meta_rep dims) M (ls_chunks S) /\ (forall k, acceptable_chunk dims (sz k)) /\
  Forall2 (fun m c => sz (cm_id m) = c_ser c) M (ls_chunks S) /\ NoDup (cm_id <$> M) /\ (N.of_nat (length M) <= 2 ^ 32)%N /\
  (forall i j c c', ls_chunks S !! i = Some c -> ls_chunks S !! j = Some c' -> i <> j -> apart (c_start c) (c_end c) (c_start c') (c_end c')) /\
  d_index d = Some (enc (index_file dims) M) /\
  (forall k m c, amap M (ls_chunks S) !! k = Some (m, c) -> cm_id m = k /\ own_file (amap M (ls_chunks S)) m /\ length (k_shape c) = dims /\
     on_disk vd dims sz m c (d_files d)).

Lemma lrep_all l S M sz H : lrep_ l S M sz H -> get_all_entries (l_tree l) = Some M.
Proof using. intros []. rewrite (sim_all _ _ _ _ _ lr_tree0). f_equal. rewrite <- list_fmap_compose. rewrite <- (list_fmap_id M) at 2. apply list_fmap_ext. done. Qed.
Lemma flush_index_ok l S M sz H : lrep_ l S M sz H ->
  flush_index dims l = Done (with_index l (Some (enc (index_file dims) M))) /\ lrep_ (with_index l (Some (enc (index_file dims) M))) S M sz H.
Proof using.
  intros Hl. unfold flush_index. rewrite (lrep_all _ _ _ _ _ Hl). split; [done|]. destruct Hl. by split.
Qed.
Lemma with_store_ok l S M sz H s : lrep_ l S M sz H -> sinv vd dims (ls_cs S) sz s (amap M (ls_chunks S)) -> lrep_ (with_store l s) S M sz H.
Proof using. intros [] Hs. by split. Qed.
Lemma read_back M : (N.of_nat (length M) <= 2 ^ 32)%N -> Forall (coherent dims) M -> read_index dims (enc (index_file dims) M) = Done M.
Proof using.
  intros Hn Hc. unfold read_index. rewrite <- (app_nil_r (enc _ _)), index_rt; [done| |done]. eapply N.le_lt_trans; [exact Hn|]. done.
Qed.

Lemma flush_ok l S ord : (forall k, ord k ≡ₚ k) -> lrep l S -> exists l', lib_flush vd dims ord l = Done l' /\ lrep l' S /\
  closed (Dir (l_index l') (s_files (l_store l'))) S.
Proof using.
  intros Hord Hl0. pose proof (lrep_dims _ _ Hl0) as Hd. destruct Hl0 as (M & sz & H & Hl). destruct (flush_index_ok _ _ _ _ _ Hl) as [Hfi Hl1].
  destruct (flush_cache_ok vd dims (ls_cs S) sz (lr_acc _ _ _ _ _ Hl) Hd ord _ _ Hord (lr_store _ _ _ _ _ Hl1)) as (s & Hf & Hs & _).
  eexists. split; [|split].
  - unfold lib_flush. rewrite Hfi. cbn [mbind res_bind]. rewrite Hf. reflexivity.
  - exists M, sz, H. apply with_store_ok; [done|]. by exists [].
  - exists M, sz. pose proof (lrep_count _ _ _ _ _ Hl). destruct Hl. split_and!; auto. cbn [d_files l_store with_store].
    destruct Hs as (_ & _ & _ & Hs). by eapply linv_nil_inv.
Qed.
Lemma close_ok l S ord : (forall k, ord k ≡ₚ k) -> lrep l S -> exists d, lib_close vd dims ord l = Done d /\ closed d S.
Proof using.
  intros Hord Hl0. pose proof (lrep_dims _ _ Hl0) as Hd. destruct Hl0 as (M & sz & H & Hl).
  destruct (flush_cache_ok vd dims (ls_cs S) sz (lr_acc _ _ _ _ _ Hl) Hd ord _ _ Hord (lr_store _ _ _ _ _ Hl)) as (s & Hf & Hs & _).
  destruct (flush_index_ok (with_store l s) S M sz H) as [Hfi Hl1]; [apply with_store_ok; [done|]; by exists []|].
  eexists. split.
  - unfold lib_close. rewrite Hf. cbn [mbind res_bind]. rewrite Hfi. reflexivity.
  - exists M, sz. pose proof (lrep_count _ _ _ _ _ Hl). destruct Hl. split_and!; auto. cbn [d_files l_store with_store with_index].
    destruct Hs as (_ & _ & _ & Hs). by eapply linv_nil_inv.
Qed.
Lemma reopen_ok d S size cs : closed d S -> acceptable_chunk dims cs -> exists l, lib_open vd dims junk L size cs d = Done l /\ lrep l (reopened S cs).
Proof using HL.
  intros (M & sz & HM & Hacc & Hsz & Hids & Hcnt & Hap & Hix & Hdk) Hcs. pose proof (acceptable_pos _ _ Hcs) as Hd.
  destruct (sim_new meta0 dims L HL Hd 100) as (t & Ht & Hs); [lia|].
  destruct (sim_clear meta0 dims L HL Hd _ _ _ Hs) as (t1 & Ht1 & Hs1).
  assert (Forall (fun m => box_ok dims (item_of m).1) M /\ Forall (coherent dims) M) as [Hbs Hco].
  { clear -HM. induction HM as [|m c M C Hr _ [IH1 IH2]]; [done|]. split; constructor; auto; [by eapply mr_box_ok|]. apply coherent_of, Hr. }
  destruct (insert_all t1 [] [] M Hd Hs1 Hbs) as (t2 & Ht2 & Hs2).
  destruct (copen_ok vd dims junk cs sz Hd size (d_files d) (amap M (ls_chunks S))) as (s & H0 & Hs0 & _). { by apply linv_nil. }
  eexists. split.
  { unfold lib_open. rewrite Ht. cbn [of_opt mbind res_bind]. rewrite Hix. cbn [of_opt mbind res_bind]. rewrite Ht1. cbn [of_opt mbind res_bind].
    rewrite read_back by done. cbn [mbind res_bind]. rewrite Ht2. cbn [mbind res_bind]. rewrite H0. reflexivity. }
  clear Ht Ht1 Ht2 H0. exists M, sz, ((fun m => (item_of m).1) <$> M). split; cbn [ls_chunks ls_cs l_tree l_store ls_handed ls_reopened l_next l_geo reopened cleared]; auto.
  - intros h Hh. by eapply boxes_hist.
  - intros Hr. destruct (ls_chunks S); [|done]. apply Forall2_nil_inv_r in HM as ->. constructor.
  - lia.
  - done.
Qed.

(** ** Clearing and moving *)
Lemma clear_ok l S ord : (forall k, ord k ≡ₚ k) -> lrep l S -> exists l', lib_clear vd dims ord l = Done l' /\ lrep l' (cleared S).
Proof using HL.
  intros Hord Hl0. pose proof (lrep_dims _ _ Hl0) as Hd. destruct Hl0 as (M & sz & H & []).
  destruct (sim_clear meta0 dims L HL Hd _ _ _ lr_tree0) as (t1 & Ht1 & Hs1).
  destruct (clear_cache_ok vd dims (ls_cs S) Hd sz lr_acc0 ord _ _ Hord lr_store0) as (s' & Hc & Hs' & _).
  eexists. split. { unfold lib_clear. rewrite Ht1. cbn [of_opt mbind res_bind]. rewrite Hc. reflexivity. }
  exists [], sz, []. split; cbn [ls_chunks ls_cs l_tree l_store ls_handed ls_reopened l_next l_geo reopened cleared]; auto.
  - intros h Hh. by apply elem_of_nil in Hh.
  - apply NoDup_nil_2.
  - intros i j c c' Hc'. by rewrite lookup_nil in Hc'.
  - done.
Qed.
Lemma move_ok l S ord : (forall k, ord k ≡ₚ k) -> lrep l S -> exists l', lib_move vd dims ord (Dir None ∅) l = Done (l', Dir None ∅) /\ lrep l' S.
Proof using.
  intros Hord Hl0. pose proof (lrep_dims _ _ Hl0) as Hd. destruct Hl0 as (M & sz & H & Hl).
  destruct (move_cache_ok vd dims (ls_cs S) Hd sz (lr_acc _ _ _ _ _ Hl) ord _ _ Hord (lr_store _ _ _ _ _ Hl)) as (s' & Hc & Hs').
  destruct (flush_index_ok (with_store l s') S M sz H) as [Hfi Hl1]; [by apply with_store_ok|].
  eexists. split. { unfold lib_move. cbn [d_files]. rewrite Hc. cbn [mbind res_bind]. rewrite Hfi. reflexivity. }
  by exists M, sz, H.
Qed.
End inv.
