(** C35: crashes when slices are appended to chunks since the last flush. *)
From stdpp Require Import base list list_numbers numbers option gmap countable sets.
From Coq Require Import NArith ZArith Lia.
From Verif Require Import IndexSpec LoopsModel NDArrayModel NDArrayProps NullSupModel CodecModel StreamerModel StreamerProps CacheModel CacheProofs BBoxModel BBoxProps DownsampleModel
  RTreeModel RTreeInsert RTreeRebuild RTreeProps ChunkMetaModel ChunkMetaProps ChunkCacheModel ChunkCacheSpec ChunkCacheProofs ChunkCacheProofs2 ChunkCacheProofs3 ChunkCacheProps
  LibraryModel LibrarySpec LibraryProofs LibraryProofs2 LibraryProofs3 LibraryProofs4 LibraryProofs5 LibraryProofs6 LibraryProofs7 LibraryProps
  BoundaryModel RebuildModel CrashModel CrashSpec CrashProofs CrashProofs2 CrashProofs3 CrashAppendModel CrashAppendSpec CrashAppendProofs CrashAppendProofs2 CrashAppendProofs3.
From Verif Require Import IndexSpec LibrarySpec.

Section props.
Context (vd dims : nat) (junk : N) (L : lib).
Local Notation session := (session vd dims junk L).
Local Notation reads_as := (reads_as vd dims junk L).
Local Notation ginv := (ginv vd dims junk L).
Local Notation whole := (whole vd dims).

Lemma lib_register_fit S0 l S a s e ov opt null uuid : lib_ok L -> ginv S0 l S -> ok_register vd dims S a s e ov uuid -> is_null_chunk vd a opt null ->
  Forall (fit (kept S0) (whole (ls_chunks S0))) (lib_register_ops vd dims junk a s e ov opt uuid l) /\
  forall l', lib_register vd dims junk L a s e ov opt uuid l = Done l' -> nosq (kept S0) (l_store l').
Proof using.
  intros HL (G1 & G2 & G3 & _) Hok Hnull. pose proof (session_inv vd dims junk L HL _ _ G1) as Hr0. pose proof (lrep_dims _ _ _ _ Hr0) as Hd. destruct Hr0 as (M & sz & H & Hl). destruct Hok.
  destruct or_ids as [Hre Hh]. destruct (nonempty_sub _ _ or_box) as (E1 & E2 & E3 & E4 & E5).
  pose proof or_countable as [Hsm _].
  set (m := mk_meta (if null then all_null else specified) (if null then [] else uuid) (l_next l) s (vwsub e s) ov).
  set (c := Chunk s e ov null (if null then [] else uuid) (ls_cs S) (content_of vd a)).
  destruct or_name as (U1 & U2 & U3 & U4).
  assert (l_next l = ls_handed S) as Hnext. { rewrite (lr_next _ _ _ _ _ _ _ Hl). by apply N.mod_small. }
  assert (length e = length s) as Hlen by apply or_box.
  assert (meta_rep dims m c) as Hr.
  { split; try done.
    - destruct (zip s e) as [|p z] eqn:Ez.
      { destruct s, e; try done. simpl in or_dims. lia. }
      apply meta_new; auto.
      + unfold vwsub. rewrite zip_with_length. lia.
      + destruct e; [simpl in *; lia|]. apply list.Forall_cons in or_fits as [? _]. lia.
      + destruct null; done.
      + by rewrite Hnext.
      + destruct null; [done|]. done.
      + destruct null; [constructor|]. done.
    - apply lr_cs in Hl. done. }
  assert (cm_id m ∉ cm_id <$> M) as Hfresh.
  { intros (m1 & E & Hm1)%elem_of_list_fmap. pose proof (lr_fresh _ _ _ _ _ _ _ Hl Hre) as Hf.
    pose proof (proj1 (list.Forall_forall _ _) Hf m1 Hm1) as Hlt. cbn beta in Hlt. change (cm_id m) with (l_next l) in E. lia. }
  pose (sz' := fun k => if decide (k = cm_id m) then ls_cs S else sz k).
  pose proof (lr_cs _ _ _ _ _ _ _ Hl) as Hcs.
  assert (forall k, acceptable_chunk dims (sz' k)) as Hacc'. { intros k. unfold sz'. destruct (decide _); [done|]. by eapply lr_acc. }
  assert (forall k, is_Some (amap M (ls_chunks S) !! k) -> sz' k = sz k) as Hsz'.
  { intros k [x Hx]. unfold sz'. rewrite decide_False; [done|]. intros ->. by rewrite amap_none in Hx. }
  assert (sinv vd dims (ls_cs S) sz' (l_store l) (amap M (ls_chunks S))) as Hst. { eapply sinv_sz; [exact Hsz'|]. by eapply lr_store. }
  assert (suits vd dims sz' (kept S0) (whole (ls_chunks S0)) (amap M (ls_chunks S))) as HA.
  { intros k m1 c1 b Hk HP. rewrite Hsz' by (by eexists). by eapply suits_amap. }
  assert (forall st, register_new_chunk vd dims junk m a (l_store l) = Done st ->
    Forall (fit (kept S0) (whole (ls_chunks S0))) (register_ops vd dims junk m a (l_store l)) /\ nosq (kept S0) st) as HH.
  { intros st Est. eapply (register_fit vd dims junk (ls_cs S) sz' Hacc' Hd _ _ _ _ m a); [exact Hst|exact G2|exact HA| | | | | |exact Est].
    - cbn [cm_path mk_meta]. intros [Hu (c0 & Hc0 & Ec)]. destruct null; [done|]. apply elem_of_list_lookup in Hc0 as [j Hj]. destruct (G3 j c0 Hj) as (cj & Hcj & Ef & _).
      apply (Forall_lookup_1 _ _ _ _ U4 Hcj). rewrite Ef. exact Ec.
    - by apply amap_none.
    - split; [done|]. split; [|split; [done|]].
      + rewrite (Forall2_length _ _ _ or_shape), zip_with_length. lia.
      + destruct null; [right|left; done]. split; [done|]. split; [done|]. split; [exact (mr_pos _ _ _ Hr)|].
        destruct Hnull as [Hn _]. by destruct (Hn eq_refl).
    - unfold sz'. by rewrite decide_True.
    - intros k m' c' Hk Hne Hp. destruct null; [done|]. exfalso. apply amap_inv in Hk as (i & m1 & c1 & Hm1 & Hc1 & -> & [= -> ->]).
      pose proof (Forall2_lookup_lr _ _ _ _ _ _ (lr_metas _ _ _ _ _ _ _ Hl) Hm1 Hc1) as Hr1. cbn beta in Hr1.
      pose proof (Forall_lookup_1 _ _ _ _ U4 Hc1) as Hf. cbn beta in Hf. apply Hf. rewrite <- (mr_path _ _ _ Hr1). exact Hp. }
  unfold lib_register_ops, lib_register. rewrite (is_null_decided vd a opt null or_float Hnull). cbn [mbind res_bind rdone]. fold m. split.
  - destruct (register_ok vd dims junk (ls_cs S) sz' Hacc' Hd (l_store l) _ m a Hst) as (st & Hreg & Hst' & _).
    { by apply amap_none. }
    { split; [done|]. split; [|split; [done|]].
      + rewrite (Forall2_length _ _ _ or_shape), zip_with_length. lia.
      + destruct null; [right|left; done]. split; [done|]. split; [done|]. split; [exact (mr_pos _ _ _ Hr)|].
        destruct Hnull as [Hn _]. by destruct (Hn eq_refl). }
    { unfold sz'. by rewrite decide_True. }
    { intros k m' c' Hk Hne Hp. destruct null; [done|]. exfalso. apply amap_inv in Hk as (i & m1 & c1 & Hm1 & Hc1 & -> & [= -> ->]).
      pose proof (Forall2_lookup_lr _ _ _ _ _ _ (lr_metas _ _ _ _ _ _ _ Hl) Hm1 Hc1) as Hr1. cbn beta in Hr1.
      pose proof (Forall_lookup_1 _ _ _ _ U4 Hc1) as Hf. cbn beta in Hf. apply Hf. rewrite <- (mr_path _ _ _ Hr1). exact Hp. }
    by destruct (HH _ Hreg).
  - intros l'. destruct (bool_decide _); [|discriminate]. destruct (tree_insert dims L (l_tree l) m) as [t| |]; cbn [mbind res_bind]; try discriminate.
    destruct (register_new_chunk vd dims junk m a (l_store l)) as [st| |] eqn:Est; cbn [mbind res_bind]; try discriminate. intros [= <-]. cbn [l_store]. by destruct (HH _ eq_refl).
Qed.

Lemma lib_append_step S0 l S i c start slice l' : lib_ok L -> ginv S0 l S -> ok_append vd dims S i c start slice -> lib_append vd dims junk 0 start slice l = Done l' ->
  Forall (fit (kept S0) (whole (ls_chunks S0))) (lib_append_ops vd dims junk 0 start slice l) /\ nosq (kept S0) (l_store l') /\
  (forall o, run (disk l, o) (lib_append_ops vd dims junk 0 start slice l) = (disk l', o)) /\ longer (c_val (grown_chunk vd c slice)) (c_val c).
Proof using.
  intros HL (G1 & G2 & G3 & _) Hok El. pose proof (session_inv vd dims junk L HL _ _ G1) as Hr0. pose proof (lrep_dims _ _ _ _ Hr0) as Hd. destruct Hr0 as (M & sz & H & Hl). destruct Hok.
  destruct oa_start as (x & r & -> & Hx & Hcov). destruct (find_ok _ _ _ _ _ _ _ _ _ _ Hl oa_chunk Hcov) as (slot & m & t' & Hm & Hr & Hf & Hl1 & _).
  destruct (lrep_get _ _ _ _ _ _ _ _ _ Hl oa_chunk) as (m1 & Hm1 & _ & Ha & Hsz). assert (m1 = m) as -> by congruence.
  pose proof (mr_dims _ _ _ Hr) as Hsl. pose proof (mr_end_len _ _ _ Hr) as Hel. pose proof (mr_shape_len _ _ _ Hr) as Hkl.
  destruct (c_start c) as [|s0 sr] eqn:Es; [simpl in Hsl; lia|]. destruct (c_end c) as [|e0 er] eqn:Ee; [simpl in Hel; lia|]. cbn in Hx. injection Hx as ->.
  destruct (k_shape (c_val c)) as [|n1 sh] eqn:Ek; [simpl in Hkl; lia|]. destruct oa_shape as [Hal Htl]. destruct (a_shape slice) as [|n2 sh2] eqn:Esl; [simpl in Hal; lia|].
  cbn in Htl. subst sh2. pose proof (mr_box _ _ _ Hr) as [_ HB]. rewrite Es, Ee in HB. pose proof (HB 0%nat s0 x eq_refl eq_refl) as HB0.
  assert (c_end (grown_chunk vd c slice) = (x + N.of_nat n2)%N :: er) as Ege. { unfold grown_chunk. cbn [c_end]. by rewrite Ee, Esl. }
  rewrite Ege in oa_fits. apply list.Forall_cons in oa_fits as [Hfx Hfr].
  pose proof (mr_shape0 _ _ _ Hr oa_ov) as Hcsh. rewrite Ek in Hcsh.
  assert (cm_type m = specified) as Hty. { rewrite (mr_type _ _ _ Hr). by rewrite oa_null. }
  assert (cm_end m = x :: er) as Eme by (by rewrite (mr_end _ _ _ Hr)).
  assert (longer (c_val (grown_chunk vd c slice)) (c_val c)) as Hlg. { eapply longer_concat; [exact Ek|]. cbn. exact Esl. }
  assert (valid_op vd dims (sz (cm_id m)) (amap M (ls_chunks S)) (SAppend m slice)) as Hv.
  { exists (c_val c). rewrite Hsz. rewrite Ek, Esl, Eme. split_and!; auto; try done. }
  pose proof (suits_amap vd dims S0 _ _ _ _ _ Hl G3) as HA.
  assert (suits vd dims sz (kept S0) (whole (ls_chunks S0)) (spec_step vd (amap M (ls_chunks S)) (SAppend m slice))) as HA'.
  { cbn [spec_step]. rewrite Ha. intros k m' c' b Hk [Hne HP] Hb. apply lookup_insert_Some in Hk as [[<- [= <- <-]]|[_ Hk]]; [|by eapply HA].
    change (cm_path (grown m slice)) with (cm_path m) in *. rewrite (mr_path _ _ _ Hr) in *. rewrite Hsz in Hb. eapply whole_at; try done. }
  unfold lib_append in El. unfold lib_append_ops. assert (((x :: r) !! 0%nat ≫= (fun x0 : N => Some (<[0%nat := wsub x0 1]> (x :: r)))) = Some ((x - 1)%N :: r)) as Ei.
  { cbn. rewrite (wsub_small x 1) by lia. done. }
  rewrite Ei in El |- *. cbn [of_opt mbind res_bind] in El |- *. rewrite Hf in El |- *. cbn [mbind res_bind rdone fst snd] in El |- *. rewrite Hty, N.eqb_refl in El |- *. cbn [l_store with_tree] in El |- *.
  destruct (cache_append_slice vd dims junk 0 m slice (l_store l)) as [[m' s']| |] eqn:Eap; cbn [mbind res_bind] in El; try discriminate El.
  match type of El with (of_opt ?q ≫= _) = _ => destruct q as [t|] end; cbn [of_opt mbind res_bind] in El; [|discriminate El]. injection El as <-. cbn [l_store].
  destruct (append_step vd dims junk (ls_cs S) sz (lr_acc _ _ _ _ _ _ _ Hl) Hd (kept S0) (whole (ls_chunks S0)) _ _ _ _ _ _ (lr_store _ _ _ _ _ _ _ Hl) G2 HA HA' Hv Eap) as (F1 & F2 & F3).
  split; [exact F1|]. split; [exact F2|]. split; [|exact Hlg]. intros o. unfold disk. cbn [l_index l_store with_tree]. apply F3.
Qed.

Lemma grown_ok S0 l S : lib_ok L -> grown_since vd dims junk L S0 l S -> ginv S0 l S.
Proof using.
  intros HL. induction 1 as [l ord l' Hl Hord Hf|l S a s e ov opt null uuid l' Hl IH Hok Hn Hr|l S i c start slice l' Hl IH Hok Hr|l S ind v l' Hl IH Hg Hc|l S g l' Hl IH Hg|l S buf is ie os b l' Hl IH Hok Hf].
  - pose proof (sf_flush vd dims junk L _ _ _ _ Hl Hord Hf) as Hs. destruct (since_ok vd dims junk L HL _ _ _ Hs) as (A1 & (la & Hla & Hq) & A3 & _). split; [done|]. split; [|split].
    + exists la. split; [done|]. intros k e Hin E. apply (Hq k e Hin). by rewrite E.
    + apply extends_refl.
    + exists (disk l'). split; [done|]. split; [done|]. intros n [Hne (c & Hc & <-)]. pose proof A3 as (M & sz & H1 & H2 & H3 & H4 & H5 & H6 & H7 & H8). apply elem_of_list_lookup in Hc as [i Hi].
      destruct (Forall2_lookup_r _ _ _ _ _ H1 Hi) as (m & Hm & Hmr). pose proof (amap_lookup _ _ _ _ _ (Forall2_length _ _ _ H1) H4 Hm Hi) as Ha. destruct (H8 _ _ _ Ha) as (_ & _ & _ & Hd).
      destruct Hd as [(_ & _ & f & Hf0 & Hh)|(_ & Hp & _)]; [|by rewrite (mr_path _ _ _ Hmr) in Hp]. exists f. rewrite (mr_path _ _ _ Hmr) in Hf0. split; [exact Hf0|].
      pose proof (session_inv vd dims junk L HL _ _ A1) as (M1 & sz1 & G1 & Hr1). eapply whole_at; [exact Hr1|apply extends_refl|exact Hi|done| |apply longer_refl].
      pose proof (Forall2_lookup_lr _ _ _ _ _ _ H3 Hm Hi) as E. cbn beta in E. by rewrite E in Hh.
  - pose proof IH as (G1 & _). destruct (lib_register_fit _ _ _ _ _ _ _ _ _ _ HL IH Hok Hn) as [F1 F2].
    destruct (register_lstep vd dims junk L any ltac:(by intros []) _ _ _ _ _ _ _ _ (session_quiet vd dims junk L HL _ _ G1) ltac:(by intros []) Hr) as (_ & _ & _ & A4).
    eapply ginv_step; [exact IH|by eapply ss_register|by apply F2| |exact F1|exact A4]. intros i c Hi. exists c. split; [|split_and!; [done|done|apply longer_refl]]. cbn [ls_chunks registered]. by apply lookup_app_l_Some.
  - destruct (lib_append_step _ _ _ _ _ _ _ _ HL IH Hok Hr) as (F1 & F2 & F3 & F4). pose proof IH as (G1 & _).
    eapply ginv_step; [exact IH|by eapply ss_append|exact F2| |exact F1|exact F3]. intros j c0 Hj. cbn [ls_chunks set_chunks]. pose proof (oa_chunk _ _ _ _ _ _ _ Hok) as Hi. destruct (decide (j = i)) as [->|Hne].
    + assert (c0 = c) as -> by congruence. exists (grown_chunk vd c slice). split; [apply list_lookup_insert; by eapply lookup_lt_Some|]. done.
    + exists c0. rewrite list_lookup_insert_ne by done. split; [done|]. split_and!; [done|done|apply longer_refl].
  - destruct Hc as (c & Hc & Hcov & Hn). destruct (get_fit vd dims junk L HL _ _ _ _ _ IH Hc Hcov Hn) as [F1 F2]. pose proof IH as (G1 & _).
    destruct (get_lstep vd dims junk any _ _ _ _ (session_quiet vd dims junk L HL _ _ G1) Hg) as (_ & _ & _ & A4).
    eapply ginv_step; [exact IH|eapply ss_get; eauto|by eapply F2|apply extends_refl|exact F1|exact A4].
  - destruct (geometry_disk _ _ _ _ Hg) as [E1 E2]. pose proof IH as (G1 & G2 & _).
    eapply (ginv_step _ _ _ _ _ _ _ []); [exact IH|by eapply ss_geometry|by rewrite E1|apply extends_refl|constructor|]. intros o. unfold disk. by rewrite E1, E2.
  - destruct (fill_fit vd dims junk L HL _ _ _ _ _ _ _ IH Hok) as [F1 F2]. pose proof IH as (G1 & _).
    destruct (fill_lstep vd dims junk any _ _ _ _ _ _ _ (session_quiet vd dims junk L HL _ _ G1) Hf) as (_ & _ & _ & A4).
    eapply ginv_step; [exact IH|by eapply ss_fill|by eapply F2|apply extends_refl|exact F1|exact A4].
Qed.
Lemma growing_fit S0 l S ops : lib_ok L -> ginv S0 l S -> growing_op vd dims junk l S ops -> Forall (fit (kept S0) (whole (ls_chunks S0))) ops.
Proof using.
  intros HL G Hop. pose proof G as (G1 & _). destruct Hop as [i c start slice Hok|a s e ov opt null uuid Hok Hn|c ind Hc Hcov Hn|buf is ie os Hok].
  - destruct (append_lib_ok vd dims junk L HL l S i c start slice (session_inv vd dims junk L HL _ _ G1) Hok) as (l' & E & _). by destruct (lib_append_step _ _ _ _ _ _ _ _ HL G Hok E).
  - by destruct (lib_register_fit _ _ _ _ _ _ _ _ _ _ HL G Hok Hn).
  - by destruct (get_fit vd dims junk L HL _ _ _ _ _ G Hc Hcov Hn).
  - by destruct (fill_fit vd dims junk L HL _ _ _ _ _ _ _ G Hok).
Qed.

(** * A crash while slices are appended, chunks are registered or elements or ranges are read, or between these operations, that does not
    happen while a chunk file is changed in place: everything that was flushed is still read. *)
Theorem C35_append_between S0 l S ops o w : lib_ok L -> grown_since vd dims junk L S0 l S -> growing_op vd dims junk l S ops -> crashed_between (disk l, o) ops w ->
  reads_as w.1 (ls_chunks S0) /\ w.2 = o.
Proof using.
  intros HL Hl Hop Hc. pose proof (grown_ok _ _ _ HL Hl) as G. pose proof (growing_fit _ _ _ _ HL G Hop) as Hf. destruct G as (G1 & G2 & G3 & d2 & G4 & G5 & G6). split.
  - destruct (fit_between _ _ _ (disk l, o) _ Hf G6 Hc) as [E1 E2]. cbn [fst disk d_index] in E1. eapply (longer_reads vd dims junk L HL _ d2 S0); [exact G4|congruence|done|].
    intros c Hin Hne. destruct (E2 (c_file c)) as (b & Hb & Hw); [by split; [|exists c]|]. destruct (Hw c Hin eq_refl) as (c1 & H1 & H2). eauto 10.
  - clear -Hf Hc. remember (disk l, o) as w0 eqn:E. assert (w0.2 = o) as E2 by (by subst w0). clear E. revert E2. induction Hc as [w ops|w o' ops w' Ht Hnp|w o' ops w' Hc IH]; intros E; [done| |]; apply list.Forall_cons in Hf as [Ho Hf].
    + rewrite <- E. by destruct Ht as [w [] [|p] b b' Hb|w [] [|p] b b'|w [] n b b' Hg Hb|w [] n b b' Hg Hb].
    + apply IH; [done|]. rewrite <- E. by destruct o' as [[] [|p] b|[] [|p] b|[] ?|[] ?|[] ?].
Qed.
(** * Any crash: at most one chunk of those that were flushed is lost.  (And it can be lost: C35_append_refuted.) *)
Theorem C35_append_partial S0 l S ops o w : lib_ok L -> grown_since vd dims junk L S0 l S -> growing_op vd dims junk l S ops -> crashed (disk l, o) ops w ->
  reads_as w.1 (ls_chunks S0) \/ exists i, reads_as w.1 (delete i (ls_chunks S0)).
Proof using.
  intros HL Hl Hop Hc. pose proof (grown_ok _ _ _ HL Hl) as G. pose proof (growing_fit _ _ _ _ HL G Hop) as Hf. destruct G as (G1 & G2 & G3 & d2 & G4 & G5 & G6).
  destruct (fit_crashed _ _ _ (disk l, o) _ Hf G6 Hc) as (E1 & p & E2). cbn [fst disk d_index] in E1.
  assert (forall C, (forall c, c ∈ C -> c ∈ ls_chunks S0 /\ (c_file c = p -> c_file c = [])) -> reads_as w.1 C) as HC.
  { intros C HC. eapply (longer_reads vd dims junk L HL _ d2 S0); [exact G4|congruence|intros c Hin; by apply HC|].
    intros c Hin Hne. destruct (HC c Hin) as [Hin0 Hp]. destruct (E2 (c_file c)) as (b & Hb & Hw); [by split; [|exists c]|auto|]. destruct (Hw c Hin0 eq_refl) as (c1 & H1 & H2). eauto 10. }
  assert ((exists i c, ls_chunks S0 !! i = Some c /\ c_file c = p /\ c_file c <> []) \/ forall c, c ∈ ls_chunks S0 -> c_file c = p -> c_file c = []) as [(i & ci & Hi & Hp & Hne)|Hno].
  { clear. destruct (decide (Exists (fun c => c_file c = p /\ c_file c <> []) (ls_chunks S0))) as [He|He].
    - left. apply Exists_exists in He as (c & Hc & H1 & H2). apply elem_of_list_lookup in Hc as [i Hi]. eauto 10.
    - right. intros c Hc Hp. destruct (decide (c_file c = [])) as [|Hne]; [done|]. exfalso. apply He. apply Exists_exists. eauto. }
  - right. exists i. apply HC. intros c (j & Hj)%elem_of_list_lookup.
    assert (exists k, ls_chunks S0 !! k = Some c /\ k <> i) as (k & Hk & Hki).
    { destruct (decide (j < i)%nat); [rewrite lookup_delete_lt in Hj by done; exists j; split; [done|lia]|rewrite lookup_delete_ge in Hj by lia; exists (Datatypes.S j); split; [done|lia]]. }
    split; [by eapply elem_of_list_lookup_2|]. intros E. destruct (decide (c_file c = [])) as [|Hne2]; [done|]. exfalso. apply Hki.
    destruct (G3 k c Hk) as (ck & Hck & Ek & _). destruct (G3 i ci Hi) as (ci' & Hci & Eci & _). pose proof (session_inv vd dims junk L HL _ _ G1) as (M & sz & H & Hr).
    eapply own_index; [exact Hr|exact Hck|exact Hci|congruence|congruence].
  - left. apply HC. auto.
Qed.
End props.

(** * What is wrong: an append in place (NDVecArrayStreamer.hxx:254-309) first overwrites the header with the new shape (302-304) and then
    writes the data (307-308).  After a crash in between, the file is the first bytes of the new one, as many as the old one had: elements
    that had been flushed cannot be read any more. *)
Definition ca_start : res clib := l ← nv_prog 0 [(10, [1; 2; 3], 7)]%N; lib_flush 1 1 id l.
Definition ca_slice : ndarr N := nv_arr [4; 5]%N.
Definition ca_ops : res (list fop) := l ← ca_start; Done (lib_append_ops 1 1 0%N 0 [13]%N ca_slice l).
Definition ca_old : res (option bytes) := l ← ca_start; Done (s_files (l_store l) !! [7]%N).
Definition ca_torn (b : bytes) : res clib := l ← ca_start; lib_open 1 1 0%N lib0 0 [1%nat] (dset (disk l) (File [7]%N) (Some b)).
Lemma ca_session : exists l, ca_start = Done l /\ grown_since 1 1 0%N lib0 (nv_S [nv_chunk 10 [1; 2; 3]%N 7]) l (nv_S [nv_chunk 10 [1; 2; 3]%N 7]).
Proof.
  destruct (nv_new 0) as (l0 & E0 & H0).
  destruct (nv_register l0 [] 10 [1; 2; 3]%N 7 H0) as (l1 & E1 & H1); [simpl; lia|discriminate|lia|lia|simpl; lia|exact nv_small1|constructor|].
  destruct (flush_ok 1 1 l1 _ id (fun k => reflexivity k) (session_inv 1 1 0%N lib0 lib0_ok _ _ H1)) as (l2 & Hf & _). exists l2. split.
  - unfold ca_start, nv_prog. rewrite E0. cbn [mbind res_bind rfold]. rewrite E1. exact Hf.
  - exact (gs_flush 1 1 0%N lib0 _ l1 id l2 H1 (fun k => reflexivity k) Hf).
Qed.
Lemma ca_append : ok_append 1 1 (nv_S [nv_chunk 10 [1; 2; 3]%N 7]) 0 (nv_chunk 10 [1; 2; 3]%N 7) [13]%N ca_slice.
Proof.
  pose proof C29_hypotheses_nonvacuous as []. split; try done. intros j c' Hj Hne. destruct j as [|j]; [done|]. discriminate Hj.
Qed.
Theorem C35_append_refuted : exists l S0 i c start slice w old new, lib_ok lib0 /\ grown_since 1 1 0%N lib0 S0 l S0 /\ ok_append 1 1 S0 i c start slice /\
  lib_append_ops 1 1 0%N 0 start slice l = [Patch Own (File (c_file c)) new] /\ s_files (l_store l) !! c_file c = Some old /\
  w = (dset (disk l) (File (c_file c)) (Some (take (length old) new)), Dir None ∅) /\
  crashed (disk l, Dir None ∅) (lib_append_ops 1 1 0%N 0 start slice l) w /\ ~ reads_as 1 1 0%N lib0 w.1 (ls_chunks S0).
Proof.
  destruct ca_session as (l & El & Hl).
  assert (exists new, ca_ops = Done [Patch Own (File [7]%N) new] /\ exists old, ca_old = Done (Some old) /\ (ca_torn (take (length old) new) ≫= nv_get 10) = Undef) as (new & Eo & old & Eold & Et).
  { eexists. split; [vm_compute; reflexivity|]. eexists. split; [vm_compute; reflexivity|]. vm_compute. reflexivity. }
  unfold ca_ops in Eo. unfold ca_old in Eold. unfold ca_torn in Et. rewrite El in Eo, Eold, Et. cbn [mbind res_bind] in Eo, Eold, Et. injection Eo as Eo. injection Eold as Eold.
  exists l, (nv_S [nv_chunk 10 [1; 2; 3]%N 7]), 0%nat, (nv_chunk 10 [1; 2; 3]%N 7), [13]%N, ca_slice. eexists. exists old, new.
  split; [apply lib0_ok|]. split; [exact Hl|]. split; [exact ca_append|]. split; [exact Eo|]. split; [exact Eold|]. split; [reflexivity|]. split.
  - rewrite Eo. apply crash_torn. exact (torn_patch (disk l, Dir None ∅) Own (File [7]%N) new _).
  - cbn [fst]. intros Hrd. destruct (Hrd 0%nat [1%nat] nv_accept) as (l2 & El2 & Hg). change (c_file (nv_chunk 10 [1; 2; 3]%N 7)) with [7]%N in El2.
    destruct (Hg (nv_chunk 10 [1; 2; 3]%N 7) [10]%N) as (v & l3 & Hv & _); [left|apply nv_inbox; exists 10%N; split; [done|simpl; lia]|done|].
    change (c_file (nv_chunk 10 [1; 2; 3]%N 7)) with [7]%N in *. rewrite El2 in Et. cbn [mbind res_bind] in Et. unfold nv_get in Et. rewrite Hv in Et. discriminate Et.
Qed.
(** The hypotheses of the theorems: slices have been appended since the last flush, one more is being appended. *)
Example C35_append_nonvacuous : exists l S0 S ops, lib_ok lib0 /\ grown_since 1 1 0%N lib0 S0 l S /\ growing_op 1 1 0%N l S ops /\ S0 <> S /\ ls_chunks S0 = [nv_chunk 10 [1; 2; 3]%N 7] /\
  exists p b, ops = [Patch Own (File p) b].
Proof.
  destruct ca_session as (l & El & Hl). pose proof (grown_ok _ _ _ _ _ _ _ lib0_ok Hl) as (Hs & _).
  destruct (append_lib_ok 1 1 0%N lib0 lib0_ok l _ _ _ _ _ (session_inv 1 1 0%N lib0 lib0_ok _ _ Hs) ca_append) as (l' & E & _).
  pose proof (gs_append 1 1 0%N lib0 _ _ _ _ _ _ _ _ Hl ca_append E) as Hl'.
  set (S := set_chunks (nv_S [nv_chunk 10 [1; 2; 3]%N 7]) (<[0%nat := grown_chunk 1 (nv_chunk 10 [1; 2; 3]%N 7) ca_slice]> (ls_chunks (nv_S [nv_chunk 10 [1; 2; 3]%N 7])))) in *.
  assert (ok_append 1 1 S 0 (grown_chunk 1 (nv_chunk 10 [1; 2; 3]%N 7) ca_slice) [15]%N (nv_arr [6]%N)) as Hok.
  { clear. subst S. split.
    - reflexivity.
    - exists 15%N, []. split; [reflexivity|]. split; [reflexivity|]. apply (nv_inbox 10 5). exists 14%N. split; [reflexivity|lia].
    - reflexivity.
    - reflexivity.
    - apply nv_arr_float. nv_small.
    - split; reflexivity.
    - by constructor.
    - apply nv_aligned.
    - split; [repeat constructor|split; done].
    - intros j c' Hj Hne. destruct j as [|j]; [done|]. discriminate Hj. }
  exists l', (nv_S [nv_chunk 10 [1; 2; 3]%N 7]), S. eexists. split; [apply lib0_ok|]. split; [exact Hl'|]. split; [eapply go_append; exact Hok|]. split.
  - intros H. apply (f_equal (fun x => c_end <$> ls_chunks x)) in H. discriminate H.
  - split; [done|].
    assert (exists b, (l ← ca_start; l' ← lib_append 1 1 0%N 0 [13]%N ca_slice l; Done (lib_append_ops 1 1 0%N 0 [15]%N (nv_arr [6]%N) l')) = Done [Patch Own (File [7]%N) b]) as (b & Eb).
    { eexists. vm_compute. reflexivity. }
    rewrite El in Eb. cbn [mbind res_bind] in Eb. rewrite E in Eb. cbn [mbind res_bind] in Eb. injection Eb as Eb. eauto.
Qed.
Print Assumptions C35_append_between.
Print Assumptions C35_append_partial.
Print Assumptions C35_append_refuted.
