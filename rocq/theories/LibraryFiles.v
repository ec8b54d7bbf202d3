(** The chunk files of an array: every file in its directory belongs to one of its chunks. *)
From stdpp Require Import base list list_numbers numbers option gmap countable sets.
From Coq Require Import NArith Lia.
From Verif Require Import IndexSpec NDArrayModel NDArrayProps StreamerModel StreamerProps NullSupModel CodecModel CacheModel CacheProofs BBoxModel BBoxProps
  RTreeModel RTreeInsert RTreeRebuild RTreeProps ChunkMetaModel ChunkMetaProps ChunkCacheModel ChunkCacheSpec ChunkCacheProofs ChunkCacheProofs2 ChunkCacheProofs3
  LibraryModel LibrarySpec LibraryProofs LibraryProofs2 LibraryProofs3 LibraryProofs4 LibraryProofs5 LibraryProofs6 LibrarySwap LibraryProofs7.
From Verif Require Import IndexSpec LibrarySpec.

Ltac inv_bind H := match type of H with
  | context [of_opt ?x ≫= _] => let E := fresh "E" in destruct x eqn:E; cbn [of_opt mbind res_bind] in H; [|discriminate H]
  | ?x ≫= _ = _ => let E := fresh "E" in destruct x eqn:E; cbn [mbind res_bind] in H; [|discriminate H|discriminate H]
  end.

(** ** The store only writes the files of the chunks it was given *)
Section store.
Context (vd dims : nat) (junk : N) (P : bytes -> Prop).
Definition own (e : centry) : Prop := cm_path (ce_meta e) = [] \/ P (cm_path (ce_meta e)).
Definition tidy_files (f : gmap bytes bytes) : Prop := forall k, is_Some (f !! k) -> P k.
Definition tidyl (s : cstore) (l : list (N * centry)) : Prop := tidy_files (s_files s) /\ cinv (s_cache s) l /\ forall x, x ∈ l -> own x.2.
Definition tidy (s : cstore) : Prop := exists l, tidyl s l.

Lemma cget_inv (c c' : cache N centry) k v l : cinv c l -> cget c k = Some (v, c') -> exists l1 l2, l = l1 ++ (k, v) :: l2 /\ cinv c' (l1 ++ l2 ++ [(k, v)]).
Proof using.
  intros Hc Hg. destruct (decide (k ∈ l.*1)) as [Hk|Hk]; [|by rewrite (cget_None c l k Hc Hk) in Hg].
  apply in_split_fst in Hk as (e & l1 & l2 & ->). destruct (cget_spec _ _ _ _ _ Hc) as (c2 & E & Hc' & _). rewrite E in Hg. injection Hg as -> <-. eauto.
Qed.
Lemma cevict_inv (c c' : cache N centry) k v l : cinv c l -> cevict c k = Some (v, c') -> exists l1 l2, l = l1 ++ (k, v) :: l2 /\ cinv c' (l1 ++ l2).
Proof using.
  intros Hc Hg. destruct (decide (k ∈ l.*1)) as [Hk|Hk]; [|by rewrite (cevict_None c l k Hc Hk) in Hg].
  apply in_split_fst in Hk as (e & l1 & l2 & ->). destruct (cevict_spec _ _ _ _ _ Hc) as (c2 & E & Hc' & _). rewrite E in Hg. injection Hg as -> <-. eauto.
Qed.
Lemma cupdate_inv (c c' : cache N centry) k w l : cinv c l -> cupdate c k w = Some c' -> exists l1 v l2, l = l1 ++ (k, v) :: l2 /\ cinv c' (l1 ++ l2 ++ [(k, w)]).
Proof using.
  intros Hc Hg. destruct (decide (k ∈ l.*1)) as [Hk|Hk]; [|unfold cupdate in Hg; by rewrite (cget_None c l k Hc Hk) in Hg].
  apply in_split_fst in Hk as (e & l1 & l2 & ->). destruct (cupdate_spec _ _ _ _ _ w Hc) as (c2 & E & Hc' & _). rewrite E in Hg. injection Hg as <-. eauto 10.
Qed.
Lemma cinsert_inv (c c' : cache N centry) k v l : cinv c l -> cinsert c k v = Some c' -> cinv c' (l ++ [(k, v)]).
Proof using.
  intros Hc Hg. destruct (decide (k ∈ l.*1)) as [Hk|Hk]; [by rewrite (cinsert_None c l k v Hc (or_introl Hk)) in Hg|].
  destruct (decide (length l < c_depth c)%nat) as [Hd|Hd]; [|rewrite (cinsert_None c l k v Hc) in Hg; [done|right; lia]].
  destruct (cinsert_spec c l k v Hc Hk Hd) as (c2 & E & Hc' & _). rewrite E in Hg. by injection Hg as <-.
Qed.
Lemma coldest_inv (c c' : cache N centry) v l : cinv c l -> cevict_oldest c = Some (v, c') -> exists k l', l = (k, v) :: l' /\ cinv c' l'.
Proof using.
  intros Hc Hg. destruct (decide (length l < c_depth c)%nat) as [Hk|Hk]; [by rewrite (cevict_oldest_None c l Hc Hk) in Hg|].
  pose proof (has_free_slot_spec _ _ Hc) as [_ Hle]. destruct l as [|[k e] l].
  - destruct Hc as (? & ? & _ & _ & _ & Hp & _). cbn in Hk. lia.
  - destruct (cevict_oldest_spec c k e l Hc) as (c2 & E & Hc' & _); [cbn in *; lia|]. rewrite E in Hg. injection Hg as -> <-. eauto.
Qed.


Lemma tidy_insert f k b : tidy_files f -> P k -> tidy_files (<[k := b]> f).
Proof using. intros Hf Hk x. destruct (decide (x = k)) as [->|Hn]; [done|]. rewrite lookup_insert_ne by done. apply Hf. Qed.
Lemma descope_tidy cs e f f' : descope vd dims cs e f = Done f' -> own e -> tidy_files f -> tidy_files f'.
Proof using.
  unfold descope, own. destruct (bool_decide_reflect (cm_path (ce_meta e) = [])) as [Hp|Hp].
  - destruct (_ =? _)%N; [done|]. by intros [= <-].
  - intros H [Ho|Ho]; [done|]. intros Hf. destruct (ce_st e).
    + by injection H as <-.
    + inv_bind H. injection H as <-. by apply tidy_insert.
    + inv_bind H. inv_bind H. injection H as <-. by apply tidy_insert.
Qed.
Lemma sync_tidy e f e' f' : sync_entry vd dims junk e f = Done (e', f') -> own e -> tidy_files f -> tidy_files f' /\ own e'.
Proof using.
  unfold sync_entry, own. intros H Ho Hf. destruct (_ =? _)%N.
  - destruct (ce_st e); [|done|done]. destruct (bool_decide _); [|done]. by injection H as <- <-.
  - inv_bind H. assert (is_Some (f !! cm_path (ce_meta e))) as Hs by eauto. apply Hf in Hs. destruct (ce_st e); [by injection H as <- <-|by injection H as <- <-|].
    inv_bind H. inv_bind H. destruct p as [d r]. injection H as <- <-. split; [by apply tidy_insert|done].
Qed.
Lemma make_room_tidy s s' : make_room vd dims s = Done s' -> tidy s -> tidy s'.
Proof using.
  unfold make_room. destruct (has_free_slot _); [by intros [= <-]|]. intros H (l & Hf & Hc & Ho). inv_bind H. destruct p as [e c].
  destruct (coldest_inv _ _ _ _ Hc E) as (k & l' & -> & Hc'). inv_bind H. injection H as <-. exists l'. split; cbn [s_files s_cache].
  - eapply descope_tidy; eauto. apply (Ho (k, e)). left.
  - split; [done|]. intros y Hy. apply Ho. by right.
Qed.
Lemma insert_tidy m a st s s' : insert_into_cache vd dims junk m a st s = Done s' -> cm_path m = [] \/ P (cm_path m) -> tidy s -> tidy s'.
Proof using.
  unfold insert_into_cache. destruct (ccontains _ _); [done|]. intros H Hm Hs. inv_bind H. apply make_room_tidy in E as (l & Hf & Hc & Ho); [|done].
  inv_bind H. inv_bind H. injection H as <-. exists (l ++ [(cm_id m, CEntry m n st)]). split; [done|]. cbn [s_cache].
  split; [by eapply cinsert_inv|]. intros y. rewrite elem_of_app, elem_of_list_singleton. intros [Hy| ->]; [by apply Ho|done].
Qed.
Lemma flush_keys_tidy ks : forall s l s', flush_keys vd dims ks s = Done s' -> tidyl s l -> ks ≡ₚ l.*1 -> tidyl s' [].
Proof using.
  induction ks as [|k ks IH]; intros s l s' H Hs Hp; cbn [flush_keys] in H.
  - injection H as <-. apply Permutation_nil_l in Hp. destruct l; [|done]. done.
  - inv_bind H. destruct p as [e c]. inv_bind H. destruct Hs as (Hf & Hc & Ho). destruct (cevict_inv _ _ _ _ _ Hc E) as (l1 & l2 & -> & Hc').
    eapply (IH _ (l1 ++ l2)); [exact H| |].
    + split; cbn [s_files s_cache]; [|split; [done|]].
      * eapply descope_tidy; eauto. apply (Ho (k, e)). apply elem_of_app. right. left.
      * intros y [Hx|Hx]%elem_of_app; apply Ho, elem_of_app; [by left|right; by right].
    + rewrite perm_mid in Hp. rewrite list.fmap_cons in Hp. cbn [fst] in Hp. by apply Permutation_cons_inv in Hp.
Qed.
Lemma flush_cache_tidy ord s s' : (forall l, ord l ≡ₚ l) -> flush_cache vd dims ord s = Done s' -> tidy s -> tidyl s' [].
Proof using. intros Hord H (l & Hs). eapply flush_keys_tidy; [exact H|exact Hs|]. rewrite Hord. apply (cinv_contained 1 Nat.lt_0_1), Hs. Qed.
Lemma flush_if_tidy s s' : flush_if_uncached vd dims s = Done s' -> tidy s -> tidy s'.
Proof using. unfold flush_if_uncached. destruct (_ =? _)%nat; [|by intros [= <-]]. intros H Hs. exists []. by apply (flush_cache_tidy id s). Qed.
Lemma register_tidy m a s s' : register_new_chunk vd dims junk m a s = Done s' -> cm_path m = [] \/ P (cm_path m) -> tidy s -> tidy s'.
Proof using. unfold register_new_chunk. intros H Hm Hs. inv_bind H. eapply flush_if_tidy; [exact H|]. by eapply insert_tidy. Qed.
Lemma replace_tidy m m' a s s' : replace_chunk vd dims junk m m' a s = Done s' -> cm_path m' = [] \/ P (cm_path m') -> tidy s -> tidy s'.
Proof using.
  unfold replace_chunk. destruct (_ =? _)%N; [|done]. intros H Hm Hs. inv_bind H. eapply register_tidy; [exact H|done|]. clear H. unfold remove_chunk in E.
  destruct (ccontains _ _); [|by injection E as <-]. inv_bind E. destruct p as [e c]. injection E as <-. destruct Hs as (l & Hf & Hc & Ho). destruct (cevict_inv _ _ _ _ _ Hc E0) as (l1 & l2 & -> & Hc').
  exists (l1 ++ l2). split; [done|]. split; [done|]. intros y [Hx|Hx]%elem_of_app; apply Ho, elem_of_app; [by left|right; by right].
Qed.
Lemma retrieve_tidy m s d s' : retrieve_chunk vd dims junk m s = Done (d, s') -> cm_path m = [] \/ P (cm_path m) -> tidy s -> tidy s'.
Proof using.
  unfold retrieve_chunk. intros H Hm Hs. destruct (ccontains _ _).
  - inv_bind H. destruct p as [e c]. destruct Hs as (l & Hf & Hc & Ho). destruct (cget_inv _ _ _ _ _ Hc E) as (l1 & l2 & -> & Hc').
    assert (own e) as He. { apply (Ho (cm_id m, e)). apply elem_of_app. right. left. }
    assert (forall x, x ∈ l1 ++ l2 ++ [(cm_id m, e)] -> own x.2) as Ho'.
    { intros x. rewrite !elem_of_app, elem_of_list_singleton. intros [Hx|[Hx| ->]]; [apply Ho, elem_of_app; by left|apply Ho, elem_of_app; right; by right|done]. }
    destruct (ce_st e) eqn:Est.
    + injection H as <- <-. eexists. split; [done|]. split; [exact Hc'|done].
    + injection H as <- <-. eexists. split; [done|]. split; [exact Hc'|done].
    + inv_bind H. destruct x as [e' fs]. inv_bind H. injection H as <- <-. destruct (sync_tidy _ _ _ _ E0 He Hf) as [Hfs He'].
      destruct (cupdate_inv _ _ _ _ _ Hc' E1) as (u & v & w & Eu & Hc2). eexists. split; [done|]. split; [exact Hc2|].
      intros y. rewrite !elem_of_app, elem_of_list_singleton. intros [Hx|[Hx| ->]]; [apply Ho'; rewrite Eu; apply elem_of_app; by left|apply Ho'; rewrite Eu; apply elem_of_app; right; by right|done].
  - unfold deserialize_into_cache in H. inv_bind H. apply make_room_tidy in E as (l & Hf & Hc & Ho); [|done]. inv_bind H. inv_bind H. injection H as <- <-.
    eexists. split; [done|]. split; [by eapply cinsert_inv|]. intros y. rewrite elem_of_app, elem_of_list_singleton. intros [Hy| ->]; [by apply Ho|done].
Qed.
Lemma grow_path ax n m m' : grow_chunk ax n m = Some m' -> cm_path m' = cm_path m.
Proof using. unfold grow_chunk. intros H. destruct (vbump ax n (cm_end m)); [|discriminate H]. destruct (vbump ax n (cm_shape m)); [|discriminate H]. by injection H as <-. Qed.
Lemma append_tidy ax m slice s m' s' : cache_append_slice vd dims junk ax m slice s = Done (m', s') -> cm_path m = [] \/ P (cm_path m) -> tidy s -> tidy s'.
Proof using.
  unfold cache_append_slice. destruct (shape_allows_concat _ _ _); [|done]. intros H Hm Hs. inv_bind H. rename c into m1.
  assert (cm_path m1 = cm_path m) as Ep. { destruct (a_shape slice !! ax) as [n|]; [|done]. cbn [mbind option_bind] in E. by apply grow_path in E. }
  rewrite <- Ep in Hm. clear E Ep. destruct (ccontains _ _).
  - inv_bind H. destruct p as [e c]. destruct Hs as (l & Hf & Hc & Ho). destruct (cget_inv _ _ _ _ _ Hc E) as (l1 & l2 & -> & Hc').
    assert (own e) as He. { apply (Ho (cm_id m1, e)). apply elem_of_app. right. left. }
    assert (forall x, x ∈ l1 ++ l2 ++ [(cm_id m1, e)] -> own x.2) as Ho'.
    { intros x. rewrite !elem_of_app, elem_of_list_singleton. intros [Hx|[Hx| ->]]; [apply Ho, elem_of_app; by left|apply Ho, elem_of_app; right; by right|done]. }
    inv_bind H. inv_bind H. injection H as <- <-. eapply flush_if_tidy; [exact E1|]. clear E1.
    assert (forall fs w c1, tidy_files fs -> cupdate c (cm_id m1) w = Some c1 -> ce_meta w = m1 -> tidy (CStore (s_size s) (s_cs s) c1 fs)) as Hup.
    { intros fs w c1 Hfs Hu Hw. destruct (cupdate_inv _ _ _ _ _ Hc' Hu) as (u & v & w' & Eu & Hc2). eexists. split; [done|]. split; [exact Hc2|].
      intros y. rewrite !elem_of_app, elem_of_list_singleton. intros [Hx|[Hx| ->]]; [apply Ho'; rewrite Eu; apply elem_of_app; by left|apply Ho'; rewrite Eu; apply elem_of_app; right; by right|].
      unfold own. cbn [snd]. by rewrite Hw. }
    destruct (ce_st e).
    + inv_bind E0. destruct p as [e1 c1]. destruct (cevict_inv _ _ _ _ _ Hc' E1) as (u & w & Eu & Hc2). eapply insert_tidy; [exact E0|done|]. exists (u ++ w). split; [done|]. split; [done|].
      intros y [Hy|Hy]%elem_of_app; apply Ho'; rewrite Eu; apply elem_of_app; [by left|right; by right].
    + inv_bind E0. inv_bind E0. injection E0 as <-. by eapply Hup.
    + inv_bind E0. destruct x1 as [e1 fs]. assert (tidy_files fs) as Hfs.
      { destruct (_ =? _)%nat; [by injection E1 as <- <-|]. inv_bind E1. destruct x1 as [e2 fs2]. injection E1 as <- <-. by destruct (sync_tidy _ _ _ _ E2 He Hf). }
      inv_bind E0. inv_bind E0. injection E0 as <-. by eapply Hup.
  - inv_bind H. inv_bind H. injection H as <- <-. eapply flush_if_tidy; [exact E0|]. by eapply insert_tidy.
Qed.
End store.

Lemma tidy_mono (P Q : bytes -> Prop) s l : (forall k, P k -> Q k) -> tidyl P s l -> tidyl Q s l.
Proof. intros H (Hf & Hc & Ho). split; [intros k Hk; by apply H, Hf|]. split; [done|]. intros x Hx. destruct (Ho x Hx) as [E|E]; [by left|right; auto]. Qed.

(** ** All histories *)
Definition of_chunks (C : list chunk) (k : bytes) : Prop := k <> [] /\ exists c, c ∈ C /\ c_file c = k.
Section lib.
Context (vd dims : nat) (junk : N) (L : lib) (HL : lib_ok L).
Notation tidy C l := (tidy (of_chunks C) (l_store l)).

Lemma meta_path m c C : meta_rep dims m c -> c ∈ C -> cm_path m = [] \/ of_chunks C (cm_path m).
Proof using. intros Hr Hc. destruct (decide (cm_path m = [])) as [|Hn]; [by left|right]. split; [done|]. exists c. split; [done|]. symmetry. by apply (mr_path _ _ _ Hr). Qed.
Lemma metas_path M C m : Forall2 (meta_rep dims) M C -> m ∈ M -> cm_path m = [] \/ of_chunks C (cm_path m).
Proof using.
  intros HM (i & Hi)%elem_of_list_lookup. destruct (Forall2_lookup_l _ _ _ _ _ HM Hi) as (c & Hc & Hr). eapply meta_path; [exact Hr|]. by eapply elem_of_list_lookup_2.
Qed.
Lemma files_of_lrep l S k : lrep vd dims l S -> tidyl (of_chunks (ls_chunks S)) (l_store l) [] -> of_chunks (ls_chunks S) k -> is_Some (s_files (l_store l) !! k).
Proof using.
  intros (M & sz & H & Hl) (_ & Hc & _) (Hk & c & Hin & <-). apply elem_of_list_lookup in Hin as (i & Hi). destruct (lrep_get _ _ _ _ _ _ _ _ _ Hl Hi) as (m & Hm & Hr & Ha & _).
  destruct (lr_store _ _ _ _ _ _ _ Hl) as (l0 & _ & Hc0 & _ & _ & Hd). destruct (Hd _ _ _ Ha) as (_ & _ & _ & _ & Hdk).
  assert (l0 = []) as ->. { apply (cinv_contained 1 Nat.lt_0_1) in Hc, Hc0. rewrite Hc in Hc0. apply Permutation_nil_l in Hc0. by destruct l0. }
  destruct Hdk as [(_ & _ & f & Hf & _)|(Hn & Hp & _)]; [by apply not_elem_of_nil| |].
  - rewrite <- (mr_path _ _ _ Hr). eauto.
  - rewrite <- (mr_path _ _ _ Hr) in Hk. done.
Qed.
Lemma rfold_tidy {A} (f : A * cstore -> chunk_meta -> res (A * cstore)) P ms : (forall st m st', f st m = Done st' -> m ∈ ms -> LibraryFiles.tidy P st.2 -> LibraryFiles.tidy P st'.2) ->
  forall st st', rfold f st ms = Done st' -> LibraryFiles.tidy P st.2 -> LibraryFiles.tidy P st'.2.
Proof using.
  induction ms as [|m ms IH]; intros Hf st st' H Hs; cbn [rfold] in H; [by injection H as <-|]. inv_bind H. apply (IH) with (st := x); [|done|].
  - intros a b c Hab Hb. apply (Hf a b c Hab). by right.
  - apply (Hf st m x); [done|by left|done].
Qed.

Lemma open_tidy P size cs d l : lib_open vd dims junk L size cs d = Done l -> tidy_files P (d_files d) -> LibraryFiles.tidy P (l_store l).
Proof using.
  unfold lib_open. intros H Hd. inv_bind H. inv_bind H. inv_bind H. injection H as <-. cbn [l_store]. unfold copen in E1.
  destruct (cnew_inv (K := N) (Nat.max 1 size) (CEntry (mk_meta 0 [] 0 [] [] 0) (anew vd junk (replicate dims 1%nat)) Nothing)) as (c2 & Hc & Hi); [lia|].
  rewrite Hc in E1. cbn [mbind option_bind] in E1. injection E1 as <-. exists []. split; [exact Hd|]. split; [exact Hi|]. intros y Hy. destruct (proj1 (elem_of_nil y) Hy).
Qed.
Lemma flush_index_store l l' : flush_index dims l = Done l' -> l_store l' = l_store l.
Proof using. unfold flush_index. intros H. inv_bind H. by injection H as <-. Qed.
Lemma close_tidy P ord l d : (forall k, ord k ≡ₚ k) -> lib_close vd dims ord l = Done d -> LibraryFiles.tidy P (l_store l) -> tidy_files P (d_files d).
Proof using.
  unfold lib_close. intros Hord H Hs. inv_bind H. apply (flush_cache_tidy vd dims P ord) in E; [|done|done]. inv_bind H. apply flush_index_store in E0. injection H as <-. cbn [d_files].
  rewrite E0. apply E.
Qed.

Theorem session_tidy l S : session vd dims junk L l S -> tidy (ls_chunks S) l.
Proof using HL.
  induction 1 as [size cs l Hcs Ho|l0 S ord d size cs l H0 IH Hord Hc Hcs Ho|l S a s e ov opt null uuid l' H0 IH Hok Hn Ho|l S i c start slice l' H0 IH Hok Ho
    |l S l2 S2 ord d move l' d' H0 IH H2 IH2 Hord Hc Hok Ho|l S ind v l' H0 IH Ho (c & Hc & Hcov & Hn)|l S g l' H0 IH Ho|l S ord l' H0 IH Hord Ho|l S ord l' H0 IH Hord Ho|l S ord l' d H0 IH Hord Ho
    |l S buf is ie os b l' H0 IH Hok Ho|l S is ie vs l' H0 IH His Hne Hn Ho
    |l S ind r l' H0 IH Hne Hlen Hsm Ho|l S ms m d l' H0 IH Hms Hm Hty Ho|l S i j l' ds H0 IH Hok Ho].
  - eapply open_tidy; [exact Ho|]. intros k [x Hk]. cbn in Hk. by rewrite lookup_empty in Hk.
  - eapply open_tidy; [exact Ho|]. eapply close_tidy; eauto.
  - unfold lib_register in Ho. destruct (bool_decide _); [|discriminate Ho]. inv_bind Ho. inv_bind Ho. inv_bind Ho. injection Ho as <-. cbn [l_store].
    assert (x = null) as ->.
    { rewrite (is_null_decided vd a opt null (or_float _ _ _ _ _ _ _ _ Hok) Hn) in E. by injection E as <-. }
    eapply register_tidy; [exact E1| |].
    + cbn [cm_path mk_meta]. destruct null; [by left|right]. split; [apply (or_name _ _ _ _ _ _ _ _ Hok)|]. eexists. split; [apply elem_of_app; right; left|done].
    + destruct IH as (l1 & IH). exists l1. eapply tidy_mono; [|exact IH]. intros k (Hk & c & Hc & <-). split; [done|]. exists c. split; [|done]. apply elem_of_app. by left.
  - destruct (session_inv vd dims junk L HL _ _ H0) as (M & sz & H & Hl). pose proof Hok as [Hc Hst _ _ _ _ _ _ _ _]. destruct Hst as (x & r & -> & Hhd & Hcov).
    destruct (find_ok vd dims l S M sz H i c _ Hl Hc Hcov) as (slot & m & t' & Hm & Hr & Hf & _). unfold lib_append in Ho.
    assert (wsub x 1 = (x - 1)%N) as Ex.
    { unfold covers in Hcov. pose proof (mr_fits _ _ _ Hr) as Hfit. destruct (c_end c) as [|y er]; [done|]. injection Hhd as ->. destruct (c_start c) as [|s0 sr]; [by destruct Hcov|].
      apply list.Forall_cons in Hfit as [Hfit _]. pose proof (proj2 (proj2 (proj1 (inbox_at _ _ _) Hcov)) 0%nat ltac:(cbn [length]; lia)) as Hx0. cbn in Hx0. apply wsub_small; lia. }
    change ((x :: r) !! 0%nat) with (Some x) in Ho. cbn [mbind option_bind of_opt res_bind] in Ho. change (<[0%nat := wsub x 1]> (x :: r)) with (wsub x 1 :: r) in Ho. rewrite Ex, Hf in Ho. cbn [mbind res_bind] in Ho. destruct (_ =? _)%N; [|discriminate Ho]. inv_bind Ho. destruct x0 as [m' s']. inv_bind Ho. injection Ho as <-. cbn [l_store].
    eapply append_tidy in E; [|eapply (metas_path M (ls_chunks S)); [by eapply lr_metas|by eapply elem_of_list_lookup_2]|exact IH].
    destruct E as (lc & Htd). exists lc. eapply tidy_mono; [|exact Htd]. intros k (Hk & c1 & Hc1 & <-). split; [done|]. cbn [ls_chunks set_chunks].
    apply elem_of_list_lookup in Hc1 as (i1 & Hc1). destruct (decide (i1 = i)) as [->|Hne].
    + exists (grown_chunk vd c slice). split; [|by replace c1 with c by congruence]. eapply elem_of_list_lookup_2, list_lookup_insert. by eapply lookup_lt_Some.
    + exists c1. split; [|done]. eapply elem_of_list_lookup_2. by rewrite list_lookup_insert_ne.
  - unfold lib_import in Ho. inv_bind Ho. inv_bind Ho. inv_bind Ho. inv_bind Ho. destruct x1 as [s fs]. injection Ho as <- <-. cbn [l_store].
    assert (s = CStore (s_size (l_store l)) (s_cs (l_store l)) (s_cache (l_store l)) (d_files d ∪ s_files (l_store l))) as ->.
    { unfold import_cache in E2. destruct move; [by injection E2 as <- <-|]. destruct (bool_decide _); [by injection E2 as <- <-|discriminate E2]. }
    destruct IH as (lc & Hf & Hc1 & Hown). assert (forall k, of_chunks (ls_chunks S) k -> of_chunks (ls_chunks S ++ ls_chunks S2) k) as Hm1.
    { intros k (Hk & c & Hc' & <-). split; [done|]. exists c. split; [|done]. apply elem_of_app. by left. }
    exists lc. split; cbn [s_files s_cache]; [|split; [done|]].
    + intros k Hk. cbn [ls_chunks imported]. pose proof (close_tidy _ _ _ _ Hord Hc IH2) as Hd. apply lookup_union_is_Some in Hk as [Hk|Hk].
      * destruct (Hd k Hk) as (Hk' & c & Hc' & <-). split; [done|]. exists c. split; [|done]. apply elem_of_app. by right.
      * apply Hm1. by apply Hf.
    + intros y Hy. destruct (Hown y Hy) as [Ey|Ey]; [by left|right]. by apply Hm1.
  - destruct (session_inv vd dims junk L HL _ _ H0) as (M & sz & H & Hl). pose proof Hc as Hc0. apply elem_of_list_lookup in Hc as (i & Hc).
    destruct (find_ok vd dims l S M sz H i c ind Hl Hc Hcov) as (slot & m & t' & Hm & Hr & Hf & _). unfold lib_get in Ho. rewrite Hf in Ho. cbn [mbind res_bind] in Ho. inv_bind Ho. destruct x as [d0 s0].
    inv_bind Ho. injection Ho as <- <-. cbn [l_store with_store]. eapply retrieve_tidy; [exact E|by eapply meta_path|exact IH].
  - unfold lib_geometry in Ho. destruct (l_geo l); [by injection Ho as _ <-|]. inv_bind Ho. by injection Ho as _ <-.
  - unfold lib_flush in Ho. inv_bind Ho. apply flush_index_store in E. inv_bind Ho. injection Ho as <-. cbn [l_store with_store]. rewrite E in E0. exists [].
    by apply (flush_cache_tidy vd dims _ ord _ _ Hord E0).
  - unfold lib_clear in Ho. inv_bind Ho. inv_bind Ho. injection Ho as <-. cbn [l_store]. unfold clear_cache in E0. inv_bind E0. apply (flush_cache_tidy vd dims (of_chunks (ls_chunks S)) ord) in E1; [|done|done].
    injection E0 as <-. exists []. split; [intros k [z Hk]; cbn in Hk; by rewrite lookup_empty in Hk|]. split; [apply E1|]. intros y Hy. destruct (proj1 (elem_of_nil y) Hy).
  - unfold lib_move in Ho. inv_bind Ho. destruct x as [s fs]. inv_bind Ho. apply flush_index_store in E0. injection Ho as <- <-. rewrite E0. cbn [l_store with_store]. unfold move_cache in E. inv_bind E.
    injection E as <- <-. apply (flush_cache_tidy vd dims (of_chunks (ls_chunks S)) ord) in E1; [|done|done]. exists []. split; [cbn [s_files d_files]; rewrite (right_id_L ∅ (∪)); apply E1|]. split; [apply E1|]. intros y Hy. destruct (proj1 (elem_of_nil y) Hy).
  - destruct (session_inv vd dims junk L HL _ _ H0) as (M & sz & H & Hl). destruct (range_ok vd dims l S M sz H is ie Hl) as (Q & Hs & HQ & _); [apply Hok|apply Hok|].
    unfold lib_fill in Ho. destruct (_ && _); [|discriminate Ho]. rewrite Hs in Ho. cbn [of_opt mbind res_bind] in Ho. inv_bind Ho. destruct x as [b0 s0]. injection Ho as <- <-. cbn [l_store with_store].
    refine (rfold_tidy _ _ _ _ _ _ E IH). intros [b1 s1] m [b2 s2] Hfc Hm Hs1. cbn [snd] in *. apply elem_of_list_fmap in Hm as ([m' c] & -> & Hq). apply HQ in Hq as [Hz _]. cbn [fst] in *.
    assert (m' ∈ M) as HmM. { apply elem_of_list_lookup in Hz as (k & Hk). apply lookup_zip_with_Some in Hk as (m2 & c2 & [= <- <-] & Hk & _). by eapply elem_of_list_lookup_2. }
    unfold fill_chunk in Hfc. destruct (_ =? all_null)%N.
    + inv_bind Hfc. injection Hfc as <- <-. exact Hs1.
    + destruct (_ =? specified)%N; [|discriminate Hfc]. inv_bind Hfc. destruct x as [d1 s3]. inv_bind Hfc. injection Hfc as <- <-. eapply retrieve_tidy; [exact E0| |exact Hs1].
      eapply metas_path; [|exact HmM]. by eapply lr_metas.
  - destruct (session_inv vd dims junk L HL _ _ H0) as (M & sz & H & Hl). destruct (range_ok vd dims l S M sz H is ie Hl) as (Q & Hs & HQ & _); [done|done|].
    unfold lib_loop in Ho. rewrite Hs in Ho. cbn [of_opt mbind res_bind] in Ho. inv_bind Ho. destruct x as [b0 s0]. injection Ho as <- <-. cbn [l_store with_store].
    refine (rfold_tidy _ _ _ _ _ _ E IH). intros [b1 s1] m [b2 s2] Hfc Hm Hs1. cbn [snd] in *. apply elem_of_list_fmap in Hm as ([m' c] & -> & Hq). apply HQ in Hq as [Hz _]. cbn [fst] in *.
    assert (m' ∈ M) as HmM. { apply elem_of_list_lookup in Hz as (k & Hk). apply lookup_zip_with_Some in Hk as (m2 & c2 & [= <- <-] & Hk & _). by eapply elem_of_list_lookup_2. }
    unfold loop_chunk in Hfc. inv_bind Hfc. destruct x as [d1 s3]. inv_bind Hfc. inv_bind Hfc. injection Hfc as <- <-. eapply retrieve_tidy; [exact E0| |exact Hs1].
    eapply metas_path; [|exact HmM]. by eapply lr_metas.
  - unfold lib_find in Ho. destruct (search_point (l_tree l) ind) as [[[sl|] t2]|]; cbn [of_opt mbind res_bind] in Ho; [| |discriminate Ho].
    + destruct (payload_at t2 sl) as [m2|]; cbn [of_opt mbind res_bind] in Ho; [|discriminate Ho]. injection Ho as _ <-. exact IH.
    + injection Ho as _ <-. exact IH.
  - destruct (session_inv vd dims junk L HL _ _ H0) as (M & sz & H & Hl). rewrite (lrep_all _ _ _ _ _ _ _ Hl) in Hms. injection Hms as <-. unfold lib_retrieve in Ho. inv_bind Ho. destruct x as [d2 s2]. injection Ho as _ <-.
    cbn [l_store with_store]. eapply retrieve_tidy; [exact E| |exact IH]. eapply metas_path; [|exact Hm]. by eapply lr_metas.
  - destruct (session_inv vd dims junk L HL _ _ H0) as (M & sz & H & Hl). destruct (swap_lib_ok vd dims junk L HL l S i j (ex_intro _ M (ex_intro _ sz (ex_intro _ H Hl))) Hok) as (l2 & ds2 & Ho2 & _ & Hcs).
    rewrite Ho2 in Ho. injection Ho as -> ->. rename Ho2 into Ho.
    assert (forall k, of_chunks (ls_chunks S) k -> of_chunks (ls_chunks (swapped vd S i j ds)) k) as Hsub.
    { intros k (Hk & c & (n & Hn)%elem_of_list_lookup & <-). split; [done|]. destruct (Forall2_lookup_l _ _ _ _ _ Hcs Hn) as (c' & Hc' & Hsw). exists c'. split; [by eapply elem_of_list_lookup_2|].
      cbn [ls_chunks swapped set_chunks] in Hc'. apply lookup_zip_with_Some in Hc' as (c0 & d0 & -> & Hc0 & _). cbn [c_file swapped_chunk]. congruence. }
    cut (tidy (ls_chunks S) l'). { intros (lc & Ht). exists lc. by eapply tidy_mono. }
    unfold lib_swap_traced in Ho. inv_bind Ho. rewrite (lrep_all _ _ _ _ _ _ _ Hl) in Ho. cbn [of_opt mbind res_bind] in Ho. inv_bind Ho. destruct x as [[[[t1 t2] s1] d1] ds1]. injection Ho as <- ->. cbn [l_store].
    pose proof (lr_metas _ _ _ _ _ _ _ Hl) as HM. assert (forall m, m ∈ M -> cm_path m = [] \/ of_chunks (ls_chunks S) (cm_path m)) as HMp by (intros m; by apply metas_path).
    assert (forall m, m ∈ M -> swap_meta i j m = Some (swapped_meta i j m)) as HMs.
    { intros m (n & Hn)%elem_of_list_lookup. destruct (Forall2_lookup_l _ _ _ _ _ HM Hn) as (c & _ & Hr). destruct Hok as [[Hi Hj] _ _]. by eapply swap_meta_ok. }
    clear -E0 IH HMp HMs. revert E0 IH HMp HMs. generalize (l_tree l) r (l_store l) (anew vd junk (replicate dims 1%nat)) (@nil (ndarr N)).
    induction M as [|m M IHM]; intros u1 u2 u3 u4 u5 H Hs HMp HMs; cbn [rfold] in H; [by injection H as -> -> -> -> ->|].
    inv_bind H. destruct x as [[[[v1 v2] v3] v4] v5]. apply (IHM _ _ _ _ _ H); [|intros y Hy; apply HMp; by right|intros y Hy; apply HMs; by right]. clear IHM H.
    unfold swap_chunk in E. inv_bind E. destruct x as [d2 s2]. rewrite (HMs m ltac:(left)) in E. cbn [of_opt mbind res_bind] in E. inv_bind E. inv_bind E. inv_bind E. inv_bind E. injection E as <- <- <- <- <-.
    eapply replace_tidy; [exact E2|apply (HMp m); left|]. eapply retrieve_tidy; [exact E0|apply (HMp m); left|done].
Qed.

(** ** What is in the directory *)
Theorem closed_files l S ord d : (forall k, ord k ≡ₚ k) -> session vd dims junk L l S -> lib_close vd dims ord l = Done d ->
  forall k, is_Some (d_files d !! k) <-> of_chunks (ls_chunks S) k.
Proof using HL.
  intros Hord Hl Hc k. pose proof (session_tidy l S Hl) as Ht. split; [by apply (close_tidy _ _ _ _ Hord Hc Ht)|].
  intros Hk. destruct (close_ok vd dims l S ord Hord (session_inv vd dims junk L HL l S Hl)) as (d2 & Hc2 & Hcl). rewrite Hc2 in Hc. injection Hc as ->.
  destruct Hcl as (M & sz & HM & _ & _ & Hnd & _ & _ & _ & Hdk). destruct Hk as (Hk & c & Hin & <-). apply elem_of_list_lookup in Hin as (i & Hi).
  destruct (Forall2_lookup_r _ _ _ _ _ HM Hi) as (m & Hm & Hr). destruct (Hdk (cm_id m) m (c_val c)) as (_ & _ & _ & Hd).
  { rewrite (amap_lookup _ _ i m c); [done|by eapply Forall2_length|exact Hnd|exact Hm|exact Hi]. }
  destruct Hd as [(_ & _ & f & Hf & _)|(Hn & Hp & _)]; rewrite <- (mr_path _ _ _ Hr) in *; [eauto|done].
Qed.
End lib.
