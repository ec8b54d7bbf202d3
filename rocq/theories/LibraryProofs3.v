(** Proofs about the distributed array, part 3: registering, importing and appending preserve the invariant. *)
From stdpp Require Import base list list_numbers numbers option gmap countable sets.
From Coq Require Import NArith Lia.
From Verif Require Import IndexSpec NDArrayModel NDArrayProofs NDArrayOps NDArrayProps NullSupModel CodecModel StreamerModel StreamerProps CacheModel CacheProofs
  BBoxModel BBoxProps DownsampleModel
  RTreeModel RTreeInsert RTreeRebuild RTreeProps ChunkMetaModel ChunkMetaProps ChunkCacheModel ChunkCacheSpec ChunkCacheProofs ChunkCacheProofs2 ChunkCacheProofs3 ChunkCacheProps
  LibraryModel LibrarySpec LibraryProofs LibraryProofs2.

Lemma wsub_small a b : (b <= a < 2 ^ 64)%N -> wsub a b = (a - b)%N.
Proof. apply wsub_le. Qed.
Lemma wadd_small a b : (a + b < 2 ^ 64)%N -> wadd a b = (a + b)%N.
Proof. intros H. unfold wadd. by apply N.mod_small. Qed.

Definition all_apart (C : list chunk) : Prop :=
  forall i j c c', C !! i = Some c -> C !! j = Some c' -> i <> j -> apart (c_start c) (c_end c) (c_start c') (c_end c').
Lemma apart_sym s1 e1 s2 e2 : apart s1 e1 s2 e2 -> apart s2 e2 s1 e1.
Proof. intros H ind A1 A2. exact (H ind A2 A1). Qed.
Lemma all_apart_app C1 C2 : all_apart C1 -> all_apart C2 ->
  (forall c c', c ∈ C1 -> c' ∈ C2 -> apart (c_start c) (c_end c) (c_start c') (c_end c')) -> all_apart (C1 ++ C2).
Proof.
  intros H1 H2 Hx i j c1 c2 Hc1 Hc2 Hij. apply lookup_app_Some in Hc1 as [Hc1|[Hl1 Hc1]]; apply lookup_app_Some in Hc2 as [Hc2|[Hl2 Hc2]].
  - by eapply (H1 i j).
  - apply Hx; by eapply elem_of_list_lookup_2.
  - apply apart_sym, Hx; by eapply elem_of_list_lookup_2.
  - eapply H2; [exact Hc1|exact Hc2|lia].
Qed.
Lemma all_apart_one c : all_apart [c].
Proof. intros i j c1 c2 Hc1 Hc2 Hij. apply list_lookup_singleton_Some in Hc1 as [-> _], Hc2 as [-> _]. done. Qed.

Section reg.
Context (vd dims : nat) (junk : N) (L : lib) (HL : lib_ok L).
Local Notation lrep := (lrep vd dims).
Local Notation lrep_ := (lrep_ vd dims).

Lemma nonempty_sub s e : nonempty s e -> vwadd s (vwsub e s) = e /\ Forall2 (fun x se => x = se.2 - se.1)%N (vwsub e s) (zip s e) /\
  Forall (fun x => x < 2 ^ 64)%N s /\ Forall (fun x => x < 2 ^ 64)%N e /\ Forall (fun x => x < 2 ^ 64)%N (vwsub e s).
Proof using.
  intros [Hl Hb]. unfold vwadd, vwsub. revert e Hl Hb. induction s as [|x s IH]; intros [|y e] Hl Hb; try done. { split_and!; try done; constructor. } simpl in Hl.
  destruct (IH e) as (I1 & I2 & I3 & I4 & I5); [lia| |].
  { intros i a b Ha Hb'. exact (Hb (S i) a b Ha Hb'). }
  pose proof (Hb 0%nat x y eq_refl eq_refl) as H0. cbn [zip_with]. rewrite wsub_small by lia. rewrite I1. rewrite wadd_small by lia. split_and!.
  - f_equal. lia.
  - constructor; [done|]. apply I2.
  - constructor; [lia|done].
  - constructor; [lia|done].
  - constructor; [lia|done].
Qed.

Lemma shape_check (sh : list nat) s e ov : nonempty s e -> Forall2 (fun n se => N.of_nat n = se.2 - se.1 + 2 * ov)%N sh (zip s e) ->
  Forall (fun n => N.of_nat n < 2 ^ 64)%N sh -> vof_nat sh = (fun x => wadd x (wmul 2 ov)) <$> vwsub e s.
Proof using.
  intros [Hl Hb] HF Hsm. unfold vof_nat, vwsub. revert sh e Hl Hb HF Hsm. induction s as [|x s IH]; intros sh [|y e] Hl Hb HF Hsm; try done.
  - cbn [zip_with] in HF. apply Forall2_nil_inv_r in HF as ->. done.
  - cbn [zip_with] in HF. apply Forall2_cons_inv_r in HF as (n & sh' & Hn & HF & ->). apply list.Forall_cons in Hsm as [Hn2 Hsm]. simpl in Hl.
    rewrite list.fmap_cons. cbn [zip_with]. rewrite list.fmap_cons. f_equal.
    + cbn [fst snd] in Hn. pose proof (Hb 0%nat x y eq_refl eq_refl) as H0. rewrite wsub_small by lia.
      assert (wmul 2 ov = 2 * ov)%N as ->. { unfold wmul. apply N.mod_small. unfold W. lia. }
      rewrite wadd_small; lia.
    + apply IH; auto. intros i a b Ha Hb'. exact (Hb (S i) a b Ha Hb').
Qed.

Lemma is_null_decided a opt null : float_array vd a -> is_null_chunk vd a opt null ->
  (if opt then of_opt (ais_all_null vd is_zero_bits a) else Done false) = Done null.
Proof using.
  intros [Ha _] Hn. unfold is_null_chunk in Hn. destruct opt.
  - destruct (C28_is_all_null_exact vd is_zero_bits a Ha) as (b & Hb & Hiff). rewrite Hb. cbn [of_opt]. f_equal.
    assert (b = true <-> null = true) as E.
    { rewrite Hiff, Hn. split.
      - intros H. split; [done|]. intros x v Hx Hv. unfold null_vector. eapply list.Forall_impl; [exact (H x v Hx Hv)|]. intros z Hz. cbn beta in Hz.
        unfold is_zero_bits in Hz. apply orb_true_iff in Hz as [?%N.eqb_eq|?%N.eqb_eq]; auto.
      - intros [_ H] x v Hx Hv. eapply list.Forall_impl; [exact (H x v Hx Hv)|]. intros z [->| ->]; done. }
    destruct b, null; naive_solver.
  - f_equal. destruct null; [|done]. destruct Hn as [Hn _]. destruct (Hn eq_refl) as [? _]. done.
Qed.

Lemma register_lib_ok l S a s e ov opt null uuid : lrep l S -> ok_register vd dims S a s e ov uuid -> is_null_chunk vd a opt null ->
  exists l', lib_register vd dims junk L a s e ov opt uuid l = Done l' /\ lrep l' (registered vd S a s e ov null uuid).
Proof using HL.
  intros Hl0 Hok Hnull. pose proof (lrep_dims _ _ _ _ Hl0) as Hd. destruct Hl0 as (M & sz & H & Hl). destruct Hok.
  destruct or_ids as [Hre Hh]. destruct (nonempty_sub _ _ or_box) as (E1 & E2 & E3 & E4 & E5).
  pose proof or_countable as [Hsm _].
  set (m := mk_meta (if null then all_null else specified) (if null then [] else uuid) (l_next l) s (vwsub e s) ov).
  set (c := Chunk s e ov null (if null then [] else uuid) (ls_cs S) (content_of vd a)).
  destruct or_name as (U1 & U2 & U3 & U4).
  assert (l_next l = ls_handed S) as Hnext. { rewrite (lr_next _ _ _ _ _ _ _ Hl). by apply N.mod_small. }
  assert (length e = length s) as Hlen by apply or_box.
  assert (meta_rep dims m c) as Hr.
  { split; try done.
    - destruct (zip s e) as [|p z] eqn:Ez.
      { destruct s, e; try done. simpl in or_dims. lia. }
      apply meta_new; auto.
      + unfold vwsub. rewrite zip_with_length. lia.
      + destruct e; [simpl in *; lia|]. apply list.Forall_cons in or_fits as [? _]. lia.
      + destruct null; done.
      + by rewrite Hnext.
      + destruct null; [done|]. done.
      + destruct null; [constructor|]. done.
    - apply lr_cs in Hl. done. }
  assert (cm_end m = e) as Hme by exact E1.
  assert (cm_id m ∉ cm_id <$> M) as Hfresh.
  { intros (m1 & E & Hm1)%elem_of_list_fmap. pose proof (lr_fresh _ _ _ _ _ _ _ Hl Hre) as Hf.
    pose proof (proj1 (list.Forall_forall _ _) Hf m1 Hm1) as Hlt. cbn beta in Hlt. change (cm_id m) with (l_next l) in E. lia. }
  destruct (sim_insert meta0 dims L HL Hd _ _ _ m (item_of m).1 (lr_tree _ _ _ _ _ _ _ Hl) (mr_box_ok _ _ _ Hr)) as (sl & t' & Hi & Hs').
  assert (tree_insert dims L (l_tree l) m = Done t') as Hti. { unfold tree_insert. unfold item_of in Hi. cbn [fst snd] in Hi. by rewrite Hi. }
  pose (sz' := fun k => if decide (k = cm_id m) then ls_cs S else sz k).
  pose proof (lr_cs _ _ _ _ _ _ _ Hl) as Hcs.
  assert (forall k, acceptable_chunk dims (sz' k)) as Hacc'. { intros k. unfold sz'. destruct (decide _); [done|]. by eapply lr_acc. }
  assert (forall k, k ∈ cm_id <$> M -> sz' k = sz k) as Hsz'.
  { intros k Hk. unfold sz'. rewrite decide_False; [done|]. intros ->. done. }
  pose proof (lrep_len _ _ _ _ _ _ _ Hl) as HMlen.
  assert (sinv vd dims (ls_cs S) sz' (l_store l) (amap M (ls_chunks S))) as Hst.
  { eapply sinv_sz; [|by eapply lr_store]. intros k [x Hx]. apply amap_inv in Hx as (i & m1 & c1 & Hm1 & _ & -> & _). apply Hsz'.
    apply elem_of_list_fmap. exists m1. split; [done|]. by eapply elem_of_list_lookup_2. }
  destruct (register_ok vd dims junk (ls_cs S) sz' Hacc' Hd (l_store l) _ m a Hst) as (st & Hreg & Hst' & _).
  { by apply amap_none. }
  { split; [done|]. split; [|split; [done|]].
    - rewrite (Forall2_length _ _ _ or_shape), zip_with_length. lia.
    - destruct null; [right|left; done]. split; [done|]. split; [done|]. split; [exact (mr_pos _ _ _ Hr)|].
      destruct Hnull as [Hn _]. by destruct (Hn eq_refl). }
  { unfold sz'. by rewrite decide_True. }
  { intros k m' c' Hk Hne Hp. destruct null; [done|]. exfalso. apply amap_inv in Hk as (i & m1 & c1 & Hm1 & Hc1 & -> & [= -> ->]).
    pose proof (Forall2_lookup_lr _ _ _ _ _ _ (lr_metas _ _ _ _ _ _ _ Hl) Hm1 Hc1) as Hr1. cbn beta in Hr1.
    pose proof (Forall_lookup_1 _ _ _ _ U4 Hc1) as Hf. cbn beta in Hf. apply Hf. rewrite <- (mr_path _ _ _ Hr1). exact Hp. }
  eexists. split.
  { unfold lib_register. rewrite bool_decide_true by (by apply shape_check). rewrite (is_null_decided a opt null or_float Hnull). cbn [mbind res_bind].
    fold m. rewrite Hti. cbn [mbind res_bind]. rewrite Hreg. reflexivity. }
  exists (M ++ [m]), sz', (H ++ [(item_of m).1]).
  split; cbn [ls_chunks ls_cs l_tree l_store ls_handed ls_reopened l_next l_geo registered].
  - apply Forall2_app; [by eapply lr_metas|]. by constructor.
  - done.
  - done.
  - apply Forall2_app; [|constructor; [|constructor]; unfold sz'; by rewrite decide_True].
    apply Forall2_same_length_lookup_2; [done|]. intros i m1 c1 Hm1 Hc1. rewrite Hsz'.
    + exact (Forall2_lookup_lr _ _ _ _ _ _ (lr_sz _ _ _ _ _ _ _ Hl) Hm1 Hc1).
    + apply elem_of_list_fmap. exists m1. split; [done|]. by eapply elem_of_list_lookup_2.
  - rewrite fmap_app. exact Hs'.
  - intros h [Hh1|Hh1]%elem_of_app.
    + destruct (lr_hist _ _ _ _ _ _ _ Hl h Hh1) as (c1 & Hc1 & Hw). exists c1. split; [set_solver|done].
    + apply elem_of_list_singleton in Hh1 as ->. exists c. split; [set_solver|]. unfold item_of. cbn [fst]. rewrite Hme. apply within_refl.
  - fold c. rewrite (amap_snoc M (ls_chunks S) m c HMlen Hfresh). exact Hst'.
  - rewrite fmap_app. apply NoDup_app. split_and!; [by eapply lr_ids| |apply NoDup_singleton].
    intros k Hk Hk2. apply elem_of_list_singleton in Hk2 as ->. done.
  - apply (all_apart_app (ls_chunks S) [c]); [exact (lr_apart _ _ _ _ _ _ _ Hl)|apply all_apart_one|].
    intros c1 c2 Hc1 Hc2%elem_of_list_singleton. subst c2. apply apart_sym. exact (proj1 (list.Forall_forall _ _) or_apart c1 Hc1).
  - intros _. apply Forall_app. split.
    + eapply list.Forall_impl; [exact (lr_fresh _ _ _ _ _ _ _ Hl Hre)|]. intros m1 Hm1. cbn beta in *. lia.
    + constructor; [|constructor]. change (cm_id m) with (l_next l). lia.
  - by rewrite Hnext.
  - lia.
  - done.
Qed.

(** ** Importing *)
Definition set_id (m : chunk_meta) (id : N) : chunk_meta :=
  ChunkMeta (cm_type m) (cm_path m) id (cm_pos m) (cm_shape m) (cm_start m) (cm_end m) (cm_overlap m) (cm_off m).
Lemma renumber_spec ms base : (base + N.of_nat (length ms) <= 2 ^ 32)%N ->
  length (renumber (base mod 2 ^ 32) ms) = length ms /\
  forall i m, ms !! i = Some m -> renumber (base mod 2 ^ 32) ms !! i = Some (set_id m (base + N.of_nat i)).
Proof using.
  revert base. induction ms as [|m ms IH]; intros base Hb; [done|]. change (length (m :: ms)) with (S (length ms)) in *.
  destruct (IH (base + 1)%N) as [I1 I2]; [lia|].
  assert ((base mod 2 ^ 32 + 1) mod 2 ^ 32 = (base + 1) mod 2 ^ 32)%N as E by (by rewrite N.add_mod_idemp_l).
  cbn [renumber]. rewrite E. split; [by rewrite <- I1|]. intros [|i] m' Hm'.
  - cbn in Hm'. injection Hm' as <-. cbn. unfold set_id. rewrite N.mod_small by lia. by rewrite N.add_0_r.
  - cbn in Hm'. transitivity (renumber ((base + 1) mod 2 ^ 32) ms !! i); [reflexivity|]. rewrite (I2 i m' Hm'). do 2 f_equal. lia.
Qed.
Lemma renumber_inv ms base i m' : (base + N.of_nat (length ms) <= 2 ^ 32)%N -> renumber (base mod 2 ^ 32) ms !! i = Some m' ->
  exists m, ms !! i = Some m /\ m' = set_id m (base + N.of_nat i).
Proof using.
  intros Hb Hm'. destruct (renumber_spec ms base Hb) as [H1 H2]. destruct (lookup_lt_is_Some_2 ms i) as [m Hm].
  { rewrite <- H1. by eapply lookup_lt_Some. }
  exists m. split; [done|]. specialize (H2 i m Hm). congruence.
Qed.
Lemma set_id_rep m c id : meta_rep dims m c -> (id < 2 ^ 32)%N -> meta_rep dims (set_id m id) c.
Proof using. intros [] Hid. split; try done. by apply meta_id. Qed.

Lemma import_lib_ok l S d S2 move : lrep l S -> closed vd dims d S2 -> ok_import S S2 l d ->
  exists l' d', lib_import dims L d move l = Done (l', d') /\ lrep l' (imported S S2) /\ d' = if move then Dir None ∅ else d.
Proof using HL.
  intros Hl0 (M2 & sz2 & HM2 & Hacc2 & Hsz2 & Hids2 & Hcnt2 & Hap2 & Hix2 & Hdk2) Hok. pose proof (lrep_dims _ _ _ _ Hl0) as Hd.
  destruct Hl0 as (M & sz & H & Hl). destruct Hok. destruct oi_ids as [Hre Hh].
  pose proof (Forall2_length _ _ _ HM2) as Hlen2. pose proof (lrep_len _ _ _ _ _ _ _ Hl) as Hlen.
  set (base := ls_handed S) in *. rewrite <- Hlen2 in Hh. set (C := ls_chunks S) in *. set (C2 := ls_chunks S2) in *.
  destruct (renumber_spec M2 base Hh) as [Hrl Hrn]. set (R := renumber (base mod 2 ^ 32) M2) in *.
  assert (Forall2 (meta_rep dims) R C2) as HR.
  { apply Forall2_same_length_lookup_2; [lia|]. intros i m' c Hm' Hc. destruct (renumber_inv M2 base i m' Hh Hm') as (m & Hm & ->).
    apply set_id_rep; [exact (Forall2_lookup_lr _ _ _ _ _ _ HM2 Hm Hc)|]. pose proof (lookup_lt_Some _ _ _ Hm). lia. }
  assert (Forall (fun m => box_ok dims (item_of m).1) R) as Hbs.
  { clear -HR. induction HR; constructor; auto. by eapply mr_box_ok. }
  assert (Forall (coherent dims) M2) as Hco.
  { clear -HM2. induction HM2 as [|? ? ? ? Hr]; constructor; auto. apply coherent_of, Hr. }
  destruct (insert_all dims L HL (l_tree l) M H R Hd (lr_tree _ _ _ _ _ _ _ Hl) Hbs) as (t & Ht & Hst).
  assert (forall k, k ∈ cm_id <$> R -> (base <= k)%N) as Hge.
  { intros k (m & -> & (i & Hi)%elem_of_list_lookup)%elem_of_list_fmap. destruct (renumber_inv M2 base i m Hh Hi) as (m1 & _ & ->). cbn. lia. }
  assert (forall k, k ∈ cm_id <$> M -> (k < base)%N) as Hlt.
  { intros k (m & -> & Hm)%elem_of_list_fmap. exact (proj1 (list.Forall_forall _ _) (lr_fresh _ _ _ _ _ _ _ Hl Hre) m Hm). }
  assert (NoDup (cm_id <$> R)) as HndR.
  { apply NoDup_alt. intros i j k Hi Hj. rewrite list_lookup_fmap_Some in Hi. rewrite list_lookup_fmap_Some in Hj.
    destruct Hi as (mi & Hi & ->). destruct Hj as (mj & Hj & E).
    destruct (renumber_inv M2 base i mi Hh Hi) as (m1 & _ & ->). destruct (renumber_inv M2 base j mj Hh Hj) as (m2 & _ & ->). cbn in E. lia. }
  pose (sz' := fun k => if decide (k < base)%N then sz k else default (ls_cs S) (c_ser <$> C2 !! N.to_nat (k - base))).
  pose proof (lr_cs _ _ _ _ _ _ _ Hl) as Hcs.
  assert (forall k, acceptable_chunk dims (sz' k)) as Hacc'.
  { intros k. unfold sz'. destruct (decide _); [by eapply lr_acc|]. destruct (C2 !! _) as [c|] eqn:E; [|done]. cbn.
    destruct (Forall2_lookup_r _ _ _ _ _ HR E) as (m & _ & Hr). apply Hr. }
  assert (forall k, k ∈ cm_id <$> M -> sz' k = sz k) as Hszl. { intros k Hk. unfold sz'. rewrite decide_True; [done|auto]. }
  assert (Forall2 (fun m c => sz' (cm_id m) = c_ser c) R C2) as HszR.
  { apply Forall2_same_length_lookup_2; [lia|]. intros i m' c Hm' Hc. destruct (renumber_inv M2 base i m' Hh Hm') as (m & Hm & ->).
    unfold sz'. cbn [cm_id set_id]. rewrite decide_False by lia. replace (N.to_nat (base + N.of_nat i - base)) with i by lia. by rewrite Hc. }
  assert (sinv vd dims (ls_cs S) sz' (l_store l) (amap M C)) as Hst0.
  { eapply sinv_sz; [|by eapply lr_store]. intros k [x Hx]. apply amap_inv in Hx as (i & m1 & c1 & Hm1 & _ & -> & _). apply Hszl.
    apply elem_of_list_fmap. exists m1. split; [done|]. by eapply elem_of_list_lookup_2. }
  assert (linv vd dims (ls_cs S) sz' [] (d_files d) (amap R C2)) as Hlinv.
  { apply linv_nil. intros k m' v Hk. apply amap_inv in Hk as (i & m1 & c & Hm1 & Hc & -> & [= -> ->]).
    destruct (renumber_inv M2 base i m1 Hh Hm1) as (m & Hm & ->). pose proof (amap_lookup M2 C2 i m c Hlen2 Hids2 Hm Hc) as Hk2.
    destruct (Hdk2 _ _ _ Hk2) as (_ & Hown & Hkl & Hdk). split; [done|]. split; [|split; [done|]].
    - intros k m' v' Hk' Hne Hp. apply amap_inv in Hk' as (j & mj' & cj & Hmj' & Hcj & -> & [= -> ->]).
      destruct (renumber_inv M2 base j mj' Hh Hmj') as (mj & Hmj & ->). cbn [cm_path set_id] in *.
      eapply (Hown (cm_id mj) mj); [exact (amap_lookup M2 C2 j mj cj Hlen2 Hids2 Hmj Hcj)| |done].
      intros E. apply Hne. cbn [cm_id set_id]. f_equal. f_equal.
      refine (NoDup_lookup _ _ _ _ Hids2 _ _); rewrite list_lookup_fmap_Some; [exists mj|exists m]; eauto.
    - destruct Hdk as [(T1 & T2 & f & Tf & Tfh)|Hnc]; [|by right]. left. split; [done|]. split; [done|]. exists f. split; [done|].
      pose proof (Forall2_lookup_lr _ _ _ _ _ _ HszR Hm1 Hc) as E1. cbn beta in E1. rewrite E1.
      pose proof (Forall2_lookup_lr _ _ _ _ _ _ Hsz2 Hm Hc) as E2. cbn beta in E2. by rewrite <- E2. }
  assert (amap M C ##ₘ amap R C2) as Hdisj.
  { apply map_disjoint_spec. intros k x y Hx Hy. apply amap_inv in Hx as (i & m1 & c1 & Hm1 & _ & -> & _). apply amap_inv in Hy as (j & m2 & c2 & Hm2 & _ & E & _).
    assert (cm_id m1 < base)%N. { apply Hlt, elem_of_list_fmap. exists m1. split; [done|]. by eapply elem_of_list_lookup_2. }
    assert (base <= cm_id m2)%N; [|lia]. apply Hge, elem_of_list_fmap. exists m2. split; [done|]. by eapply elem_of_list_lookup_2. }
  destruct (import_cache_ok vd dims (ls_cs S) sz' (d_files d) move (l_store l) (amap M C) (amap R C2) Hst0 Hlinv oi_files Hdisj) as (s' & Himp & Hs').
  { intros k m c k' m' c' Hk Hk' Hp. apply amap_inv in Hk as (i & m1 & c1 & Hm1 & Hc1 & -> & [= -> ->]).
    apply amap_inv in Hk' as (j & m2 & c2 & Hm2 & Hc2 & -> & [= -> ->]).
    pose proof (Forall2_lookup_lr _ _ _ _ _ _ (lr_metas _ _ _ _ _ _ _ Hl) Hm1 Hc1) as Hr1. cbn beta in Hr1.
    pose proof (Forall2_lookup_lr _ _ _ _ _ _ HR Hm2 Hc2) as Hr2. cbn beta in Hr2.
    rewrite (mr_path _ _ _ Hr1) in *. rewrite (mr_path _ _ _ Hr2) in Hp. eapply oi_names; [| |exact Hp]; by eapply elem_of_list_lookup_2. }
  eexists _, _. split.
  { unfold lib_import. rewrite Hix2. cbn [of_opt mbind res_bind]. rewrite read_back by done. cbn [mbind res_bind].
    rewrite (lr_next _ _ _ _ _ _ _ Hl). fold base. fold R. rewrite Ht. cbn [mbind res_bind]. rewrite Himp. cbn [mbind res_bind]. reflexivity. }
  split; [|destruct move; [done|]; rewrite <- Hix2; by destruct d].
  exists (M ++ R), sz', (H ++ ((fun m => (item_of m).1) <$> R)). fold C in Hl.
  split; cbn [ls_chunks ls_cs l_tree l_store ls_handed ls_reopened l_next l_geo imported]; fold C C2.
  - apply Forall2_app; [by eapply lr_metas|done].
  - done.
  - done.
  - apply Forall2_app; [|done].
    apply Forall2_same_length_lookup_2; [done|]. intros i m1 c1 Hm1 Hc1. rewrite Hszl.
    + exact (Forall2_lookup_lr _ _ _ _ _ _ (lr_sz _ _ _ _ _ _ _ Hl) Hm1 Hc1).
    + apply elem_of_list_fmap. exists m1. split; [done|]. by eapply elem_of_list_lookup_2.
  - exact Hst.
  - intros h [Hh1|Hh1]%elem_of_app.
    + destruct (lr_hist _ _ _ _ _ _ _ Hl h Hh1) as (c1 & Hc1 & Hw). exists c1. split; [apply elem_of_app; by left|done].
    + destruct (boxes_hist dims R C2 HR h Hh1) as (c1 & Hc1 & Hw). exists c1. split; [apply elem_of_app; by right|done].
  - rewrite amap_app by done. exact Hs'.
  - rewrite fmap_app. apply NoDup_app. split_and!; [by eapply lr_ids| |done]. intros k Hk1 Hk2. specialize (Hlt k Hk1). specialize (Hge k Hk2). lia.
  - apply (all_apart_app C C2); [exact (lr_apart _ _ _ _ _ _ _ Hl)|exact Hap2|]. intros c c' Hc Hc'. by apply oi_apart.
  - intros _. apply Forall_app. split.
    + eapply list.Forall_impl; [exact (lr_fresh _ _ _ _ _ _ _ Hl Hre)|]. intros m1 Hm1. cbn beta in *. fold base in Hm1. lia.
    + apply Forall_lookup_2. intros i m' Hm'. destruct (renumber_inv M2 base i m' Hh Hm') as (m & Hm & ->). cbn [cm_id set_id].
      pose proof (lookup_lt_Some _ _ _ Hm). fold base. lia.
  - fold base. rewrite <- Hlen2. by rewrite N.add_mod_idemp_l.
  - fold base. lia.
  - done.
Qed.
End reg.
