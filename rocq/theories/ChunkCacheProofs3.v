(** Proofs about the chunk store: every operation refines the specification. *)
From stdpp Require Import base list list_numbers numbers option gmap countable sets.
From Coq Require Import NArith Lia.
From Verif Require Import IndexSpec LoopsModel LoopsProofs NDArrayModel NDArrayProofs NDArrayOps NDArrayOps2 NDArrayOps3 NDArrayProps
  CodecModel StreamerModel StreamerProofs StreamerProofs2 StreamerProps CacheModel CacheProofs BBoxModel
  ChunkMetaModel ChunkCacheModel ChunkCacheSpec ChunkCacheProofs ChunkCacheProofs2.

Section ops.
Context (vd dims : nat) (junk : N) (cs : list nat) (sz : N -> list nat) (Hacc : forall k, acceptable_chunk dims (sz k)) (Hdims : (0 < dims)%nat).
Notation sstate := (gmap N (chunk_meta * content)).
Notation sinv := (sinv vd dims cs sz).
Notation sinvl := (sinvl vd dims cs sz).
Notation on_disk := (on_disk vd dims sz).
Notation entry_ok := (entry_ok vd dims cs sz).
Notation ok_chunk := (ok_chunk vd dims cs).

Lemma ok_chunk_entry m a d files : ok_chunk m a -> sz (cm_id m) = cs -> float_array vd d -> holds vd d (content_of vd a) ->
  entry_ok (CEntry m d Serialize) m (content_of vd a) files.
Proof.
  intros (Hfa & Hl & Hct & Hty) Hszm Hfd Hd. split; [done|]. split; [apply Hfd|]. cbn [ce_st ce_data]. split_and!; auto.
  destruct Hty as [Hty|(H1 & H2 & H4 & H5)]; [by left|right]. split_and!; auto. intros x Hx.
  destruct (aread_Some vd a x) as (v & Hv & Hlv); [by apply wf_owned_wf, api_array_wf, Hfa|done|].
  simpl. rewrite Hv. simpl. split; [|done]. by eapply H5.
Qed.

Lemma register_ok s A m a : sinv s A -> A !! cm_id m = None -> ok_chunk m a -> sz (cm_id m) = cs -> own_file A m ->
  exists s', register_new_chunk vd dims junk m a s = Done s' /\ sinv s' (<[cm_id m := (m, content_of vd a)]> A) /\ s_size s' = s_size s.
Proof.
  intros [l Hs] Hnone Hok Hszm Hown. pose proof Hok as (Hfa & Hl & _).
  assert (cm_id m ∉ l.*1) as Hk.
  { intros H. apply in_split_fst in H as (e & u & v & ->). destruct Hs as (_ & _ & _ & [H1 _]).
    destruct (H1 (cm_id m) e) as [y Hy]; [apply elem_of_app; right; left|]. congruence. }
  destruct (insert_into_cache_ok vd dims junk cs sz Hacc Hdims s l A m a Serialize Hs Hk Hfa) as (s1 & l1 & d & c' & Hs1 & Hk1 & Hfd & Hhd & Hsz & Hc' & Hdep & Hins).
  unfold register_new_chunk. rewrite Hins. cbn [mbind res_bind].
  destruct (flush_if_uncached_ok vd dims cs sz Hacc Hdims (CStore (s_size s1) cs c' (s_files s1)) (<[cm_id m := (m, content_of vd a)]> A)) as (s' & Hf & Hs' & Hsz').
  - eexists. split; [done|]. split; [exact Hc'|]. split; [done|]. apply linv_insert; auto; [apply Hs1|].
    apply ok_chunk_entry; auto. apply Hhd. apply holds_content_of, Hfa.
  - exists s'. split_and!; auto. simpl in Hsz'. congruence.
Qed.

Lemma remove_ok s A m : sinv s A -> exists s', remove_chunk m s = Done s' /\ sinv s' (delete (cm_id m) A) /\ s_size s' = s_size s.
Proof.
  intros [l (Hscs & Hc & Hdep & Hinv)]. unfold remove_chunk. rewrite (ccontains_spec _ _ _ Hc).
  destruct (bool_decide_reflect (cm_id m ∈ l.*1)) as [Hk|Hk].
  - apply in_split_fst in Hk as (e & l1 & l2 & ->). destruct (cevict_spec _ _ _ _ _ Hc) as (c' & Hev & Hc' & Hd').
    rewrite Hev. cbn [of_opt mbind res_bind]. eexists. split; [reflexivity|]. split; [|done]. exists (l1 ++ l2). split_and!; auto; [simpl; congruence|].
    apply linv_delete with (e := e); [apply nodup_mid; by eapply cinv_nodup|]. by eapply linv_perm; [apply perm_mid|].
  - exists s. split; [done|]. split; [|done]. exists l. split_and!; auto. by apply linv_delete_out.
Qed.

Lemma replace_ok s A m m' a : sinv s A -> cm_id m' = cm_id m -> ok_chunk m' a -> sz (cm_id m') = cs -> own_file A m' ->
  exists s', replace_chunk vd dims junk m m' a s = Done s' /\ sinv s' (<[cm_id m' := (m', content_of vd a)]> A) /\ s_size s' = s_size s.
Proof.
  intros Hs Hid Hok Hszm Hown. unfold replace_chunk. rewrite Hid, N.eqb_refl.
  destruct (remove_ok s A m Hs) as (s1 & Hr & Hs1 & Hsz). rewrite Hr. cbn [mbind res_bind].
  destruct (register_ok s1 (delete (cm_id m) A) m' a Hs1) as (s' & Hre & Hs' & Hsz'); auto.
  - rewrite Hid. apply lookup_delete.
  - intros k m2 c2 Hk. apply lookup_delete_Some in Hk as [_ Hk]. by apply (Hown k m2 c2).
  - exists s'. split; [done|]. split; [|congruence]. rewrite Hid, insert_delete_insert in Hs'. done.
Qed.

Lemma on_disk_words m c files : on_disk m c files -> forall x, in_shape (k_shape c) x -> Forall (fun b => b < 2 ^ 32)%N (k_at c x).
Proof.
  intros [(_ & _ & f & _ & Hf)|(_ & _ & _ & Hn)] x Hx; [by eapply file_words|].
  destruct (Hn x Hx) as [Hv _]. eapply list.Forall_impl; [exact Hv|]. intros b [->| ->]; done.
Qed.
Lemma returns_float d c : api_array vd d -> returns vd d c -> (forall x, in_shape (k_shape c) x -> Forall (fun b => b < 2 ^ 32)%N (k_at c x)) -> float_array vd d.
Proof.
  intros Ha [Hs Hr] Hw. split; [done|]. apply (data_from_reads _ vd); [done|]. intros x v Hx Hv. rewrite Hs in Hx.
  destruct (Hr x Hx) as (v' & Hv' & Hcb). assert (v' = v) as -> by congruence. destruct Hcb as [->|(_ & _ & ->)]; [by apply Hw|].
  apply Forall_replicate. done.
Qed.
Lemma holds_returns d c : holds vd d c -> returns vd d c.
Proof. intros [Hs Hr]. split; [done|]. intros x Hx. eexists. split; [by apply Hr|]. by left. Qed.

Lemma load_chunk_ok m c files : length (k_shape c) = dims -> on_disk m c files -> readable m c ->
  exists d, load_chunk vd dims junk m files = Done d /\ api_array vd d /\ returns vd d c.
Proof.
  intros Hl Hd Hrd0. unfold load_chunk.
  assert (replicate dims 1%nat <> []) as Hne by (destruct dims; [lia|done]).
  destruct Hd as [(Ht & Hp & f & Hf & Hfh)|(Ht & Hp & Hpos & Hn)].
  - rewrite Ht, N.eqb_refl, Hf. cbn [of_opt mbind res_bind].
    destruct (file_read vd dims (sz (cm_id m)) (Hacc _) Hdims f c (anew vd junk (replicate dims 1%nat)) junk Hfh) as (d & Hde & Hda & Hret); [by apply api_new|].
    rewrite Hde. cbn [of_opt mbind res_bind]. exists d. done.
  - assert ((N.to_nat <$> cm_shape m) = k_shape c) as Hs by (destruct Hrd0 as [Hx|Hx]; [by rewrite Ht in Hx|done]).
    rewrite Ht. change (all_null =? specified)%N with false. rewrite N.eqb_refl, Hs. cbn match.
    assert (exists t, aresize vd junk (k_shape c) (anew vd junk (replicate dims 1%nat)) = Some t) as [t Htt] by (unfold aresize; simpl; eauto).
    rewrite Htt. cbn [of_opt mbind res_bind].
    assert (k_shape c <> []) as Hnc by (destruct (k_shape c); [simpl in Hl; lia|done]).
    pose proof (aresize_wf _ _ _ _ _ Hnc Htt) as [Hwft Hst].
    assert (api_array vd t) as Hat by (eapply api_resize; [exact Hnc| |exact Htt]; by apply api_new).
    unfold aassign_val. rewrite Hst.
    assert (Forall2 lt (replicate (length (k_shape c)) 0%nat) (k_shape c)) as Hlt.
    { clear -Hpos. induction Hpos; simpl; constructor; auto. }
    assert (Forall2 le (k_shape c) (a_shape t)) as Hle by (rewrite Hst; apply Forall2_same_length_lookup_2; [done|]; intros i x y Hx Hy; assert (x = y) by congruence; lia).
    destruct (afill_spec vd t (replicate (length (k_shape c)) 0%nat) (k_shape c) 0%N Hwft Hlt Hle) as (d & Hd & Hwfd & Hsd & Hrd).
    rewrite Hd. exists d. split; [done|]. split; [eapply api_fill; eauto|]. split; [congruence|]. intros x Hx. rewrite Hst in Hrd.
    rewrite Hrd by done. rewrite decide_True by exact Hx. eexists. split; [reflexivity|]. destruct (Hn x Hx) as [Hv Hlv].
    right. split; [done|]. split; [done|]. by rewrite Hlv.
Qed.

Lemma sync_ok e m c files ax : length (k_shape c) = dims -> entry_ok e m c files -> ce_st e = AppendTo ax ->
  exists d files', sync_entry vd dims junk e files = Done (CEntry m d Nothing, files') /\
    entry_ok (CEntry m d Nothing) m c files' /\ (forall p, p <> cm_path m -> files' !! p = files !! p).
Proof.
  intros Hl (Hm & Ha & Hst) Hax. rewrite Hax in Hst. unfold sync_entry. rewrite Hm, Hax.
  destruct Hst as (-> & Ht & Hp & f & c1 & c2 & n1 & n2 & sh & Hf & Hfh & Hal & Hfa & Hh & E1 & E2 & Hceq & Hct).
  rewrite Ht. change (specified =? all_null)%N with false. cbn match. rewrite Hf. cbn [of_opt mbind res_bind].
  destruct (file_append vd dims (sz (cm_id m)) (Hacc _) Hdims f (ce_data e) c1 c2 n1 n2 sh) as (f' & Hf' & Hfh'); auto.
  { by destruct Hceq as [-> _]. }
  rewrite Hf'. cbn [of_w mbind res_bind].
  assert (file_holds vd dims (sz (cm_id m)) f' c) as Hfc by (by eapply file_ceq).
  destruct (file_read vd dims (sz (cm_id m)) (Hacc _) Hdims f' c (ce_data e) junk Hfc Ha) as (d & Hde & Hda & Hret).
  rewrite Hde. cbn [of_opt mbind res_bind]. eexists d, _. split; [reflexivity|]. split_and!; auto.
  - split; [done|]. split; [done|]. split; [|done]. left. split_and!; auto. exists f'. split; [by rewrite lookup_insert|done].
  - intros p Hpp. by rewrite lookup_insert_ne.
Qed.

Lemma retrieve_ok s A m c : sinv s A -> A !! cm_id m = Some (m, c) -> readable m c ->
  exists d s', retrieve_chunk vd dims junk m s = Done (d, s') /\ sinv s' A /\ s_size s' = s_size s /\ float_array vd d /\ returns vd d c.
Proof.
  intros [l Hs] HA Hrd0. pose proof Hs as (Hscs & Hc & Hdep & Hinv). unfold retrieve_chunk. rewrite (ccontains_spec _ _ _ Hc).
  pose proof (proj2 Hinv _ _ _ HA) as (_ & Hown & Hl & He & Hd).
  destruct (bool_decide_reflect (cm_id m ∈ l.*1)) as [Hk|Hk].
  - apply in_split_fst in Hk as (e & l1 & l2 & ->). destruct (cget_spec _ _ _ _ _ Hc) as (c' & Hget & Hc' & Hd').
    assert (entry_ok e m c (s_files s)) as Heok by (apply He; apply elem_of_app; right; left).
    rewrite Hget. cbn [of_opt mbind res_bind].
    assert (linv vd dims cs sz (l1 ++ l2 ++ [(cm_id m, e)]) (s_files s) A) as Hinv'.
    { eapply linv_perm; [|exact Hinv]. rewrite perm_mid, app_assoc. symmetry. apply Permutation_app_comm. }
    destruct (ce_st e) as [| |ax] eqn:Hst.
    + eexists _, _. split; [reflexivity|]. split; [eexists; split_and!; [done|exact Hc'|simpl; congruence|exact Hinv']|]. split; [done|].
      destruct Heok as (_ & Ha & Hx). rewrite Hst in Hx. destruct Hx as [Hdi Hret]. specialize (Hret Hrd0). split; [|done].
      eapply returns_float; eauto. by eapply on_disk_words.
    + eexists _, _. split; [reflexivity|]. split; [eexists; split_and!; [done|exact Hc'|simpl; congruence|exact Hinv']|]. split; [done|].
      destruct Heok as (_ & Ha & Hx). rewrite Hst in Hx. destruct Hx as (_ & _ & Hfa & Hh & _). split; [done|]. by apply holds_returns.
    + destruct (sync_ok e m c (s_files s) ax Hl Heok Hst) as (d & files' & Hsy & Hok' & Hfr). rewrite Hsy. cbn [mbind res_bind].
      rewrite app_assoc in Hc'.
      destruct (cupdate_spec c' (l1 ++ l2) (cm_id m) e [] (CEntry m d Nothing) Hc') as (c2 & Hup & Hc2 & Hd2). rewrite Hup. cbn [of_opt mbind res_bind].
      eexists _, _. split; [reflexivity|]. cbn [ce_data]. split; [|split; [done|]].
      * exists (l1 ++ l2 ++ [(cm_id m, CEntry m d Nothing)]). split_and!; [done|simpl|simpl; congruence|].
        { rewrite app_assoc. exact Hc2. }
        rewrite app_assoc. eapply linv_update; [apply nodup_mid; by eapply cinv_nodup|by eapply linv_perm; [apply perm_mid|]|exact HA|done|done].
      * destruct Hok' as (_ & Ha & [Hdi Hret]). specialize (Hret Hrd0). split; [|done]. eapply returns_float; eauto. by eapply on_disk_words.
  - unfold deserialize_into_cache. destruct (make_room_ok vd dims cs sz Hacc Hdims s l A Hs) as (s1 & l1 & Hmr & Hs1 & Hlt & Hsz & Hsub).
    rewrite Hmr. cbn [mbind res_bind]. pose proof Hs1 as (Hcs1 & Hc1 & Hd1 & Hi1).
    assert (cm_id m ∉ l1.*1) as Hk1. { intros H. apply in_split_fst in H as (e & u & v & Hl1). apply Hk, (not_in_fst _ _ e), Hsub. rewrite Hl1. apply elem_of_app. right. left. }
    pose proof (proj2 Hi1 _ _ _ HA) as (_ & _ & _ & _ & Hdd). specialize (Hdd Hk1).
    destruct (load_chunk_ok m c (s_files s1) Hl Hdd Hrd0) as (d & Hld & Hda & Hret). rewrite Hld. cbn [mbind res_bind].
    destruct (cinsert_spec (s_cache s1) l1 (cm_id m) (CEntry m d Nothing) Hc1 Hk1 Hlt) as (c' & Hci & Hc' & Hdep').
    rewrite Hci. cbn [of_opt mbind res_bind]. eexists _, _. split; [reflexivity|]. split; [|split; [done|split; [|done]]].
    + eexists. split_and!; [done|exact Hc'|simpl; congruence|]. simpl. rewrite <- (insert_id A (cm_id m) (m, c)) by done.
      apply linv_insert; auto. split; [done|]. split; [done|]. done.
    + eapply returns_float; eauto. by eapply on_disk_words.
Qed.

Lemma concat0_assoc c1 c2 c3 n1 n2 n3 sh : k_shape c1 = n1 :: sh -> k_shape c2 = n2 :: sh -> k_shape c3 = n3 :: sh ->
  ceq (concat0 c1 (concat0 c2 c3)) (concat0 (concat0 c1 c2) c3).
Proof.
  intros E1 E2 E3. pose proof (concat0_shape c1 c2 _ _ _ E1 E2) as E12. pose proof (concat0_shape c2 c3 _ _ _ E2 E3) as E23.
  pose proof (concat0_shape _ _ _ _ _ E1 E23) as E1_23. pose proof (concat0_shape _ _ _ _ _ E12 E3) as E12_3.
  split; [rewrite E1_23, E12_3; f_equal; lia|]. intros x Hx. rewrite E1_23 in Hx. apply in_shape_cons in Hx as (i & r & -> & Hi & Hr).
  destruct (decide (i < n1)%nat).
  - rewrite (concat0_at1 _ _ _ _ _ _ E1) by done. rewrite (concat0_at1 _ _ _ _ _ _ E12) by lia. by rewrite (concat0_at1 _ _ _ _ _ _ E1).
  - replace i with (n1 + (i - n1))%nat by lia. rewrite (concat0_at2 _ _ _ _ _ _ E1). destruct (decide (i - n1 < n2)%nat).
    + rewrite (concat0_at1 _ _ _ _ _ _ E2) by done. rewrite (concat0_at1 _ _ _ _ _ _ E12) by lia. by rewrite (concat0_at2 _ _ _ _ _ _ E1).
    + replace (i - n1)%nat with (n2 + (i - n1 - n2))%nat by lia. rewrite (concat0_at2 _ _ _ _ _ _ E2).
      replace (n1 + (n2 + (i - n1 - n2)))%nat with ((n1 + n2) + (i - n1 - n2))%nat by lia. by rewrite (concat0_at2 _ _ _ _ _ _ E12).
Qed.
Lemma concat0_ceq_l c1 c1' c2 n2 sh : ceq c1 c1' -> k_shape c2 = n2 :: sh -> tail (k_shape c1) = sh -> k_shape c1 <> [] -> ceq (concat0 c1 c2) (concat0 c1' c2).
Proof.
  intros [Hs Ha] E2 Ht Hne. destruct (k_shape c1) as [|n1 sh1] eqn:E1; [done|]. simpl in Ht. subst sh1. symmetry in Hs.
  pose proof (concat0_shape _ _ _ _ _ E1 E2) as Q1. pose proof (concat0_shape _ _ _ _ _ Hs E2) as Q2.
  split; [congruence|]. intros x Hx. rewrite Q1 in Hx. apply in_shape_cons in Hx as (i & r & -> & Hi & Hr). destruct (decide (i < n1)%nat).
  - rewrite (concat0_at1 _ _ _ _ _ _ E1), (concat0_at1 _ _ _ _ _ _ Hs) by done. apply Ha. apply in_shape_cons. eauto.
  - replace i with (n1 + (i - n1))%nat by lia. by rewrite (concat0_at2 _ _ _ _ _ _ E1), (concat0_at2 _ _ _ _ _ _ Hs).
Qed.
Lemma ceq_refl c : ceq c c. Proof. done. Qed.
Lemma ceq_trans c1 c2 c3 : ceq c1 c2 -> ceq c2 c3 -> ceq c1 c3.
Proof. intros [H1 H2] [H3 H4]. split; [congruence|]. intros x Hx. rewrite H2 by done. apply H4. congruence. Qed.

Lemma grow_chunk_grown m slice n : (N.to_nat <$> cm_shape m) <> [] -> length (cm_end m) = length (cm_shape m) ->
  head (a_shape slice) = Some n -> (default 0 (head (cm_end m)) + N.of_nat n < 2 ^ 64)%N -> (default 0 (head (cm_shape m)) + N.of_nat n < 2 ^ 64)%N ->
  grow_chunk 0 (N.of_nat n) m = Some (grown m slice).
Proof.
  intros Hne Hl Hn He Hs. unfold grow_chunk, vbump, grown. rewrite Hn. destruct (cm_shape m) as [|s sh]; [done|].
  destruct (cm_end m) as [|e es]; [done|]. cbn [head lookup list_lookup mbind option_bind default] in *. simpl.
  unfold wadd. change W with (2 ^ 64)%N. rewrite !N.mod_small by done. done.
Qed.

Lemma append_ok s A m slice : sinv s A -> valid_op vd dims (sz (cm_id m)) A (SAppend m slice) ->
  exists s', cache_append_slice vd dims junk 0 m slice s = Done (grown m slice, s') /\
    sinv s' (spec_step vd A (SAppend m slice)) /\ s_size s' = s_size s.
Proof.
  intros [l Hs] (c & HA & Hty & Hfs & Htl & Hls & Hms & Hle & Hov & Hal & Hct).
  pose proof Hs as (Hscs & Hc & Hdep & Hinv). pose proof (proj2 Hinv _ _ _ HA) as (_ & Hown & Hlk & He & Hd).
  unfold cache_append_slice. rewrite Hms.
  destruct (k_shape c) as [|n1 sh] eqn:E1; [simpl in Hlk; lia|]. destruct (a_shape slice) as [|n2 sh'] eqn:E2; [simpl in Hls; lia|].
  simpl in Htl. subst sh'.
  rewrite (proj2 (shape_allows_concat_true _ _)) by done.
  set (cslice := content_of vd slice). assert (k_shape cslice = n2 :: sh) as E2' by exact E2.
  assert (holds vd slice cslice) as Hhs by (apply holds_content_of, Hfs).
  set (c3 := concat0 c cslice). assert (k_shape c3 = (n1 + n2)%nat :: sh) as E3 by (by apply concat0_shape).
  assert ((default 0 (head (cm_shape m)) + N.of_nat n2 < 2 ^ 64)%N) as Hsh64.
  { destruct Hct as [Hall _]. fold cslice c3 in Hall. rewrite E3 in Hall. inversion Hall as [|? ? Hh _]; subst. destruct (cm_shape m) as [|s0 ss]; [done|].
    simpl in Hms. injection Hms as Hs0 _. simpl. lia. }
  assert (length (cm_end m) = length (cm_shape m)) as Hle'.
  { rewrite Hle. apply (f_equal length) in Hms. rewrite fmap_length in Hms. lia. }
  cbn [lookup list_lookup mbind option_bind].
  rewrite (grow_chunk_grown m slice n2); [|by rewrite Hms|done|by rewrite E2|exact Hov|exact Hsh64].
  cbn [of_opt mbind res_bind]. set (m' := grown m slice).
  assert (cm_id m' = cm_id m) as Hid' by done. assert (cm_path m' = cm_path m) as Hp' by done. assert (cm_type m' = specified) as Ht' by done.
  rewrite (ccontains_spec _ _ _ Hc), Hid'.
  assert (spec_step vd A (SAppend m slice) = <[cm_id m := (m', c3)]> A) as -> by (cbn [spec_step]; by rewrite HA).
  (* a new slice on top of a complete file *)
  assert (forall files d, on_disk m c files -> float_array vd d -> holds vd d cslice -> entry_ok (CEntry m' d (AppendTo 0)) m' c3 files) as Hnew.
  { intros files d Hdi Hfd Hhd. destruct Hdi as [(_ & Hp & f & Hf & Hfh)|(Hn & _)]; [|by rewrite Hty in Hn].
    split; [done|]. split; [apply Hfd|]. cbn [ce_st ce_data]. split_and!; auto.
    exists f, c, cslice, n1, n2, sh. rewrite Hp'. rewrite E1 at 1. split_and!; auto. apply ceq_refl. }
  assert (own_file A m') as Hown' by (intros k2 m2 c2 H1 H2 H3; by apply (Hown k2 m2 c2)).
  assert (length (k_shape c3) = dims) as Hlc3 by (rewrite E3; done).
  (* insertion of the slice *)
  assert (forall s0 l0, sinvl s0 l0 A -> cm_id m ∉ l0.*1 -> exists s', insert_into_cache vd dims junk m' slice (AppendTo 0) s0 = Done s' /\
     sinv s' (<[cm_id m := (m', c3)]> A) /\ s_size s' = s_size s0) as Hins.
  { intros s0 l0 Hs0 Hk0.
    destruct (insert_into_cache_ok vd dims junk cs sz Hacc Hdims s0 l0 A m' slice (AppendTo 0) Hs0) as (s1 & l1 & d & c' & Hs1 & Hk1 & Hfd & Hhd & Hsz & Hc' & Hdep' & Hi); [by rewrite Hid'|done|].
    rewrite Hi. eexists. split; [reflexivity|]. split; [|done]. eexists. split; [done|]. split; [exact Hc'|]. split; [done|]. simpl.
    rewrite Hid' in Hk1. apply linv_insert; auto; [apply Hs1|]. apply Hnew; auto.
    destruct Hs1 as (_ & _ & _ & [_ Hs1]). destruct (Hs1 _ _ _ HA) as (_ & _ & _ & _ & Hdd). auto. }
  destruct (bool_decide_reflect (cm_id m ∈ l.*1)) as [Hk|Hk].
  2:{ destruct (Hins s l Hs Hk) as (s1 & -> & Hs1 & Hsz). cbn [mbind res_bind].
      destruct (flush_if_uncached_ok vd dims cs sz Hacc Hdims s1 _ Hs1) as (s2 & -> & Hs2 & Hsz2). cbn [mbind res_bind].
      exists s2. split; [done|]. split; [done|congruence]. }
  apply in_split_fst in Hk as (e & l1 & l2 & ->). destruct (cget_spec _ _ _ _ _ Hc) as (c' & Hget & Hc' & Hd').
  assert (entry_ok e m c (s_files s)) as Heok by (apply He; apply elem_of_app; right; left).
  rewrite Hget. cbn [of_opt mbind res_bind].
  pose proof (nodup_mid _ _ _ (cinv_nodup _ _ Hc)) as Hnd.
  assert (linv vd dims cs sz ((cm_id m, e) :: l1 ++ l2) (s_files s) A) as Hinv' by (by eapply linv_perm; [apply perm_mid|]).
  rewrite app_assoc in Hc'.
  (* in-memory concatenation *)
  assert (forall files d e', entry_ok e' m' c3 files -> ce_st e' <> Nothing -> files = s_files s -> d = ce_data e' ->
     exists s2, (c1 ← of_opt (cupdate c' (cm_id m) e'); Done (CStore (s_size s) (s_cs s) c1 files)) = Done s2 /\
       sinv s2 (<[cm_id m := (m', c3)]> A) /\ s_size s2 = s_size s) as Hupd.
  { intros files d e' Hok _ -> _. destruct (cupdate_spec c' (l1 ++ l2) (cm_id m) e [] e' Hc') as (c2 & Hup & Hc2 & Hd2). rewrite Hup.
    cbn [of_opt mbind res_bind]. eexists. split; [reflexivity|]. split; [|done]. exists ((l1 ++ l2) ++ [(cm_id m, e')]).
    split; [done|]. split; [exact Hc2|]. split; [simpl; congruence|]. simpl. eapply linv_change; eauto. }
  assert (exists s2, match ce_st e with
            | Nothing =>
                '(_, c1) ← of_opt (cevict c' (cm_id m));
                insert_into_cache vd dims junk m' slice (AppendTo 0) (CStore (s_size s) (s_cs s) c1 (s_files s))
            | Serialize =>
                d ← append_in_memory vd junk 0 (ce_data e) slice;
                c1 ← of_opt (cupdate c' (cm_id m) (CEntry m' d Serialize));
                Done (CStore (s_size s) (s_cs s) c1 (s_files s))
            | AppendTo axis0 =>
                '(e1, fs) ← (if (axis0 =? 0)%nat then Done (e, s_files s)
                              else '(e1, fs) ← sync_entry vd dims junk e (s_files s); Done (CEntry (ce_meta e1) (ce_data e1) (AppendTo 0), fs));
                d ← append_in_memory vd junk 0 (ce_data e1) slice;
                c1 ← of_opt (cupdate c' (cm_id m) (CEntry m' d (ce_st e1)));
                Done (CStore (s_size s) (s_cs s) c1 fs)
            end = Done s2 /\ sinv s2 (<[cm_id m := (m', c3)]> A) /\ s_size s2 = s_size s) as (s2 & Hs2 & Hsi & Hsz).
  { destruct (ce_st e) as [| |ax] eqn:Hst.
    - destruct (cevict_spec c' (l1 ++ l2) (cm_id m) e [] Hc') as (c1 & Hev & Hc1 & Hd1). rewrite Hev. cbn [of_opt mbind res_bind].
      rewrite app_nil_r in Hc1.
      destruct (Hins (CStore (s_size s) (s_cs s) c1 (s_files s)) (l1 ++ l2)) as (s2 & Hi & Hsi & Hsz).
      + split; [done|]. split; [exact Hc1|]. split; [simpl; congruence|]. simpl. by eapply linv_drop_nothing.
      + cbn [fmap list_fmap fst] in Hnd. by apply list.NoDup_cons in Hnd as [? _].
      + exists s2. done.
    - destruct Heok as (Hm & Ha & Hx). rewrite Hst in Hx. destruct Hx as (Hty2 & Hszc & Hfe & Hhe & Hcte).
      destruct (append_holds vd junk (ce_data e) slice c cslice n1 n2 sh) as (d & Hap & Hda & Hhd); auto; [apply Hfs|].
      unfold append_in_memory. rewrite Hap. cbn [mbind res_bind].
      apply (Hupd (s_files s) d (CEntry m' d Serialize)); auto. split; [done|]. split; [done|]. cbn [ce_st ce_data].
      split_and!; auto.
      + left. split; [done|]. rewrite Hp'. destruct Hty2 as [[_ ?]|(Hn & _)]; [done|by rewrite Hty in Hn].
      + eapply holds_words; eauto. apply (concat0_words c cslice n1 n2 sh); auto.
        * exact (float_words vd _ _ Hfe Hhe).
        * exact (float_words vd _ _ Hfs Hhs).
      + by rewrite <- Hszc.
    - destruct Heok as (Hm & Ha & Hx). rewrite Hst in Hx.
      destruct Hx as (-> & _ & Hp & f & d1 & d2 & k1 & k2 & sh' & Hf & Hfh & Hal1 & Hfe & Hhe & F1 & F2 & Hceq & Hcte).
      cbn [Nat.eqb mbind res_bind].
      assert (sh' = sh /\ (k1 + k2 = n1)%nat) as [-> Hn12].
      { destruct Hceq as [Hq _]. rewrite (concat0_shape _ _ _ _ _ F1 F2), E1 in Hq. injection Hq as -> ->. done. }
      destruct (append_holds vd junk (ce_data e) slice d2 cslice k2 n2 sh) as (d & Hap & Hda & Hhd); auto; [apply Hfs|].
      unfold append_in_memory. rewrite Hap, Hst. cbn [mbind res_bind].
      apply (Hupd (s_files s) d (CEntry m' d (AppendTo 0))); auto. split; [done|]. split; [done|]. cbn [ce_st ce_data].
      split_and!; auto. exists f, d1, (concat0 d2 cslice), k1, (k2 + n2)%nat, sh. rewrite Hp'.
      pose proof (concat0_shape _ _ _ _ _ F2 E2') as F23. split_and!; auto.
      + eapply holds_words; eauto. apply (concat0_words d2 cslice k2 n2 sh); auto.
        * exact (float_words vd _ _ Hfe Hhe).
        * exact (float_words vd _ _ Hfs Hhs).
      + eapply ceq_trans; [by eapply concat0_assoc|]. eapply concat0_ceq_l; [exact Hceq|exact E2'| |].
        * rewrite (concat0_shape _ _ _ _ _ F1 F2). done.
        * rewrite (concat0_shape _ _ _ _ _ F1 F2). done. }
  rewrite Hs2. cbn [mbind res_bind].
  destruct (flush_if_uncached_ok vd dims cs sz Hacc Hdims s2 _ Hsi) as (s3 & -> & Hs3 & Hsz3). cbn [mbind res_bind].
  exists s3. split; [done|]. split; [done|congruence].
Qed.

Lemma cstep_ok s A o : (forall k, sz k = cs) -> sinv s A -> valid_op vd dims cs A o ->
  exists r s', cstep vd dims junk s o = Done (r, s') /\ sinv s' (spec_step vd A o) /\ out_ok vd A o r /\ s_size s' = s_size s.
Proof.
  intros Hsc Hs Hv. destruct o as [m a|m m' a|m slice|m|m|ord]; cbn [cstep].
  - destruct Hv as (H1 & H2 & H3). destruct (register_ok s A m a Hs H1 H2 (Hsc _) H3) as (s' & -> & Hs' & Hsz). eexists _, _. split; [reflexivity|]. done.
  - destruct Hv as (H1 & H2 & H3 & H4). destruct (replace_ok s A m m' a Hs H2 H3 (Hsc _) H4) as (s' & -> & Hs' & Hsz). eexists _, _. split; [reflexivity|]. done.
  - rewrite <- (Hsc (cm_id m)) in Hv. destruct (append_ok s A m slice Hs Hv) as (s' & -> & Hs' & Hsz). eexists _, _. split; [reflexivity|]. done.
  - destruct (remove_ok s A m Hs) as (s' & -> & Hs' & Hsz). eexists _, _. split; [reflexivity|]. done.
  - destruct Hv as (c & HA & Hrd). destruct (retrieve_ok s A m c Hs HA Hrd) as (d & s' & -> & Hs' & Hsz & Hf & Hret). eexists _, _. split; [reflexivity|].
    split; [done|]. split; [|done]. exists d, m, c. done.
  - destruct (flush_cache_ok vd dims cs sz Hacc Hdims ord s A Hv Hs) as (s' & -> & Hs' & Hsz). eexists _, _. split; [reflexivity|]. split; [by eexists|done].
Qed.
Lemma crun_ok h : (forall k, sz k = cs) -> forall s A, sinv s A -> valid_history vd dims cs A h ->
  exists rs s', crun vd dims junk s h = Done (rs, s') /\ sinv s' (spec_run vd A h) /\ outs_ok vd A h rs /\ s_size s' = s_size s.
Proof.
  intros Hsc. induction h as [|o h IH]; intros s A Hs Hv; [exists [], s; done|].
  destruct Hv as [Hv Hh]. destruct (cstep_ok s A o Hsc Hs Hv) as (r & s1 & H1 & Hs1 & Ho & Hsz1).
  destruct (IH s1 _ Hs1 Hh) as (rs & s2 & H2 & Hs2 & Hos & Hsz2). exists (r :: rs), s2. cbn [crun]. rewrite H1. cbn [mbind res_bind].
  rewrite H2. split; [done|]. split; [done|]. split; [done|congruence].
Qed.
(** A fresh cache over files that hold all chunks. *)
Lemma copen_ok size files A : linv vd dims cs sz [] files A -> exists s, copen vd dims junk size cs files = Some s /\ sinv s A /\ s_size s = size /\ s_files s = files.
Proof.
  intros Hinv. unfold copen.
  destruct (cnew_inv (K := N) (Nat.max 1 size) (CEntry (mk_meta 0 [] 0 [] [] 0) (anew vd junk (replicate dims 1%nat)) Nothing)) as (c & Hc & Hci); [lia|].
  rewrite Hc. cbn [mbind option_bind]. eexists. split; [reflexivity|]. split; [|done]. exists []. split; [done|]. split; [exact Hci|]. split; [|done].
  unfold cnew in Hc. destruct (_ =? _)%nat; [done|]. injection Hc as <-. done.
Qed.
End ops.
