(** Proofs about the chunk store: the invariant of cache and files, and its preservation. *)
From stdpp Require Import base list list_numbers numbers option gmap countable sets.
From Coq Require Import NArith Lia.
From Verif Require Import IndexSpec LoopsModel LoopsProofs NDArrayModel NDArrayProofs NDArrayOps NDArrayOps2 NDArrayOps3 NDArrayProps
  CodecModel StreamerModel StreamerProofs StreamerProofs2 StreamerProps CacheModel CacheProofs BBoxModel
  ChunkMetaModel ChunkCacheModel ChunkCacheSpec ChunkCacheProofs.

Section inv.
Context (vd dims : nat) (junk : N) (cs : list nat) (sz : N -> list nat) (Hacc : forall k, acceptable_chunk dims (sz k)) (Hdims : (0 < dims)%nat).
(** [sz k]: the serialisation chunk shape with which the file of chunk [k] was written (an imported file keeps its own). *)
Notation sstate := (gmap N (chunk_meta * content)).
Notation filesT := (gmap bytes bytes).
Notation file_holds m := (file_holds vd dims (sz (cm_id m))).

Definition null_chunk (m : chunk_meta) (c : content) : Prop :=
  cm_type m = all_null /\ cm_path m = [] /\ Forall (fun s => 0 < s)%nat (k_shape c) /\
  forall x, in_shape (k_shape c) x -> null_vector (k_at c x) /\ length (k_at c x) = vd.
Definition on_disk (m : chunk_meta) (c : content) (files : filesT) : Prop :=
  (cm_type m = specified /\ cm_path m <> [] /\ exists f, files !! cm_path m = Some f /\ file_holds m f c) \/ null_chunk m c.
Definition entry_ok (e : centry) (m : chunk_meta) (c : content) (files : filesT) : Prop :=
  ce_meta e = m /\ api_array vd (ce_data e) /\
  match ce_st e with
  | Nothing => on_disk m c files /\ (readable m c -> returns vd (ce_data e) c)
  | Serialize => ((cm_type m = specified /\ cm_path m <> []) \/ null_chunk m c) /\
                 sz (cm_id m) = cs /\ float_array vd (ce_data e) /\ holds vd (ce_data e) c /\ countable vd NullSuppressed cs (k_shape c)
  | AppendTo ax => ax = 0%nat /\ cm_type m = specified /\ cm_path m <> [] /\
      exists f c1 c2 n1 n2 sh, files !! cm_path m = Some f /\ file_holds m f c1 /\ aligned 0 (sz (cm_id m)) (k_shape c1) /\
        float_array vd (ce_data e) /\ holds vd (ce_data e) c2 /\ k_shape c1 = n1 :: sh /\ k_shape c2 = n2 :: sh /\
        ceq (concat0 c1 c2) c /\ countable vd NullSuppressed (sz (cm_id m)) (k_shape c)
  end.

Lemma on_disk_ext m c files files' : (cm_path m <> [] -> files' !! cm_path m = files !! cm_path m) -> on_disk m c files -> on_disk m c files'.
Proof. intros H [(H1 & H2 & f & H3 & H4)|Hn]; [left|by right]. split_and!; auto. exists f. rewrite H by done. done. Qed.
Lemma entry_ok_ext e m c files files' : (cm_path m <> [] -> files' !! cm_path m = files !! cm_path m) -> entry_ok e m c files -> entry_ok e m c files'.
Proof.
  intros H (H1 & H2 & H3). split; [done|]. split; [done|]. destruct (ce_st e) as [| |ax].
  - destruct H3 as [H3 H4]. split; [|done]. by eapply on_disk_ext.
  - done.
  - destruct H3 as (-> & Ht & Hp & f & c1 & c2 & n1 & n2 & sh & Hf & Hr). split_and!; auto. exists f, c1, c2, n1, n2, sh. rewrite H by done. done.
Qed.

Lemma descope_ok e m c files : length (k_shape c) = dims -> entry_ok e m c files ->
  exists files', descope vd dims cs e files = Done files' /\ on_disk m c files' /\
    forall p, p <> cm_path m -> files' !! p = files !! p.
Proof.
  intros Hl (Hm & Ha & Hst). unfold descope. rewrite Hm. destruct (ce_st e) as [| |ax].
  - destruct Hst as [Hd Hret]. exists files. split; [|done].
    destruct Hd as [(Ht & Hp & _)|(Ht & Hp & _)].
    + by rewrite bool_decide_false.
    + rewrite bool_decide_true by done. by rewrite Ht.
  - destruct Hst as ([[Ht Hp]|Hn] & Hszc & Hfa & [Hs Hr] & Hct).
    + rewrite bool_decide_false by done.
      assert (acceptable_chunk dims cs) as Hcs by (rewrite <- Hszc; apply Hacc).
      destruct (file_serialize vd dims cs Hcs Hdims (ce_data e) c) as (f & Hf & Hfh); auto; [congruence|by rewrite Hs|done|].
      rewrite Hf. cbn [of_w mbind res_bind]. eexists. split; [reflexivity|]. split.
      * left. split; [done|]. split; [done|]. exists f. split; [by rewrite lookup_insert|by rewrite Hszc].
      * intros p Hpp. by rewrite lookup_insert_ne.
    + pose proof Hn as (Ht & Hp & _). rewrite bool_decide_true by done. rewrite Ht. exists files. split; [done|]. split; [by right|done].
  - destruct Hst as (-> & Ht & Hp & f & c1 & c2 & n1 & n2 & sh & Hf & Hfh & Hal & Hfa & Hh & E1 & E2 & Hceq & Hct).
    rewrite bool_decide_false by done. rewrite Hf. cbn [of_opt mbind res_bind].
    destruct (file_append vd dims (sz (cm_id m)) (Hacc _) Hdims f (ce_data e) c1 c2 n1 n2 sh) as (f' & Hf' & Hfh'); auto.
    { by destruct Hceq as [-> _]. }
    rewrite Hf'. cbn [of_w mbind res_bind]. eexists. split; [reflexivity|]. split.
    + left. split; [done|]. split; [done|]. exists f'. split; [by rewrite lookup_insert|]. by eapply file_ceq.
    + intros p Hpp. by rewrite lookup_insert_ne.
Qed.

(** Cached entries (oldest first), files and abstract state. *)
Definition linv (l : list (N * centry)) (files : filesT) (A : sstate) : Prop :=
  (forall k e, (k, e) ∈ l -> is_Some (A !! k)) /\
  forall k m c, A !! k = Some (m, c) ->
    cm_id m = k /\ own_file A m /\ length (k_shape c) = dims /\
    (forall e, (k, e) ∈ l -> entry_ok e m c files) /\ (k ∉ l.*1 -> on_disk m c files).

Lemma not_in_fst (l : list (N * centry)) k e : (k, e) ∈ l -> k ∈ l.*1.
Proof. intros H. apply elem_of_list_fmap. by exists (k, e). Qed.

Lemma linv_perm l l' files A : l ≡ₚ l' -> linv l files A -> linv l' files A.
Proof.
  intros Hp [H1 H2]. split.
  - intros k e. rewrite <- Hp. apply H1.
  - intros k m c Hk. destruct (H2 k m c Hk) as (Hi & Ho & Hl & He & Hd). split_and!; auto.
    + intros e. rewrite <- Hp. apply He.
    + rewrite <- Hp. done.
Qed.
Lemma linv_drop_nothing l k e files A : NoDup ((k, e) :: l).*1 -> linv ((k, e) :: l) files A -> ce_st e = Nothing -> linv l files A.
Proof.
  intros Hnd [H1 H2] Hst. split.
  - intros k' e' H. apply (H1 k' e'). by right.
  - intros k' m c Hk. destruct (H2 k' m c Hk) as (Hi & Ho & Hl & He & Hd). split_and!; auto.
    + intros e' H. apply He. by right.
    + intros Hn. destruct (decide (k' = k)) as [->|Hne].
      * destruct (He e) as (_ & _ & Hx); [left|]. rewrite Hst in Hx. tauto.
      * apply Hd. simpl. apply not_elem_of_cons. done.
Qed.
(** Leaving the cache in an orderly way. *)
Lemma linv_descope l k e files A : NoDup ((k, e) :: l).*1 -> linv ((k, e) :: l) files A ->
  exists files', descope vd dims cs e files = Done files' /\ linv l files' A.
Proof.
  intros Hnd Hinv. pose proof Hinv as [H1 H2]. destruct (H1 k e) as [[m c] Hk]; [left|].
  destruct (H2 k m c Hk) as (Hi & Ho & Hl & He & Hd).
  destruct (descope_ok e m c files Hl) as (files' & Hde & Hon & Hfr); [apply He; left|].
  exists files'. split; [done|]. cbn [fmap list_fmap fst] in Hnd. apply list.NoDup_cons in Hnd as [Hkl Hnd].
  split.
  - intros k' e' H. apply (H1 k' e'). by right.
  - intros k' m' c' Hk'. destruct (H2 k' m' c' Hk') as (Hi' & Ho' & Hl' & He' & Hd').
    destruct (decide (k' = k)) as [->|Hne].
    + assert (m' = m /\ c' = c) as [-> ->] by (split; congruence). split_and!; auto. intros e' H. apply not_in_fst in H. done.
    + assert (cm_path m' <> [] -> files' !! cm_path m' = files !! cm_path m') as Hext.
      { intros Hp'. apply Hfr. intros E. apply Hp'. apply (Ho' k m c Hk); [congruence|by rewrite E]. }
      split_and!; auto.
      * intros e' H. eapply entry_ok_ext; [exact Hext|]. apply He'. by right.
      * intros Hn. eapply on_disk_ext; [exact Hext|]. apply Hd'. simpl. by apply not_elem_of_cons.
Qed.
Lemma linv_delete l k e files A : NoDup ((k, e) :: l).*1 -> linv ((k, e) :: l) files A -> linv l files (delete k A).
Proof.
  intros Hnd [H1 H2]. cbn [fmap list_fmap fst] in Hnd. apply list.NoDup_cons in Hnd as [Hkl Hnd]. split.
  - intros k' e' H. assert (k' <> k) by (intros ->; by apply not_in_fst in H). rewrite lookup_delete_ne by done. apply (H1 k' e'). by right.
  - intros k' m c Hk. apply lookup_delete_Some in Hk as [Hne Hk]. destruct (H2 k' m c Hk) as (Hi & Ho & Hl & He & Hd). split_and!; auto.
    + intros k2 m2 c2 Hk2. apply lookup_delete_Some in Hk2 as [_ Hk2]. by apply (Ho k2 m2 c2).
    + intros e' H. apply He. by right.
    + intros Hn. apply Hd. simpl. by apply not_elem_of_cons.
Qed.
Lemma linv_delete_out l k files A : k ∉ l.*1 -> linv l files A -> linv l files (delete k A).
Proof.
  intros Hkl [H1 H2]. split.
  - intros k' e' H. assert (k' <> k) by (intros ->; by apply not_in_fst in H). rewrite lookup_delete_ne by done. by apply (H1 k' e').
  - intros k' m c Hk. apply lookup_delete_Some in Hk as [Hne Hk]. destruct (H2 k' m c Hk) as (Hi & Ho & Hl & He & Hd). split_and!; auto.
    intros k2 m2 c2 Hk2. apply lookup_delete_Some in Hk2 as [_ Hk2]. by apply (Ho k2 m2 c2).
Qed.
(** Entering the cache with new contents. *)
Lemma linv_insert l k e files A m c : k ∉ l.*1 -> linv l files A -> cm_id m = k -> own_file A m -> length (k_shape c) = dims ->
  entry_ok e m c files -> linv (l ++ [(k, e)]) files (<[k := (m, c)]> A).
Proof.
  intros Hkl [H1 H2] Hid Hown Hlc Hok. split.
  - intros k' e' [H|H]%elem_of_app.
    + rewrite lookup_insert_ne by (intros <-; by apply not_in_fst in H). by apply (H1 k' e').
    + apply elem_of_list_singleton in H. injection H as -> _. rewrite lookup_insert. eauto.
  - intros k' m' c' Hk. destruct (decide (k' = k)) as [->|Hne].
    + rewrite lookup_insert in Hk. injection Hk as <- <-. split_and!; auto.
      * intros k2 m2 c2 Hk2 Hne2 Hp. destruct (decide (k2 = k)) as [->|Hn]; [congruence|].
        rewrite lookup_insert_ne in Hk2 by done. by apply (Hown k2 m2 c2).
      * intros e' [H|H]%elem_of_app; [by apply not_in_fst in H|]. apply elem_of_list_singleton in H. by injection H as ->.
      * intros Hn. exfalso. apply Hn. rewrite fmap_app. apply elem_of_app. right. left.
    + rewrite lookup_insert_ne in Hk by done. destruct (H2 k' m' c' Hk) as (Hi & Ho & Hl & He & Hd). split_and!; auto.
      * intros k2 m2 c2 Hk2 Hne2 Hp. destruct (decide (k2 = k)) as [->|Hn].
        -- rewrite lookup_insert in Hk2. injection Hk2 as <- <-. rewrite <- Hp. apply (Hown k' m' c' Hk); congruence.
        -- rewrite lookup_insert_ne in Hk2 by done. by apply (Ho k2 m2 c2).
      * intros e' [H|H]%elem_of_app; [by apply He|]. apply elem_of_list_singleton in H. congruence.
      * intros Hn. apply Hd. intros H. apply Hn. rewrite fmap_app. apply elem_of_app. by left.
Qed.
(** The cached entry or the files change, the contents do not. *)
Lemma linv_update l k e0 e files files' A m c : NoDup ((k, e0) :: l).*1 -> linv ((k, e0) :: l) files A -> A !! k = Some (m, c) ->
  entry_ok e m c files' -> (forall p, p <> cm_path m -> files' !! p = files !! p) -> linv (l ++ [(k, e)]) files' A.
Proof.
  intros Hnd [H1 H2] HA Hok Hfr. cbn [fmap list_fmap fst] in Hnd. apply list.NoDup_cons in Hnd as [Hkl Hnd].
  destruct (H2 k m c HA) as (Hid & Hown & Hl & _ & _). split.
  - intros k' e' [H|H]%elem_of_app; [apply (H1 k' e'); by right|]. apply elem_of_list_singleton in H. injection H as -> _. eauto.
  - intros k' m' c' Hk. destruct (H2 k' m' c' Hk) as (Hi & Ho & Hl' & He & Hd). destruct (decide (k' = k)) as [->|Hne].
    + assert (m' = m /\ c' = c) as [-> ->] by (split; congruence). split_and!; auto.
      * intros e' [H|H]%elem_of_app; [by apply not_in_fst in H|]. apply elem_of_list_singleton in H. by injection H as ->.
      * intros Hn. exfalso. apply Hn. rewrite fmap_app. apply elem_of_app. right. left.
    + assert (cm_path m' <> [] -> files' !! cm_path m' = files !! cm_path m') as Hext.
      { intros Hp'. apply Hfr. intros E. apply Hp'. apply (Ho k m c HA); [congruence|by rewrite E]. }
      split_and!; auto.
      * intros e' [H|H]%elem_of_app; [|apply elem_of_list_singleton in H; congruence].
        eapply entry_ok_ext; [exact Hext|]. apply He. by right.
      * intros Hn. eapply on_disk_ext; [exact Hext|]. apply Hd. simpl. apply not_elem_of_cons. split; [done|].
        intros H. apply Hn. rewrite fmap_app. apply elem_of_app. by left.
Qed.
(** The contents of a cached chunk change as well. *)
Lemma linv_change l k e0 e files A m0 c0 m c : NoDup ((k, e0) :: l).*1 -> linv ((k, e0) :: l) files A -> A !! k = Some (m0, c0) ->
  cm_id m = k -> cm_path m = cm_path m0 -> length (k_shape c) = dims -> entry_ok e m c files ->
  linv (l ++ [(k, e)]) files (<[k := (m, c)]> A).
Proof.
  intros Hnd Hinv HA Hid Hp Hl Hok. pose proof (proj2 Hinv k m0 c0 HA) as (Hid0 & Hown0 & _).
  assert (linv l files (delete k A)) as Hdel by (by eapply linv_delete).
  rewrite <- insert_delete_insert. apply linv_insert; auto.
  - cbn [fmap list_fmap fst] in Hnd. by apply list.NoDup_cons in Hnd as [? _].
  - intros k2 m2 c2 Hk2 Hne2 Hpp. apply lookup_delete_Some in Hk2 as [_ Hk2]. rewrite Hp. rewrite Hp in Hpp.
    apply (Hown0 k2 m2 c2); [done|congruence|done].
Qed.

(** * The whole store *)
Definition sinvl (s : cstore) (l : list (N * centry)) (A : sstate) : Prop :=
  s_cs s = cs /\ cinv (s_cache s) l /\ c_depth (s_cache s) = Nat.max 1 (s_size s) /\ linv l (s_files s) A.
Definition sinv (s : cstore) (A : sstate) : Prop := exists l, sinvl s l A.

Lemma cinv_nodup {V} (c : cache N V) l : cinv c l -> NoDup l.*1.
Proof. by intros (? & ? & _ & _ & _ & _ & _ & _ & ? & _). Qed.
Lemma cinv_contained {V} (c : cache N V) l : cinv c l -> contained c ≡ₚ l.*1.
Proof.
  intros (free & used & _ & _ & _ & _ & _ & Hu & Hnd & Hm). unfold contained. rewrite Hm.
  pose proof (Forall2_length _ _ _ Hu) as Hl. rewrite map_to_list_to_map.
  - rewrite fst_zip; [done|]. rewrite fmap_length. lia.
  - rewrite fst_zip; [done|]. rewrite fmap_length. lia.
Qed.
Lemma in_split_fst (l : list (N * centry)) k : k ∈ l.*1 -> exists e l1 l2, l = l1 ++ (k, e) :: l2.
Proof. intros ((k' & e) & -> & H)%elem_of_list_fmap. apply elem_of_list_split in H as (l1 & l2 & ->). eauto. Qed.
Lemma perm_mid (l1 l2 : list (N * centry)) x : l1 ++ x :: l2 ≡ₚ x :: l1 ++ l2.
Proof. symmetry. apply Permutation_middle. Qed.
Lemma nodup_mid (l1 l2 : list (N * centry)) x : NoDup (l1 ++ x :: l2).*1 -> NoDup (x :: l1 ++ l2).*1.
Proof. intros H. by rewrite <- (perm_mid l1 l2 x). Qed.

Lemma make_room_ok s l A : sinvl s l A -> exists s1 l1, make_room vd dims s = Done s1 /\ sinvl s1 l1 A /\
  (length l1 < c_depth (s_cache s1))%nat /\ s_size s1 = s_size s /\ (forall x, x ∈ l1 -> x ∈ l).
Proof.
  intros (Hscs & Hc & Hdep & Hinv). unfold make_room. pose proof (has_free_slot_spec _ _ Hc) as [-> Hle].
  destruct (Nat.ltb_spec (length l) (c_depth (s_cache s))).
  - exists s, l. split_and!; auto. split_and!; auto.
  - destruct l as [|[k e] l]; [simpl in *; lia|].
    destruct (cevict_oldest_spec _ _ _ _ Hc) as (c' & Hev & Hc' & Hd'). { simpl in *; lia. }
    rewrite Hev. cbn [of_opt mbind res_bind]. rewrite Hscs.
    destruct (linv_descope l k e (s_files s) A (cinv_nodup _ _ Hc) Hinv) as (files' & Hde & Hinv').
    rewrite Hde. cbn [mbind res_bind]. eexists _, l. split; [reflexivity|]. cbn [s_size s_cs s_cache s_files]. split_and!; auto.
    + split_and!; auto. simpl. congruence.
    + simpl in *. lia.
    + intros x Hx. by right.
Qed.
Lemma acopy_ok a : float_array vd a -> exists d, acopy vd junk a = Some d /\ float_array vd d /\ forall c, holds vd a c -> holds vd d c.
Proof.
  intros [Ha Hw]. destruct (acopy_wf vd junk a (api_array_wf _ _ Ha)) as (d & Hd & Hwf & Hs & Hr).
  assert (api_array vd d) as Hapi by (by eapply api_copy). exists d. split; [done|]. split; [split; [done|]|].
  - apply (data_from_reads _ vd); [done|]. intros x v Hx Hv. rewrite Hs in Hx. rewrite Hr in Hv by done. by destruct (aread_words vd a x v Hw Hv).
  - intros c [Hsc Hrc]. split; [congruence|]. intros x Hx. rewrite Hr by congruence. by apply Hrc.
Qed.
Lemma insert_into_cache_ok s l A m a st : sinvl s l A -> cm_id m ∉ l.*1 -> float_array vd a ->
  exists s1 l1 d c', sinvl s1 l1 A /\ cm_id m ∉ l1.*1 /\ float_array vd d /\ (forall c, holds vd a c -> holds vd d c) /\
    s_size s1 = s_size s /\ cinv c' (l1 ++ [(cm_id m, CEntry m d st)]) /\ c_depth c' = Nat.max 1 (s_size s1) /\
    insert_into_cache vd dims junk m a st s = Done (CStore (s_size s1) cs c' (s_files s1)).
Proof.
  intros Hs Hk Ha. destruct (make_room_ok s l A Hs) as (s1 & l1 & Hmr & Hs1 & Hlt & Hsz & Hsub).
  destruct (acopy_ok a Ha) as (d & Hd & Hfd & Hhd).
  assert (cm_id m ∉ l1.*1) as Hk1. { intros H. apply in_split_fst in H as (e & u & v & Hl1). apply Hk, (not_in_fst _ _ e), Hsub. rewrite Hl1. apply elem_of_app. right. left. }
  pose proof Hs1 as (Hcs1 & Hc1 & Hd1 & Hi1).
  destruct (cinsert_spec (s_cache s1) l1 (cm_id m) (CEntry m d st) Hc1 Hk1 Hlt) as (c' & Hci & Hc' & Hdep').
  exists s1, l1, d, c'. split_and!; auto; [congruence|]. unfold insert_into_cache.
  destruct Hs as (_ & Hc & _). rewrite (ccontains_spec _ _ _ Hc), bool_decide_false by done.
  rewrite Hmr. cbn [mbind res_bind]. rewrite Hd. cbn [of_opt mbind res_bind]. rewrite Hci. cbn [of_opt mbind res_bind]. by rewrite Hcs1.
Qed.
Lemma flush_keys_ok ks : forall s l A, sinvl s l A -> ks ≡ₚ l.*1 ->
  exists s', flush_keys vd dims ks s = Done s' /\ sinvl s' [] A /\ s_size s' = s_size s.
Proof.
  induction ks as [|k ks IH]; intros s l A Hs Hp.
  - exists s. split; [done|]. split; [|done]. apply Permutation_nil_l in Hp. destruct l; [|done]. done.
  - assert (k ∈ l.*1) as Hk by (rewrite <- Hp; left). apply in_split_fst in Hk as (e & l1 & l2 & ->).
    destruct Hs as (Hscs & Hc & Hdep & Hinv). destruct (cevict_spec _ _ _ _ _ Hc) as (c' & Hev & Hc' & Hd').
    cbn [flush_keys]. rewrite Hev. cbn [of_opt mbind res_bind]. rewrite Hscs.
    destruct (linv_descope (l1 ++ l2) k e (s_files s) A) as (files' & Hde & Hinv').
    { apply nodup_mid. by eapply cinv_nodup. } { by eapply linv_perm; [apply perm_mid|]. }
    rewrite Hde. cbn [mbind res_bind].
    destruct (IH (CStore (s_size s) cs c' files') (l1 ++ l2) A) as (s' & Hfl & Hs' & Hsz).
    + split_and!; auto. simpl. congruence.
    + rewrite perm_mid in Hp. cbn [fmap list_fmap fst] in Hp. by apply Permutation_cons_inv in Hp.
    + exists s'. done.
Qed.
Lemma flush_cache_ok ord s A : (forall l, ord l ≡ₚ l) -> sinv s A ->
  exists s', flush_cache vd dims ord s = Done s' /\ sinvl s' [] A /\ s_size s' = s_size s.
Proof.
  intros Hord [l Hs]. unfold flush_cache. apply (flush_keys_ok _ s l A Hs). rewrite Hord. apply cinv_contained. apply Hs.
Qed.
Lemma flush_if_uncached_ok s A : sinv s A -> exists s', flush_if_uncached vd dims s = Done s' /\ sinv s' A /\ s_size s' = s_size s.
Proof.
  intros Hs. unfold flush_if_uncached. destruct (_ =? _)%nat.
  - destruct (flush_cache_ok id s A) as (s' & Hf & Hs' & Hsz); [done|done|]. exists s'. split; [done|]. split; [by eexists|done].
  - exists s. done.
Qed.
End inv.
