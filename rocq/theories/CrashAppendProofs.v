(** Crashes while slices are appended: every file operation leaves the chunk files of the last flush readable. *)
From stdpp Require Import base list list_numbers numbers option gmap countable sets.
From Coq Require Import NArith ZArith Lia.
From Verif Require Import IndexSpec LoopsModel NDArrayModel NDArrayProps NullSupModel CodecModel StreamerModel StreamerProps CacheModel CacheProofs BBoxModel BBoxProps DownsampleModel
  RTreeModel ChunkMetaModel ChunkMetaProps ChunkCacheModel ChunkCacheSpec ChunkCacheProofs ChunkCacheProofs2 ChunkCacheProofs3
  LibraryModel LibrarySpec CrashModel CrashSpec CrashProofs CrashAppendModel.
From Verif Require Import IndexSpec LibrarySpec.

Lemma cinv_same {V} (c : cache N V) l l' k e : cinv c l -> cinv c l' -> (k, e) ∈ l -> (k, e) ∈ l'.
Proof.
  intros H H' Hin. apply elem_of_list_split in Hin as (l1 & l2 & ->). destruct (cget_spec _ _ _ _ _ H) as (c1 & E & _).
  pose proof (ccontains_spec _ _ k H) as C1. rewrite (ccontains_spec _ _ k H') in C1. rewrite (bool_decide_true (k ∈ (l1 ++ (k, e) :: l2).*1)) in C1.
  2: { rewrite fmap_app, list.fmap_cons. apply elem_of_app. right. left. }
  apply bool_decide_eq_true in C1. apply elem_of_list_fmap in C1 as ([k' e'] & Ek & Hin). cbn in Ek. subst k'.
  apply elem_of_list_split in Hin as (u & v & ->). destruct (cget_spec _ _ _ _ _ H') as (c2 & E2 & _). rewrite E in E2. injection E2 as -> _. apply elem_of_app. right. left.
Qed.

Section store.
Context (vd dims : nat) (junk : N) (cs : list nat) (sz : N -> list nat) (Hacc : forall k, acceptable_chunk dims (sz k)) (Hdims : (0 < dims)%nat).
Context (P : bytes -> Prop) (OK : bytes -> bytes -> Prop).
Notation sstate := (gmap N (chunk_meta * content)).
Notation sinvl := (sinvl vd dims cs sz).
Notation sinv := (sinv vd dims cs sz).

(** Complete files of the chunks are as wanted. *)
Definition suits (A : sstate) : Prop := forall k m c b, A !! k = Some (m, c) -> P (cm_path m) -> file_holds vd dims (sz k) b c -> OK (cm_path m) b.
(** Protected files are only changed in place, and as wanted. *)
Definition fit (o : fop) : Prop :=
  match o with Put Own (File n) _ => ~ P n | Patch Own (File n) b => P n -> OK n b | _ => False end.
Definition nos (l : list (N * centry)) : Prop := forall k e, (k, e) ∈ l -> ce_st e = Serialize -> ~ P (cm_path (ce_meta e)).
Definition nosq (s : cstore) : Prop := exists l, cinv (s_cache s) l /\ nos l.
Lemma nosq_nos s l : nosq s -> cinv (s_cache s) l -> nos l.
Proof using. intros (l' & H1 & H2) H k e Hin. apply (H2 k). by eapply cinv_same; [exact H| |]. Qed.
Lemma nos_sub l l' : nos l -> (forall x, x ∈ l' -> x ∈ l) -> nos l'.
Proof using. intros H Hs k e Hin. apply (H k). by apply Hs. Qed.

Lemma patch_content e m c files f ax : entry_ok vd dims cs sz e m c files -> ce_st e = AppendTo ax -> files !! cm_path m = Some f ->
  exists b, append_slice vd dims NullSuppressed (ce_data e) ax f = WOk b /\ file_holds vd dims (sz (cm_id m)) b c.
Proof using Hacc Hdims.
  intros (Hm & Ha & Hst) E Hf0. rewrite E in Hst. destruct Hst as (-> & Ht & Hp & f1 & c1 & c2 & n1 & n2 & sh & Hf & Hfh & Hal & Hfa & Hh & E1 & E2 & Hceq & Hct).
  assert (f1 = f) as -> by congruence. destruct (file_append vd dims (sz (cm_id m)) (Hacc _) Hdims f (ce_data e) c1 c2 n1 n2 sh) as (f' & Hf' & Hfh'); auto.
  { by destruct Hceq as [-> _]. }
  exists f'. split; [exact Hf'|]. by eapply file_ceq.
Qed.
Lemma descope_fit A k e m c files : suits A -> A !! k = Some (m, c) -> cm_id m = k -> entry_ok vd dims cs sz e m c files ->
  (ce_st e = Serialize -> ~ P (cm_path (ce_meta e))) -> Forall fit (descope_ops vd dims cs e files).
Proof using Hacc Hdims.
  intros HA Hk Hid He Hs. unfold descope_ops. pose proof He as (Hm & _). destruct (bool_decide _); [constructor|]. destruct (ce_st e) as [| |ax] eqn:E.
  - constructor.
  - destruct (of_w _); cbn [rdone]; try constructor; [|constructor]. by apply Hs.
  - rewrite Hm. destruct (files !! cm_path m) as [f|] eqn:Ef; cbn [of_opt mbind res_bind rdone]; [|constructor].
    destruct (patch_content _ _ _ _ _ _ He E Ef) as (b & Eb & Hb). rewrite Eb. cbn [of_w rdone]. constructor; [|constructor]. intros HP. rewrite Hid in Hb. by eapply HA.
Qed.
Lemma sync_fit A k e m c files : suits A -> A !! k = Some (m, c) -> cm_id m = k -> entry_ok vd dims cs sz e m c files -> Forall fit (sync_ops vd dims e files).
Proof using Hacc Hdims.
  intros HA Hk Hid He. unfold sync_ops. pose proof He as (Hm & _). destruct (_ =? _)%N; [constructor|]. destruct (ce_st e) as [| |ax] eqn:E; try constructor.
  rewrite Hm. destruct (files !! cm_path m) as [f|] eqn:Ef; cbn [of_opt mbind res_bind rdone]; [|constructor].
  destruct (patch_content _ _ _ _ _ _ He E Ef) as (b & Eb & Hb). rewrite Eb. cbn [of_w rdone]. constructor; [|constructor]. intros HP. rewrite Hid in Hb. by eapply HA.
Qed.
Lemma entry_at s l A k e : sinvl s l A -> (k, e) ∈ l -> exists m c, A !! k = Some (m, c) /\ cm_id m = k /\ entry_ok vd dims cs sz e m c (s_files s).
Proof using.
  clear Hacc Hdims.
  intros (_ & _ & _ & H1 & H2) Hin. destruct (H1 k e Hin) as [[m c] Hk]. destruct (H2 _ _ _ Hk) as (Hid & _ & _ & He & _). exists m, c. split; [done|]. split; [done|]. by apply He.
Qed.
Lemma make_room_fit s A : sinv s A -> nosq s -> suits A -> Forall fit (make_room_ops vd dims s).
Proof using Hacc Hdims.
  intros [l Hs] Hn HA. pose proof Hs as (Hcs & Hc & _). pose proof (nosq_nos _ _ Hn Hc) as Hnl. unfold make_room_ops. destruct (has_free_slot (s_cache s)) eqn:Ef; [constructor|].
  destruct (has_free_slot_spec _ _ Hc) as [Hfs Hle]. rewrite Ef in Hfs. symmetry in Hfs. apply Nat.ltb_ge in Hfs.
  destruct l as [|[k e] l]. { destruct Hc as (free & used & _ & _ & _ & Hpos & _). cbn in Hfs. lia. }
  cbn [length] in *. destruct (cevict_oldest_spec _ _ _ _ Hc ltac:(lia)) as (c' & Ee & _). rewrite Ee. cbn [of_opt rdone fst]. rewrite Hcs.
  destruct (entry_at _ _ _ k e Hs ltac:(left)) as (m & c & Hk & Hid & He). eapply descope_fit; try done. apply (Hnl k). left.
Qed.
Lemma make_room_nosq s s' : nosq s -> make_room vd dims s = Done s' -> nosq s'.
Proof using.
  clear Hacc Hdims.
  intros (l & Hc & Hq) H. unfold make_room in H. destruct (has_free_slot (s_cache s)) eqn:Ef. { injection H as <-. by exists l. }
  destruct (has_free_slot_spec _ _ Hc) as [Hfs Hle]. rewrite Ef in Hfs. symmetry in Hfs. apply Nat.ltb_ge in Hfs.
  destruct l as [|[k e] l]. { destruct Hc as (free & used & _ & _ & _ & Hpos & _). cbn in Hfs. lia. }
  cbn [length] in *. destruct (cevict_oldest_spec _ _ _ _ Hc ltac:(lia)) as (c' & Ee & Hc' & _). rewrite Ee in H. cbn [of_opt mbind res_bind] in H.
  destruct (descope vd dims (s_cs s) e (s_files s)) as [fs| |]; cbn [mbind res_bind] in H; try done. injection H as <-. exists l. split; [done|]. eapply nos_sub; [exact Hq|]. intros x Hx. by right.
Qed.
Lemma insert_nosq m a st s s' : nosq s -> insert_into_cache vd dims junk m a st s = Done s' -> (st = Serialize -> ~ P (cm_path m)) -> nosq s'.
Proof using.
  clear Hacc Hdims.
  intros Hq H Hst. unfold insert_into_cache in H. destruct (ccontains (s_cache s) (cm_id m)) eqn:Ec; [done|].
  destruct (make_room vd dims s) as [s1| |] eqn:E1; cbn [mbind res_bind] in H; try done. destruct (acopy vd junk a) as [d|]; cbn [of_opt mbind res_bind] in H; try done.
  destruct (cinsert (s_cache s1) (cm_id m) (CEntry m d st)) as [c|] eqn:Ei; cbn [of_opt mbind res_bind] in H; try done. injection H as <-.
  destruct (make_room_nosq _ _ Hq E1) as (l & Hc & Hq').
  destruct (decide (cm_id m ∈ l.*1)) as [Hin|Hni]; [rewrite (cinsert_None _ _ _ _ Hc) in Ei by auto; done|].
  destruct (decide (length l < c_depth (s_cache s1))%nat) as [Hlt|Hge]; [|rewrite (cinsert_None _ _ _ _ Hc) in Ei by (right; lia); done].
  destruct (cinsert_spec _ _ _ (CEntry m d st) Hc Hni Hlt) as (c' & E & Hc' & _). rewrite E in Ei. injection Ei as <-. exists (l ++ [(cm_id m, CEntry m d st)]). split; [done|].
  intros k e. rewrite elem_of_app, elem_of_list_singleton. intros [Hin|[= -> ->]]; [by apply (Hq' k)|]. exact Hst.
Qed.
Lemma insert_fit m s A : sinv s A -> nosq s -> suits A -> Forall fit (insert_ops vd dims m s).
Proof using Hacc Hdims. intros Hs Hn HA. unfold insert_ops. destruct (ccontains _ _); [constructor|]. by apply (make_room_fit s A). Qed.
Lemma flush_keys_fit A (HA : suits A) ks : forall s l, sinvl s l A -> nos l -> Forall fit (flush_keys_ops vd dims ks s).
Proof using Hacc Hdims.
  induction ks as [|k ks IH]; intros s l Hs Hn; cbn [flush_keys_ops]; [constructor|].
  pose proof Hs as (Hcs & Hc & Hdep & Hinv). destruct (decide (k ∈ l.*1)) as [Hin|Hni]; [|rewrite (cevict_None _ _ _ Hc Hni); constructor].
  apply in_split_fst in Hin as (e & l1 & l2 & ->). destruct (cevict_spec _ _ _ _ _ Hc) as (c' & Ee & Hc' & Hd'). rewrite Ee. cbn [of_opt rdone fst snd]. rewrite Hcs.
  destruct (entry_at _ _ _ k e Hs ltac:(apply elem_of_app; right; left)) as (m & c & Hk & Hid & He). apply Forall_app. split.
  - eapply descope_fit; try done. apply (Hn k). apply elem_of_app. right. left.
  - destruct (linv_descope vd dims cs sz Hacc Hdims (l1 ++ l2) k e (s_files s) A) as (files' & Hde & Hinv').
    { apply nodup_mid. by eapply cinv_nodup. } { by eapply linv_perm; [apply perm_mid|]. }
    rewrite Hde. cbn [rdone]. apply (IH _ (l1 ++ l2)).
    + split; [done|]. split; [exact Hc'|]. split; [cbn [s_cache s_size]; congruence|exact Hinv'].
    + eapply nos_sub; [exact Hn|]. intros x Hx. rewrite elem_of_app in *. destruct Hx; [by left|]. right. by right.
Qed.
Lemma flush_keys_nosq ks : forall s s', nosq s -> flush_keys vd dims ks s = Done s' -> nosq s'.
Proof using.
  clear Hacc Hdims.
  induction ks as [|k ks IH]; intros s s' Hq H; cbn [flush_keys] in H. { by injection H as <-. }
  destruct Hq as (l & Hc & Hq). destruct (decide (k ∈ l.*1)) as [Hin|Hni]; [|rewrite (cevict_None _ _ _ Hc Hni) in H; done].
  apply in_split_fst in Hin as (e & l1 & l2 & ->). destruct (cevict_spec _ _ _ _ _ Hc) as (c' & Ee & Hc' & _). rewrite Ee in H. cbn [of_opt mbind res_bind] in H.
  destruct (descope vd dims (s_cs s) e (s_files s)) as [fs| |]; cbn [mbind res_bind] in H; try done. apply IH in H; [done|]. exists (l1 ++ l2). split; [done|].
  eapply nos_sub; [exact Hq|]. intros x Hx. rewrite elem_of_app in *. destruct Hx; [by left|]. right. by right.
Qed.
Lemma uncached_fit s A : sinv s A -> nosq s -> suits A -> Forall fit (uncached_ops vd dims s).
Proof using Hacc Hdims.
  intros [l Hs] Hn HA. unfold uncached_ops. destruct (_ =? _)%nat; [|constructor]. eapply flush_keys_fit; [exact HA|exact Hs|]. eapply nosq_nos; [done|apply Hs].
Qed.
Lemma uncached_nosq s s' : nosq s -> flush_if_uncached vd dims s = Done s' -> nosq s'.
Proof using. intros Hn H. unfold flush_if_uncached in H. destruct (_ =? _)%nat; [by eapply flush_keys_nosq|by injection H as <-]. Qed.

(** ** RetrieveChunk *)
Lemma retrieve_fit m s A : sinv s A -> nosq s -> suits A -> is_Some (A !! cm_id m) -> Forall fit (retrieve_ops vd dims m s).
Proof using Hacc Hdims.
  intros [l Hs] Hn HA Hm. unfold retrieve_ops. pose proof Hs as (Hcs & Hc & Hdep & Hinv). destruct (ccontains (s_cache s) (cm_id m)) eqn:Ec; [|apply (make_room_fit s A); [by exists l|done|done]].
  rewrite (ccontains_spec _ _ _ Hc) in Ec. apply bool_decide_eq_true in Ec. apply in_split_fst in Ec as (e & l1 & l2 & ->).
  destruct (cget_spec _ _ _ _ _ Hc) as (c' & Eg & _). rewrite Eg. cbn [of_opt rdone fst]. destruct (ce_st e) eqn:Es; try constructor.
  destruct (entry_at _ _ _ (cm_id m) e Hs ltac:(apply elem_of_app; right; left)) as (m' & c & Hk & Hid & He). by eapply sync_fit.
Qed.
Lemma retrieve_nosq m s d s' : nosq s -> retrieve_chunk vd dims junk m s = Done (d, s') -> nosq s'.
Proof using.
  clear Hacc Hdims.
  intros Hq H. unfold retrieve_chunk in H. destruct (ccontains (s_cache s) (cm_id m)) eqn:Ec.
  - destruct Hq as (l & Hc & Hq). rewrite (ccontains_spec _ _ _ Hc) in Ec. apply bool_decide_eq_true in Ec. apply in_split_fst in Ec as (e & l1 & l2 & ->).
    destruct (cget_spec _ _ _ _ _ Hc) as (c' & Eg & Hc' & _). rewrite Eg in H. cbn [of_opt mbind res_bind] in H.
    assert (nos (l1 ++ l2 ++ [(cm_id m, e)])) as Hq'. { eapply nos_sub; [exact Hq|]. intros x. rewrite !elem_of_app, !elem_of_cons, elem_of_nil. clear. intros [?|[?|[?|[]]]]; auto. }
    destruct (ce_st e) as [| |axis] eqn:Es.
    + injection H as <- <-. by eexists.
    + injection H as <- <-. by eexists.
    + destruct (sync_entry vd dims junk e (s_files s)) as [[e' fs]| |] eqn:Esy; cbn [mbind res_bind] in H; try done.
      rewrite app_assoc in Hc'. destruct (cupdate_spec c' (l1 ++ l2) (cm_id m) e [] e' Hc') as (c2 & Eu & Hc2 & _). rewrite Eu in H. cbn [of_opt mbind res_bind] in H. injection H as <- <-.
      assert (ce_st e' = Nothing) as He'.
      { unfold sync_entry in Esy. rewrite Es in Esy. destruct (cm_type (ce_meta e) =? all_null)%N; [done|].
        destruct (s_files s !! cm_path (ce_meta e)) as [f|]; cbn [of_opt mbind res_bind] in Esy; try done. destruct (of_w _) as [b| |]; cbn [mbind res_bind] in Esy; try done.
        destruct (deserialize _ _ _ _ _) as [[d' r]|]; cbn [of_opt mbind res_bind] in Esy; try done. by injection Esy as <- <-. }
      eexists. split; [exact Hc2|]. intros k' e2. rewrite elem_of_app, app_nil_l, elem_of_list_singleton. intros [Hin|[= -> ->]].
      * apply (Hq k'). rewrite elem_of_app in *. destruct Hin; [by left|]. right. by right.
      * rewrite He'. done.
  - unfold deserialize_into_cache in H. destruct (make_room vd dims s) as [s1| |] eqn:E1; cbn [mbind res_bind] in H; try done.
    destruct (load_chunk vd dims junk m (s_files s1)) as [d'| |]; cbn [mbind res_bind] in H; try done. destruct (cinsert (s_cache s1) (cm_id m) (CEntry m d' Nothing)) as [c|] eqn:Ei; cbn [of_opt mbind res_bind] in H; try done. injection H as <- <-.
    destruct (make_room_nosq _ _ Hq E1) as (l & Hc & Hq').
    destruct (decide (cm_id m ∈ l.*1)) as [Hin|Hni]; [rewrite (cinsert_None _ _ _ _ Hc) in Ei by auto; done|].
    destruct (decide (length l < c_depth (s_cache s1))%nat) as [Hlt|Hge]; [|rewrite (cinsert_None _ _ _ _ Hc) in Ei by (right; lia); done].
    destruct (cinsert_spec _ _ _ (CEntry m d' Nothing) Hc Hni Hlt) as (c' & E & Hc' & _). rewrite E in Ei. injection Ei as <-. exists (l ++ [(cm_id m, CEntry m d' Nothing)]). split; [done|].
    intros k e. rewrite elem_of_app, elem_of_list_singleton. intros [Hin|[= -> ->]]; [by apply (Hq' k)|]. done.
Qed.
End store.
