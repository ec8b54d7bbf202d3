(** Proofs about the distributed array, part 1: what is needed from the spatial index and the chunk store. *)
From stdpp Require Import base list list_numbers numbers option gmap countable sets.
From Coq Require Import NArith Lia.
From Verif Require Import IndexSpec NDArrayModel NDArrayProps CodecModel StreamerModel StreamerProps CacheModel CacheProofs PoolModel PoolProofs BBoxModel BBoxProps
  RTreeModel RTreeBoxes RTreeInv RTreeInsert RTreeSearch RTreeOps RTreeRebuild RTreeProps
  ChunkMetaModel ChunkMetaProps ChunkCacheModel ChunkCacheSpec ChunkCacheProofs ChunkCacheProofs2 ChunkCacheProofs3 LibraryModel.

(** * Spatial index *)
Section tree.
Context {P : Type} (pd : P) (dims : nat) (L : lib) (HL : lib_ok L) (Hd : (0 < dims)%nat).
Implicit Types t : rtree P.

Lemma set_pay_good m (Bs : bbox -> Prop) t ae es i slot en p : good dims m Bs t ae es -> ae !! i = Some slot -> es !! i = Some en ->
  exists t', set_entry t slot (Entry (en_box en) p) = Some t' /\ good dims m Bs t' ae (<[i := Entry (en_box en) p]> es).
Proof using.
  intros (Hst & Hes & Hla) Hi Hei. assert (slot ∈ ae) as Hin by (by eapply elem_of_list_lookup_2).
  pose proof (Forall2_lookup_lr _ _ _ _ _ _ Hes Hi Hei) as Hget. cbn beta in Hget.
  destruct Hst as [(_ & _ & ->)|(an & r & Hne & Hrt & Hf & Hocc)]; [done|].
  pose proof (f_pools _ _ _ _ _ _ _ Hf) as Hp.
  destruct (set_entry_spec t an ae slot (Entry (en_box en) p) Hp Hin) as (t' & Ht' & Hp' & Hr' & Hl' & Hn' & Hg' & Hgo').
  exists t'. split; [done|].
  assert (forall s, get_node t' s = get_node t s) as Hgn by (intros s; unfold get_node; by rewrite Hn').
  assert (forall s, lv (get_node t') s = lv (get_node t) s) as Hlv by (intros s; unfold lv; by rewrite Hgn).
  assert (forall s en', get_entry t' s = Some en' -> exists en0, get_entry t s = Some en0 /\ en_box en0 = en_box en') as Hbox.
  { intros s en' H. destruct (decide (s = slot)) as [->|Hs]; [|rewrite Hgo' in H by done; eauto]. rewrite Hg' in H. injection H as <-. by exists en. }
  assert (forall s l, get_bbox t' s l = get_bbox t s l) as Hgb.
  { intros s l. unfold get_bbox. destruct (decide (l = 0)%nat) as [->|Hl].
    - simpl. destruct (decide (s = slot)) as [->|Hs]; [by rewrite Hg', Hget|by rewrite Hgo'].
    - destruct l; [done|]. simpl. by rewrite Hgn. }
  split_and!.
  - right. exists an, r. split_and!; auto.
    + destruct Hrt as (R1 & R2 & R3). split_and!; [congruence|done|]. intros s Hs. rewrite !Hlv. auto.
    + destruct Hf as [F1 F2 F3 F4 F5 F6]. split; auto.
      * assert (kids (get_node t') an = kids (get_node t) an) as ->.
        { unfold kids. clear -Hgn. induction an as [|x an IH]; [done|]. rewrite !bind_cons, IH. unfold kid_ids. by rewrite Hgn. }
        assert (ids (get_node t') an ae = ids (get_node t) an ae) as ->.
        { unfold ids. f_equal. apply list_fmap_ext. intros. unfold nid. by rewrite Hlv. }
        rewrite Hlv. done.
      * intros s Hs. rewrite Hgn. auto.
      * intros s n Hs Hex Hn. rewrite Hgn in Hn. destruct (F4 s n Hs Hex Hn) as [C1 C2]. split; [done|]. intros c Hc. rewrite Hgb. auto.
      * intros e He. destruct (decide (e = slot)) as [->|Hs]; [|rewrite Hgo' by done; auto]. rewrite Hg'. eexists. split; [done|].
        destruct (F5 slot Hin) as (en0 & He0 & Hok). rewrite Hget in He0. by injection He0 as <-.
      * intros B HB. destruct (F6 B HB) as (G1 & G2 & G3). split_and!; auto.
        -- intros s n Hs Hex Hn. rewrite Hgn in Hn. eauto.
        -- intros e en' He Hen'. destruct (Hbox _ _ Hen') as (en0 & H0 & <-). eauto.
    + intros s n Hs Hn. rewrite Hgn in Hn. by apply (Hocc s n).
  - apply Forall2_same_length_lookup_2. { rewrite insert_length. by eapply Forall2_length. }
    intros k x y Hx Hy. destruct (decide (k = i)) as [->|Hk].
    + rewrite list_lookup_insert in Hy by (by eapply lookup_lt_Some). rewrite Hi in Hx. injection Hx as <-. by injection Hy as <-.
    + rewrite list_lookup_insert_ne in Hy by done. rewrite Hgo'; [by eapply (Forall2_lookup_lr _ _ _ _ _ _ Hes)|].
      intros ->. assert (NoDup ae) as Hnd by (by eapply pools_nodup_e). apply Hk. by eapply NoDup_lookup.
  - by rewrite Hl'.
Qed.

Lemma sim_insert t A H p (b : box) : sim dims 1 t A H -> box_ok dims b ->
  exists s t', insert_element pd dims L t p b.1 b.2 = Some (s, t') /\ sim dims 1 t' (A ++ [(b, p)]) (H ++ [b]).
Proof using HL Hd.
  intros Hs Hb. destruct (step_sim pd dims L Hd HL 1 (Insert b p) t A H) as (t' & A' & H' & Hst & Hsp & _ & Hs'); auto.
  cbn [step] in Hst. destruct (insert_element _ _ _ _ _ _ _) as [[s t1]|]; [|done]. injection Hst as <-.
  inversion Hsp; subst. eauto.
Qed.
Lemma sim_clear t A H : sim dims 1 t A H -> exists t', rt_clear pd dims t = Some t' /\ sim dims 1 t' [] [].
Proof using HL Hd.
  intros Hs. destruct (step_sim pd dims L Hd HL 1 Clear t A H) as (t' & A' & H' & Hst & Hsp & _ & Hs'); auto; [done|].
  cbn [step] in Hst. inversion Hsp; subst. eauto.
Qed.
Lemma sim_new init : (0 < init)%nat -> exists t, rt_new pd dims init = Some t /\ sim dims 1 t [] [].
Proof using HL Hd.
  intros Hi. destruct (run_sim pd dims L Hd HL 1 init [] Hi ltac:(by right)) as (t & A & H & Hrun & Hsp & Hs); [done|].
  inversion Hsp; subst. unfold run in Hrun. destruct (rt_new pd dims init) as [t0|]; [|done]. cbn [mbind option_bind steps] in Hrun. injection Hrun as ->. eauto.
Qed.
(** Lookup when the boxes have no common index. *)
Lemma sim_find t A H c i (x : item (P := P)) : sim dims 1 t A H -> coord_ok dims c -> A !! i = Some x -> at_point x c ->
  (forall j y, A !! j = Some y -> at_point y c -> j = i) ->
  exists slot t', search_point t c = Some (Some slot, t') /\ payload_at t' slot = Some x.2 /\ sim dims 1 t' A H /\
    (exists en, get_entry t' slot = Some en /\ en_box en = mk_bbox x.1.1 x.1.2 /\
      forall p, exists t1, set_entry t' slot (Entry (en_box en) p) = Some t1 /\ sim dims 1 t1 (<[i := (x.1, p)]> A) H).
Proof using.
  intros (HA & HH & Hin & ae & Hg) [Hc1 Hc2] Hx Hat Huniq.
  destruct (search_point_good dims 1 (allB dims H) t ae (ent <$> A) c Hg) as (r & t' & Hrun & Hg' & Hn & He & Hro & Hres); auto.
  { apply fmap_ent_nil. by intros ->. }
  destruct r as [s|].
  2:{ exfalso. specialize (Hres (ent x)). rewrite (proj2 (ent_contains dims x c ltac:(by eapply (Forall_lookup_1 _ _ _ _ HA)) (conj Hc1 Hc2))) in Hres by done.
      discriminate Hres. apply elem_of_list_fmap. exists x. split; [done|]. by eapply elem_of_list_lookup_2. }
  destruct Hres as (j & en & Hj & Hej & Hcn & Hpay). rewrite list_lookup_fmap in Hej.
  destruct (A !! j) as [y|] eqn:Hy; [|done]. injection Hej as <-.
  apply (ent_contains dims y c (Forall_lookup_1 _ _ _ _ HA Hy) (conj Hc1 Hc2)) in Hcn.
  assert (j = i) as -> by eauto. rewrite Hx in Hy. injection Hy as <-.
  exists s, t'. split; [done|]. split; [done|]. split; [split_and!; auto; by exists ae|].
  exists (ent x). pose proof Hg' as (_ & Hes & _).
  assert ((ent <$> A) !! i = Some (ent x)) as Hei by (by rewrite list_lookup_fmap, Hx).
  split; [exact (Forall2_lookup_lr _ _ _ _ _ _ Hes Hj Hei)|]. split; [done|].
  intros p. destruct (set_pay_good 1 (allB dims H) t' ae (ent <$> A) i s (ent x) p Hg' Hj Hei) as (t1 & Ht1 & Hg1).
  exists t1. split; [done|]. split_and!; auto.
  - apply Forall_insert; [done|]. simpl. by eapply (Forall_lookup_1 _ _ _ _ HA).
  - intros y (k & Hk)%elem_of_list_lookup. apply list_lookup_insert_Some in Hk as [(-> & <- & _)|[_ Hk]].
    + simpl. apply Hin. by eapply elem_of_list_lookup_2.
    + apply Hin. by eapply elem_of_list_lookup_2.
  - exists ae. rewrite list_fmap_insert. done.
Qed.
Lemma sim_find_none t A H c : sim dims 1 t A H -> coord_ok dims c -> A <> [] -> (forall x, x ∈ A -> ~ at_point x c) ->
  exists t', search_point t c = Some (None, t') /\ sim dims 1 t' A H.
Proof using.
  intros (HA & HH & Hin & ae & Hg) [Hc1 Hc2] Hne Hno.
  destruct (search_point_good dims 1 (allB dims H) t ae (ent <$> A) c Hg) as (r & t' & Hrun & Hg' & Hn & He & Hro & Hres); auto.
  { by apply fmap_ent_nil. }
  destruct r as [s|]; [|exists t'; split; [done|]; split_and!; auto; by exists ae]. destruct Hres as (j & en & Hj & Hej & Hcn & Hpay). rewrite list_lookup_fmap in Hej.
  destruct (A !! j) as [y|] eqn:Hy; [|done]. injection Hej as <-.
  apply (ent_contains dims y c (Forall_lookup_1 _ _ _ _ HA Hy) (conj Hc1 Hc2)) in Hcn. exfalso. eapply Hno; [by eapply elem_of_list_lookup_2|done].
Qed.
Lemma sim_update t A H c i (x : item (P := P)) (b : box) : sim dims 1 t A H -> coord_ok dims c -> box_ok dims b -> A !! i = Some x -> at_point x c ->
  (forall j y, A !! j = Some y -> at_point y c -> j = i) ->
  exists t', update_bounding_box dims t c b.1 b.2 = Some t' /\ sim dims 1 t' (<[i := (b, x.2)]> A) (H ++ [b]).
Proof using pd Hd HL.
  intros Hs Hc Hb Hx Hat Huniq. destruct (step_sim pd dims L Hd HL 1 (Update c b) t A H) as (t' & A' & H' & Hst & Hsp & _ & Hs'); auto.
  { split; [|done]. apply lookup_lt_Some in Hx. lia. }
  exists t'. split; [exact Hst|]. inversion Hsp as [|? ? ? ? j y Hy Haty|? ? ? ? Hno| | |]; subst.
  - assert (j = i) as -> by eauto. assert (y = x) as -> by congruence. done.
  - exfalso. eapply Hno; [by eapply elem_of_list_lookup_2|done].
Qed.
(** The same without uniqueness: the update hits some box. *)
Lemma sim_update_any t A H c (b : box) : sim dims 1 t A H -> coord_ok dims c -> box_ok dims b -> A <> [] ->
  exists t' A' H', update_bounding_box dims t c b.1 b.2 = Some t' /\ sim dims 1 t' A' H' /\ length A' = length A.
Proof using pd Hd HL.
  intros Hs Hc Hb Hne. destruct (step_sim pd dims L Hd HL 1 (Update c b) t A H) as (t' & A' & H' & Hst & Hsp & Hl & Hs'); auto.
  { split; [|done]. destruct A; [done|simpl; lia]. }
  eauto 10.
Qed.
Lemma sim_empty t A H : sim dims 1 t A H -> rt_empty t = match A with [] => true | _ => false end.
Proof using.
  intros (HA & HH & Hin & ae & ([(Hroot & _ & ->)|(an & r & Hne & Hrt & Hf & Hocc)] & Hes & Hla)); unfold rt_empty.
  - rewrite Hroot. apply Forall2_nil_inv_l in Hes. by destruct A.
  - destruct Hrt as (-> & _). destruct A; [|done]. apply Forall2_nil_inv_r in Hes. done.
Qed.
End tree.

(** * Chunk store *)
Section store.
Context (vd dims : nat) (junk : N) (cs : list nat) (Hdims : (0 < dims)%nat).
Notation sstate := (gmap N (chunk_meta * content)).

Lemma on_disk_sz sz sz' m c files : sz' (cm_id m) = sz (cm_id m) -> on_disk vd dims sz m c files -> on_disk vd dims sz' m c files.
Proof using. intros E [H|H]; [left|by right]. by rewrite E. Qed.
Lemma entry_ok_sz sz sz' e m c files : sz' (cm_id m) = sz (cm_id m) -> entry_ok vd dims cs sz e m c files -> entry_ok vd dims cs sz' e m c files.
Proof using.
  intros E (H1 & H2 & H3). split; [done|]. split; [done|]. destruct (ce_st e) as [| |ax].
  - destruct H3 as [H3 H4]. split; [|done]. by eapply on_disk_sz.
  - by rewrite E.
  - by rewrite E.
Qed.
Lemma linv_sz sz sz' l files (A : sstate) : (forall k, is_Some (A !! k) -> sz' k = sz k) -> linv vd dims cs sz l files A -> linv vd dims cs sz' l files A.
Proof using.
  intros E [H1 H2]. split; [done|]. intros k m c Hk. destruct (H2 k m c Hk) as (Hi & Ho & Hl & He & Hdk).
  assert (sz' (cm_id m) = sz (cm_id m)) as Em by (rewrite Hi; apply E; eauto). split_and!; auto.
  - intros e H. eapply entry_ok_sz; eauto.
  - intros H. eapply on_disk_sz; eauto.
Qed.
Lemma sinv_sz sz sz' s (A : sstate) : (forall k, is_Some (A !! k) -> sz' k = sz k) -> sinv vd dims cs sz s A -> sinv vd dims cs sz' s A.
Proof using. intros E (l & H1 & H2 & H3 & H4). exists l. split_and!; auto. by eapply linv_sz. Qed.

Lemma clear_cache_ok sz (Hacc : forall k, acceptable_chunk dims (sz k)) ord s A : (forall l, ord l ≡ₚ l) -> sinv vd dims cs sz s A ->
  exists s', clear_cache vd dims ord s = Done s' /\ sinv vd dims cs sz s' ∅ /\ s_files s' = ∅.
Proof using Hdims.
  intros Hord Hs. destruct (flush_cache_ok vd dims cs sz Hacc Hdims ord s A Hord Hs) as (s1 & Hf & (H1 & H2 & H3 & H4) & Hsz).
  unfold clear_cache. rewrite Hf. cbn [mbind res_bind]. eexists. split; [reflexivity|]. split; [|done]. exists []. split_and!; auto.
  cbn [s_files]. split; [intros ? ? H; by apply elem_of_nil in H|]. intros k m c Hk. by rewrite lookup_empty in Hk.
Qed.

Lemma move_cache_ok sz (Hacc : forall k, acceptable_chunk dims (sz k)) ord s A : (forall l, ord l ≡ₚ l) -> sinv vd dims cs sz s A ->
  exists s', move_cache vd dims ord ∅ s = Done (s', ∅) /\ sinv vd dims cs sz s' A.
Proof using Hdims.
  intros Hord Hs. destruct (flush_cache_ok vd dims cs sz Hacc Hdims ord s A Hord Hs) as (s1 & Hf & (H1 & H2 & H3 & H4) & Hsz).
  unfold move_cache. rewrite Hf. cbn [mbind res_bind]. eexists. split; [reflexivity|]. exists []. split_and!; auto.
  cbn [s_files]. by rewrite map_union_empty.
Qed.

(** Importing the files of other chunks. *)
Lemma import_cache_ok sz src move s (A B : sstate) : sinv vd dims cs sz s A -> linv vd dims cs sz [] src B ->
  src ##ₘ s_files s -> A ##ₘ B -> (forall k m c k' m' c', A !! k = Some (m, c) -> B !! k' = Some (m', c') -> cm_path m = cm_path m' -> cm_path m = []) ->
  exists s', import_cache src move s = Done (s', if move then ∅ else src) /\ sinv vd dims cs sz s' (A ∪ B).
Proof using.
  intros (l & H1 & H2 & H3 & [H4 H5]) [_ HB] Hdisj Hdom Hpath.
  exists (CStore (s_size s) (s_cs s) (s_cache s) (src ∪ s_files s)). split.
  { unfold import_cache. destruct move; [done|]. by rewrite bool_decide_true. }
  exists l. split_and!; auto. cbn [s_files]. split.
  - intros k e He. destruct (H4 k e He) as [x Hx]. exists x. by apply lookup_union_Some_l.
  - intros k m c Hk. apply lookup_union_Some in Hk as [Hk|Hk]; [| |done].
    + destruct (H5 k m c Hk) as (Hi & Ho & Hl & He & Hdk).
      split_and!; auto.
      * intros k2 m2 c2 Hk2 Hne Hp. apply lookup_union_Some in Hk2 as [Hk2|Hk2]; [by eapply Ho| |done].
        eapply Hpath; [exact Hk|exact Hk2|]. by rewrite Hp.
      * intros e HIn. specialize (He e HIn). destruct He as (E1 & E2 & E3). split; [done|]. split; [done|]. destruct (ce_st e) as [| |ax].
        -- destruct E3 as [[(T1 & T2 & f & Tf & Tfh)|Hn] Hret]; split; auto; [|by right]. left. split_and!; auto. exists f. split; [|done].
           by apply lookup_union_Some_r.
        -- done.
        -- destruct E3 as (-> & Ht & Hp & f & c1 & c2 & n1 & n2 & sh & Hf & Hr). split_and!; auto. exists f, c1, c2, n1, n2, sh.
           split; [by apply lookup_union_Some_r|done].
      * intros Hn. destruct (Hdk Hn) as [(T1 & T2 & f & Tf & Tfh)|Hnc]; [|by right]. left. split_and!; auto. exists f. split; [|done].
        by apply lookup_union_Some_r.
    + destruct (HB k m c Hk) as (Hi & Ho & Hl & _ & Hdk). split_and!; auto.
      * intros k2 m2 c2 Hk2 Hne Hp. apply lookup_union_Some in Hk2 as [Hk2|Hk2]; [|by eapply Ho|done].
        rewrite <- Hp. eapply Hpath; [exact Hk2|exact Hk|done].
      * intros e HIn. destruct (H4 k e HIn) as [x Hx]. exfalso. exact (proj1 (map_disjoint_spec A B) Hdom k _ _ Hx Hk).
      * intros Hn. destruct (Hdk ltac:(apply not_elem_of_nil)) as [(T1 & T2 & f & Tf & Tfh)|Hnc]; [|by right]. left. split_and!; auto.
        exists f. split; [|done]. by apply lookup_union_Some_l.
Qed.
End store.
