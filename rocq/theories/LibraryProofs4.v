(** Proofs about the distributed array, part 4: element access and appending. *)
From stdpp Require Import base list list_numbers numbers option gmap countable sets.
From Coq Require Import NArith Lia.
From Verif Require Import IndexSpec NDArrayModel NDArrayProofs NDArrayOps NDArrayProps NullSupModel CodecModel StreamerModel StreamerProps CacheModel CacheProofs
  BBoxModel BBoxProps DownsampleModel
  RTreeModel RTreeInsert RTreeRebuild RTreeProps ChunkMetaModel ChunkMetaProps ChunkCacheModel ChunkCacheSpec ChunkCacheProofs ChunkCacheProofs2 ChunkCacheProofs3 ChunkCacheProps
  LibraryModel LibrarySpec LibraryProofs LibraryProofs2 LibraryProofs3.

Section get.
Context (vd dims : nat) (junk : N) (L : lib) (HL : lib_ok L).
Local Notation lrep := (lrep vd dims).
Local Notation lrep_ := (lrep_ vd dims).

Lemma covers_coord m c ind : meta_rep dims m c -> covers c ind -> coord_ok dims ind.
Proof using.
  intros Hr (H1 & H2 & H3). pose proof (mr_dims _ _ _ Hr) as Hd. destruct (mr_box _ _ _ Hr) as [_ HB]. split; [|congruence].
  apply Forall_lookup_2. intros i z Hz. pose proof (lookup_lt_Some _ _ _ Hz) as Hlt.
  destruct (lookup_lt_is_Some_2 (c_start c) i) as [x Hx]; [lia|]. destruct (lookup_lt_is_Some_2 (c_end c) i) as [y Hy]; [lia|].
  specialize (H3 i x y z Hx Hy Hz). specialize (HB i x y Hx Hy). lia.
Qed.
Lemma mr_shape0 m c : meta_rep dims m c -> c_ov c = 0%N -> N.to_nat <$> cm_shape m = k_shape (c_val c).
Proof using.
  intros Hr Hn. pose proof (mr_cshape _ _ _ Hr) as H1. pose proof (mr_shape _ _ _ Hr) as H2. rewrite Hn in H2.
  apply list_eq_same_length with dims.
  - by rewrite (mr_shape_len _ _ _ Hr).
  - rewrite fmap_length, (Forall2_length _ _ _ H1), zip_with_length, (mr_end_len _ _ _ Hr), (mr_dims _ _ _ Hr). lia.
  - intros i x y _ Hx Hy. rewrite list_lookup_fmap_Some in Hx. destruct Hx as (n & Hn2 & ->).
    destruct (Forall2_lookup_l _ _ _ _ _ H1 Hn2) as (se & Hse & ->).
    pose proof (Forall2_lookup_lr _ _ _ _ _ _ H2 Hy Hse) as E. cbn beta in E. lia.
Qed.

Lemma find_ok l S M sz H i c ind : lrep_ l S M sz H -> ls_chunks S !! i = Some c -> covers c ind ->
  exists slot m t', M !! i = Some m /\ meta_rep dims m c /\ find_chunk ind l = Done (slot, m, with_tree l t') /\ lrep_ (with_tree l t') S M sz H /\
    exists en, get_entry t' slot = Some en /\
      forall p, exists t1, set_entry t' slot (Entry (en_box en) p) = Some t1 /\ sim dims 1 t1 (<[i := ((item_of m).1, p)]> (item_of <$> M)) H.
Proof using.
  intros Hl Hc Hcov. destruct (lrep_get _ _ _ _ _ _ _ _ _ Hl Hc) as (m & Hm & Hr & Ha & Hs).
  destruct (sim_find (P := chunk_meta) dims (l_tree l) (item_of <$> M) H ind i (item_of m)) as (slot & t' & Hsp & Hpay & Hsim & en & Hen & _ & Hset).
  - by eapply lr_tree.
  - by eapply covers_coord.
  - by rewrite list_lookup_fmap, Hm.
  - by apply (mr_at_point dims m c).
  - intros j y Hy Hat. rewrite list_lookup_fmap_Some in Hy. destruct Hy as (mj & Hmj & ->).
    destruct (lrep_get_m _ _ _ _ _ _ _ _ _ Hl Hmj) as (cj & Hcj & Hrj & _). apply (mr_at_point dims mj cj ind Hrj) in Hat.
    destruct (decide (j = i)) as [|Hne]; [done|]. exfalso. exact (lr_apart _ _ _ _ _ _ _ Hl j i cj c Hcj Hc Hne ind Hat Hcov).
  - exists slot, m, t'. split; [done|]. split; [done|]. split; [|split].
    + unfold find_chunk. rewrite Hsp. cbn [of_opt mbind res_bind]. rewrite Hpay. done.
    + destruct Hl. by split.
    + exists en. split; [done|]. intros p. destruct (Hset p) as (t1 & Ht1 & Hs1). exists t1. split; [done|]. exact Hs1.
Qed.

(** Position of a covered index in the stored array. *)
Lemma local_pos m c ind : meta_rep dims m c -> covers c ind ->
  vto_nat (local_ind m ind) = position c ind /\ in_shape (k_shape (c_val c)) (position c ind).
Proof using.
  intros Hr Hcov. pose proof (covers_coord _ _ _ Hr Hcov) as [Hco Hcl]. pose proof Hr as [? ? ? ? ? ? ? [_ HB] ? ? ? ?]. destruct Hcov as (C1 & C2 & C3).
  pose proof (mr_cshape _ _ _ Hr) as Hcsh.
  assert (length (cm_shape m) = dims) as Hcshl. { rewrite (Forall2_length _ _ _ Hcsh), zip_with_length. lia. }
  assert (forall i s n, c_start c !! i = Some s -> cm_shape m !! i = Some n -> exists e, c_end c !! i = Some e /\ n = (e - s)%N) as Hn.
  { intros i s n Hs Hn. destruct (Forall2_lookup_l _ _ _ _ _ Hcsh Hn) as ([s' e'] & Hse & ->). apply lookup_zip_with_Some in Hse as (s2 & e2 & [= -> ->] & Hs2 & He2).
    cbn [fst snd]. exists e2. split; [done|]. congruence. }
  assert (forall i s, c_start c !! i = Some s -> exists e n z, c_end c !! i = Some e /\ k_shape (c_val c) !! i = Some n /\ ind !! i = Some z /\
    (s <= z < e)%N /\ N.of_nat n = (e - s + 2 * c_ov c)%N /\ (N.of_nat n < 2 ^ 64)%N /\ (e + c_ov c < 2 ^ 64)%N) as Hall.
  { intros i s Hs. pose proof (lookup_lt_Some _ _ _ Hs) as Hlt. destruct (lookup_lt_is_Some_2 (c_end c) i) as [e He]; [lia|].
    assert (length (k_shape (c_val c)) = dims) as Hkl by (by eapply mr_shape_len).
    destruct (lookup_lt_is_Some_2 (k_shape (c_val c)) i) as [n Hn']; [lia|]. destruct (lookup_lt_is_Some_2 ind i) as [z Hz]; [lia|].
    exists e, n, z. split_and!; auto.
    - by specialize (C3 i s e z Hs He Hz) as [? _].
    - by specialize (C3 i s e z Hs He Hz) as [_ ?].
    - refine (Forall2_lookup_lr _ _ _ i n (s, e) mr_shape Hn' _). rewrite lookup_zip_with, Hs. cbn. by rewrite He.
    - exact (Forall_lookup_1 _ _ _ _ mr_small Hn').
    - exact (Forall_lookup_1 _ _ _ _ mr_fits He). }
  destruct (C46_offset_kept dims m ind) as [Hloc _]; [done| | |].
  - split.
    + apply Forall_lookup_2. intros i x Hx. apply lookup_zip_with_Some in Hx as (s & n & -> & Hs & Hn'). rewrite mr_start in Hs.
      destruct (Hn i s n Hs Hn') as (e & He & ->). destruct (Hall i s Hs) as (e' & n & z & He' & _ & _ & Hz & _ & _ & Hf). rewrite mr_ov.
      assert (e' = e) as -> by congruence. replace (s + (e - s))%N with e by lia. done.
    + apply Forall_lookup_2. intros i n Hn'. pose proof (lookup_lt_Some _ _ _ Hn') as Hlt. destruct (lookup_lt_is_Some_2 (c_start c) i) as [s Hs]; [lia|].
      destruct (Hn i s n Hs Hn') as (e & He & ->). destruct (Hall i s Hs) as (e' & n & z & He' & _ & _ & Hz & E & Hsm & _). rewrite mr_ov.
      assert (e' = e) as -> by congruence. lia.
  - rewrite mr_start, mr_ov. split.
    + apply Forall2_same_length_lookup_2; [lia|]. intros i s z Hs Hz. destruct (Hall i s Hs) as (e & n & z' & _ & _ & Hz' & Hb & _). assert (z' = z) as -> by congruence. lia.
    + apply Forall2_same_length_lookup_2. { rewrite zip_with_length. lia. } intros i x z Hx Hz. apply lookup_zip_with_Some in Hx as (s & n & -> & Hs & Hn').
      destruct (Hn i s n Hs Hn') as (e & He & ->). destruct (Hall i s Hs) as (e' & n & z' & He' & _ & Hz' & Hb & _).
      assert (z' = z) as -> by congruence. assert (e' = e) as -> by congruence. lia.
  - rewrite mr_start in Hloc. assert (length (position c ind) = dims) as Hpl. { unfold position. rewrite zip_with_length. lia. }
    assert (vto_nat (local_ind m ind) = position c ind) as E.
    { unfold vto_nat, position. apply list_eq_same_length with dims; [done| |].
      - rewrite fmap_length, (Forall2_length _ _ _ Hloc), zip_with_length. lia.
      - intros i x y _ Hx Hy. rewrite list_lookup_fmap_Some in Hx. destruct Hx as (li & Hli & ->).
        destruct (Forall2_lookup_l _ _ _ _ _ Hloc Hli) as ([z s] & Hzs & Eli). apply lookup_zip_with_Some in Hzs as (z2 & s2 & [= -> ->] & Hz & Hs).
        rewrite lookup_zip_with_Some in Hy. destruct Hy as (z & s & -> & Hz' & Hs'). assert (z2 = z) as -> by congruence. assert (s2 = s) as -> by congruence.
        cbn [fst snd] in Eli. rewrite mr_ov in Eli. destruct (Hall i s Hs) as (e & n & z' & _ & _ & Hz2 & Hb & _). assert (z' = z) as -> by congruence. lia. }
    split; [done|]. unfold in_shape.
    enough (Forall2 lt (position c ind) (k_shape (c_val c))) as HF.
    { clear -HF. revert HF. generalize (k_shape (c_val c)) (position c ind). intros sh p HF. induction HF; [done|]. cbn. split; [lia|done]. }
    apply Forall2_same_length_lookup_2. { rewrite Hpl. symmetry. by eapply mr_shape_len. }
    intros i p n Hp Hn'. unfold position in Hp. rewrite lookup_zip_with_Some in Hp. destruct Hp as (z & s & -> & Hz & Hs).
    destruct (Hall i s Hs) as (e & n' & z' & _ & Hn2 & Hz2 & Hb & En & _). assert (z' = z) as -> by congruence. assert (n' = n) as -> by congruence. lia.
Qed.

Lemma get_ok l S i c ind : lrep l S -> ls_chunks S !! i = Some c -> covers c ind -> (c_null c = true -> c_ov c = 0%N) ->
  exists v l', lib_get vd dims junk ind l = Done (v, l') /\ lrep l' S /\ comes_back NullSuppressed (value c ind) v.
Proof using.
  intros Hl0 Hc Hcov Hn. pose proof (lrep_dims _ _ _ _ Hl0) as Hd. destruct Hl0 as (M & sz & H & Hl).
  destruct (find_ok _ _ _ _ _ _ _ _ Hl Hc Hcov) as (slot & m & t' & Hm & Hr & Hf & Hl1 & _).
  destruct (lrep_get _ _ _ _ _ _ _ _ _ Hl Hc) as (m1 & Hm1 & _ & Ha & _). assert (m1 = m) as -> by congruence.
  destruct (retrieve_ok vd dims junk (ls_cs S) sz (lr_acc _ _ _ _ _ _ _ Hl) Hd _ _ m (c_val c) (lr_store _ _ _ _ _ _ _ Hl1) Ha) as (d & s' & Hret & Hs' & _ & Hfd & Hsh & Hv).
  { by eapply mr_readable. }
  destruct (local_pos m c ind Hr Hcov) as [Hp Hin]. destruct (Hv _ Hin) as (v & Hrd & Hcb).
  exists v, (with_store (with_tree l t') s'). split; [|split; [|done]].
  - unfold lib_get. rewrite Hf. cbn [mbind res_bind]. rewrite Hret. cbn [mbind res_bind]. rewrite Hp, Hrd. reflexivity.
  - exists M, sz, H. by apply with_store_ok.
Qed.

(** ** Looking for a chunk, retrieving a chunk *)
Lemma inbox_or (s e ind : list N) : inbox s e ind \/ ~ inbox s e ind.
Proof using.
  unfold inbox. destruct (decide (length e = length s)) as [H1|H1]; [|right; by intros (_ & ? & _)]. destruct (decide (length ind = length s)) as [H2|H2]; [|right; by intros (? & _)].
  destruct (decide (Forall (fun xyz => xyz.1.1 <= xyz.2 < xyz.1.2)%N (zip (zip s e) ind))) as [H3|H3].
  - left. split; [done|]. split; [done|]. intros i x y z Hx Hy Hz. refine (Forall_lookup_1 _ _ i (x, y, z) H3 _). apply lookup_zip_with_Some. exists (x, y), z. split; [done|]. split; [|done].
    apply lookup_zip_with_Some. by exists x, y.
  - right. intros (_ & _ & H). apply H3. apply Forall_lookup_2. intros i [[x y] z] Hi. apply lookup_zip_with_Some in Hi as (xy & z' & [= -> ->] & Hxy & Hz).
    apply lookup_zip_with_Some in Hxy as (x' & y' & -> & Hx & Hy). exact (H i x' y' z' Hx Hy Hz).
Qed.
Lemma lib_find_some l S M sz H i c ind : lrep_ l S M sz H -> ls_chunks S !! i = Some c -> covers c ind ->
  exists m t', M !! i = Some m /\ meta_rep dims m c /\ lib_find ind l = Done (Some m, with_tree l t') /\ lrep_ (with_tree l t') S M sz H.
Proof using.
  intros Hl Hc Hcov. destruct (find_ok _ _ _ _ _ _ _ _ Hl Hc Hcov) as (slot & m & t' & Hm & Hr & Hf & Hl1 & _). exists m, t'. split; [done|]. split; [done|]. split; [|done].
  revert Hf. unfold find_chunk, lib_find. destruct (search_point (l_tree l) ind) as [[[sl|] t2]|]; cbn [of_opt mbind res_bind]; try discriminate.
  destruct (payload_at t2 sl) as [m2|]; cbn [of_opt mbind res_bind]; [|discriminate]. intros E. injection E as _ -> E. by rewrite E.
Qed.
Lemma lib_find_none l S M sz H ind : lrep_ l S M sz H -> ls_chunks S <> [] -> length ind = dims -> Forall (fun x => x < 2 ^ 64)%N ind ->
  (forall c, c ∈ ls_chunks S -> ~ covers c ind) ->
  exists t', lib_find ind l = Done (None, with_tree l t') /\ lrep_ (with_tree l t') S M sz H.
Proof using.
  intros Hl Hne Hlen Hsm Hno. destruct (sim_find_none (P := chunk_meta) dims (l_tree l) (item_of <$> M) H ind) as (t' & Hsp & Hsim).
  - by eapply lr_tree.
  - split; [|done]. exact Hsm.
  - intros E. apply fmap_nil_inv in E. pose proof (lrep_len _ _ _ _ _ _ _ Hl) as Hml. rewrite E in Hml. destruct (ls_chunks S); [done|]. simpl in Hml. lia.
  - intros x Hx Hat. apply elem_of_list_fmap in Hx as (m & -> & Hm). apply elem_of_list_lookup in Hm as (j & Hmj).
    destruct (lrep_get_m _ _ _ _ _ _ _ _ _ Hl Hmj) as (cj & Hcj & Hrj & _). apply (mr_at_point dims m cj ind Hrj) in Hat.
    eapply Hno; [by eapply elem_of_list_lookup_2|done].
  - exists t'. split; [unfold lib_find; by rewrite Hsp|]. destruct Hl. by split.
Qed.
Lemma lib_find_ok l S ind : lrep l S -> ls_chunks S <> [] -> length ind = dims -> Forall (fun x => x < 2 ^ 64)%N ind ->
  exists r l', lib_find ind l = Done (r, l') /\ lrep l' S.
Proof using.
  intros (M & sz & H & Hl) Hne Hlen Hsm.
  assert ((exists c, c ∈ ls_chunks S /\ covers c ind) \/ forall c, c ∈ ls_chunks S -> ~ covers c ind) as [(c & Hc & Hcov)|Hno].
  { clear. induction (ls_chunks S) as [|c C IH]; [right; intros c Hc; by apply elem_of_nil in Hc|]. destruct (inbox_or (c_start c) (c_end c) ind) as [Hc|Hc].
    - left. exists c. split; [left|done].
    - destruct IH as [(c' & H1 & H2)|IH]; [left; exists c'; split; [by right|done]|right]. intros c' [->|H']%elem_of_cons; [done|by apply IH]. }
  - apply elem_of_list_lookup in Hc as (i & Hc). destruct (lib_find_some _ _ _ _ _ _ _ _ Hl Hc Hcov) as (m & t' & _ & _ & Hf & Hl'). exists (Some m), (with_tree l t'). split; [done|]. by exists M, sz, H.
  - destruct (lib_find_none _ _ _ _ _ _ Hl Hne Hlen Hsm Hno) as (t' & Hf & Hl'). exists None, (with_tree l t'). split; [done|]. by exists M, sz, H.
Qed.
Lemma lib_retrieve_ok l S M sz H i m c : lrep_ l S M sz H -> M !! i = Some m -> ls_chunks S !! i = Some c -> cm_type m = specified ->
  exists d s, lib_retrieve vd dims junk m l = Done (d, with_store l s) /\ lrep_ (with_store l s) S M sz H /\ float_array vd d /\ returns vd d (c_val c).
Proof using.
  intros Hl Hm Hc Hty. assert (0 < dims)%nat as Hd by (eapply lrep_dims; by exists M, sz, H).
  destruct (lrep_get _ _ _ _ _ _ _ _ _ Hl Hc) as (m1 & Hm1 & _ & Ha & _). assert (m1 = m) as -> by congruence.
  destruct (retrieve_ok vd dims junk (ls_cs S) sz (lr_acc _ _ _ _ _ _ _ Hl) Hd _ _ m (c_val c) (lr_store _ _ _ _ _ _ _ Hl) Ha) as (d & s' & Hret & Hs' & _ & Hfd & Hrt); [by left|].
  exists d, s'. split; [unfold lib_retrieve; rewrite Hret; done|]. split; [|done]. by apply with_store_ok.
Qed.

(** ** Appending *)
Lemma append_lib_ok l S i c start slice : lrep l S -> ok_append vd dims S i c start slice ->
  exists l', lib_append vd dims junk 0 start slice l = Done l' /\ lrep l' (set_chunks S (<[i := grown_chunk vd c slice]> (ls_chunks S))).
Proof using HL.
  intros Hl0 Hok. pose proof (lrep_dims _ _ _ _ Hl0) as Hd. destruct Hl0 as (M & sz & H & Hl). destruct Hok.
  destruct oa_start as (x & r & -> & Hx & Hcov). destruct (find_ok _ _ _ _ _ _ _ _ Hl oa_chunk Hcov) as (slot & m & t' & Hm & Hr & Hf & Hl1 & en & Hen & Hset).
  destruct (lrep_get _ _ _ _ _ _ _ _ _ Hl oa_chunk) as (m1 & Hm1 & _ & Ha & Hsz). assert (m1 = m) as -> by congruence.
  pose proof (mr_dims _ _ _ Hr) as Hsl. pose proof (mr_end_len _ _ _ Hr) as Hel. pose proof (mr_shape_len _ _ _ Hr) as Hkl.
  destruct (c_start c) as [|s0 sr] eqn:Es; [simpl in Hsl; lia|]. destruct (c_end c) as [|e0 er] eqn:Ee; [simpl in Hel; lia|]. cbn in Hx. injection Hx as ->.
  destruct (k_shape (c_val c)) as [|n1 sh] eqn:Ek; [simpl in Hkl; lia|]. destruct oa_shape as [Hal Htl]. destruct (a_shape slice) as [|n2 sh2] eqn:Esl; [simpl in Hal; lia|].
  cbn in Htl. subst sh2. pose proof (mr_box _ _ _ Hr) as [_ HB]. rewrite Es, Ee in HB. pose proof (HB 0%nat s0 x eq_refl eq_refl) as HB0.
  pose proof (mr_shape _ _ _ Hr) as Hksh. rewrite Es, Ee, Ek, oa_ov in Hksh. cbn [zip_with] in Hksh. apply Forall2_cons_1 in Hksh as [Hn1 Hksh]. cbn [fst snd] in Hn1.
  assert (c_end (grown_chunk vd c slice) = (x + N.of_nat n2)%N :: er) as Ege. { unfold grown_chunk. cbn [c_end]. by rewrite Ee, Esl. }
  assert (k_shape (c_val (grown_chunk vd c slice)) = (n1 + n2)%nat :: sh) as Egk. { unfold grown_chunk. cbn [c_val]. apply concat0_shape; [done|]. cbn. exact Esl. }
  rewrite Ege in oa_fits, oa_apart. apply list.Forall_cons in oa_fits as [Hfx Hfr].
  pose proof (mr_shape0 _ _ Hr oa_ov) as Hcsh. rewrite Ek in Hcsh.
  assert (cm_type m = specified) as Hty. { rewrite (mr_type _ _ _ Hr). by rewrite oa_null. }
  assert (cm_end m = x :: er) as Eme by (by rewrite (mr_end _ _ _ Hr)).
  assert (N.of_nat (n1 + n2) < 2 ^ 64)%N as Hn12. { destruct oa_countable as [Hall _]. rewrite Egk in Hall. by apply list.Forall_cons in Hall as [? _]. }
  destruct (append_ok vd dims junk (ls_cs S) sz (lr_acc _ _ _ _ _ _ _ Hl) Hd (l_store l) _ m slice (lr_store _ _ _ _ _ _ _ Hl)) as (s' & Happ & Hs' & _).
  { exists (c_val c). rewrite Hsz. rewrite Ek, Esl, Eme. split_and!; auto; try done. }
  set (m' := grown m slice) in *. set (c' := grown_chunk vd c slice) in *.
  assert (grow_chunk 0 (N.of_nat n2) m = Some m') as Hgrow.
  { apply grow_chunk_grown.
    - by rewrite Hcsh.
    - rewrite Eme. apply (f_equal length) in Hcsh. rewrite fmap_length in Hcsh. rewrite Hcsh. simpl in *. lia.
    - by rewrite Esl.
    - rewrite Eme. done.
    - destruct (cm_shape m) as [|q qs]; [done|]. cbn in Hcsh. injection Hcsh as Hq _. cbn. lia. }
  assert (cm_end m' = (x + N.of_nat n2)%N :: er) as Eme'. { unfold m', grown. cbn [cm_end]. by rewrite Eme, Esl. }
  assert (meta_rep dims m' c') as Hr'.
  { pose proof Hr as []. split; try done.
    - eapply meta_grow; [done| |exact Hgrow]. lia.
    - by rewrite Eme', Ege.
    - change (c_start c') with (c_start c). rewrite Es, Ege. split; [simpl in *; lia|]. intros [|k] a b Ha1 Hb1.
      + cbn in Ha1, Hb1. injection Ha1 as ->. injection Hb1 as <-. lia.
      + exact (HB (Datatypes.S k) a b Ha1 Hb1).
    - change (c_start c') with (c_start c). change (c_ov c') with (c_ov c). rewrite Es, Ege, Egk, oa_ov. cbn [zip_with]. constructor; [cbn [fst snd]; lia|done].
    - rewrite Egk. apply list.Forall_cons. split; [done|]. rewrite Ek in mr_small. by apply list.Forall_cons in mr_small as [_ ?].
    - rewrite Ege. change (c_ov c') with (c_ov c). rewrite oa_ov. apply list.Forall_cons. split; [lia|]. eapply list.Forall_impl; [exact Hfr|]. intros z Hz. cbn beta in *. lia. }
  destruct (Hset m') as (t1 & Ht1 & Hs1).
  assert (i < length M)%nat as Hi by (by eapply lookup_lt_Some).
  destruct (sim_update meta0 dims L HL Hd t1 (<[i := ((item_of m).1, m')]> (item_of <$> M)) H ((x - 1)%N :: r) i ((item_of m).1, m') (item_of m').1 Hs1) as (t2 & Ht2 & Hs2).
  { exact (covers_coord _ _ _ Hr Hcov). }
  { exact (mr_box_ok _ _ _ Hr'). }
  { rewrite list_lookup_insert; [done|]. by rewrite fmap_length. }
  { apply (mr_at_point dims m c) in Hcov; [|done]. exact Hcov. }
  { intros j y Hy Hat. destruct (decide (j = i)) as [|Hne]; [done|]. rewrite list_lookup_insert_ne in Hy by done. rewrite list_lookup_fmap_Some in Hy.
    destruct Hy as (mj & Hmj & ->). destruct (lrep_get_m _ _ _ _ _ _ _ _ _ Hl Hmj) as (cj & Hcj & Hrj & _). apply (mr_at_point dims mj cj _ Hrj) in Hat.
    exfalso. exact (lr_apart _ _ _ _ _ _ _ Hl j i cj c Hcj oa_chunk Hne _ Hat Hcov). }
  rewrite list_insert_insert in Hs2. cbn [snd] in Hs2.
  pose proof (lrep_len _ _ _ _ _ _ _ Hl) as Hlen.
  eexists. split.
  { unfold lib_append. assert (((x :: r) !! 0%nat ≫= (fun x0 : N => Some (<[0%nat := wsub x0 1]> (x :: r)))) = Some ((x - 1)%N :: r)) as Ei.
    { cbn. rewrite (wsub_small x 1) by lia. done. }
    rewrite Ei. cbn [of_opt mbind res_bind]. rewrite Hf. cbn [mbind res_bind].
    rewrite Hty, N.eqb_refl. cbn [l_store with_tree]. rewrite Happ. cbn [mbind res_bind l_tree with_tree]. rewrite Hen. cbn [mbind option_bind]. rewrite Ht1. cbn [mbind option_bind].
    unfold item_of in Ht2. cbn [fst snd] in Ht2. rewrite Ht2. cbn [of_opt mbind res_bind]. reflexivity. }
  exists (<[i := m']> M), sz, (H ++ [(item_of m').1]).
  split; cbn [ls_chunks ls_cs l_tree l_store ls_handed ls_reopened l_next l_geo set_chunks with_tree].
  - apply Forall2_insert; [by eapply lr_metas|done].
  - by eapply lr_acc.
  - by eapply lr_cs.
  - apply Forall2_insert; [by eapply lr_sz|]. exact Hsz.
  - rewrite list_fmap_insert. exact Hs2.
  - intros h [Hh1|Hh1]%elem_of_app.
    + destruct (lr_hist _ _ _ _ _ _ _ Hl h Hh1) as (c1 & Hc1 & Hw). apply elem_of_list_lookup in Hc1 as [j Hc1]. destruct (decide (j = i)) as [->|Hne].
      * assert (c1 = c) as -> by congruence. exists c'. split. { apply elem_of_list_lookup. exists i. apply list_lookup_insert. lia. }
        destruct Hw as [W1 W2]. cbn [fst snd] in W1, W2. split; cbn [fst snd]; [exact W1|]. rewrite Ege. rewrite Ee in W2. intros [|k] a b Ha1 Hb1.
        -- cbn in Hb1. injection Hb1 as <-. specialize (W2 0%nat a x Ha1 eq_refl). lia.
        -- exact (W2 (Datatypes.S k) a b Ha1 Hb1).
      * exists c1. split; [|done]. apply elem_of_list_lookup. exists j. by rewrite list_lookup_insert_ne.
    + apply elem_of_list_singleton in Hh1 as ->. exists c'. split. { apply elem_of_list_lookup. exists i. apply list_lookup_insert. lia. }
      unfold item_of. cbn [fst]. rewrite (mr_start _ _ _ Hr'), (mr_end _ _ _ Hr'). apply within_refl.
  - rewrite (amap_insert M (ls_chunks S) i m c m' c'); [|done|by eapply lr_ids|done|done|done]. cbn [spec_step] in Hs'. rewrite Ha in Hs'. exact Hs'.
  - rewrite list_fmap_insert. rewrite list_insert_id; [by eapply lr_ids|]. by rewrite list_lookup_fmap, Hm.
  - intros j k c1 c2 Hc1 Hc2 Hjk. apply list_lookup_insert_Some in Hc1 as [(-> & <- & _)|[Hne1 Hc1]]; apply list_lookup_insert_Some in Hc2 as [(-> & <- & _)|[Hne2 Hc2]].
    + done.
    + change (c_start c') with (c_start c). rewrite Ege, Es. apply (oa_apart k c2); [done|]. auto.
    + apply apart_sym. change (c_start c') with (c_start c). rewrite Ege, Es. apply (oa_apart j c1); [done|]. auto.
    + exact (lr_apart _ _ _ _ _ _ _ Hl j k c1 c2 Hc1 Hc2 Hjk).
  - intros Hre. pose proof (lr_fresh _ _ _ _ _ _ _ Hl Hre) as Hfr2. apply Forall_insert; [done|]. change (cm_id m') with (cm_id m). exact (Forall_lookup_1 _ _ _ _ Hfr2 Hm).
  - by eapply lr_next.
  - by eapply lr_handed.
  - done.
Qed.
End get.
