(** Proofs about reading a Green's function: what is retrieved, and the functions for which the library stands. *)
From stdpp Require Import base sets list list_numbers numbers option gmap.
From Coq Require Import Reals Lra Lia NArith ZArith.
From Flocq Require Import IEEE754.Binary IEEE754.Bits.
From Verif Require Import IndexSpec LoopsProofs NDArrayModel NDArrayProofs NDArrayOps NDArrayProps CodecModel StreamerModel StreamerProps KernelModel KernelProps InterpModel InterpProps
  BBoxModel BBoxProps RTreeModel RTreeProps ChunkMetaModel ChunkMetaProps ChunkCacheModel ChunkCacheSpec ChunkCacheProofs2 ChunkCacheProofs3 LibraryModel LibrarySpec LibraryProofs LibraryProofs2
  LibraryProofs4 LibraryProofs6 LibraryProofs7 RebuildSpec SignalModel SignalProps FillModel ReadModel ReadSpec.
Local Open Scope R_scope.

(** ** Arrays *)
Lemma write_all {A} vd (junk : A) (a : ndarr A) xs : wf_owned vd a -> Forall (in_shape (a_shape a)) xs ->
  exists b, api_array vd b /\ a_shape b = a_shape a /\ forall x, x ∈ xs -> aread vd b x = aread vd a x.
Proof.
  intros Hwf Hxs. induction xs as [|x xs IH].
  - exists (anew vd junk (a_shape a)). split; [apply api_new; by destruct Hwf|]. split; [done|]. intros x Hx. by apply elem_of_nil in Hx.
  - apply list.Forall_cons in Hxs as [Hx Hxs]. destruct (IH Hxs) as (b & Hb & Hsh & Hrd). clear IH. destruct (aread_Some vd a x (wf_owned_wf _ _ Hwf) Hx) as (v & Hv & Hvl).
    destruct (awrite_spec vd b x v (api_array_wf _ _ Hb)) as (b' & Hw & _ & Hsh' & Hrx & Hry); [by rewrite Hsh|done|].
    exists b'. split; [by eapply api_write|]. split; [congruence|]. intros y Hy. destruct (decide (y = x)) as [->|Hne]; [by rewrite Hrx|].
    apply elem_of_cons in Hy as [->|Hy]; [done|]. rewrite <- Hrd by done. apply Hry; [|done]. rewrite Hsh. rewrite list.Forall_forall in Hxs. by apply Hxs.
Qed.
Lemma wf_api {A} vd (junk : A) (a : ndarr A) : wf_owned vd a -> api_array vd a.
Proof.
  intros Hwf. destruct (write_all vd junk a (box_elems (replicate (length (a_shape a)) 0%nat) (a_shape a)) Hwf) as (b & Hb & Hsh & Hrd).
  { apply list.Forall_forall. intros x Hx. by apply elem_of_box_elems in Hx. }
  assert (a = b) as ->; [|done]. pose proof (api_array_wf _ _ Hb) as Hwb. pose proof Hwf as (A1 & A2 & A3 & A4 & A5). pose proof Hwb as (B1 & B2 & B3 & B4 & B5).
  destruct (C01_addressing_bijection vd b Hb) as (_ & _ & Hfill).
  destruct a as [sh st off d o], b as [sh' st' off' d' o']; cbn [a_shape a_strides a_off a_data a_owns] in *. subst. f_equal.
  apply list_eq_same_length with (length d'); [done|congruence|]. intros p u w Hp Hu Hw. destruct (Hfill p Hp) as (x & Hx & Hr1 & Hr2). specialize (Hrd x (proj2 (elem_of_box_elems _ _ _) Hx)).
  unfold aread in Hrd. cbn [a_shape a_strides a_off a_data] in *. rewrite (proj2 (has_index_true _ _) Hx) in Hrd.
  set (q := flat_ind (compute_strides vd sh) 0 x) in *.
  destruct (block d q vd) as [v|] eqn:Hv.
  - pose proof (block_lookup _ _ _ _ Hv) as [_ Hv1]. symmetry in Hrd. rename Hrd into Hrd'. symmetry in Hrd'. pose proof (block_lookup _ _ _ _ Hrd') as [_ Hv2].
    specialize (Hv1 (p - q)%nat ltac:(lia)). specialize (Hv2 (p - q)%nat ltac:(lia)). replace (q + (p - q))%nat with p in * by lia. congruence.
  - destruct (block_Some d q vd) as (v & Hv'); [|congruence]. apply (wf_owned_wf _ _ Hwf). exact Hx.
Qed.
Lemma wf_equal {A} vd (a b : ndarr A) : wf_owned vd a -> api_array vd b -> a_shape a = a_shape b -> (forall x, in_shape (a_shape a) x -> aread vd a x = aread vd b x) -> a = b.
Proof.
  intros Hwf Hb Hsh Hrd. pose proof (api_array_wf _ _ Hb) as Hwb. pose proof Hwf as (A1 & A2 & A3 & A4 & A5). pose proof Hwb as (B1 & B2 & B3 & B4 & B5).
  destruct (C01_addressing_bijection vd b Hb) as (_ & _ & Hfill).
  destruct a as [sh st off d o], b as [sh' st' off' d' o']; cbn [a_shape a_strides a_off a_data a_owns] in *. subst. f_equal.
  apply list_eq_same_length with (length d'); [done|congruence|]. intros p u w Hp Hu Hw. destruct (Hfill p Hp) as (x & Hx & Hr1 & Hr2). specialize (Hrd x Hx).
  unfold aread in Hrd. cbn [a_shape a_strides a_off a_data] in *. rewrite (proj2 (has_index_true _ _) Hx) in Hrd.
  set (q := flat_ind (compute_strides vd sh') 0 x) in *.
  destruct (block d q vd) as [v|] eqn:Hv.
  - pose proof (block_lookup _ _ _ _ Hv) as [_ Hv1]. symmetry in Hrd. rename Hrd into Hrd'. pose proof (block_lookup _ _ _ _ Hrd') as [_ Hv2].
    specialize (Hv1 (p - q)%nat ltac:(lia)). specialize (Hv2 (p - q)%nat ltac:(lia)). replace (q + (p - q))%nat with p in * by lia. congruence.
  - destruct (block_Some d q vd) as (v & Hv'); [|congruence]. apply (wf_owned_wf _ _ Hwf). exact Hx.
Qed.
Lemma real_wf d : wf_owned 2 d -> wf_owned 2 (real_array d).
Proof. unfold wf_owned, real_array. cbn [a_shape a_strides a_off a_data a_owns]. by rewrite fmap_length. Qed.
Lemma real_read d x v : aread 2 d x = Some v -> aread 2 (real_array d) x = Some (float_value <$> v).
Proof.
  unfold aread, real_array, block. cbn [a_shape a_strides a_off a_data a_owns]. destruct (has_index _ _); [|done]. rewrite fmap_length. destruct (_ <=? _)%nat; [|done].
  intros E. injection E as <-. f_equal. by rewrite fmap_take, fmap_drop.
Qed.

(** ** Numbers *)
Lemma float_zero b : (b = 0 \/ b = 2 ^ 31)%N -> float_value b = 0.
Proof. intros [-> | ->]; reflexivity. Qed.
Lemma back_float v w i b x : comes_back NullSuppressed v w -> v !! i = Some b -> float_is b x -> exists b', w !! i = Some b' /\ float_value b' = x.
Proof.
  intros [->|(_ & Hz & ->)] Hb [_ Hx]; [eauto|]. exists 0%N. split.
  - apply lookup_replicate. split; [done|]. by eapply lookup_lt_Some.
  - rewrite <- Hx. rewrite (float_zero 0) by (by left). symmetry. apply float_zero. exact (Forall_lookup_1 _ _ _ _ Hz Hb).
Qed.
Lemma back_value v w : comes_back NullSuppressed v w -> float_value <$> w = float_value <$> v.
Proof.
  intros [->|(_ & Hz & ->)]; [done|]. induction Hz as [|b v Hb _ IH]; [done|]. cbn [length replicate]. rewrite !list.fmap_cons. f_equal; [|exact IH].
  rewrite (float_zero 0) by (by left). symmetry. by apply float_zero.
Qed.
Lemma returned_equal d d' k : float_array 2 d -> float_array 2 d' -> returns 2 d k -> returns 2 d' k -> real_array d = real_array d'.
Proof.
  intros [Hd _] [Hd' _] [Hsh Hv] [Hsh' Hv']. apply (wf_equal 2); [by apply real_wf, api_array_wf|by apply (wf_api _ 0), real_wf, api_array_wf|cbn [real_array a_shape]; congruence|].
  cbn [real_array a_shape]. intros x Hx. rewrite Hsh in Hx. destruct (Hv x Hx) as (v & Hr & Hb). destruct (Hv' x Hx) as (v' & Hr' & Hb'). rewrite (real_read _ _ _ Hr), (real_read _ _ _ Hr').
  by rewrite (back_value _ _ Hb), (back_value _ _ Hb').
Qed.

(** ** The index and the retrieved chunks *)
Section lib.
Context (junk : N) (start interval : R * R * R).

Definition contains (ind : list N) (m : chunk_meta) : bool :=
  bool_decide (length ind = length (cm_start m) /\ length (cm_end m) = length (cm_start m) /\
    Forall (fun xyz => xyz.1.1 <= xyz.2 < xyz.1.2)%N (zip (zip (cm_start m) (cm_end m)) ind)).
Lemma contains_inbox ind m : contains ind m = true <-> inbox (cm_start m) (cm_end m) ind.
Proof using.
  unfold contains. rewrite bool_decide_eq_true. unfold inbox. split; intros (H1 & H2 & H); (split; [done|]; split; [done|]).
  - intros i x y z Hx Hy Hz. refine (Forall_lookup_1 _ _ i (x, y, z) H _). apply lookup_zip_with_Some. exists (x, y), z. split; [done|]. split; [|done].
    apply lookup_zip_with_Some. by exists x, y.
  - apply Forall_lookup_2. intros i [[x y] z] Hi. apply lookup_zip_with_Some in Hi as (xy & z' & [= -> ->] & Hxy & Hz).
    apply lookup_zip_with_Some in Hxy as (x' & y' & -> & Hx & Hy). exact (H i x' y' z' Hx Hy Hz).
Qed.

(** The index and the contents when reading begins. *)
Definition pure (l0 : clib) (M : list chunk_meta) : green :=
  Green start interval (fun ind => List.find (contains ind) M)
    (fun m => match lib_retrieve 2 3 junk m l0 with Done (d, _) => Some (real_array d) | _ => None end).

Context (S : lstate) (M : list chunk_meta) (sz : N -> list nat) (H : list box).
Local Notation inv l := (lrep_ 2 3 l S M sz H).

Lemma pure_some l0 l i c ind : inv l -> ls_chunks S !! i = Some c -> covers c ind -> exists m, M !! i = Some m /\ g_chunk (pure l0 M) ind = Some m.
Proof using.
  intros Hl Hc Hcov. destruct (lrep_get _ _ _ _ _ _ _ _ _ Hl Hc) as (m & Hm & Hr & _). exists m. split; [done|]. cbn [g_chunk pure].
  assert (contains ind m = true) as Hin. { apply contains_inbox. rewrite (mr_start _ _ _ Hr), (mr_end _ _ _ Hr). done. }
  destruct (List.find (contains ind) M) as [m'|] eqn:Hf.
  - apply List.find_some in Hf as [Hm' Hin']. apply elem_of_list_In, elem_of_list_lookup in Hm' as (j & Hj). destruct (lrep_get_m _ _ _ _ _ _ _ _ _ Hl Hj) as (c' & Hc' & Hr' & _).
    destruct (decide (i = j)) as [->|Hne]; [congruence|]. exfalso. apply contains_inbox in Hin'. rewrite (mr_start _ _ _ Hr'), (mr_end _ _ _ Hr') in Hin'.
    exact (lr_apart _ _ _ _ _ _ _ Hl i j c c' Hc Hc' Hne ind Hcov Hin').
  - pose proof (List.find_none _ _ Hf m) as Hno. rewrite Hno in Hin; [done|]. apply elem_of_list_In. by eapply elem_of_list_lookup_2.
Qed.
Lemma pure_found l0 l ind m : inv l -> g_chunk (pure l0 M) ind = Some m -> exists i c, M !! i = Some m /\ ls_chunks S !! i = Some c /\ meta_rep 3 m c /\ covers c ind.
Proof using.
  intros Hl Hf. cbn [g_chunk pure] in Hf. apply List.find_some in Hf as [Hm Hin]. apply elem_of_list_In, elem_of_list_lookup in Hm as (i & Hi).
  destruct (lrep_get_m _ _ _ _ _ _ _ _ _ Hl Hi) as (c & Hc & Hr & _). exists i, c. split; [done|]. split; [done|]. split; [done|]. apply contains_inbox in Hin.
  by rewrite (mr_start _ _ _ Hr), (mr_end _ _ _ Hr) in Hin.
Qed.
Lemma pure_none l0 l ind : inv l -> (forall c, c ∈ ls_chunks S -> ~ covers c ind) <-> g_chunk (pure l0 M) ind = None.
Proof using.
  intros Hl. split.
  - intros Hno. destruct (g_chunk (pure l0 M) ind) as [m|] eqn:Hf; [|done]. destruct (pure_found _ _ _ _ Hl Hf) as (i & c & _ & Hc & _ & Hcov). exfalso.
    eapply Hno; [by eapply elem_of_list_lookup_2|done].
  - intros Hn c Hc Hcov. apply elem_of_list_lookup in Hc as (i & Hc). destruct (pure_some l0 _ _ _ _ Hl Hc Hcov) as (m & _ & Hm). congruence.
Qed.

(** The metadata of a chunk is determined by its box and so on. *)
Lemma meta_form m c : meta_rep 3 m c -> exists s1 s2 s3 n1 n2 n3,
  m = mk_meta (cm_type m) (cm_path m) (cm_id m) [s1; s2; s3] [n1; n2; n3] (c_ov c) /\ fits [s1; s2; s3] [n1; n2; n3] (c_ov c) /\ (c_ov c < 2 ^ 64)%N /\
  (0 < n1 /\ 0 < n2 /\ 0 < n3)%N /\ c_start c = [s1; s2; s3] /\ c_end c = [s1 + n1; s2 + n2; s3 + n3]%N /\
  k_shape (c_val c) = (fun n => N.to_nat n + 2 * N.to_nat (c_ov c))%nat <$> [n1; n2; n3].
Proof using.
  intros Hr. pose proof (mr_cshape _ _ _ Hr) as Hcs. pose proof (mr_end_len _ _ _ Hr) as Hel. pose proof (mr_shape_len _ _ _ Hr) as Hsl. destruct Hr as [Hof Hst Hen Hov _ _ Hd [_ Hbox] Hsh Hsm Hft _].
  destruct (coherent_of _ _ Hof) as [_ Hm].
  destruct (c_start c) as [|s1 [|s2 [|s3 [|]]]] eqn:Es; try discriminate Hd. destruct (c_end c) as [|e1 [|e2 [|e3 [|]]]] eqn:Ee; try discriminate Hel.
  destruct (k_shape (c_val c)) as [|k1 [|k2 [|k3 [|]]]]; try discriminate Hsl. cbn [zip_with] in *.
  apply Forall2_cons_1 in Hsh as [K1 Hsh]. apply Forall2_cons_1 in Hsh as [K2 Hsh]. apply Forall2_cons_1 in Hsh as [K3 _]. cbn [fst snd] in *.
  rewrite !list.Forall_cons in Hft. destruct Hft as (F1 & F2 & F3 & _). rewrite !list.Forall_cons in Hsm. destruct Hsm as (Q1 & Q2 & Q3 & _).
  pose proof (Hbox 0%nat s1 e1 eq_refl eq_refl) as B1. pose proof (Hbox 1%nat s2 e2 eq_refl eq_refl) as B2. pose proof (Hbox 2%nat s3 e3 eq_refl eq_refl) as B3.
  assert (cm_shape m = [e1 - s1; e2 - s2; e3 - s3]%N) as Esh.
  { pose proof (Forall2_length _ _ _ Hcs) as Hl3. destruct (cm_shape m) as [|n1 [|n2 [|n3 [|]]]]; try discriminate Hl3.
    apply Forall2_cons_1 in Hcs as [-> Hcs]. apply Forall2_cons_1 in Hcs as [-> Hcs]. apply Forall2_cons_1 in Hcs as [-> _]. done. }
  exists s1, s2, s3, (e1 - s1)%N, (e2 - s2)%N, (e3 - s3)%N.
  split_and!; try lia; try done.
  - rewrite Hm at 1. by rewrite Hst, Hov, Esh.
  - split; cbn [zip_with]; rewrite !list.Forall_cons; split_and!; try lia; constructor.
  - f_equal; [lia|]. f_equal; [lia|]. f_equal; lia.
  - cbn [fmap list_fmap]. f_equal; [lia|]. f_equal; [lia|]. f_equal; lia.
Qed.

Lemma null_content l i m c x : inv l -> M !! i = Some m -> ls_chunks S !! i = Some c -> c_null c = true -> in_shape (k_shape (c_val c)) x -> null_vector (k_at (c_val c) x).
Proof using.
  intros Hl Hm Hc Hn Hx. destruct (lrep_get _ _ _ _ _ _ _ _ _ Hl Hc) as (m1 & Hm1 & Hr & Ha & _). assert (m1 = m) as -> by congruence.
  assert (cm_type m = all_null) as Hty by (by rewrite (mr_type _ _ _ Hr), Hn).
  assert (null_chunk 2 m (c_val c)) as (_ & _ & _ & Hnull); [|by apply Hnull].
  destruct (lr_store _ _ _ _ _ _ _ Hl) as (lc & _ & _ & _ & _ & Hinv). destruct (Hinv _ _ _ Ha) as (_ & _ & _ & He & Hd). destruct (decide (cm_id m ∈ lc.*1)) as [Hin|Hin].
  - apply elem_of_list_fmap in Hin as ([k e] & Ek & Hke). cbn [fst] in Ek. subst k. destruct (He e Hke) as (_ & _ & Hst). destruct (ce_st e) as [| |ax].
    + destruct Hst as [[(Ht & _)|]  _]; [|done]. rewrite Hty in Ht. discriminate Ht.
    + destruct Hst as [[(Ht & _)|]  _]; [|done]. rewrite Hty in Ht. discriminate Ht.
    + destruct Hst as (_ & Ht & _). rewrite Hty in Ht. discriminate Ht.
  - destruct (Hd Hin) as [(Ht & _)|]; [|done]. rewrite Hty in Ht. discriminate Ht.
Qed.

Context (K : kernel) (U : Z -> Z -> Z -> Prop) (g : Z -> Z -> Z -> nat -> R) (Hg : has_samples S U g) (Hg2 : forall r z t i, (2 <= i)%nat -> g r z t i = 0) (Hov : has_overlap S K).

Lemma reach3 c s1 s2 s3 n1 n2 n3 j1 j2 j3 : c_start c = [s1; s2; s3] -> c_end c = [s1 + n1; s2 + n2; s3 + n3]%N ->
  (Z.of_N s1 - Z.of_N (c_ov c) <= j1 < Z.of_N (s1 + n1) + Z.of_N (c_ov c))%Z -> (Z.of_N s2 - Z.of_N (c_ov c) <= j2 < Z.of_N (s2 + n2) + Z.of_N (c_ov c))%Z ->
  (Z.of_N s3 - Z.of_N (c_ov c) <= j3 < Z.of_N (s3 + n3) + Z.of_N (c_ov c))%Z -> reach c [j1; j2; j3].
Proof using. intros Es Ee H1 H2 H3. unfold reach. rewrite Es, Ee. cbn [fmap list_fmap]. repeat constructor; cbn [fst snd]; lia. Qed.

Lemma stores_of c d s1 s2 s3 n1 n2 n3 : c ∈ ls_chunks S -> c_start c = [s1; s2; s3] -> c_end c = [s1 + n1; s2 + n2; s3 + n3]%N ->
  k_shape (c_val c) = (fun n => N.to_nat n + 2 * N.to_nat (c_ov c))%nat <$> [n1; n2; n3] ->
  float_array 2 d -> returns 2 d (c_val c) -> stores U g [s1; s2; s3] [n1; n2; n3] (c_ov c) (real_array d).
Proof using Hg.
  intros Hc Es Ee Ek [Hfd _] [Hsh Hv]. split; [apply (wf_api _ 0), real_wf, api_array_wf, Hfd|]. split; [cbn [real_array a_shape]; congruence|].
  exists s1, s2, s3. split; [done|]. intros i1 i2 i3 j1 j2 j3 Hi HU. cbn [real_array a_shape] in Hi. rewrite Hsh in Hi. destruct (Hv _ Hi) as (v & Hrd & Hcb).
  assert (length v = 2%nat) as Hlv.
  { unfold aread in Hrd. destruct (has_index _ _); [|done]. by apply block_lookup in Hrd as [? _]. }
  rewrite (real_read _ _ _ Hrd). f_equal. rewrite Ek in Hi. apply in_shape_forall2 in Hi. cbn [fmap list_fmap] in Hi.
  apply Forall2_cons_1 in Hi as [I1 Hi]. apply Forall2_cons_1 in Hi as [I2 Hi]. apply Forall2_cons_1 in Hi as [I3 _].
  assert (reach c [j1; j2; j3]) as Hre by (eapply reach3; [exact Es|exact Ee|unfold j1; lia|unfold j2; lia|unfold j3; lia]).
  assert (zvalue c [j1; j2; j3] = k_at (c_val c) [i1; i2; i3]) as Hz.
  { unfold zvalue. rewrite Es. cbn [zip_with]. f_equal. unfold j1, j2, j3. f_equal; [lia|]. f_equal; [lia|]. f_equal; lia. }
  assert (forall i, (i < 2)%nat -> exists b, v !! i = Some b /\ float_value b = g j1 j2 j3 i) as Hb.
  { intros i Hi2. destruct (Hg c j1 j2 j3 i Hc Hre HU Hi2) as (b & Hb & Hf). rewrite Hz in Hb. eapply back_float; eauto. }
  destruct v as [|b0 [|b1 [|]]]; try discriminate Hlv. destruct (Hb 0%nat) as (? & [= <-] & E0); [lia|]. destruct (Hb 1%nat) as (? & [= <-] & E1); [lia|].
  cbn [fmap list_fmap]. by rewrite E0, E1.
Qed.

(** The chunk that is found and what is retrieved for it. *)
Lemma retrieved l l0 i m c : inv l -> inv l0 -> M !! i = Some m -> ls_chunks S !! i = Some c -> c_null c = false ->
  exists d s data0 s1 s2 s3 n1 n2 n3, lib_retrieve 2 3 junk m l = Done (d, with_store l s) /\ inv (with_store l s) /\
    g_data (pure l0 M) m = Some data0 /\ c_start c = [s1; s2; s3] /\ c_end c = [s1 + n1; s2 + n2; s3 + n3]%N /\
    m = mk_meta (cm_type m) (cm_path m) (cm_id m) [s1; s2; s3] [n1; n2; n3] (c_ov c) /\ fits [s1; s2; s3] [n1; n2; n3] (c_ov c) /\ (c_ov c < 2 ^ 64)%N /\
    stores U g [s1; s2; s3] [n1; n2; n3] (c_ov c) data0 /\ data0 = real_array d.
Proof using Hg.
  intros Hl Hl0 Hm Hc Hn. destruct (lrep_get_m _ _ _ _ _ _ _ _ _ Hl Hm) as (c' & Hc' & Hr & _). assert (c' = c) as -> by congruence.
  assert (cm_type m = specified) as Hty by (by rewrite (mr_type _ _ _ Hr), Hn).
  destruct (meta_form m c Hr) as (s1 & s2 & s3 & n1 & n2 & n3 & Em & Hfit & Hovb & _ & Es & Ee & Ek).
  destruct (lib_retrieve_ok 2 3 junk l S M sz H i m c Hl Hm Hc Hty) as (d & s & Hret & Hl' & Hfd & Hrt).
  destruct (lib_retrieve_ok 2 3 junk l0 S M sz H i m c Hl0 Hm Hc Hty) as (d0 & s0 & Hret0 & _ & Hfd0 & Hrt0).
  exists d, s, (real_array d0), s1, s2, s3, n1, n2, n3. split; [done|]. split; [done|]. split; [cbn [g_data pure]; by rewrite Hret0|]. split; [done|]. split; [done|]. split; [done|].
  split; [done|]. split; [done|]. assert (c ∈ ls_chunks S) as HcS by (by eapply elem_of_list_lookup_2). split; [eapply stores_of; eauto|]. by eapply returned_equal.
Qed.

Lemma pure_library l0 : inv l0 -> library (pure l0 M) K U g.
Proof using Hg Hg2 Hov.
  intros Hl0 i1 i2 i3 m Hf. destruct (pure_found _ _ _ _ Hl0 Hf) as (i & c & Hm & Hc & Hr & Hcov). assert (c ∈ ls_chunks S) as HcS by (by eapply elem_of_list_lookup_2).
  destruct (meta_form m c Hr) as (s1 & s2 & s3 & n1 & n2 & n3 & Em & Hfit & Hovb & Hpos & Es & Ee & Ek).
  exists (cm_type m), (cm_path m), (cm_id m), s1, s2, s3, n1, n2, n3, (c_ov c). split; [done|]. split; [done|]. split; [by apply Hov|]. split; [done|].
  unfold covers in Hcov. rewrite Es, Ee in Hcov. destruct Hcov as (_ & _ & Hb).
  split; [exact (Hb 0%nat _ _ _ eq_refl eq_refl eq_refl)|]. split; [exact (Hb 1%nat _ _ _ eq_refl eq_refl eq_refl)|]. split; [exact (Hb 2%nat _ _ _ eq_refl eq_refl eq_refl)|].
  pose proof (mr_type _ _ _ Hr) as Hty. destruct (c_null c) eqn:Hn.
  - destruct (decide (cm_type m = specified)) as [Hx|_]; [rewrite Hx in Hty; discriminate Hty|]. intros j1 j2 j3 k near H1 H2 H3 HU. unfold near in *. clear near.
    destruct (decide (2 <= k)%nat) as [Hk|Hk]; [by apply Hg2|]. assert (reach c [j1; j2; j3]) as Hre by (eapply reach3; [exact Es|exact Ee|lia..]).
    destruct (Hg c j1 j2 j3 k HcS Hre HU ltac:(lia)) as (b & Hb' & _ & <-). apply float_zero.
    eapply (Forall_lookup_1 (fun b => b = 0 \/ b = 2 ^ 31)%N); [|exact Hb']. unfold zvalue. eapply null_content; [exact Hl0|exact Hm|exact Hc|exact Hn|].
    rewrite Ek, Es. apply in_shape_forall2. cbn [fmap list_fmap zip_with]. repeat constructor; lia.
  - destruct (decide (cm_type m = specified)) as [_|Hx]; [|done].
    destruct (retrieved l0 l0 i m c Hl0 Hl0 Hm Hc Hn) as (d & s & data0 & t1 & t2 & t3 & k1 & k2 & k3 & _ & _ & Hd & Es' & Ee' & _ & _ & _ & Hst0 & _).
    rewrite Es in Es'. injection Es' as <- <- <-. rewrite Ee in Ee'. injection Ee' as E1 E2 E3. replace k1 with n1 in * by lia. replace k2 with n2 in * by lia. replace k3 with n3 in * by lia.
    exists data0. split; [|done]. congruence.
Qed.
End lib.
