(** Proofs about the distributed array: exchanging two axes. *)
From stdpp Require Import base list list_numbers numbers option gmap countable sets.
From Coq Require Import NArith Lia.
From Verif Require Import IndexSpec LoopsProofs NDArrayModel NDArrayProofs NDArrayOps NDArrayOps2 NDArrayOps3 NDArrayProps StreamerModel StreamerProps
  BBoxModel BBoxProps DownsampleModel DownsampleProps
  RTreeModel RTreeInsert RTreeRebuild RTreeProps ChunkMetaModel ChunkMetaProps ChunkCacheModel ChunkCacheSpec ChunkCacheProofs ChunkCacheProofs2 ChunkCacheProofs3 ChunkCacheProps
  LibraryModel LibrarySpec LibraryProofs LibraryProofs2 LibraryProofs3 LibraryProofs4 LibraryProofs5 LibraryProofs6.
From Verif Require Import IndexSpec.

(** ** Exchanging components *)
Definition other_axis (i j k : nat) : nat := if decide (k = i) then j else if decide (k = j) then i else k.
Lemma other_lt i j k n : (i < n)%nat -> (j < n)%nat -> (k < n)%nat -> (other_axis i j k < n)%nat.
Proof. unfold other_axis. intros. repeat destruct (decide _); lia. Qed.
Lemma other_other i j k : other_axis i j (other_axis i j k) = k.
Proof. unfold other_axis. repeat destruct (decide _); lia. Qed.
Section exchange.
Context {A : Type} `{!Inhabited A} (i j : nat).
Lemma exchange_length (v : list A) : length (exchange i j v) = length v.
Proof. unfold exchange. destruct (v !! i), (v !! j); rewrite ?insert_length; done. Qed.
Lemma exchange_lookup (v : list A) k : (i < length v)%nat -> (j < length v)%nat -> exchange i j v !! k = v !! other_axis i j k.
Proof.
  intros Hi Hj. unfold exchange, other_axis. destruct (lookup_lt_is_Some_2 v i Hi) as [x Hx], (lookup_lt_is_Some_2 v j Hj) as [y Hy]. rewrite Hx, Hy.
  destruct (decide (k = i)) as [->|].
  - rewrite list_lookup_insert by (rewrite insert_length; lia). done.
  - rewrite list_lookup_insert_ne by done. destruct (decide (k = j)) as [->|].
    + rewrite list_lookup_insert by lia. done.
    + rewrite list_lookup_insert_ne by done. done.
Qed.
Lemma exchange_at (v : list A) k : (i < length v)%nat -> (j < length v)%nat -> exchange i j v !!! k = v !!! other_axis i j k.
Proof. intros. rewrite !list_lookup_total_alt. by rewrite exchange_lookup. Qed.
Lemma exchange_twice (v : list A) : (i < length v)%nat -> (j < length v)%nat -> exchange i j (exchange i j v) = v.
Proof. intros. apply list_eq. intros k. rewrite !exchange_lookup by (rewrite ?exchange_length; done). by rewrite other_other. Qed.
Lemma exchange_Forall (P : A -> Prop) (v : list A) : (i < length v)%nat -> (j < length v)%nat -> Forall P (exchange i j v) <-> Forall P v.
Proof.
  intros Hi Hj. split; rewrite !F1_at, exchange_length; intros H k Hk.
  - rewrite <- (other_other i j k), <- exchange_at by done. apply H. by apply other_lt.
  - rewrite exchange_at by done. apply H. by apply other_lt.
Qed.
End exchange.
Lemma exchange_vswap i j v : exchange i j v = NDArrayModel.vswap i j v.
Proof. done. Qed.
Lemma exchange_vswap_N i j (v : list N) : (i < length v)%nat -> (j < length v)%nat -> vswap i j v = Some (exchange i j v).
Proof.
  intros Hi Hj. unfold vswap, exchange. destruct (lookup_lt_is_Some_2 v i Hi) as [x Hx], (lookup_lt_is_Some_2 v j Hj) as [y Hy]. rewrite Hx, Hy. cbn [mbind option_bind].
  f_equal. destruct (decide (i = j)) as [->|Hne]; [|by apply list_insert_commute].
  rewrite !list_insert_insert. f_equal. congruence.
Qed.
Lemma exchange_F2 {A B} `{!Inhabited A} `{!Inhabited B} i j (P : A -> B -> Prop) v w : (i < length v)%nat -> (j < length v)%nat ->
  Forall2 P v w -> Forall2 P (exchange i j v) (exchange i j w).
Proof.
  intros Hi Hj [Hl H]%F2_at. apply F2_at. rewrite !exchange_length. split; [done|]. intros k Hk. rewrite !exchange_at by lia. apply H. apply other_lt; lia.
Qed.
Lemma exchange_zip {A B C} `{!Inhabited A} `{!Inhabited B} `{!Inhabited C} i j (f : A -> B -> C) v w : (i < length v)%nat -> (j < length v)%nat -> length v = length w ->
  zip_with f (exchange i j v) (exchange i j w) = exchange i j (zip_with f v w).
Proof.
  intros Hi Hj Hl. apply eq_at. rewrite zip_with_length, !exchange_length, zip_with_length. split; [lia|]. intros k Hk.
  rewrite zip_at by (rewrite exchange_length; lia). rewrite !exchange_at by (rewrite ?zip_with_length; lia). rewrite zip_at; [done|..]; apply other_lt; lia.
Qed.
Lemma exchange_inbox i j s e x : (i < length s)%nat -> (j < length s)%nat -> inbox (exchange i j s) (exchange i j e) x <-> inbox s e (exchange i j x).
Proof.
  intros Hi Hj. rewrite !inbox_at, !exchange_length. split.
  - intros (H1 & H2 & H3). split; [done|]. split; [done|]. intros k Hk. specialize (H3 (other_axis i j k) ltac:(by apply other_lt)).
    rewrite !exchange_at in H3 by lia. rewrite other_other in H3. rewrite exchange_at by lia. done.
  - intros (H1 & H2 & H3). split; [done|]. split; [done|]. intros k Hk. specialize (H3 (other_axis i j k) ltac:(by apply other_lt)).
    rewrite exchange_at in H3 by lia. rewrite other_other in H3. rewrite !exchange_at by lia. done.
Qed.
Lemma exchange_volume i j sh : (i < length sh)%nat -> (j < length sh)%nat -> forall x, in_shape (exchange i j sh) x <-> in_shape sh (exchange i j x).
Proof.
  intros Hi Hj x. split; intros H.
  - by apply in_shape_vswap_inv.
  - pose proof (in_shape_length _ _ H) as Hl. rewrite exchange_length in Hl. rewrite <- (exchange_twice i j x) by lia. by apply in_shape_vswap.
Qed.

Section swap.
Context (vd dims : nat) (junk : N) (L : lib) (HL : lib_ok L).
Local Notation lrep := (lrep vd dims).
Local Notation lrep_ := (lrep_ vd dims).

(** The metadata after the exchange. *)
Definition swapped_meta (i j : nat) (m : chunk_meta) : chunk_meta :=
  ChunkMeta (cm_type m) (cm_path m) (cm_id m) (cm_pos m) (exchange i j (cm_shape m)) (exchange i j (cm_start m)) (exchange i j (cm_end m)) (cm_overlap m) (exchange i j (cm_off m)).
Lemma swap_meta_ok i j m c : meta_rep dims m c -> (i < dims)%nat -> (j < dims)%nat -> swap_meta i j m = Some (swapped_meta i j m).
Proof using.
  intros Hr Hi Hj. pose proof (mr_end_len _ _ _ Hr) as He. pose proof (mr_dims _ _ _ Hr) as Hs. pose proof (Forall2_length _ _ _ (mr_cshape _ _ _ Hr)) as Hc. rewrite zip_with_length in Hc.
  pose proof (off_eq dims m c Hr) as Ho. apply (f_equal length) in Ho. rewrite fmap_length in Ho.
  unfold swap_meta. rewrite (mr_start _ _ _ Hr), (mr_end _ _ _ Hr). rewrite !exchange_vswap_N by lia. cbn [mbind option_bind]. unfold swapped_meta. by rewrite (mr_start _ _ _ Hr), (mr_end _ _ _ Hr).
Qed.
Lemma swapped_rep i j m c S d : meta_rep dims m c -> (i < dims)%nat -> (j < dims)%nat -> acceptable_chunk dims (ls_cs S) ->
  a_shape d = exchange i j (k_shape (c_val c)) -> meta_rep dims (swapped_meta i j m) (swapped_chunk vd S i j c d).
Proof using.
  intros Hr Hi Hj Hcs Hsh. pose proof (swap_meta_ok i j m c Hr Hi Hj) as Hsm. destruct (mr_at dims m c Hr) as (R1 & R2 & R3 & _).
  destruct Hr. split; cbn [swapped_chunk c_start c_end c_ov c_null c_file c_ser c_val swapped_meta cm_start cm_end cm_overlap cm_path cm_type]; auto.
  - by eapply meta_swap.
  - by rewrite mr_start.
  - by rewrite mr_end.
  - by rewrite exchange_length.
  - apply nonempty_at in mr_box as [B1 B2]. apply nonempty_at. rewrite !exchange_length. split; [done|]. intros k Hk. rewrite !exchange_at by lia. apply B2. apply other_lt; lia.
  - change (k_shape (content_of vd d)) with (a_shape d). rewrite Hsh, exchange_zip by lia. apply exchange_F2; [lia|lia|done].
  - change (k_shape (content_of vd d)) with (a_shape d). rewrite Hsh. apply exchange_Forall; [lia|lia|done].
  - apply exchange_Forall; [lia|lia|done].
Qed.

(** The new contents of one chunk. *)
Definition swap_contents (i j : nat) (c : content) (d : ndarr N) : Prop :=
  float_array vd d /\ a_shape d = exchange i j (k_shape c) /\
  forall x, in_shape (exchange i j (k_shape c)) x -> exists v, aread vd d x = Some v /\ comes_back NullSuppressed (k_at c (exchange i j x)) v.
Lemma swap_array_ok i j c (d dest : ndarr N) : float_array vd d -> returns vd d c -> (i < length (k_shape c))%nat -> (j < length (k_shape c))%nat -> api_array vd dest ->
  exists d', aswap_axes vd junk i j d dest = Some d' /\ swap_contents i j c d'.
Proof using.
  intros Hd [Hs Hr] Hi Hj Ho. rewrite <- Hs in Hi, Hj. destruct (aswap_axes_spec vd junk i j d dest) as (d' & Hsw & Hwf & Hsh & Hrd); auto.
  { apply wf_owned_wf, api_array_wf, Hd. } { by apply (api_array_wf vd). }
  assert (api_array vd d') as Ha by (eapply (api_swap vd junk i j d dest); [apply Hd|done..]).
  exists d'. split; [done|]. rewrite <- exchange_vswap in Hsh, Hrd. unfold swap_contents. rewrite <- Hs. split; [split; [done|]|split; [done|]].
  - apply (data_from_reads _ vd); [done|]. intros x v Hx Hv. rewrite Hsh in Hx. rewrite (Hrd x Hx) in Hv. by eapply float_reads.
  - intros x Hx. rewrite (Hrd x Hx), <- exchange_vswap. apply Hr. rewrite <- Hs. by apply exchange_volume.
Qed.

Lemma store_kind cs sz s (A : sstate) k m c : sinv vd dims cs sz s A -> A !! k = Some (m, c) ->
  own_file A m /\ ((cm_type m = specified /\ cm_path m <> []) \/ null_chunk vd m c).
Proof using.
  intros (l & _ & _ & _ & [_ Hl]) Hk. destruct (Hl k m c Hk) as (Hid & Hown & _ & He & Hdk). split; [done|].
  destruct (decide (k ∈ l.*1)) as [Hin|Hn].
  - apply elem_of_list_fmap in Hin as ([k' e] & -> & Hin). destruct (He e Hin) as (_ & _ & Hst). destruct (ce_st e).
    + destruct Hst as [[(T & T2 & _)|Hn] _]; auto.
    + destruct Hst as [H _]. done.
    + destruct Hst as (_ & T & T2 & _). auto.
  - destruct (Hdk Hn) as [(T & T2 & _)|Hnc]; auto.
Qed.
Lemma insert_mid {A} (l1 l2 : list A) x y : <[length l1 := y]> (l1 ++ x :: l2) = l1 ++ y :: l2.
Proof using. rewrite <- (Nat.add_0_r (length l1)). by rewrite insert_app_r. Qed.
Lemma comes_back_null v w : comes_back NullSuppressed v w -> null_vector v -> null_vector w.
Proof using. intros [->|(_ & _ & ->)] Hn; [done|]. apply Forall_replicate. by left. Qed.

Definition boxes (M : list chunk_meta) : list box := (fun m => (item_of m).1) <$> M.
Lemma swap_step S i j M1 C1 m Mr c Cr told A H tnew s dest ds sz : (0 < dims)%nat -> (i < dims)%nat -> (j < dims)%nat ->
  (forall k, acceptable_chunk dims (sz k)) -> acceptable_chunk dims (ls_cs S) -> length M1 = length C1 -> length Mr = length Cr ->
  NoDup (cm_id <$> (M1 ++ m :: Mr)) -> sinv vd dims (ls_cs S) sz s (amap (M1 ++ m :: Mr) (C1 ++ c :: Cr)) ->
  meta_rep dims m c -> (c_null c = true -> c_ov c = 0%N) -> countable vd NullSuppressed (ls_cs S) (exchange i j (k_shape (c_val c))) ->
  sim dims 1 told A H -> A <> [] -> sim dims 1 tnew (item_of <$> M1) (boxes M1) -> api_array vd dest ->
  exists told' A' H' tnew' s' d',
    swap_chunk vd dims junk L i j (told, tnew, s, dest, ds) m = Done (told', tnew', s', d', ds ++ [d']) /\
    sim dims 1 told' A' H' /\ A' <> [] /\ sim dims 1 tnew' (item_of <$> (M1 ++ [swapped_meta i j m])) (boxes (M1 ++ [swapped_meta i j m])) /\
    sinv vd dims (ls_cs S) (fun k => if decide (k = cm_id m) then ls_cs S else sz k) s' (amap (M1 ++ swapped_meta i j m :: Mr) (C1 ++ swapped_chunk vd S i j c d' :: Cr)) /\
    swap_contents i j (c_val c) d'.
Proof using HL.
  intros Hd Hi Hj Hacc Hcs Hl1 Hlr Hnd Hs Hr Hn Hcnt Hold HA Hnew Hdest.
  destruct (mr_at dims m c Hr) as (R1 & R2 & R3 & R4).
  assert (length (M1 ++ m :: Mr) = length (C1 ++ c :: Cr)) as Hlen by (rewrite !app_length; cbn [length]; lia).
  assert ((M1 ++ m :: Mr) !! length M1 = Some m) as Hm by (by apply list_lookup_middle).
  assert ((C1 ++ c :: Cr) !! length M1 = Some c) as Hc by (rewrite Hl1; by apply list_lookup_middle).
  assert (amap (M1 ++ m :: Mr) (C1 ++ c :: Cr) !! cm_id m = Some (m, c_val c)) as Ha by (by eapply amap_lookup).
  destruct (store_kind _ _ _ _ _ _ _ Hs Ha) as [Hown Hkind].
  destruct (retrieve_ok vd dims junk (ls_cs S) sz Hacc Hd s _ m (c_val c) Hs Ha (mr_readable _ _ _ Hr Hn)) as (d & s1 & Hret & Hs1 & _ & Hfl & Hrets).
  destruct (swap_array_ok i j (c_val c) d dest Hfl Hrets) as (d' & Hsw & Hcont); [lia|lia|done|].
  pose proof Hcont as (Hfl' & Hsh' & Hrd').
  set (m' := swapped_meta i j m). set (c' := swapped_chunk vd S i j c d').
  assert (meta_rep dims m' c') as Hr' by (by apply swapped_rep).
  destruct (remove_ok vd dims (ls_cs S) sz s1 _ m Hs1) as (s2 & Hrm & Hs2 & _).
  set (sz' := fun k => if decide (k = cm_id m) then ls_cs S else sz k).
  assert (forall k, acceptable_chunk dims (sz' k)) as Hacc'. { intros k. unfold sz'. destruct (decide _); done. }
  assert (sinv vd dims (ls_cs S) sz' s2 (delete (cm_id m) (amap (M1 ++ m :: Mr) (C1 ++ c :: Cr)))) as Hs2'.
  { eapply sinv_sz; [|exact Hs2]. intros k [x Hx]. apply lookup_delete_Some in Hx as [Hne _]. unfold sz'. by rewrite decide_False. }
  destruct (register_ok vd dims junk (ls_cs S) sz' Hacc' Hd s2 _ m' d' Hs2') as (s3 & Hreg & Hs3 & _).
  { apply lookup_delete. }
  { split; [done|]. split; [by rewrite Hsh', exchange_length|]. split; [by rewrite Hsh'|].
    destruct Hkind as [Hk|(K1 & K2 & K3 & K4)]; [by left|right]. split; [done|]. split; [done|]. rewrite Hsh'. split; [apply exchange_Forall; [lia|lia|done]|].
    intros x v Hx Hv. destruct (Hrd' x Hx) as (w & Hw & Hcb). assert (w = v) as -> by congruence. eapply comes_back_null; [exact Hcb|]. apply K4. by apply exchange_volume; [lia|lia|]. }
  { unfold sz'. by rewrite decide_True. }
  { intros k m2 c2 Hk. apply lookup_delete_Some in Hk as [_ Hk]. by apply (Hown k m2 c2). }
  destruct (sim_update_any meta0 dims L HL Hd told A H (cm_start m) (item_of m').1 Hold) as (told' & A' & H' & Hup & Hold' & HlA).
  { rewrite (mr_start _ _ _ Hr). apply (covers_coord dims m c); [done|]. unfold covers. apply inbox_at. split; [done|]. split; [lia|]. intros k Hk. specialize (R4 k ltac:(lia)). lia. }
  { by eapply mr_box_ok. }
  { done. }
  destruct (sim_insert meta0 dims L HL Hd tnew (item_of <$> M1) (boxes M1) m' (item_of m').1 Hnew) as (sl & tnew' & Hins & Hnew').
  { by eapply mr_box_ok. }
  exists told', A', H', tnew', s3, d'. split_and!; auto.
  - unfold swap_chunk. rewrite Hret. cbn [mbind res_bind]. rewrite (swap_meta_ok i j m c Hr Hi Hj). cbn [of_opt mbind res_bind]. rewrite Hsw. cbn [of_opt mbind res_bind].
    unfold replace_chunk. fold m'. change (cm_id m') with (cm_id m). rewrite N.eqb_refl, Hrm. cbn [mbind res_bind]. rewrite Hreg. cbn [mbind res_bind].
    unfold item_of in Hup, Hins. cbn [fst snd] in Hup, Hins. rewrite Hup. cbn [of_opt mbind res_bind]. unfold tree_insert. rewrite Hins. reflexivity.
  - intros ->. destruct A; [done|]. discriminate HlA.
  - unfold boxes. rewrite !fmap_app. exact Hnew'.
  - change (cm_id m') with (cm_id m) in Hs3. rewrite insert_delete_insert in Hs3.
    pose proof (amap_insert (M1 ++ m :: Mr) (C1 ++ c :: Cr) (length M1) m c m' c' Hlen Hnd Hm Hc eq_refl) as E. rewrite Hl1 in E at 2. rewrite !insert_mid in E. fold m' c'. rewrite E. exact Hs3.
Qed.

Lemma swap_fold S i j : (0 < dims)%nat -> (i < dims)%nat -> (j < dims)%nat -> acceptable_chunk dims (ls_cs S) ->
  forall Mr Cr M1 C1 told A H tnew s dest ds sz, (forall k, acceptable_chunk dims (sz k)) -> length M1 = length C1 -> Forall2 (meta_rep dims) Mr Cr ->
  NoDup (cm_id <$> (M1 ++ Mr)) -> sinv vd dims (ls_cs S) sz s (amap (M1 ++ Mr) (C1 ++ Cr)) ->
  (forall c, c ∈ Cr -> c_null c = true -> c_ov c = 0%N) -> (forall c, c ∈ Cr -> countable vd NullSuppressed (ls_cs S) (exchange i j (k_shape (c_val c)))) ->
  sim dims 1 told A H -> (Mr <> [] -> A <> []) -> sim dims 1 tnew (item_of <$> M1) (boxes M1) -> api_array vd dest ->
  exists told' tnew' s' dest' ds' sz', rfold (swap_chunk vd dims junk L i j) (told, tnew, s, dest, ds) Mr = Done (told', tnew', s', dest', ds ++ ds') /\
    (forall k, acceptable_chunk dims (sz' k)) /\ (forall k, k ∉ cm_id <$> Mr -> sz' k = sz k) /\ (forall k, k ∈ cm_id <$> Mr -> sz' k = ls_cs S) /\
    sim dims 1 tnew' (item_of <$> (M1 ++ (swapped_meta i j <$> Mr))) (boxes (M1 ++ (swapped_meta i j <$> Mr))) /\
    sinv vd dims (ls_cs S) sz' s' (amap (M1 ++ (swapped_meta i j <$> Mr)) (C1 ++ zip_with (swapped_chunk vd S i j) Cr ds')) /\
    Forall2 (fun c d => swap_contents i j (c_val c) d) Cr ds'.
Proof using HL.
  intros Hd Hi Hj Hcs. induction Mr as [|m Mr IH]; intros Cr M1 C1 told A H tnew s dest ds sz Hacc Hl1 Hr Hnd Hs Hn Hcnt Hold HA Hnew Hdest.
  - apply Forall2_nil_inv_l in Hr as ->. exists told, tnew, s, dest, [], sz. rewrite !app_nil_r in *. split; [done|]. split; [done|]. split; [done|].
    split. { intros k Hk. by apply elem_of_nil in Hk. } split; [done|]. split; [done|]. constructor.
  - apply Forall2_cons_inv_l in Hr as (c & Cr' & Hrm & Hrr & ->). rename Cr' into Cr.
    destruct (swap_step S i j M1 C1 m Mr c Cr told A H tnew s dest ds sz) as (told1 & A1 & H1 & tnew1 & s1 & d1 & Hst & Hold1 & HA1 & Hnew1 & Hs1 & Hcont); auto.
    { by eapply Forall2_length. } { apply Hn. by left. } { apply Hcnt. by left. }
    set (m' := swapped_meta i j m) in *. set (c' := swapped_chunk vd S i j c d1) in *.
    destruct (IH Cr (M1 ++ [m']) (C1 ++ [c']) told1 A1 H1 tnew1 s1 d1 (ds ++ [d1]) (fun k => if decide (k = cm_id m) then ls_cs S else sz k))
      as (told2 & tnew2 & s2 & d2 & ds2 & sz2 & Hf & Ha2 & Hout & Hin & Hnew2 & Hs2 & Hc2); auto.
    { intros k. destruct (decide _); done. } { rewrite !app_length. cbn [length]. lia. }
    { rewrite <- app_assoc. cbn [app]. rewrite fmap_app, list.fmap_cons. rewrite fmap_app, list.fmap_cons in Hnd. exact Hnd. }
    { rewrite <- !app_assoc. exact Hs1. } { intros c2 Hin2. apply Hn. by right. } { intros c2 Hin2. apply Hcnt. by right. }
    { apply Hcont. }
    assert (cm_id m ∉ cm_id <$> Mr) as Hmn.
    { rewrite fmap_app, list.fmap_cons in Hnd. apply NoDup_app in Hnd as (_ & _ & Hnd). by apply list.NoDup_cons in Hnd as [? _]. }
    exists told2, tnew2, s2, d2, (d1 :: ds2), sz2. rewrite <- app_assoc in Hf. split. { cbn [rfold]. rewrite Hst. exact Hf. }
    split; [done|]. split; [|split; [|split; [|split]]].
    + intros k Hk. rewrite list.fmap_cons in Hk. apply not_elem_of_cons in Hk as [Hk1 Hk2]. rewrite Hout by done. by rewrite decide_False.
    + intros k Hk. rewrite list.fmap_cons in Hk. apply elem_of_cons in Hk as [->|Hk]; [|by apply Hin]. rewrite Hout by done. by rewrite decide_True.
    + rewrite list.fmap_cons. rewrite <- !app_assoc in Hnew2. exact Hnew2.
    + rewrite list.fmap_cons. cbn [zip_with]. rewrite <- !app_assoc in Hs2. exact Hs2.
    + by constructor.
Qed.

(** What the exchange does to a chunk. *)
Definition chunk_swapped (S : lstate) (i j : nat) (c c' : chunk) : Prop :=
  c_start c' = exchange i j (c_start c) /\ c_end c' = exchange i j (c_end c) /\ c_ov c' = c_ov c /\ c_null c' = c_null c /\ c_file c' = c_file c /\ c_ser c' = ls_cs S /\
  k_shape (c_val c') = exchange i j (k_shape (c_val c)) /\
  forall x, in_shape (k_shape (c_val c')) x -> comes_back NullSuppressed (k_at (c_val c) (exchange i j x)) (k_at (c_val c') x).
Lemma swap_lib_ok l S i j : lrep l S -> ok_swap vd dims S i j ->
  exists l' ds, lib_swap_traced vd dims junk L i j l = Done (l', ds) /\ lrep l' (swapped vd S i j ds) /\
    Forall2 (chunk_swapped S i j) (ls_chunks S) (ls_chunks (swapped vd S i j ds)).
Proof using HL.
  intros Hl0 [[Hi Hj] Hn Hcnt]. pose proof (lrep_dims _ _ _ _ Hl0) as Hd. destruct Hl0 as (M & sz & H & Hl).
  pose proof (lrep_len _ _ _ _ _ _ _ Hl) as Hlen.
  destruct (sim_new meta0 dims L HL Hd 1) as (tnew & Ht & Hnew); [lia|].
  destruct (swap_fold S i j Hd Hi Hj (lr_cs _ _ _ _ _ _ _ Hl) M (ls_chunks S) [] [] (l_tree l) (item_of <$> M) H tnew (l_store l) (anew vd junk (replicate dims 1%nat)) [] sz)
    as (told' & tnew' & s' & dest' & ds & sz' & Hf & Hacc & _ & Hsz & Hnew' & Hs' & Hc); auto.
  { by eapply lr_acc. } { by eapply lr_metas. } { exact (lr_ids _ _ _ _ _ _ _ Hl). } { exact (lr_store _ _ _ _ _ _ _ Hl). } { by eapply lr_tree. }
  { intros Hne E. apply Hne. by apply fmap_nil_inv in E. }
  { apply api_new. destruct dims; [lia|done]. }
  exists (CLib (l_next l) None tnew' (l_index l) s'), ds. split.
  { unfold lib_swap_traced. rewrite Ht. cbn [of_opt mbind res_bind]. rewrite (lrep_all _ _ _ _ _ _ _ Hl). cbn [of_opt mbind res_bind]. rewrite Hf. reflexivity. }
  cbn [app] in Hnew', Hs'.
  pose proof (Forall2_length _ _ _ Hc) as Hlds.
  assert (Forall2 (chunk_swapped S i j) (ls_chunks S) (ls_chunks (swapped vd S i j ds))) as Hsw.
  { unfold swapped, set_chunks. cbn [ls_chunks]. apply Forall2_same_length_lookup_2; [rewrite zip_with_length; lia|]. intros k c c' Hk Hk'.
    apply lookup_zip_with_Some in Hk' as (c2 & d & -> & Hc2 & Hd2). assert (c2 = c) as -> by congruence.
    pose proof (Forall2_lookup_lr _ _ _ _ _ _ Hc Hk Hd2) as ([Hapi _] & Hsh & Hrd). cbn beta in *.
    unfold chunk_swapped. cbn [swapped_chunk c_start c_end c_ov c_null c_file c_ser c_val content_of k_shape]. split_and!; auto. rewrite Hsh. intros x Hx.
    destruct (Hrd x Hx) as (v & Hv & Hcb). cbn [k_at content_of]. rewrite Hv. exact Hcb. }
  split; [|done]. clear Ht Hf. unfold swapped, set_chunks in *. cbn [ls_chunks] in Hsw.
  assert (Forall2 (meta_rep dims) (swapped_meta i j <$> M) (zip_with (swapped_chunk vd S i j) (ls_chunks S) ds)) as Hmr.
  { apply Forall2_same_length_lookup_2; [rewrite fmap_length, zip_with_length; lia|]. intros k m' c' Hm Hk'.
    apply lookup_zip_with_Some in Hk' as (c & d & -> & Hck & Hd2). apply list_lookup_fmap_Some in Hm as (m & Hm & ->).
    pose proof (Forall2_lookup_lr _ _ _ _ _ _ Hc Hck Hd2) as (_ & Hsh & _). apply swapped_rep; auto; [|by eapply lr_cs].
    exact (Forall2_lookup_lr _ _ _ _ _ _ (lr_metas _ _ _ _ _ _ _ Hl) Hm Hck). }
  exists (swapped_meta i j <$> M), sz', (boxes (swapped_meta i j <$> M)).
  split; cbn [ls_chunks ls_cs l_tree l_store ls_handed ls_reopened l_next l_geo]; auto.
  - by eapply lr_cs.
  - apply Forall2_same_length_lookup_2; [rewrite fmap_length, zip_with_length; lia|]. intros k m' c' Hm Hk'.
    apply lookup_zip_with_Some in Hk' as (c & d & -> & Hck & Hd2). apply list_lookup_fmap_Some in Hm as (m & Hm & ->). cbn [swapped_chunk c_ser].
    apply Hsz. apply elem_of_list_fmap. exists m. split; [done|]. by eapply elem_of_list_lookup_2.
  - exact (boxes_hist dims _ _ Hmr).
  - rewrite <- list_fmap_compose. exact (lr_ids _ _ _ _ _ _ _ Hl).
  - intros a b c c' Ha Hb Hab. apply lookup_zip_with_Some in Ha as (c1 & d1 & -> & Hc1 & Hd1). apply lookup_zip_with_Some in Hb as (c2 & d2 & -> & Hc2 & Hd2).
    cbn [swapped_chunk c_start c_end]. intros ind I1 I2.
    destruct (lrep_get _ _ _ _ _ _ _ _ _ Hl Hc1) as (m1 & _ & Hr1 & _). destruct (lrep_get _ _ _ _ _ _ _ _ _ Hl Hc2) as (m2 & _ & Hr2 & _).
    pose proof (mr_dims _ _ _ Hr1). pose proof (mr_dims _ _ _ Hr2). apply exchange_inbox in I1; [|lia|lia]. apply exchange_inbox in I2; [|lia|lia].
    exact (lr_apart _ _ _ _ _ _ _ Hl a b c1 c2 Hc1 Hc2 Hab _ I1 I2).
  - intros Hre. pose proof (lr_fresh _ _ _ _ _ _ _ Hl Hre) as Hfr. apply Forall_fmap. exact Hfr.
  - by eapply lr_next.
  - by eapply lr_handed.
  - done.
Qed.
End swap.
