(** C54: exchanging two axes of the distributed array, for all its histories. *)
From stdpp Require Import base list list_numbers numbers option gmap countable sets.
From Coq Require Import NArith Lia.
From Verif Require Import IndexSpec NDArrayModel NDArrayProofs NDArrayProps StreamerModel StreamerProps BBoxModel BBoxProps DownsampleModel
  RTreeModel RTreeInsert RTreeRebuild RTreeProps ChunkMetaModel ChunkMetaProps ChunkCacheModel ChunkCacheSpec ChunkCacheProofs ChunkCacheProps
  LibraryModel LibrarySpec LibraryProofs LibraryProofs2 LibraryProofs3 LibraryProofs4 LibraryProofs5 LibraryProofs6 LibrarySwap LibraryProofs7 LibraryProps RebuildProofs.
From Verif Require Import IndexSpec.

Section props.
Context (vd dims : nat) (junk : N) (L : lib).
Local Notation session := (session vd dims junk L).

Lemma swapped_value S i j m c c' ind : meta_rep dims m c -> (i < dims)%nat -> (j < dims)%nat -> chunk_swapped S i j c c' ->
  (covers c' ind <-> covers c (exchange i j ind)) /\
  (covers c' ind -> comes_back NullSuppressed (value c (exchange i j ind)) (value c' ind)).
Proof using.
  intros Hr Hi Hj (E1 & E2 & E3 & E4 & E5 & E6 & E7 & Hv). destruct (mr_at dims m c Hr) as (R1 & R2 & R3 & R4).
  assert (covers c' ind <-> covers c (exchange i j ind)) as Hc. { unfold covers. rewrite E1, E2. apply exchange_inbox; lia. }
  split; [done|]. intros Hcov. apply Hc in Hcov. pose proof Hcov as Hcov'. apply inbox_at in Hcov as (I1 & I2 & I3). rewrite exchange_length in I1.
  assert (position c' ind = exchange i j (position c (exchange i j ind))) as Ep.
  { unfold position. rewrite E1, E3. rewrite <- exchange_zip by (rewrite ?exchange_length; lia). by rewrite exchange_twice by lia. }
  assert (length (position c (exchange i j ind)) = dims) as Hlp by (unfold position; rewrite zip_with_length, exchange_length; lia).
  assert (in_shape (k_shape (c_val c)) (position c (exchange i j ind))) as Hin.
  { apply in_shape_forall2, F2_at. split; [lia|]. intros k Hk. rewrite position_at by (rewrite ?exchange_length; lia). specialize (I3 k ltac:(lia)). specialize (R4 k ltac:(lia)). lia. }
  unfold value. rewrite Ep. rewrite <- (exchange_twice i j (position c (exchange i j ind))) at 1 by lia. apply Hv. rewrite E7. apply exchange_volume; [lia|lia|]. by rewrite exchange_twice by lia.
Qed.

(** Every chunk gets the exchanged box and keeps its overlap, and every stored vector, also in the overlap, is found at the exchanged
    position; then the same for the indices of the box. *)
Theorem C54_swap_axes l S i j : lib_ok L -> session l S -> ok_swap vd dims S i j ->
  exists l' S', lib_swap_axes vd dims junk L i j l = Done l' /\ session l' S' /\ ls_handed S' = ls_handed S /\ ls_reopened S' = ls_reopened S /\ ls_cs S' = ls_cs S /\
    Forall2 (fun c c' =>
      c_start c' = exchange i j (c_start c) /\ c_end c' = exchange i j (c_end c) /\ c_ov c' = c_ov c /\ c_null c' = c_null c /\ c_file c' = c_file c /\
      k_shape (c_val c') = exchange i j (k_shape (c_val c)) /\
      (forall x, in_shape (k_shape (c_val c')) x -> comes_back NullSuppressed (k_at (c_val c) (exchange i j x)) (k_at (c_val c') x)) /\
      (forall ind, covers c' ind <-> covers c (exchange i j ind)) /\
      (forall ind, covers c' ind -> comes_back NullSuppressed (value c (exchange i j ind)) (value c' ind))) (ls_chunks S) (ls_chunks S').
Proof using.
  intros HL Hl Hok. pose proof (session_inv vd dims junk L HL l S Hl) as Hr. destruct (swap_lib_ok vd dims junk L HL l S i j Hr Hok) as (l' & ds & Hs & _ & Hc).
  exists l', (swapped vd S i j ds). split. { unfold lib_swap_axes. rewrite Hs. reflexivity. }
  split; [by eapply ss_swap|]. split; [done|]. split; [done|]. split; [done|].
  destruct Hok as [[Hi Hj] _ _]. destruct Hr as (M & sz & H & Hr). apply Forall2_same_length_lookup_2; [by eapply Forall2_length|]. intros k c c' Hk Hk'.
  destruct (lrep_get _ _ _ _ _ _ _ _ _ Hr Hk) as (m & _ & Hmr & _). pose proof (Forall2_lookup_lr _ _ _ _ _ _ Hc Hk Hk') as Hcs.
  pose proof Hcs as (E1 & E2 & E3 & E4 & E5 & E6 & E7 & Hv). split_and!; auto; intros ind; by apply (swapped_value S i j m c c' ind Hmr Hi Hj Hcs).
Qed.
(** Read through the array: after the exchange an index gives what the exchanged index gave before, and only such indices can be read. *)
Theorem C54_swapped_elements l S i j : lib_ok L -> session l S -> ok_swap vd dims S i j ->
  exists l' S', lib_swap_axes vd dims junk L i j l = Done l' /\ session l' S' /\
    (forall ind, (exists c', c' ∈ ls_chunks S' /\ covers c' ind) <-> exists c, c ∈ ls_chunks S /\ covers c (exchange i j ind)) /\
    forall c ind, c ∈ ls_chunks S -> covers c (exchange i j ind) ->
      exists v l2, lib_get vd dims junk ind l' = Done (v, l2) /\ comes_back NullSuppressed (value c (exchange i j ind)) v.
Proof using.
  intros HL Hl Hok. destruct (C54_swap_axes l S i j HL Hl Hok) as (l' & S' & Hs & Hl' & _ & _ & _ & HF). exists l', S'. split; [done|]. split; [done|]. split.
  - intros ind. split.
    + intros (c' & Hc' & Hcov). apply elem_of_list_lookup in Hc' as (k & Hk). destruct (Forall2_lookup_r _ _ _ _ _ HF Hk) as (c & Hc & (_ & _ & _ & _ & _ & _ & _ & Hcc & _)).
      exists c. split; [by eapply elem_of_list_lookup_2|]. by apply Hcc.
    + intros (c & Hc & Hcov). apply elem_of_list_lookup in Hc as (k & Hk). destruct (Forall2_lookup_l _ _ _ _ _ HF Hk) as (c' & Hc' & (_ & _ & _ & _ & _ & _ & _ & Hcc & _)).
      exists c'. split; [by eapply elem_of_list_lookup_2|]. by apply Hcc.
  - intros c ind Hc Hcov. pose proof Hc as Hc0. apply elem_of_list_lookup in Hc as (k & Hk). destruct (Forall2_lookup_l _ _ _ _ _ HF Hk) as (c' & Hc' & (_ & _ & Eo & En & _ & _ & _ & Hcc & Hv)).
    apply Hcc in Hcov. destruct (C27_element_access vd dims junk L l' S' c' ind HL Hl' ltac:(by eapply elem_of_list_lookup_2) Hcov) as (v & l2 & Hg & _ & Hcb).
    { rewrite Eo, En. by apply (os_null _ _ _ _ _ Hok). }
    exists v, l2. split; [done|]. eapply comes_back_trans; [by apply Hv|done].
Qed.
(** Exchanging the same axes again restores the array. *)
Theorem C54_swap_twice l S i j : lib_ok L -> session l S -> ok_swap vd dims S i j ->
  (forall c, c ∈ ls_chunks S -> countable vd NullSuppressed (ls_cs S) (k_shape (c_val c))) ->
  exists l1 l2 S2, lib_swap_axes vd dims junk L i j l = Done l1 /\ lib_swap_axes vd dims junk L i j l1 = Done l2 /\ session l2 S2 /\
    Forall2 (fun c c2 => c_start c2 = c_start c /\ c_end c2 = c_end c /\ c_ov c2 = c_ov c /\ c_null c2 = c_null c /\
      forall ind, covers c ind -> comes_back NullSuppressed (value c ind) (value c2 ind)) (ls_chunks S) (ls_chunks S2).
Proof using.
  intros HL Hl Hok Hcnt. pose proof (session_inv vd dims junk L HL l S Hl) as (M & sz & H & Hr).
  assert (forall c, c ∈ ls_chunks S -> length (c_start c) = dims /\ length (c_end c) = dims /\ length (k_shape (c_val c)) = dims) as Hlens.
  { intros c (k & Hk)%elem_of_list_lookup. destruct (lrep_get _ _ _ _ _ _ _ _ _ Hr Hk) as (m & _ & Hmr & _). destruct (mr_at dims m c Hmr) as (? & ? & ? & _). done. }
  pose proof (os_axes _ _ _ _ _ Hok) as [Hi Hj].
  destruct (C54_swap_axes l S i j HL Hl Hok) as (l1 & S1 & Hs1 & Hl1 & _ & _ & Ecs & HF1).
  destruct (C54_swap_axes l1 S1 i j HL Hl1) as (l2 & S2 & Hs2 & Hl2 & _ & _ & _ & HF2).
  { split; [done| |].
    - intros c' (k & Hk)%elem_of_list_lookup. destruct (Forall2_lookup_r _ _ _ _ _ HF1 Hk) as (c & Hc & (_ & _ & Eo & En & _)). rewrite Eo, En. apply (os_null _ _ _ _ _ Hok). by eapply elem_of_list_lookup_2.
    - intros c' (k & Hk)%elem_of_list_lookup. destruct (Forall2_lookup_r _ _ _ _ _ HF1 Hk) as (c & Hc & (_ & _ & _ & _ & _ & Ek & _)). apply elem_of_list_lookup_2 in Hc.
      rewrite Ek, exchange_twice, Ecs by (rewrite (proj2 (proj2 (Hlens c Hc))); done). by apply Hcnt. }
  exists l1, l2, S2. split; [done|]. split; [done|]. split; [done|].
  apply Forall2_same_length_lookup_2. { rewrite (Forall2_length _ _ _ HF1). by eapply Forall2_length. }
  intros k c c2 Hk Hk2. destruct (Forall2_lookup_l _ _ _ _ _ HF1 Hk) as (c1 & Hk1 & (A1 & A2 & A3 & A4 & _ & _ & _ & A5 & A6)).
  pose proof (Forall2_lookup_lr _ _ _ _ _ _ HF2 Hk1 Hk2) as (B1 & B2 & B3 & B4 & _ & _ & _ & B5 & B6). destruct (Hlens c ltac:(by eapply elem_of_list_lookup_2)) as (L1 & L2 & L3).
  split_and!; [rewrite B1, A1; apply exchange_twice; lia|rewrite B2, A2; apply exchange_twice; lia|congruence|congruence|].
  intros ind Hcov. assert (length ind = dims) as Hli. { apply inbox_at in Hcov. lia. }
  assert (covers c1 (exchange i j ind)) as Hc1. { apply A5. by rewrite exchange_twice by lia. }
  pose proof (A6 _ Hc1) as V1. rewrite exchange_twice in V1 by lia. eapply comes_back_trans; [exact V1|]. apply B6. by apply B5.
Qed.
(** The region covered and whether it has gaps. *)
Theorem C54_swapped_shape l S i j s e : lib_ok L -> session l S -> ok_swap vd dims S i j -> ls_chunks S <> [] -> is_hull dims (ls_chunks S) s e ->
  exists l' S', lib_swap_axes vd dims junk L i j l = Done l' /\ session l' S' /\ is_hull dims (ls_chunks S') (exchange i j s) (exchange i j e) /\
    (gap_free (ls_chunks S') (exchange i j s) (exchange i j e) <-> gap_free (ls_chunks S) s e).
Proof using.
  intros HL Hl Hok Hne (L1 & L2 & H1 & H2 & H3). pose proof (os_axes _ _ _ _ _ Hok) as [Hi Hj].
  destruct (C54_swap_axes l S i j HL Hl Hok) as (l' & S' & Hs & Hl' & _ & _ & _ & HF). exists l', S'. split; [done|]. split; [done|].
  pose proof (session_inv vd dims junk L HL l S Hl) as (M & sz & H & Hr).
  assert (forall c, c ∈ ls_chunks S -> length (c_start c) = dims /\ length (c_end c) = dims) as Hlens.
  { intros c (k & Hk)%elem_of_list_lookup. destruct (lrep_get _ _ _ _ _ _ _ _ _ Hr Hk) as (m & _ & Hmr & _). destruct (mr_at dims m c Hmr) as (? & ? & ? & _). done. }
  assert (forall c', c' ∈ ls_chunks S' -> exists c, c ∈ ls_chunks S /\ forall ind, covers c' ind <-> covers c (exchange i j ind)) as Hback.
  { intros c' (k & Hk)%elem_of_list_lookup. destruct (Forall2_lookup_r _ _ _ _ _ HF Hk) as (c & Hc & (_ & _ & _ & _ & _ & _ & _ & Hcc & _)). exists c. split; [by eapply elem_of_list_lookup_2|done]. }
  assert (forall c, c ∈ ls_chunks S -> exists c', c' ∈ ls_chunks S' /\ c_start c' = exchange i j (c_start c) /\ c_end c' = exchange i j (c_end c) /\ forall ind, covers c' ind <-> covers c (exchange i j ind)) as Hforw.
  { intros c (k & Hk)%elem_of_list_lookup. destruct (Forall2_lookup_l _ _ _ _ _ HF Hk) as (c' & Hc' & (E1 & E2 & _ & _ & _ & _ & _ & Hcc & _)). exists c'. split; [by eapply elem_of_list_lookup_2|done]. }
  split; [split; [by rewrite exchange_length|split; [by rewrite exchange_length|split; [|split]]]|split].
  - intros c' ind Hc' Hcov. destruct (Hback c' Hc') as (c & Hc & Hcc). apply exchange_inbox; [lia|lia|]. apply (H1 c); [done|]. by apply Hcc.
  - intros k x Hx. rewrite exchange_lookup in Hx by lia. destruct (H2 _ _ Hx) as (c & Hc & Hcx). destruct (Hforw c Hc) as (c' & Hc' & E1 & _ & _). exists c'. split; [done|].
    destruct (Hlens c Hc). rewrite E1, exchange_lookup by lia. done.
  - intros k x Hx. rewrite exchange_lookup in Hx by lia. destruct (H3 _ _ Hx) as (c & Hc & Hcx). destruct (Hforw c Hc) as (c' & Hc' & _ & E2 & _). exists c'. split; [done|].
    destruct (Hlens c Hc). rewrite E2, exchange_lookup by lia. done.
  - intros Hg ind Hin. assert (length ind = dims) as Hli by (apply inbox_at in Hin; lia).
    destruct (Hg (exchange i j ind)) as (c' & Hc' & Hcov). { apply exchange_inbox; [lia|lia|]. by rewrite exchange_twice by lia. }
    destruct (Hback c' Hc') as (c & Hc & Hcc). exists c. split; [done|]. apply Hcc in Hcov. by rewrite exchange_twice in Hcov by lia.
  - intros Hg ind Hin. apply exchange_inbox in Hin; [|lia|lia]. destruct (Hg _ Hin) as (c & Hc & Hcov). destruct (Hforw c Hc) as (c' & Hc' & _ & _ & Hcc). exists c'. split; [done|]. by apply Hcc.
Qed.
End props.
Print Assumptions C54_swap_axes.
Print Assumptions C54_swapped_elements.
Print Assumptions C54_swap_twice.
Print Assumptions C54_swapped_shape.

(** ** The hypotheses are met, and computed examples *)
(** A row 1 2 at (3,4) and a single element 9 at (0,0). *)
Lemma nv2_row : float_array 1 (nv_arr2 1 2 [1; 2]%N).
Proof.
  split; [|by repeat constructor]. eapply (api_write 1 (NDArr [1; 2]%nat [2; 1]%nat 0 [1; 0]%N true) _ [0; 1]%nat [2]%N); [|reflexivity].
  eapply (api_write 1 (anew 1 0%N [1; 2]%nat) _ [0; 0]%nat [1]%N); [|reflexivity]. by apply api_new.
Qed.
Lemma nv2_one : float_array 1 (nv_arr2 1 1 [9]%N).
Proof. split; [|by repeat constructor]. eapply (api_write 1 (anew 1 0%N [1; 1]%nat) _ [0; 0]%nat [9]%N); [|reflexivity]. by apply api_new. Qed.
Definition nv2_C : list chunk :=
  [Chunk [3; 4]%N [4; 6]%N 0 false [7]%N [1; 1]%nat (content_of 1 (nv_arr2 1 2 [1; 2]%N)); Chunk [0; 0]%N [1; 1]%N 0 false [8]%N [1; 1]%nat (content_of 1 (nv_arr2 1 1 [9]%N))].
Lemma nv2_accept : acceptable_chunk 2 [1; 1]%nat.
Proof. split; [done|]. split; by repeat constructor. Qed.
Lemma nv2_small (P : nat -> Prop) : P 0%nat -> P 1%nat -> forall i, (i < 2)%nat -> P i.
Proof. intros H0 H1 [|[|i]] Hi; [done|done|lia]. Qed.
Lemma nv2_ok1 : ok_register 1 2 (LState [] 0 false [1; 1]%nat) (nv_arr2 1 2 [1; 2]%N) [3; 4]%N [4; 6]%N 0 [7]%N.
Proof.
  split; try done.
  - apply nonempty_at. split; [done|]. apply nv2_small; done.
  - by repeat constructor.
  - by repeat constructor.
  - exact nv2_row.
  - split; [by repeat constructor|]. split; done.
  - constructor.
  - split; [done|]. split; [done|]. split; [by constructor|constructor].
Qed.
Lemma nv2_ok2 : ok_register 1 2 (LState (take 1 nv2_C) 1 false [1; 1]%nat) (nv_arr2 1 1 [9]%N) [0; 0]%N [1; 1]%N 0 [8]%N.
Proof.
  split; try done.
  - apply nonempty_at. split; [done|]. apply nv2_small; done.
  - by repeat constructor.
  - by repeat constructor.
  - exact nv2_one.
  - split; [by repeat constructor|]. split; done.
  - constructor; [|constructor]. intros ind (_ & _ & I)%inbox_at (_ & _ & J)%inbox_at. specialize (I 0%nat ltac:(simpl; lia)). specialize (J 0%nat ltac:(simpl; lia)). cbn in I, J. lia.
  - split; [done|]. split; [done|]. split; [by constructor|]. constructor; [done|constructor].
Qed.
Definition nv2_prog (size : nat) : res clib :=
  l ← lib_open 1 2 0%N lib0 size [1; 1]%nat (Dir None ∅);
  l1 ← lib_register 1 2 0%N lib0 (nv_arr2 1 2 [1; 2]%N) [3; 4]%N [4; 6]%N 0 false [7]%N l;
  lib_register 1 2 0%N lib0 (nv_arr2 1 1 [9]%N) [0; 0]%N [1; 1]%N 0 false [8]%N l1.
Lemma nv2_session size : exists l, nv2_prog size = Done l /\ session 1 2 0%N lib0 l (LState nv2_C 2 false [1; 1]%nat).
Proof.
  destruct (open_new 1 2 0%N lib0 lib0_ok size [1; 1]%nat nv2_accept) as (l0 & E0 & _). pose proof (ss_new 1 2 0%N lib0 size _ _ nv2_accept E0) as H0.
  assert (forall a, is_null_chunk 1 a false false) as Hn by (intros a; split; [done|intros [? _]; done]).
  destruct (register_lib_ok 1 2 0%N lib0 lib0_ok l0 _ _ _ _ _ false false _ (session_inv 1 2 0%N lib0 lib0_ok _ _ H0) nv2_ok1 (Hn _)) as (l1 & E1 & _).
  pose proof (ss_register 1 2 0%N lib0 _ _ _ _ _ _ _ _ _ _ H0 nv2_ok1 (Hn _) E1) as H1.
  change (registered 1 _ _ _ _ _ _ _) with (LState (take 1 nv2_C) 1 false [1; 1]%nat) in H1.
  destruct (register_lib_ok 1 2 0%N lib0 lib0_ok l1 _ _ _ _ _ false false _ (session_inv 1 2 0%N lib0 lib0_ok _ _ H1) nv2_ok2 (Hn _)) as (l2 & E2 & _).
  pose proof (ss_register 1 2 0%N lib0 _ _ _ _ _ _ _ _ _ _ H1 nv2_ok2 (Hn _) E2) as H2.
  exists l2. split; [|exact H2]. unfold nv2_prog. rewrite E0. cbn [mbind res_bind]. rewrite E1. cbn [mbind res_bind]. exact E2.
Qed.
Example C54_hypotheses_nonvacuous : exists l, nv2_prog 1 = Done l /\ session 1 2 0%N lib0 l (LState nv2_C 2 false [1; 1]%nat) /\ ok_swap 1 2 (LState nv2_C 2 false [1; 1]%nat) 0 1 /\
  (forall c, c ∈ nv2_C -> countable 1 NullSuppressed [1; 1]%nat (k_shape (c_val c))) /\
  is_hull 2 nv2_C [0; 0]%N [4; 6]%N.
Proof.
  destruct (nv2_session 1) as (l & El & Hl). exists l. split; [exact El|]. split; [exact Hl|]. clear El Hl. split; [|split].
  - split; [lia| |].
    + intros c Hc. apply elem_of_cons in Hc as [->|Hc]; [done|]. by apply elem_of_list_singleton in Hc as ->.
    + intros c Hc. apply elem_of_cons in Hc as [->|Hc]; [|apply elem_of_list_singleton in Hc as ->]; (split; [by repeat constructor|split; done]).
  - intros c Hc. apply elem_of_cons in Hc as [->|Hc]; [|apply elem_of_list_singleton in Hc as ->]; (split; [by repeat constructor|split; done]).
  - split; [done|]. split; [done|]. split; [|split].
    + intros c ind Hc Hcov. apply inbox_at in Hcov as (I1 & I2 & I3). apply elem_of_cons in Hc as [->|Hc]; [|apply elem_of_list_singleton in Hc as ->]; cbn [c_start c_end] in *;
        (apply inbox_at; split; [exact I1|]; split; [done|]; apply nv2_small; [specialize (I3 0%nat ltac:(simpl; lia))|specialize (I3 1%nat ltac:(simpl; lia))]; cbn in I3 |- *; lia).
    + intros [|[|k]] x Hx; [| |done]; injection Hx as <-; eexists; (split; [right; left|reflexivity]).
    + intros [|[|k]] x Hx; [| |done]; injection Hx as <-; eexists; (split; [left|reflexivity]).
Qed.
Example ex_swap :
  (l ← nv2_prog 1; l1 ← lib_swap_axes 1 2 0%N lib0 0 1 l; '(vs, _) ← lib_loop 1 2 0%N [0; 0]%N [99; 99]%N l1; Done vs)
  = Done [([4; 3], [1]); ([5; 3], [2]); ([0; 0], [9])]%N.
Proof. vm_compute. reflexivity. Qed.

(** C35: a crash after SwapAxes and before the next flush loses the flushed state: the chunk files are overwritten in the new layout when they
    leave the cache (here at once), the index on disk still describes the old one.  Index (3,5), which could be read after the flush, is now
    outside the array in the file; with a square chunk the transposed values would be read. *)
Definition nv2_get (ind : list N) (d : dir) : res (list N) := l ← lib_open 1 2 0%N lib0 0 [1; 1]%nat d; '(v, _) ← lib_get 1 2 0%N ind l; Done v.
Theorem C35_swap_refuted :
  (l ← nv2_prog 0; l1 ← lib_flush 1 2 id l; nv2_get [3; 5]%N (Dir (l_index l1) (s_files (l_store l1)))) = Done [2]%N /\
  (l ← nv2_prog 0; l1 ← lib_flush 1 2 id l; l2 ← lib_swap_axes 1 2 0%N lib0 0 1 l1; nv2_get [3; 5]%N (Dir (l_index l2) (s_files (l_store l2)))) = Undef.
Proof. vm_compute. split; reflexivity. Qed.
Print Assumptions C35_swap_refuted.
