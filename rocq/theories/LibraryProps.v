(** C26, C27, C29, C30, C31, C52, C53: the distributed array, for all its histories ([session], LibrarySpec.v). *)
From stdpp Require Import base list list_numbers numbers option gmap countable sets.
From Coq Require Import NArith Lia.
From Verif Require Import IndexSpec NDArrayModel NDArrayProofs NDArrayProps StreamerModel StreamerProps BBoxModel BBoxProps DownsampleModel
  RTreeModel RTreeInsert RTreeRebuild RTreeProps ChunkMetaModel ChunkMetaProps ChunkCacheModel ChunkCacheSpec ChunkCacheProofs ChunkCacheProps
  LibraryModel LibrarySpec LibraryProofs LibraryProofs2 LibraryProofs3 LibraryProofs4 LibraryProofs5 LibraryProofs6 LibraryProofs7.
From Verif Require Import IndexSpec.

(** ** A concrete history: the cache has room for one chunk only. *)
Definition nv_chunk (s : N) (v : list N) (f : N) : chunk :=
  Chunk [s] [(s + N.of_nat (length v))%N] 0 false [f] [1%nat] (content_of 1 (nv_arr v)).
Definition nv_prog (size : nat) (C : list (N * list N * N)) : res clib :=
  l ← lib_open 1 1 0%N lib0 size [1%nat] (Dir None ∅);
  rfold (fun l '(s, v, f) => darr_register 1 1 0%N lib0 (nv_arr v) [s] false [f] l) l C.
Definition nv_S (C : list chunk) : lstate := LState C (N.of_nat (length C)) false [1%nat].
Lemma nv_accept : acceptable_chunk 1 [1%nat].
Proof. split; [done|]. split; [by repeat constructor|]. constructor. done. Qed.
Lemma nv_inbox s n ind : inbox [s] [(s + n)%N] ind <-> exists x, ind = [x] /\ (s <= x < s + n)%N.
Proof.
  rewrite inbox_at. split.
  - intros (H1 & _ & H3). destruct ind as [|x [|y r]]; try done. exists x. split; [done|]. exact (H3 0%nat ltac:(simpl; lia)).
  - intros (x & -> & Hx). split_and!; [done|done|]. intros i Hi. destruct i; [|simpl in Hi; lia]. exact Hx.
Qed.
Lemma nv_apart s1 n1 s2 n2 : (s1 + n1 <= s2)%N -> apart [s1] [(s1 + n1)%N] [s2] [(s2 + n2)%N].
Proof. intros H ind (x & -> & Hx)%nv_inbox (y & [= <-] & Hy)%nv_inbox. lia. Qed.
Lemma nv_ok_register C s v f : (length v <= 5)%nat -> v <> [] -> (s < 1000)%N -> (f < 256)%N -> (length C < 1000)%nat -> (forall b, b ∈ v -> b < 2 ^ 32)%N ->
  Forall (fun c => apart [s] [(s + N.of_nat (length v))%N] (c_start c) (c_end c) /\ c_file c <> [f]) C ->
  ok_register 1 1 (nv_S C) (nv_arr v) [s] [(s + N.of_nat (length v))%N] 0 [f].
Proof.
  intros Hl Hne Hs Hf HC Hv Hap. split.
  - done.
  - apply nonempty_at. split; [done|]. intros [|i] Hi; [|simpl in Hi; lia]. cbn. destruct v; [done|]. simpl length. cbn [length] in Hl. lia.
  - constructor; [|constructor]. cbn [fst snd]. lia.
  - constructor; [|constructor]. lia.
  - by apply nv_arr_float.
  - by apply (nv_countable (length v)).
  - eapply list.Forall_impl; [exact Hap|]. by intros c [? _].
  - split; [done|]. split; [done|]. split; [by constructor|]. eapply list.Forall_impl; [exact Hap|]. by intros c [_ ?].
  - split; [done|]. unfold nv_S. cbn [ls_handed]. lia.
Qed.
Lemma nv_register l C s v f : session 1 1 0%N lib0 l (nv_S C) -> (length v <= 5)%nat -> v <> [] -> (s < 1000)%N -> (f < 256)%N -> (length C < 1000)%nat -> (forall b, b ∈ v -> b < 2 ^ 32)%N ->
  Forall (fun c => apart [s] [(s + N.of_nat (length v))%N] (c_start c) (c_end c) /\ c_file c <> [f]) C ->
  exists l', darr_register 1 1 0%N lib0 (nv_arr v) [s] false [f] l = Done l' /\ session 1 1 0%N lib0 l' (nv_S (C ++ [nv_chunk s v f])).
Proof.
  intros Hl H1 H2 H3 H4 H5 H6 H7. pose proof (nv_ok_register C s v f H1 H2 H3 H4 H5 H6 H7) as Hok.
  assert (is_null_chunk 1 (nv_arr v) false false) as Hn by (split; [done|intros [? _]; done]).
  destruct (register_lib_ok 1 1 0%N lib0 lib0_ok l (nv_S C) _ _ _ _ false false _ (session_inv 1 1 0%N lib0 lib0_ok _ _ Hl) Hok Hn) as (l' & Hr & _).
  exists l'. split.
  { unfold darr_register. cbn [a_shape nv_arr vof_nat fmap list_fmap]. unfold vwadd. cbn [zip_with]. rewrite wadd_small by lia. exact Hr. }
  replace (nv_S (C ++ [nv_chunk s v f])) with (registered 1 (nv_S C) (nv_arr v) [s] [(s + N.of_nat (length v))%N] 0 false [f]).
  - exact (ss_register 1 1 0%N lib0 _ _ _ _ _ _ _ _ _ _ Hl Hok Hn Hr).
  - unfold registered, nv_S, nv_chunk. cbn [ls_chunks ls_handed ls_reopened ls_cs]. f_equal. rewrite app_length. cbn [length]. lia.
Qed.
Lemma nv_new (size : nat) : exists l, lib_open 1 1 0%N lib0 size [1%nat] (Dir None ∅) = Done l /\ session 1 1 0%N lib0 l (nv_S []).
Proof. destruct (open_new 1 1 0%N lib0 lib0_ok size [1%nat] nv_accept) as (l & Hl & _). exists l. split; [done|]. exact (ss_new 1 1 0%N lib0 size _ _ nv_accept Hl). Qed.
(** Two chunks: [1;2;3] at 10..12 and [8;9] at 20..21. *)
Definition nv_C : list chunk := [nv_chunk 10 [1; 2; 3]%N 7; nv_chunk 20 [8; 9]%N 8].
Lemma nv_small1 b : b ∈ [1; 2; 3]%N -> (b < 2 ^ 32)%N. Proof. revert b. nv_small. Qed.
Lemma nv_small2 b : b ∈ [8; 9]%N -> (b < 2 ^ 32)%N. Proof. revert b. nv_small. Qed.
Lemma nv_small3 b : b ∈ [4; 0; 6]%N -> (b < 2 ^ 32)%N. Proof. revert b. nv_small. Qed.
Lemma nv_apart1 : Forall (fun c => apart [20]%N [(20 + N.of_nat (length [8; 9]%N))%N] (c_start c) (c_end c) /\ c_file c <> [8]%N) ([] ++ [nv_chunk 10 [1; 2; 3]%N 7]).
Proof. constructor; [|constructor]. split; [|done]. intros ind I1 I2. refine (nv_apart 10 3 20 2 _ ind I2 I1). lia. Qed.
Lemma nv_session : exists l, nv_prog 1 [(10, [1; 2; 3], 7); (20, [8; 9], 8)]%N = Done l /\ session 1 1 0%N lib0 l (nv_S nv_C).
Proof.
  destruct (nv_new 1) as (l0 & E0 & H0).
  destruct (nv_register l0 [] 10 [1; 2; 3]%N 7 H0) as (l1 & E1 & H1); [simpl; lia|discriminate|lia|lia|simpl; lia|exact nv_small1|constructor|].
  destruct (nv_register l1 _ 20 [8; 9]%N 8 H1) as (l2 & E2 & H2); [simpl; lia|discriminate|lia|lia|simpl; lia|exact nv_small2|exact nv_apart1|].
  exists l2. split; [|exact H2]. unfold nv_prog. rewrite E0. cbn [mbind res_bind rfold]. rewrite E1. cbn [mbind res_bind rfold]. rewrite E2. reflexivity.
Qed.
Lemma nv_session2 : exists l, nv_prog 1 [(30, [4; 0; 6], 9)]%N = Done l /\ session 1 1 0%N lib0 l (nv_S [nv_chunk 30 [4; 0; 6]%N 9]).
Proof.
  destruct (nv_new 1) as (l0 & E0 & H0).
  destruct (nv_register l0 [] 30 [4; 0; 6]%N 9 H0) as (l1 & E1 & H1); [simpl; lia|discriminate|lia|lia|simpl; lia|exact nv_small3|constructor|].
  exists l1. split; [|exact H1]. unfold nv_prog. rewrite E0. cbn [mbind res_bind rfold]. rewrite E1. reflexivity.
Qed.

Section props.
Context (vd dims : nat) (junk : N) (L : lib).
Local Notation session := (session vd dims junk L).

(** * C26: in every history in which nothing is registered or imported into an array opened with chunks in it, the chunks of the array
    have different identifiers. *)
Theorem C26_unique_ids_partial l S : lib_ok L -> session l S ->
  exists ms, get_all_entries (l_tree l) = Some ms /\ NoDup (cm_id <$> ms) /\ length ms = length (ls_chunks S).
Proof using.
  intros HL Hl. destruct (session_inv vd dims junk L HL l S Hl) as (M & sz & H & Hr). exists M. split; [by eapply lrep_all|]. split; [apply Hr|by eapply lrep_len].
Qed.

(** * C27 *)
Theorem C27_element_access l S c ind : lib_ok L -> session l S -> c ∈ ls_chunks S -> covers c ind -> (c_null c = true -> c_ov c = 0%N) ->
  exists v l', lib_get vd dims junk ind l = Done (v, l') /\ session l' S /\ comes_back NullSuppressed (value c ind) v.
Proof using.
  intros HL Hl Hc Hcov Hn. pose proof (session_inv vd dims junk L HL l S Hl) as Hr. pose proof Hc as Hc'. apply elem_of_list_lookup in Hc' as (i & Hi).
  destruct (get_ok vd dims junk l S i c ind Hr Hi Hcov Hn) as (v & l' & Hg & _ & Hv). exists v, l'. split; [done|]. split; [|done].
  eapply ss_get; [exact Hl|exact Hg|]. eauto.
Qed.
(** All indices of the range: those with a chunk get its value, at the other ones the buffer is left alone, as it is outside the range. *)
Theorem C27_range_read l S buf is ie os : lib_ok L -> session l S -> ok_fill vd dims buf is ie os ->
  exists b l', lib_fill vd dims junk buf is ie os l = Done (b, l') /\ session l' S /\ a_shape b = a_shape buf /\
    (forall c ind, c ∈ ls_chunks S -> inbox is ie ind -> covers c ind ->
       exists v, aread vd b (place is os ind) = Some v /\ comes_back NullSuppressed (value c ind) v) /\
    (forall y, in_shape (a_shape buf) y -> (forall c ind, c ∈ ls_chunks S -> inbox is ie ind -> covers c ind -> y <> place is os ind) ->
       aread vd b y = aread vd buf y).
Proof using.
  intros HL Hl Hok. destruct (fill_ok vd dims junk l S buf is ie os (session_inv vd dims junk L HL l S Hl) Hok) as (b & l' & Hf & _ & _ & Hsh & Hv & Hu).
  exists b, l'. split; [done|]. split; [|done]. eapply ss_fill; [exact Hl|exact Hok|exact Hf].
Qed.

(** * C29 *)
(** The slice becomes readable behind the chunk, and everything else reads as before. *)
Theorem C29_append_partial l S i c start slice : lib_ok L -> session l S -> ok_append vd dims S i c start slice ->
  exists l' S', lib_append vd dims junk 0 start slice l = Done l' /\ session l' S' /\
    (forall c' ind, c' ∈ ls_chunks S -> covers c' ind -> exists c'', c'' ∈ ls_chunks S' /\ covers c'' ind /\ value c'' ind = value c' ind) /\
    (forall x r v, in_shape (a_shape slice) (x :: r) -> aread vd slice (x :: r) = Some v ->
       let ind := (hd 0 start + N.of_nat x)%N :: zip_with (fun i s => N.of_nat i + s)%N r (tl (c_start c)) in
       exists c'', c'' ∈ ls_chunks S' /\ covers c'' ind /\ value c'' ind = v) /\
    (forall c'' ind, c'' ∈ ls_chunks S' -> covers c'' ind -> (exists c', c' ∈ ls_chunks S /\ covers c' ind) \/
       (covers (grown_chunk vd c slice) ind /\ (hd 0 start <= hd 0 ind < hd 0 start + N.of_nat (hd 0%nat (a_shape slice)))%N)).
Proof using.
  intros HL Hl Hok. pose proof (session_inv vd dims junk L HL l S Hl) as Hr. destruct (append_lib_ok vd dims junk L HL l S i c start slice Hr Hok) as (l' & Ha & _).
  eexists l', _. split; [exact Ha|]. split; [by eapply ss_append|]. cbn [ls_chunks set_chunks].
  destruct Hr as (M & sz & H & Hr). pose proof Hok as []. destruct (lrep_get _ _ _ _ _ _ _ _ _ Hr oa_chunk) as (m & Hm & Hmr & _).
  destruct (mr_at dims m c Hmr) as (R1 & R2 & R3 & R4). pose proof (lrep_dims vd dims l S ltac:(by exists M, sz, H)) as Hd.
  destruct oa_start as (x0 & r0 & -> & Hx0 & Hcov0). destruct oa_shape as [Hsl Htl]. cbn [hd].
  destruct (c_start c) as [|s0 sr] eqn:Es; [simpl in R1; lia|]. destruct (c_end c) as [|e0 er] eqn:Ee; [simpl in R2; lia|]. cbn in Hx0. injection Hx0 as ->.
  destruct (k_shape (c_val c)) as [|n0 nr] eqn:Ek; [simpl in R3; lia|]. destruct (a_shape slice) as [|n1 nr1] eqn:Esl; [simpl in Hsl; lia|]. cbn in Htl. subst nr1.
  pose proof (R4 0%nat ltac:(lia)) as R40. change (_ < _ /\ _)%N with (s0 < x0 /\ x0 + c_ov c < 2 ^ 64 /\ N.of_nat n0 = x0 - s0 + 2 * c_ov c /\ N.of_nat n0 < 2 ^ 64)%N in R40. rewrite oa_ov in R40.
  pose proof (lookup_lt_Some _ _ _ oa_chunk) as Hi.
  assert (c_end (grown_chunk vd c slice) = (x0 + N.of_nat n1)%N :: er) as Eg. { unfold grown_chunk. cbn [c_end]. rewrite Ee, Esl. done. }
  assert (c_start (grown_chunk vd c slice) = s0 :: sr) as Egs. { unfold grown_chunk. cbn [c_start]. by rewrite Es. }
  assert (forall ind, covers (grown_chunk vd c slice) ind <-> exists y r, ind = y :: r /\ (s0 <= y < x0 + N.of_nat n1)%N /\ inbox sr er r) as Hcg.
  { intros ind. unfold covers. rewrite Eg, Egs. unfold inbox. split.
    - intros (I1 & I2 & I3). destruct ind as [|y r]; [done|]. exists y, r. split; [done|]. split; [exact (I3 0%nat _ _ _ eq_refl eq_refl eq_refl)|]. simpl in I1, I2.
      split_and!; [lia|lia|]. intros k a b d A1 A2 A3. exact (I3 (Datatypes.S k) a b d A1 A2 A3).
    - intros (y & r & -> & Hy & J1 & J2 & J3). simpl. split_and!; [lia|lia|]. intros [|k] a b d A1 A2 A3; [by injection A1 as <-; injection A2 as <-; injection A3 as <-|]. exact (J3 k a b d A1 A2 A3). }
  assert (forall ind, covers c ind <-> exists y r, ind = y :: r /\ (s0 <= y < x0)%N /\ inbox sr er r) as Hcc.
  { intros ind. unfold covers. rewrite Es, Ee. unfold inbox. split.
    - intros (I1 & I2 & I3). destruct ind as [|y r]; [done|]. exists y, r. split; [done|]. split; [exact (I3 0%nat _ _ _ eq_refl eq_refl eq_refl)|]. simpl in I1, I2.
      split_and!; [lia|lia|]. intros k a b d A1 A2 A3. exact (I3 (Datatypes.S k) a b d A1 A2 A3).
    - intros (y & r & -> & Hy & J1 & J2 & J3). simpl. split_and!; [lia|lia|]. intros [|k] a b d A1 A2 A3; [by injection A1 as <-; injection A2 as <-; injection A3 as <-|]. exact (J3 k a b d A1 A2 A3). }
  assert (grown_chunk vd c slice ∈ <[i := grown_chunk vd c slice]> (ls_chunks S)) as Hgin. { apply elem_of_list_lookup. exists i. by rewrite list_lookup_insert. }
  split; [|split].
  - intros c' ind Hc' Hcov. apply elem_of_list_lookup in Hc' as (j & Hj). destruct (decide (j = i)) as [->|Hne].
    + assert (c' = c) as -> by congruence. exists (grown_chunk vd c slice). split; [done|]. apply Hcc in Hcov as (y & r & -> & Hy & Hin). split; [apply Hcg; exists y, r; split_and!; auto; lia|].
      unfold value, position. rewrite Egs, Es. unfold grown_chunk. cbn [c_val c_ov]. unfold concat0. cbn [k_at]. rewrite Ek. cbn [head default zip_with].
      rewrite oa_ov. rewrite (proj2 (Nat.ltb_lt _ _)); [done|]. cbn. lia.
    + exists c'. split; [|done]. apply elem_of_list_lookup. exists j. by rewrite list_lookup_insert_ne.
  - intros x r v Hx Hv. cbv zeta. exists (grown_chunk vd c slice). split; [done|].
    assert (in_shape (a_shape slice) (x :: r)) as Hx' by (by rewrite Esl). apply in_shape_forall2 in Hx. apply Forall2_cons in Hx as [Hx Hxr].
    assert (length sr = length er /\ length nr = length er /\ length r = length er) as (Q1 & Q2 & Q3). { pose proof (Forall2_length _ _ _ Hxr). simpl in R1, R2, R3. lia. }
    assert (inbox sr er (zip_with (fun i s => N.of_nat i + s)%N r sr)) as Hir.
    { apply inbox_at. rewrite zip_with_length. split_and!; [lia|lia|]. intros k Hk. rewrite zip_at by lia. apply F2_at in Hxr as [_ Hxr]. specialize (Hxr k ltac:(lia)).
      specialize (R4 (Datatypes.S k) ltac:(simpl in R1; lia)). change ((s0 :: sr) !!! Datatypes.S k) with (sr !!! k) in R4. change ((x0 :: er) !!! Datatypes.S k) with (er !!! k) in R4.
      change ((n0 :: nr) !!! Datatypes.S k) with (nr !!! k) in R4. rewrite oa_ov in R4. lia. }
    split; [apply Hcg; eexists _, _; split; [reflexivity|]; split; [lia|done]|]. unfold value, position. rewrite Egs. unfold grown_chunk. cbn [c_val c_ov tl zip_with]. unfold concat0. cbn [k_at]. rewrite Ek. cbn [head default]. rewrite oa_ov.
    rewrite (proj2 (Nat.ltb_ge _ _)) by (cbn; lia).
    assert ((N.to_nat (x0 + N.of_nat x + 0 - s0) - id n0)%nat = x) as -> by (unfold id; lia).
    assert (zip_with (fun i s => N.to_nat (i + 0 - s)) (zip_with (fun i s => N.of_nat i + s)%N r sr) sr = r) as ->.
    { apply eq_at. rewrite !zip_with_length. split; [lia|]. intros k Hk. rewrite zip_at by (rewrite ?zip_with_length; lia). rewrite zip_at by lia. lia. }
    unfold content_of. cbn [k_at]. by rewrite Hv.
  - intros c'' ind Hc'' Hcov. apply elem_of_list_lookup in Hc'' as (j & Hj). apply list_lookup_insert_Some in Hj as [(<- & <- & _)|[Hne Hj]].
    + pose proof Hcov as Hcov'. apply Hcg in Hcov as (y & r & -> & Hy & Hin). cbn [hd]. destruct (N.lt_ge_cases y x0) as [Hlt|Hge]; [left|right; split; [done|lia]].
      exists c. split; [by eapply elem_of_list_lookup_2|]. apply Hcc. exists y, r. split_and!; auto; lia.
    + left. exists c''. split; [by eapply elem_of_list_lookup_2|done].
Qed.

(** * C30 *)
Theorem C30_shape_partial l S : lib_ok L -> session l S ->
  exists g l', lib_geometry dims l = Done (g, l') /\ session l' S /\
    (ls_chunks S = [] -> g_start g = replicate dims 0%N /\ g_end g = replicate dims 0%N /\ g_shape g = replicate dims 0%N) /\
    (ls_chunks S <> [] -> is_hull dims (ls_chunks S) (g_start g) (g_end g) /\
      (* the hull has less than 2^64 indices *)
      ((count (g_start g) (g_end g) < 2 ^ 64)%N ->
        (gap_free (ls_chunks S) (g_start g) (g_end g) -> g_shape g = zip_with N.sub (g_end g) (g_start g)) /\
        (~ gap_free (ls_chunks S) (g_start g) (g_end g) -> g_shape g = replicate dims 0%N))).
Proof using.
  intros HL Hl. destruct (geometry_lib_ok vd dims l S (session_inv vd dims junk L HL l S Hl)) as (g & l' & Hg & _ & G1 & G2). exists g, l'. split; [done|].
  split; [by eapply ss_geometry|]. split.
  - intros E. by rewrite (G1 E).
  - intros Hne. destruct (G2 Hne) as (H1 & _ & H3). done.
Qed.

(** * C31 *)
Theorem C31_import_partial l S l2 S2 ord d move : lib_ok L -> session l S -> session l2 S2 -> (forall k, ord k ≡ₚ k) ->
  lib_close vd dims ord l2 = Done d -> ok_import S S2 l d ->
  exists l' S' d', lib_import dims L d move l = Done (l', d') /\ session l' S' /\
    (forall c, c ∈ ls_chunks S' <-> c ∈ ls_chunks S \/ c ∈ ls_chunks S2) /\
    (* copying leaves the source alone: opening it gives the same array; moving leaves an empty directory *)
    d' = (if move then Dir None ∅ else d).
Proof using.
  intros HL Hl Hl2 Hord Hc Hok. destruct (close_ok vd dims l2 S2 ord Hord (session_inv vd dims junk L HL l2 S2 Hl2)) as (d0 & Hc0 & Hcl). rewrite Hc in Hc0. injection Hc0 as <-.
  destruct (import_lib_ok vd dims L HL l S d S2 move (session_inv vd dims junk L HL l S Hl) Hcl Hok) as (l' & d' & Hi & _ & Hd).
  exists l', (imported S S2), d'. split; [done|]. split; [by eapply ss_import|]. split; [|done]. intros c. unfold imported. cbn [ls_chunks]. by rewrite elem_of_app.
Qed.

(** * C52: index_loop_over_elements calls the worker exactly once for every index of the range that has a chunk, with its value. *)
Theorem C52_loop l S is ie : lib_ok L -> session l S -> length is = dims -> nonempty is ie -> (forall c, c ∈ ls_chunks S -> c_null c = true -> c_ov c = 0%N) ->
  exists vs l', lib_loop vd dims junk is ie l = Done (vs, l') /\ session l' S /\ NoDup vs.*1 /\
    (forall ind, ind ∈ vs.*1 <-> inbox is ie ind /\ exists c, c ∈ ls_chunks S /\ covers c ind) /\
    (forall c ind v, (ind, v) ∈ vs -> c ∈ ls_chunks S -> covers c ind -> comes_back NullSuppressed (value c ind) v).
Proof using.
  intros HL Hl His Hne Hn. pose proof (session_inv vd dims junk L HL l S Hl) as Hr. destruct (loop_ok vd dims junk l S is ie Hr His Hne Hn) as (vs & l' & Hlo & _ & Hnd & H1 & H2).
  exists vs, l'. split; [done|]. split; [by eapply ss_loop|]. split; [done|]. split.
  - intros ind. split.
    + intros ([ind' v] & -> & Hin)%elem_of_list_fmap. destruct (H2 _ _ Hin) as (K1 & c & K2 & K3 & _). cbn. eauto.
    + intros (K1 & c & K2 & K3). by apply (H1 c).
  - intros c ind v Hin Hc Hcov. destruct (H2 _ _ Hin) as (_ & c' & K2 & K3 & K4). destruct Hr as (M & sz & H & Hr).
    apply elem_of_list_lookup in Hc as (i & Hi). apply elem_of_list_lookup in K2 as (j & Hj). destruct (decide (i = j)) as [->|Hij]; [congruence|].
    exfalso. exact (lr_apart _ _ _ _ _ _ _ Hr i j c c' Hi Hj Hij ind Hcov K3).
Qed.

(** * C53: what is on disk after a flush opens as the same array, whatever happens to the running program then; closing and moving, too. *)
Theorem C53_flushed_array_opens l S ord size cs : lib_ok L -> session l S -> (forall k, ord k ≡ₚ k) -> acceptable_chunk dims cs ->
  exists l1 l2, lib_flush vd dims ord l = Done l1 /\ session l1 S /\
    lib_open vd dims junk L size cs (Dir (l_index l1) (s_files (l_store l1))) = Done l2 /\
    forall c ind, c ∈ ls_chunks S -> covers c ind -> (c_null c = true -> c_ov c = 0%N) ->
      exists v l3, lib_get vd dims junk ind l2 = Done (v, l3) /\ comes_back NullSuppressed (value c ind) v.
Proof using.
  intros HL Hl Hord Hcs. destruct (flush_ok vd dims l S ord Hord (session_inv vd dims junk L HL l S Hl)) as (l1 & Hf & _ & Hcl).
  destruct (reopen_ok vd dims junk L HL _ S size cs Hcl Hcs) as (l2 & Ho & Hr2). exists l1, l2. split; [done|]. split; [by eapply ss_flush|]. split; [done|].
  intros c ind Hc Hcov Hn. apply elem_of_list_lookup in Hc as (i & Hi). destruct (get_ok vd dims junk l2 (reopened S cs) i c ind Hr2 Hi Hcov Hn) as (v & l3 & Hg & _ & Hv). eauto.
Qed.
Theorem C53_closed_array_opens l S ord d size cs : lib_ok L -> session l S -> (forall k, ord k ≡ₚ k) -> acceptable_chunk dims cs -> lib_close vd dims ord l = Done d ->
  exists l2, lib_open vd dims junk L size cs d = Done l2 /\ session l2 (reopened S cs).
Proof using.
  intros HL Hl Hord Hcs Hc. destruct (close_ok vd dims l S ord Hord (session_inv vd dims junk L HL l S Hl)) as (d0 & Hc0 & Hcl). rewrite Hc in Hc0. injection Hc0 as <-.
  destruct (reopen_ok vd dims junk L HL _ S size cs Hcl Hcs) as (l2 & Ho & _). exists l2. split; [done|]. by eapply ss_reopen.
Qed.
Theorem C53_moved_array l S ord : lib_ok L -> session l S -> (forall k, ord k ≡ₚ k) ->
  exists l', lib_move vd dims ord (Dir None ∅) l = Done (l', Dir None ∅) /\ session l' S.
Proof using.
  intros HL Hl Hord. destruct (move_ok vd dims l S ord Hord (session_inv vd dims junk L HL l S Hl)) as (l' & Hm & _). exists l'. split; [done|]. by eapply ss_move.
Qed.
Theorem C53_cleared_array l S ord : lib_ok L -> session l S -> (forall k, ord k ≡ₚ k) ->
  exists l', lib_clear vd dims ord l = Done l' /\ session l' (cleared S).
Proof using.
  intros HL Hl Hord. destruct (clear_ok vd dims L HL l S ord Hord (session_inv vd dims junk L HL l S Hl)) as (l' & Hm & _). exists l'. split; [done|]. by eapply ss_clear.
Qed.
End props.
Print Assumptions C26_unique_ids_partial.
Print Assumptions C27_element_access.
Print Assumptions C27_range_read.
Print Assumptions C29_append_partial.
Print Assumptions C30_shape_partial.
Print Assumptions C31_import_partial.
Print Assumptions C52_loop.
Print Assumptions C53_flushed_array_opens.
Print Assumptions C53_closed_array_opens.

(** ** The hypotheses are met, and computed examples *)
Example C26_hypotheses_nonvacuous : lib_ok lib0 /\ exists l, session 1 1 0%N lib0 l (nv_S nv_C).
Proof. split; [apply lib0_ok|]. destruct nv_session as (l & _ & Hl). exists l. exact Hl. Qed.

(** Reopening: the identifier 0 is handed out again; with a cache, index 10 then reads the value of the new chunk, and an index of the
    old chunk beyond the size of the new one reads out of bounds. *)
Definition nv_get (i : N) (l : clib) : res (list N) := '(v, _) ← lib_get 1 1 0%N [i] l; Done v.
Definition nv_reopened : res clib :=
  l0 ← nv_prog 1 [(10, [1; 2; 3], 7)]%N; d ← lib_close 1 1 id l0; l1 ← lib_open 1 1 0%N lib0 1 [1%nat] d;
  darr_register 1 1 0%N lib0 (nv_arr [8; 9]%N) [20]%N false [8]%N l1.
Definition nv_ids (l : clib) : res (list N) := match get_all_entries (l_tree l) with Some ms => Done (map cm_id ms) | None => Undef end.
Theorem C26_reopen_refuted :
  (nv_reopened ≫= nv_ids) = Done [0; 0]%N /\
  (nv_reopened ≫= nv_get 10) = Done [8]%N /\ (nv_reopened ≫= nv_get 12) = Undef /\
  (nv_prog 1 [(10, [1; 2; 3], 7); (20, [8; 9], 8)]%N ≫= nv_get 10) = Done [1]%N.
Proof. vm_compute. split_and!; reflexivity. Qed.
Print Assumptions C26_reopen_refuted.

Example C27_hypotheses_nonvacuous :
  nv_chunk 20 [8; 9]%N 8 ∈ ls_chunks (nv_S nv_C) /\ covers (nv_chunk 20 [8; 9]%N 8) [21]%N /\ value (nv_chunk 20 [8; 9]%N 8) [21]%N = [9]%N /\
  ok_fill 1 1 (nv_arr [100; 101; 102; 103; 104]%N) [12]%N [14]%N [1]%N.
Proof.
  split; [right; left|]. split; [apply nv_inbox; exists 21%N; split; [done|simpl; lia]|]. split; [reflexivity|]. split.
  - apply (nv_arr_float [100; 101; 102; 103; 104]%N). nv_small.
  - done.
  - apply nonempty_at. split; [done|]. intros [|i] Hi; [done|simpl in Hi; lia].
  - constructor; [|constructor]. cbn. lia.
  - by constructor.
Qed.
(** Reading index range 12..21 into a buffer at 1: index 12 of the first chunk, nothing for 13..19, 20 and 21 of the second chunk. *)
Example ex_range_read :
  (l ← nv_prog 1 [(10, [1; 2; 3], 7); (20, [8; 9], 8)]%N; '(b, _) ← lib_fill 1 1 0%N (nv_arr (replicate 12 100%N)) [12]%N [22]%N [1]%N l; Done (a_data b))
  = Done [100; 3; 100; 100; 100; 100; 100; 100; 100; 8; 9; 100]%N.
Proof. vm_compute. reflexivity. Qed.
Example ex_loop :
  (l ← nv_prog 1 [(10, [1; 2; 3], 7); (20, [8; 9], 8)]%N; '(vs, _) ← lib_loop 1 1 0%N [12]%N [22]%N l; Done vs) = Done [([12], [3]); ([20], [8]); ([21], [9])]%N.
Proof. vm_compute. reflexivity. Qed.
(** An all-null chunk with overlap (recognised as such because the optimisation is on) which is not in the cache: the array that is made up
    for it has no overlap, and element access reads outside it (DistributedNDVecArray.hxx:285-292, 915-926). *)
Theorem C27_null_overlap_refuted :
  let prog (size : nat) := (l ← lib_open 1 1 0%N lib0 size [1%nat] (Dir None ∅);
    l1 ← lib_register 1 1 0%N lib0 (nv_arr [0; 0; 0]%N) [5]%N [6]%N 1 true [7]%N l; nv_get 5 l1) in
  prog 0%nat = Undef /\ prog 1%nat = Done [0]%N.
Proof. vm_compute. split; reflexivity. Qed.
Print Assumptions C27_null_overlap_refuted.

Example C29_hypotheses_nonvacuous : ok_append 1 1 (nv_S nv_C) 0 (nv_chunk 10 [1; 2; 3]%N 7) [13]%N (nv_arr [4; 5]%N).
Proof.
  split.
  - done.
  - exists 13%N, []. split; [done|]. split; [done|]. apply nv_inbox. exists 12%N. split; [done|]. simpl. lia.
  - done.
  - done.
  - apply nv_arr_float. nv_small.
  - done.
  - by constructor.
  - apply nv_aligned.
  - apply (nv_countable 5). lia.
  - intros j c' Hj Hne. destruct j as [|[|j]]; [done| |done]. injection Hj as <-. exact (nv_apart 10 5 20 2 ltac:(done)).
Qed.
Example ex_append :
  (l ← nv_prog 1 [(10, [1; 2; 3], 7); (20, [8; 9], 8)]%N; l1 ← lib_append 1 1 0%N 0 [13]%N (nv_arr [4; 5]%N) l; '(vs, _) ← lib_loop 1 1 0%N [0]%N [99]%N l1; Done vs.*2)
  = Done [[1]; [2]; [3]; [4]; [5]; [8]; [9]]%N.
Proof. vm_compute. reflexivity. Qed.
(** Three ways in which C29 fails.  Without a chunk that ends at the start index no error is reported: the null pointer is dereferenced.  If
    the start index is inside the chunk the slice is appended at its end anyway. *)
Theorem C29_no_chunk_refuted :
  (l ← nv_prog 1 [(10, [1; 2; 3], 7)]%N; lib_append 1 1 0%N 0 [15]%N (nv_arr [4]%N) l) = Undef /\
  (l ← nv_prog 1 [(10, [1; 2; 3], 7)]%N; l1 ← lib_append 1 1 0%N 0 [11]%N (nv_arr [4]%N) l; '(vs, _) ← lib_loop 1 1 0%N [0]%N [99]%N l1; Done vs)
    = Done [([10], [1]); ([11], [2]); ([12], [3]); ([13], [4])]%N.
Proof. vm_compute. split; reflexivity. Qed.
Print Assumptions C29_no_chunk_refuted.
(** Along the second axis: a chunk that is in the cache cannot be extended; if it is not in the cache and the serialisation chunks are not
    aligned, the slice is written at the wrong place: the 2x2 chunk 1 2 / 3 4 and the column 5 / 6 become 1 2 3 / 4 5 6. *)
Definition nv_arr2 (a b : nat) (v : list N) : ndarr N := NDArr [a; b] [b; 1]%nat 0 v true.
Definition nv_prog2 (size : nat) (cs : list nat) : res (list (list N)) :=
  l ← lib_open 1 2 0%N lib0 size cs (Dir None ∅);
  l1 ← darr_register 1 2 0%N lib0 (nv_arr2 2 2 [1; 2; 3; 4]%N) [0; 0]%N false [7]%N l;
  l2 ← lib_append 1 2 0%N 1 [0; 2]%N (nv_arr2 2 1 [5; 6]%N) l1;
  '(vs, _) ← lib_loop 1 2 0%N [0; 0]%N [99; 99]%N l2; Done vs.*2.
Theorem C29_axis_refuted :
  nv_prog2 1 [1; 1]%nat = Raised /\ nv_prog2 0 [1; 1]%nat = Done [[1]; [2]; [3]; [4]; [5]; [6]]%N /\
  nv_prog2 0 [2; 1]%nat = Done [[1]; [2]; [5]; [3]; [4]; [6]]%N.
Proof. vm_compute. split_and!; reflexivity. Qed.
Print Assumptions C29_axis_refuted.

Example C30_hypotheses_nonvacuous :
  is_hull 1 nv_C [10]%N [22]%N /\ ~ gap_free nv_C [10]%N [22]%N /\ (count [10]%N [22]%N < 2 ^ 64)%N /\
  gap_free [nv_chunk 10 [1; 2; 3]%N 7] [10]%N [13]%N.
Proof.
  split; [|split; [|split]].
  - split; [done|]. split; [done|]. split; [|split].
    + intros c ind Hc Hcov. apply (nv_inbox 10 12). apply elem_of_cons in Hc as [->|Hc]; [|apply elem_of_list_singleton in Hc as ->]; apply nv_inbox in Hcov as (x & -> & Hx); exists x; (split; [done|]); simpl in Hx; lia.
    + intros [|i] x Hx; [|done]. injection Hx as <-. exists (nv_chunk 10 [1; 2; 3]%N 7). split; [left|done].
    + intros [|i] x Hx; [|done]. injection Hx as <-. exists (nv_chunk 20 [8; 9]%N 8). split; [right; left|done].
  - intros H. destruct (H [15]%N) as (c & Hc & Hcov); [apply (nv_inbox 10 12); exists 15%N; done|].
    apply elem_of_cons in Hc as [->|Hc]; [|apply elem_of_list_singleton in Hc as ->]; apply nv_inbox in Hcov as (x & [= <-] & Hx); simpl in Hx; lia.
  - done.
  - intros ind Hin. exists (nv_chunk 10 [1; 2; 3]%N 7). split; [left|exact Hin].
Qed.
Example ex_shape :
  (l ← nv_prog 1 [(10, [1; 2; 3], 7); (20, [8; 9], 8)]%N; '(g, l1) ← lib_geometry 1 l; l2 ← darr_register 1 1 0%N lib0 (nv_arr [1; 1; 1; 1; 1; 1; 1]%N) [13]%N false [9]%N l1;
   '(g2, _) ← lib_geometry 1 l2; Done (g, g2)) = Done (Geom [10]%N [22]%N [0]%N, Geom [10]%N [22]%N [12]%N).
Proof. vm_compute. reflexivity. Qed.
(** Two chunks of one element each at (0,0) and (1,2^63): their hull has 2 * (2^63+1) indices, which is 2 modulo 2^64, so the array counts as
    gap free and the extent of the hull is reported. *)
Theorem C30_overflow_refuted :
  (l ← lib_open 1 2 0%N lib0 1 [1; 1]%nat (Dir None ∅); l1 ← darr_register 1 2 0%N lib0 (nv_arr2 1 1 [5]%N) [0; 0]%N false [7]%N l;
   l2 ← darr_register 1 2 0%N lib0 (nv_arr2 1 1 [6]%N) [1; 2 ^ 63]%N false [8]%N l1; '(g, _) ← lib_geometry 2 l2; Done (g_shape g)) = Done [2; 2 ^ 63 + 1]%N.
Proof. vm_compute. reflexivity. Qed.
Print Assumptions C30_overflow_refuted.

Lemma nv_files : forall l l2 d, nv_prog 1 [(10, [1; 2; 3], 7); (20, [8; 9], 8)]%N = Done l -> nv_prog 1 [(30, [4; 0; 6], 9)]%N = Done l2 -> lib_close 1 1 id l2 = Done d ->
  d_files d ##ₘ s_files (l_store l).
Proof.
  intros l l2 d Hl Hl2 Hd.
  assert ((l ← nv_prog 1 [(10, [1; 2; 3], 7); (20, [8; 9], 8)]%N; l2 ← nv_prog 1 [(30, [4; 0; 6], 9)]%N; d ← lib_close 1 1 id l2;
           Done ((map_to_list (d_files d)).*1, (map_to_list (s_files (l_store l))).*1)) = Done ([[9]], [[7]])%N) as H by (vm_compute; reflexivity).
  rewrite Hl, Hl2 in H. cbn [mbind res_bind] in H. rewrite Hd in H. cbn [mbind res_bind] in H. clear Hl Hl2 Hd. injection H as H1 H2.
  apply map_disjoint_spec. intros k x y Hx Hy. apply elem_of_map_to_list in Hx, Hy. apply (elem_of_list_fmap_1 fst) in Hx, Hy.
  rewrite H1 in Hx. rewrite H2 in Hy. cbn [fst] in Hx, Hy. apply elem_of_list_singleton in Hx, Hy. congruence.
Qed.
Example C31_hypotheses_nonvacuous : exists l l2 d S S2, ls_chunks S = nv_C /\ ls_chunks S2 = [nv_chunk 30 [4; 0; 6]%N 9] /\
  session 1 1 0%N lib0 l S /\ session 1 1 0%N lib0 l2 S2 /\ lib_close 1 1 id l2 = Done d /\ ok_import S S2 l d.
Proof.
  destruct nv_session as (l & El & Hl). destruct nv_session2 as (l2 & El2 & Hl2).
  destruct (close_ok 1 1 l2 _ id (fun k => reflexivity k) (session_inv 1 1 0%N lib0 lib0_ok _ _ Hl2)) as (d & Hd & _).
  pose proof (nv_files l l2 d El El2 Hd) as Hfi.
  exists l, l2, d, (nv_S nv_C), (nv_S [nv_chunk 30 [4; 0; 6]%N 9]).
  split; [reflexivity|]. split; [reflexivity|]. split; [exact Hl|]. split; [exact Hl2|]. split; [exact Hd|]. clear -Hfi. split.
  - intros c c2 Hc Hc2. apply elem_of_list_singleton in Hc2 as ->. apply elem_of_cons in Hc as [->|Hc]; [exact (nv_apart 10 3 30 3 ltac:(done))|].
    apply elem_of_list_singleton in Hc as ->. exact (nv_apart 20 2 30 3 ltac:(done)).
  - intros c c2 Hc Hc2. apply elem_of_list_singleton in Hc2 as ->. apply elem_of_cons in Hc as [->|Hc]; [done|]. by apply elem_of_list_singleton in Hc as ->.
  - exact Hfi.
  - done.
Qed.
Example ex_import :
  (l ← nv_prog 1 [(10, [1; 2; 3], 7); (20, [8; 9], 8)]%N; l2 ← nv_prog 1 [(30, [4; 0; 6], 9)]%N; d ← lib_close 1 1 id l2; '(l3, d2) ← lib_import 1 lib0 d false l;
   '(vs, _) ← lib_loop 1 1 0%N [0]%N [99]%N l3; l4 ← lib_open 1 1 0%N lib0 1 [1%nat] d2; '(vs2, _) ← lib_loop 1 1 0%N [0]%N [99]%N l4; Done (vs.*2, vs2.*2))
  = Done ([[1]; [2]; [3]; [8]; [9]; [4]; [0]; [6]], [[4]; [0]; [6]])%N.
Proof. vm_compute. reflexivity. Qed.
Example C52_hypotheses_nonvacuous : nonempty [12]%N [22]%N /\ forall c, c ∈ nv_C -> c_null c = true -> c_ov c = 0%N.
Proof.
  split; [apply nonempty_at; split; [done|]; intros [|i] Hi; [done|simpl in Hi; lia]|]. intros c Hc. apply elem_of_cons in Hc as [->|Hc]; [done|]. by apply elem_of_list_singleton in Hc as ->.
Qed.
