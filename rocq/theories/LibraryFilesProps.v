(** C55: the directory of an array holds the index and exactly one file for every chunk that is not all-null; nothing is left behind. *)
From stdpp Require Import base list list_numbers numbers option gmap countable sets fin_maps.
From Coq Require Import NArith Lia.
From Verif Require Import IndexSpec NDArrayModel NDArrayProps StreamerModel StreamerProps NullSupModel CodecModel CacheModel CacheProofs BBoxModel BBoxProps
  RTreeModel RTreeInsert RTreeRebuild RTreeProps ChunkMetaModel ChunkMetaProps ChunkCacheModel ChunkCacheSpec ChunkCacheProofs ChunkCacheProofs2 ChunkCacheProofs3 ChunkCacheProps
  LibraryModel LibrarySpec LibraryProofs LibraryProofs2 LibraryProofs3 LibraryProofs4 LibraryProofs5 LibraryProofs6 LibrarySwap LibraryProofs7 LibraryProps LibraryFiles.
From Verif Require Import IndexSpec LibrarySpec.

Section props.
Context (vd dims : nat) (junk : N) (L : lib).
Notation session := (session vd dims junk L).
(** The names of the files that should be there. *)
Definition stored (C : list chunk) : list bytes := c_file <$> filter (fun c => c_null c = false) C.

Lemma stored_nodup C : (forall i j c c', C !! i = Some c -> C !! j = Some c' -> i <> j -> c_null c = false -> c_file c <> c_file c') -> NoDup (stored C).
Proof using.
  unfold stored. induction C as [|c C IH]; intros H; [constructor|]. assert (NoDup (c_file <$> filter (fun c => c_null c = false) C)) as Hr.
  { apply IH. intros i j c1 c2 Hi Hj Hij. apply (H (Datatypes.S i) (Datatypes.S j)); [done|done|congruence]. }
  rewrite filter_cons. case_decide as E; [|done]. rewrite list.fmap_cons. apply list.NoDup_cons. split; [|done].
  intros (c' & E' & [_ (j & Hj)%elem_of_list_lookup]%elem_of_list_filter)%elem_of_list_fmap. by apply (H 0%nat (Datatypes.S j) c c').
Qed.
Lemma closed_named d S : closed vd dims d S ->
  (forall c, c ∈ ls_chunks S -> c_null c = false <-> c_file c <> []) /\ NoDup (stored (ls_chunks S)).
Proof using.
  intros (M & sz & HM & _ & _ & Hnd & _ & _ & _ & Hdk).
  assert (forall i c, ls_chunks S !! i = Some c -> exists m, M !! i = Some m /\ meta_rep dims m c /\
            own_file (amap M (ls_chunks S)) m /\ on_disk vd dims sz m (c_val c) (d_files d)) as Hat.
  { intros i c Hi. destruct (Forall2_lookup_r _ _ _ _ _ HM Hi) as (m & Hm & Hr). exists m. destruct (Hdk (cm_id m) m (c_val c)) as (_ & K1 & _ & K2); [|done].
    rewrite (amap_lookup _ _ i m c); [done|by eapply Forall2_length|exact Hnd|exact Hm|exact Hi]. }
  assert (forall c, c ∈ ls_chunks S -> c_null c = false <-> c_file c <> []) as Hnull.
  { intros c (i & Hi)%elem_of_list_lookup. destruct (Hat i c Hi) as (m & _ & Hr & _ & Hd). rewrite <- (mr_path _ _ _ Hr). pose proof (mr_type _ _ _ Hr) as Ht.
    destruct Hd as [(E & Hp & _)|(E & Hp & _)]; rewrite E in Ht; destruct (c_null c); by split. }
  split; [done|]. apply stored_nodup. intros i j c c' Hi Hj Hij Hn E. destruct (Hat i c Hi) as (m & Hm & Hr & Ho & _), (Hat j c' Hj) as (m' & Hm' & Hr' & _).
  apply (proj1 (Hnull c (elem_of_list_lookup_2 _ _ _ Hi)) Hn). rewrite <- (mr_path _ _ _ Hr). apply (Ho (cm_id m') m' (c_val c')).
  - apply (amap_lookup _ _ j m' c'); [by eapply Forall2_length|exact Hnd|exact Hm'|exact Hj].
  - intros K. apply Hij. apply (NoDup_lookup (cm_id <$> M) i j (cm_id m)); [exact Hnd| |]; rewrite list_lookup_fmap; [by rewrite Hm|rewrite Hm'; cbn; by rewrite K].
  - by rewrite (mr_path _ _ _ Hr), (mr_path _ _ _ Hr').
Qed.
Lemma stored_of S : (forall c, c ∈ ls_chunks S -> c_null c = false <-> c_file c <> []) -> forall k, k ∈ stored (ls_chunks S) <-> of_chunks (ls_chunks S) k.
Proof using.
  intros Hn k. unfold stored, of_chunks. rewrite elem_of_list_fmap. split.
  - intros (c & -> & [H1 H2]%elem_of_list_filter). split; [by apply Hn|eauto].
  - intros (H1 & c & H2 & <-). exists c. split; [done|]. apply elem_of_list_filter. split; [by apply Hn|done].
Qed.

(** * C55: after closing, the directory contains the index, and one file per chunk that is not all-null, and no other files. *)
Theorem C55_closed_directory l S ord d : lib_ok L -> session l S -> (forall k, ord k ≡ₚ k) -> lib_close vd dims ord l = Done d ->
  is_Some (d_index d) /\ (forall k, is_Some (d_files d !! k) <-> k ∈ stored (ls_chunks S)) /\ NoDup (stored (ls_chunks S)) /\ size (d_files d) = length (stored (ls_chunks S)).
Proof using.
  intros HL Hl Hord Hc. pose proof (closed_files vd dims junk L HL l S ord d Hord Hl Hc) as Hf.
  destruct (close_ok vd dims l S ord Hord (session_inv vd dims junk L HL l S Hl)) as (d2 & Hc2 & Hcl). rewrite Hc2 in Hc. injection Hc as ->.
  destruct (closed_named _ _ Hcl) as [Hn Hnd]. assert (forall k, is_Some (d_files d !! k) <-> k ∈ stored (ls_chunks S)) as Hk by (intros k; rewrite (stored_of S Hn); apply Hf).
  split; [|split; [done|split; [done|]]].
  - destruct Hcl as (M & _ & _ & _ & _ & _ & _ & _ & -> & _). by eexists.
  - rewrite <- size_dom. replace (base.dom (d_files d)) with (list_to_set (C := gset bytes) (stored (ls_chunks S))); [by apply size_list_to_set|].
    apply set_eq. intros k. rewrite elem_of_list_to_set, elem_of_dom. symmetry. apply Hk.
Qed.
(** The same after FlushLibrary, while the array stays open. *)
Theorem C55_flushed_directory l S ord l1 : lib_ok L -> session l S -> (forall k, ord k ≡ₚ k) -> lib_flush vd dims ord l = Done l1 ->
  is_Some (l_index l1) /\ (forall k, is_Some (s_files (l_store l1) !! k) <-> k ∈ stored (ls_chunks S)).
Proof using.
  intros HL Hl Hord Hc. pose proof (ss_flush vd dims junk L _ _ _ _ Hl Hord Hc) as Hl1.
  destruct (flush_ok vd dims l S ord Hord (session_inv vd dims junk L HL l S Hl)) as (l2 & Hf & _ & Hcl). rewrite Hf in Hc. injection Hc as ->.
  destruct (closed_named _ _ Hcl) as [Hn Hnd]. split; [destruct Hcl as (M & _ & _ & _ & _ & _ & _ & _ & E & _); cbn [d_index] in E; rewrite E; by eexists|].
  intros k. rewrite (stored_of S Hn). split.
  - intros Hk. destruct (session_tidy vd dims junk L HL l1 S Hl1) as (lc & Ht & _). by apply Ht.
  - intros Hk. destruct Hcl as (M & sz & HM & _ & _ & Hnd' & _ & _ & _ & Hdk). destruct Hk as (Hk & c & Hin & <-). apply elem_of_list_lookup in Hin as (i & Hi).
    destruct (Forall2_lookup_r _ _ _ _ _ HM Hi) as (m & Hm & Hr). destruct (Hdk (cm_id m) m (c_val c)) as (_ & _ & _ & Hd).
    { rewrite (amap_lookup _ _ i m c); [done|by eapply Forall2_length|exact Hnd'|exact Hm|exact Hi]. }
    destruct Hd as [(_ & _ & f & Hg & _)|(_ & Hp & _)]; rewrite <- (mr_path _ _ _ Hr) in *; [by exists f|done].
Qed.
(** At any time, also with unwritten chunks: no file that does not belong to a chunk. *)
Theorem C55_no_stray_files l S k : lib_ok L -> session l S -> is_Some (s_files (l_store l) !! k) -> k ∈ stored (ls_chunks S).
Proof using.
  intros HL Hl Hk. destruct (session_tidy vd dims junk L HL l S Hl) as (lc & Ht & _). destruct (close_ok vd dims l S id (fun k => reflexivity k) (session_inv vd dims junk L HL l S Hl)) as (d2 & Hc2 & Hcl).
  destruct (closed_named _ _ Hcl) as [Hn _]. apply (stored_of S Hn). by apply Ht.
Qed.
(** Two arrays whose chunks have different names have no file in common, so that one can be imported into the other. *)
Theorem C55_import_needs_names l S l2 S2 ord d : lib_ok L -> session l S -> session l2 S2 -> (forall k, ord k ≡ₚ k) -> lib_close vd dims ord l2 = Done d ->
  (forall c c2, c ∈ ls_chunks S -> c2 ∈ ls_chunks S2 -> c_file c = c_file c2 -> c_file c = []) -> d_files d ##ₘ s_files (l_store l).
Proof using.
  intros HL Hl Hl2 Hord Hc Hn. apply map_disjoint_spec. intros k x y Hx Hy. destruct (session_tidy vd dims junk L HL l S Hl) as (lc & Ht & _).
  destruct (Ht k) as (Hk & c & Hc1 & E1); [by eexists|]. destruct (proj1 (closed_files vd dims junk L HL l2 S2 ord d Hord Hl2 Hc k)) as (_ & c2 & Hc2 & E2); [by eexists|].
  apply Hk. rewrite <- E1. apply (Hn c c2); congruence.
Qed.
End props.
Print Assumptions C55_closed_directory.
Print Assumptions C55_flushed_directory.
Print Assumptions C55_no_stray_files.
Print Assumptions C55_import_needs_names.

(** Example: three chunks of which the last is all-null; with the optimisation it has no file. *)
Example C55_hypotheses_nonvacuous : lib_ok lib0 /\ exists l, session 1 1 0%N lib0 l (nv_S nv_C).
Proof. exact C26_hypotheses_nonvacuous. Qed.
Example ex_directory :
  (l ← nv_prog 1 [(10, [1; 2; 3], 7); (20, [8; 9], 8)]%N; l1 ← darr_register 1 1 0%N lib0 (nv_arr [0; 0]%N) [30]%N true [9]%N l;
   d ← lib_close 1 1 id l1; Done (map_to_list (d_files d)).*1) = Done [[7]; [8]]%N /\
  (l ← nv_prog 1 [(10, [1; 2; 3], 7); (20, [8; 9], 8)]%N; l1 ← darr_register 1 1 0%N lib0 (nv_arr [0; 0]%N) [30]%N false [9]%N l;
   d ← lib_close 1 1 id l1; Done (map_to_list (d_files d)).*1) = Done [[7]; [8]; [9]]%N.
Proof. split; vm_compute; reflexivity. Qed.
