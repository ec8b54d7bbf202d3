(** C51 for the chunked array: element access, range reads, loops over elements and the bounding box give the same results whatever was looked up
    before, on arrays with any history ([session], LibrarySpec.v). *)
From stdpp Require Import base list list_numbers numbers option gmap countable sets.
From Coq Require Import NArith Lia.
From Verif Require Import IndexSpec NDArrayModel NDArrayProofs NDArrayProps StreamerModel StreamerProps BBoxModel BBoxProps DownsampleModel
  RTreeModel RTreeInsert RTreeRebuild RTreeProps ChunkMetaModel ChunkMetaProps ChunkCacheModel ChunkCacheSpec ChunkCacheProofs ChunkCacheProps
  LibraryModel LibrarySpec LibraryProofs LibraryProofs2 LibraryProofs3 LibraryProofs4 LibraryProofs5 LibraryProofs6 LibraryProofs7 LibraryProps.
From Verif Require Import IndexSpec.

(** ** Specification *)
Section spec.
Context (vd dims : nat) (junk : N).
(** Looking things up in array [l] (whose state is [S]), any number of times, leaves [l']: elements of chunks, ranges, loops over ranges, the
    chunk at an index (if any), the box of the array. *)
Inductive looked_up (S : lstate) (l : clib) : clib -> Prop :=
  | lu_none : looked_up S l l
  | lu_element l1 c ind v l2 : looked_up S l l1 -> c ∈ ls_chunks S -> covers c ind -> (c_null c = true -> c_ov c = 0%N) ->
      lib_get vd dims junk ind l1 = Done (v, l2) -> looked_up S l l2
  | lu_range l1 buf is ie os b l2 : looked_up S l l1 -> ok_fill vd dims buf is ie os ->
      lib_fill vd dims junk buf is ie os l1 = Done (b, l2) -> looked_up S l l2
  | lu_loop l1 is ie vs l2 : looked_up S l l1 -> length is = dims -> nonempty is ie ->
      (forall c, c ∈ ls_chunks S -> c_null c = true -> c_ov c = 0%N) -> lib_loop vd dims junk is ie l1 = Done (vs, l2) -> looked_up S l l2
  | lu_chunk l1 ind r l2 : looked_up S l l1 -> ls_chunks S <> [] -> length ind = dims -> Forall (fun x => x < 2 ^ 64)%N ind ->
      lib_find ind l1 = Done (r, l2) -> looked_up S l l2
  | lu_box l1 g l2 : looked_up S l l1 -> lib_geometry dims l1 = Done (g, l2) -> looked_up S l l2.
End spec.
(** The same vectors of 32-bit floats, except that a vector of zeros may come with other signs (bit patterns 0 and 2^31). *)
Definition zeros (v : list N) : Prop := Forall (fun b => b = 0 \/ b = 2 ^ 31)%N v.
Definition same_vector (v w : list N) : Prop := v = w \/ (length v = length w /\ zeros v /\ zeros w).

Lemma zeros_replicate n : zeros (replicate n 0%N).
Proof. apply Forall_replicate. by left. Qed.
Lemma comes_back_same x v w : comes_back NullSuppressed x v -> comes_back NullSuppressed x w -> same_vector v w.
Proof.
  intros [->|(_ & Hx & ->)] [->|(_ & Hx' & ->)]; [by left|right|right|by left].
  - rewrite replicate_length. split; [done|]. split; [done|apply zeros_replicate].
  - rewrite replicate_length. split; [done|]. split; [apply zeros_replicate|done].
Qed.
Lemma same_vector_eq v w x : same_vector v w -> x ∈ v -> x <> 0%N -> x <> (2 ^ 31)%N -> v = w.
Proof. intros [?|(_ & Hz & _)] Hx H0 H1; [done|]. apply (proj1 (list.Forall_forall _ _) Hz) in Hx as [?|?]; contradiction. Qed.

Section props.
Context (vd dims : nat) (junk : N) (L : lib).
Local Notation session := (session vd dims junk L).
Local Notation looked_up := (looked_up vd dims junk).

Lemma looked_up_session S l l' : session l S -> looked_up S l l' -> session l' S.
Proof using.
  intros Hl. induction 1 as [|l1 c ind v l2 _ IH Hc Hcov Hn Hg|l1 buf is ie os b l2 _ IH Hok Hf|l1 is ie vs l2 _ IH Hlen Hne Hn Hlo|l1 ind r l2 _ IH H1 H2 H3 Hf|l1 g l2 _ IH Hg].
  - done.
  - eapply ss_get; [exact IH|exact Hg|]. eauto.
  - by eapply ss_fill.
  - by eapply ss_loop.
  - by eapply ss_find.
  - by eapply ss_geometry.
Qed.

(** * C51: elements *)
Theorem C51_array_element S l l' c ind : lib_ok L -> session l S -> looked_up S l l' -> c ∈ ls_chunks S -> covers c ind -> (c_null c = true -> c_ov c = 0%N) ->
  exists v l1 v' l1', lib_get vd dims junk ind l = Done (v, l1) /\ lib_get vd dims junk ind l' = Done (v', l1') /\ same_vector v v'.
Proof using.
  intros HL Hl Hlu Hc Hcov Hn. pose proof (looked_up_session S l l' Hl Hlu) as Hl'.
  destruct (C27_element_access vd dims junk L l S c ind HL Hl Hc Hcov Hn) as (v & l1 & E1 & _ & V1).
  destruct (C27_element_access vd dims junk L l' S c ind HL Hl' Hc Hcov Hn) as (v' & l1' & E2 & _ & V2).
  exists v, l1, v', l1'. split; [done|]. split; [done|]. by eapply comes_back_same.
Qed.

Lemma place_back buf is ie os ind : ok_fill vd dims buf is ie os -> inbox is ie ind ->
  zip_with (fun (n : nat) x => N.of_nat n - x.2 + x.1)%N (place is os ind) (zip is os) = ind.
Proof using.
  intros Hok Hi. destruct (of_at vd dims _ _ _ _ Hok) as (H1 & H2 & H3 & H4 & H5). apply inbox_at in Hi as (I1 & I2 & I3).
  assert (length (place is os ind) = dims) as Lp by (apply out_len; lia). apply eq_at. rewrite !zip_with_length. split; [lia|]. intros i Hi.
  rewrite zip_at by (rewrite ?zip_with_length; lia). rewrite zip_at by lia. rewrite out_at by lia. cbn [fst snd]. specialize (I3 i ltac:(lia)). lia.
Qed.
Lemma place_or buf is ie os (C : list chunk) y : ok_fill vd dims buf is ie os ->
  (exists c ind, c ∈ C /\ inbox is ie ind /\ covers c ind /\ y = place is os ind) \/
  (forall c ind, c ∈ C -> inbox is ie ind -> covers c ind -> y <> place is os ind).
Proof using.
  intros Hok. set (ind0 := zip_with (fun (n : nat) x => N.of_nat n - x.2 + x.1)%N y (zip is os)).
  destruct (decide (y = place is os ind0)) as [Ey|Ey].
  2: { right. intros c ind _ Hi _ ->. apply Ey. unfold ind0. by rewrite (place_back buf is ie os ind Hok Hi). }
  destruct (inbox_or is ie ind0) as [Hb|Hb].
  2: { right. intros c ind _ Hi _ E. apply Hb. unfold ind0. rewrite E, (place_back buf is ie os ind Hok Hi). done. }
  assert ((exists c, c ∈ C /\ covers c ind0) \/ forall c, c ∈ C -> ~ covers c ind0) as [(c & Hc & Hcov)|Hno].
  { clear. clearbody ind0. induction C as [|c C IH]; [right; intros c Hc; by apply elem_of_nil in Hc|]. destruct (inbox_or (c_start c) (c_end c) ind0) as [Hc|Hc].
    - left. exists c. split; [left|done].
    - destruct IH as [(c' & H1 & H2)|IH]; [left; exists c'; split; [by right|done]|right]. intros c' [->|H']%elem_of_cons; [done|by apply IH]. }
  - left. exists c, ind0. done.
  - right. intros c ind Hc Hi Hcov E. apply (Hno c Hc). unfold ind0. by rewrite E, (place_back buf is ie os ind Hok Hi).
Qed.

(** * C51: ranges.  Both buffers have the same vectors at all positions, in the range and outside. *)
Theorem C51_array_range S l l' buf is ie os : lib_ok L -> session l S -> looked_up S l l' -> ok_fill vd dims buf is ie os ->
  exists b l1 b' l1', lib_fill vd dims junk buf is ie os l = Done (b, l1) /\ lib_fill vd dims junk buf is ie os l' = Done (b', l1') /\
    a_shape b = a_shape buf /\ a_shape b' = a_shape buf /\
    forall y, in_shape (a_shape buf) y -> exists v v', aread vd b y = Some v /\ aread vd b' y = Some v' /\ same_vector v v'.
Proof using.
  intros HL Hl Hlu Hok. pose proof (looked_up_session S l l' Hl Hlu) as Hl'.
  destruct (C27_range_read vd dims junk L l S buf is ie os HL Hl Hok) as (b & l1 & E1 & _ & S1 & V1 & U1).
  destruct (C27_range_read vd dims junk L l' S buf is ie os HL Hl' Hok) as (b' & l1' & E2 & _ & S2 & V2 & U2).
  exists b, l1, b', l1'. split_and!; [done..|]. intros y Hy.
  destruct (place_or buf is ie os (ls_chunks S) y Hok) as [(c & ind & Hc & Hin & Hcov & ->)|Hno].
  - destruct (V1 c ind Hc Hin Hcov) as (v & A1 & B1). destruct (V2 c ind Hc Hin Hcov) as (v' & A2 & B2). exists v, v'. split_and!; [done..|]. by eapply comes_back_same.
  - rewrite (U1 y Hy Hno), (U2 y Hy Hno). destruct Hok as [Ha _ _ _ _].
    destruct (aread_Some vd buf y (wf_owned_wf _ _ (api_array_wf _ _ Ha)) Hy) as (v & Hv & _). exists v, v. split_and!; [done..|by left].
Qed.

(** * C51: loops over the elements of a range call the worker for the same indices, with the same vectors. *)
Theorem C51_array_loop S l l' is ie : lib_ok L -> session l S -> looked_up S l l' -> length is = dims -> nonempty is ie ->
  (forall c, c ∈ ls_chunks S -> c_null c = true -> c_ov c = 0%N) ->
  exists vs l1 vs' l1', lib_loop vd dims junk is ie l = Done (vs, l1) /\ lib_loop vd dims junk is ie l' = Done (vs', l1') /\ vs.*1 ≡ₚ vs'.*1 /\
    forall ind v v', (ind, v) ∈ vs -> (ind, v') ∈ vs' -> same_vector v v'.
Proof using.
  intros HL Hl Hlu Hlen Hne Hn. pose proof (looked_up_session S l l' Hl Hlu) as Hl'.
  destruct (C52_loop vd dims junk L l S is ie HL Hl Hlen Hne Hn) as (vs & l1 & E1 & _ & N1 & I1 & V1).
  destruct (C52_loop vd dims junk L l' S is ie HL Hl' Hlen Hne Hn) as (vs' & l1' & E2 & _ & N2 & I2 & V2).
  exists vs, l1, vs', l1'. split_and!; [done..| |].
  - apply NoDup_Permutation; [done..|]. intros ind. by rewrite I1, I2.
  - intros ind v v' Hv Hv'. assert (ind ∈ vs.*1) as Hi by (apply elem_of_list_fmap; by exists (ind, v)). apply I1 in Hi as (_ & c & Hc & Hcov).
    exact (comes_back_same _ _ _ (V1 c ind v Hv Hc Hcov) (V2 c ind v' Hv' Hc Hcov)).
Qed.

(** * C51: the box and the shape of the array, for arrays with less than 2^64 indices in their box. *)
Lemma hull_unique C s e s' e' : C <> [] -> (forall c, c ∈ C -> length (c_start c) = dims /\ length (c_end c) = dims /\ nonempty (c_start c) (c_end c)) ->
  is_hull dims C s e -> is_hull dims C s' e' -> s = s' /\ e = e'.
Proof using.
  intros Hne HC (A1 & A2 & A3 & A4 & A5) (B1 & B2 & B3 & B4 & B5).
  assert (forall c, c ∈ C -> covers c (c_start c)) as Hs.
  { intros c Hc. destruct (HC c Hc) as (D1 & D2 & D3). apply nonempty_at in D3 as [_ D3]. apply inbox_at. split_and!; [lia|lia|]. intros i Hi. specialize (D3 i ltac:(lia)). lia. }
  assert (forall c, c ∈ C -> covers c (N.pred <$> c_end c)) as He.
  { intros c Hc. destruct (HC c Hc) as (D1 & D2 & D3). apply nonempty_at in D3 as [_ D3]. apply inbox_at. rewrite fmap_length. split_and!; [lia|lia|]. intros i Hi.
    rewrite fmap_at by lia. specialize (D3 i ltac:(lia)). lia. }
  split; apply eq_at; (split; [lia|]); intros i Hi.
  - destruct (lookup_lt_is_Some_2 s i ltac:(lia)) as [x Hx]. destruct (lookup_lt_is_Some_2 s' i ltac:(lia)) as [x' Hx'].
    destruct (A4 i x Hx) as (c & Hc & Hcx). destruct (B4 i x' Hx') as (c' & Hc' & Hcx').
    pose proof (A3 c' _ Hc' (Hs c' Hc')) as I1. pose proof (B3 c _ Hc (Hs c Hc)) as I2. apply inbox_at in I1 as (_ & _ & I1). apply inbox_at in I2 as (_ & _ & I2).
    destruct (HC c Hc) as (D1 & _). destruct (HC c' Hc') as (D1' & _). specialize (I1 i ltac:(lia)). specialize (I2 i ltac:(lia)).
    rewrite (list_lookup_total_correct _ _ _ Hx), (list_lookup_total_correct _ _ _ Hcx') in I1. rewrite (list_lookup_total_correct _ _ _ Hx'), (list_lookup_total_correct _ _ _ Hcx) in I2.
    rewrite (list_lookup_total_correct _ _ _ Hx), (list_lookup_total_correct _ _ _ Hx'). lia.
  - destruct (lookup_lt_is_Some_2 e i ltac:(lia)) as [x Hx]. destruct (lookup_lt_is_Some_2 e' i ltac:(lia)) as [x' Hx'].
    destruct (A5 i x Hx) as (c & Hc & Hcx). destruct (B5 i x' Hx') as (c' & Hc' & Hcx').
    destruct (HC c Hc) as (D1 & D2 & D3). destruct (HC c' Hc') as (D1' & D2' & D3'). apply nonempty_at in D3 as [_ D3]. apply nonempty_at in D3' as [_ D3'].
    specialize (D3 i ltac:(lia)). specialize (D3' i ltac:(lia)).
    pose proof (A3 c' _ Hc' (He c' Hc')) as I1. pose proof (B3 c _ Hc (He c Hc)) as I2. apply inbox_at in I1 as (_ & _ & I1). apply inbox_at in I2 as (_ & _ & I2).
    specialize (I1 i ltac:(lia)). specialize (I2 i ltac:(lia)). rewrite fmap_at in I1 by lia. rewrite fmap_at in I2 by lia.
    rewrite (list_lookup_total_correct _ _ _ Hcx') in *. rewrite (list_lookup_total_correct _ _ _ Hcx) in *. rewrite (list_lookup_total_correct _ _ _ Hx) in *. rewrite (list_lookup_total_correct _ _ _ Hx') in *. lia.
Qed.
Theorem C51_array_box S l l' : lib_ok L -> session l S -> looked_up S l l' -> 
  exists g l1 g' l1', lib_geometry dims l = Done (g, l1) /\ lib_geometry dims l' = Done (g', l1') /\
    g_start g = g_start g' /\ g_end g = g_end g' /\ ((count (g_start g) (g_end g) < 2 ^ 64)%N -> g = g').
Proof using.
  intros HL Hl Hlu. pose proof (looked_up_session S l l' Hl Hlu) as Hl'.
  destruct (C30_shape_partial vd dims junk L l S HL Hl) as (g & l1 & E1 & _ & Z1 & N1).
  destruct (C30_shape_partial vd dims junk L l' S HL Hl') as (g' & l1' & E2 & _ & Z2 & N2).
  exists g, l1, g', l1'. split; [done|]. split; [done|].
  assert (ls_chunks S = [] \/ ls_chunks S <> []) as [Hn|Hn] by (destruct (ls_chunks S); [by left|by right]).
  - destruct (Z1 Hn) as (A1 & A2 & A3). destruct (Z2 Hn) as (B1 & B2 & B3). split; [congruence|]. split; [congruence|]. intros _. destruct g, g'. simpl in *. congruence.
  - destruct (N1 Hn) as (H1 & C1). destruct (N2 Hn) as (H2 & C2). clear Z1 Z2 N1 N2.
    assert (g_start g = g_start g' /\ g_end g = g_end g') as [Es Ee].
    { eapply hull_unique; [exact Hn| |exact H1|exact H2]. intros c Hc. destruct (session_inv vd dims junk L HL l S Hl) as (M & sz & H & Hr).
      apply elem_of_list_lookup in Hc as (i & Hi). destruct (lrep_get _ _ _ _ _ _ _ _ _ Hr Hi) as (m & _ & Hm & _). destruct (mr_at dims m c Hm) as (R1 & R2 & _ & R4).
      split; [done|]. split; [done|]. apply nonempty_at. split; [lia|]. intros j Hj. specialize (R4 j ltac:(lia)). split; lia. }
    split; [done|]. split; [done|]. intros Hcnt. destruct (C1 Hcnt) as [F1 K1]. rewrite <- Es, <- Ee in C2. destruct (C2 Hcnt) as [F2 K2].
    assert (g_shape g = g_shape g') as Esh.
    { destruct (decide (g_shape g = g_shape g')) as [E|E]; [done|]. exfalso.
      assert (~ gap_free (ls_chunks S) (g_start g) (g_end g)) as Hg. { intros Hg. apply E. rewrite (F1 Hg), (F2 Hg). done. }
      apply E. rewrite (K1 Hg), (K2 Hg). done. }
    destruct g, g'. simpl in *. congruence.
Qed.
End props.
Print Assumptions C51_array_element.
Print Assumptions C51_array_range.
Print Assumptions C51_array_loop.
Print Assumptions C51_array_box.

(** The hypotheses are met: looking up index 21, then a range, in the array with the chunks [1;2;3] at 10 and [8;9] at 20. *)
Example C51_array_nonvacuous : lib_ok lib0 /\ exists l l', session 1 1 0%N lib0 l (nv_S nv_C) /\ looked_up 1 1 0%N (nv_S nv_C) l l' /\ l' <> l /\
  exists c, c ∈ ls_chunks (nv_S nv_C) /\ covers c [12]%N.
Proof.
  split; [apply lib0_ok|]. destruct nv_session as (l & El & Hl). vm_compute in El. injection El as <-.
  eexists _, _. split; [exact Hl|]. split.
  { eapply (lu_element 1 1 0%N (nv_S nv_C) _ _ (nv_chunk 10 [1; 2; 3]%N 7) [12]%N); [apply lu_none|left| |discriminate|vm_compute; reflexivity].
    apply nv_inbox. exists 12%N. split; [done|]. simpl. lia. }
  split; [discriminate|]. exists (nv_chunk 10 [1; 2; 3]%N 7). split; [left|]. apply nv_inbox. exists 12%N. split; [done|]. simpl. lia.
Qed.
(** The signs of zeros are not repeatable: -0 is stored at 10 (bit pattern 2^31); the cache has room for one chunk.  Read from the cache it is -0, and
    after a lookup in another chunk, read from its file, it is 0. *)
Theorem C51_signed_zero_refuted :
  (l ← nv_prog 1 [(20, [8; 9], 8); (10, [2 ^ 31; 2], 7)]%N; '(v, l1) ← lib_get 1 1 0%N [10]%N l; '(_, l2) ← lib_get 1 1 0%N [20]%N l1; '(w, _) ← lib_get 1 1 0%N [10]%N l2; Done (v, w))
  = Done ([2 ^ 31], [0])%N.
Proof. vm_compute. reflexivity. Qed.
Print Assumptions C51_signed_zero_refuted.
