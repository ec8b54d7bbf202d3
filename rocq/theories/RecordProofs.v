(** Proofs about recording: one cell (chunk of a region) in one step. *)
From stdpp Require Import base list list_numbers numbers option gmap countable sets.
From Coq Require Import NArith ZArith Lia.
From Verif Require Import IndexSpec LoopsModel LoopsProofs NDArrayModel NDArrayProofs NDArrayProps StreamerModel StreamerProps NullSupModel CodecModel
  BBoxModel BBoxProps DownsampleModel DownsampleProps
  RTreeModel RTreeInsert RTreeRebuild RTreeProps ChunkMetaModel ChunkMetaProps ChunkCacheModel ChunkCacheSpec ChunkCacheProofs ChunkCacheProofs2 ChunkCacheProofs3 ChunkCacheProps
  LibraryModel LibrarySpec LibraryProofs LibraryProofs2 LibraryProofs3 LibraryProofs4 LibraryProofs5 LibraryProofs6 LibraryProofs7 LibraryProps LibraryFiles LibraryFilesProps
  BoundaryModel BoundaryProps RebuildModel RebuildSpec RebuildProofs RebuildProofs2 RebuildProofs3 RebuildProofs4 PartitionModel PartitionProps.
From Verif Require Import RecordModel RecordSpec IndexSpec LibrarySpec.

(** Cells are numbered by [I]; [lo i], [hi i] are the corners of the box of cell [i] without the time, [val t i k] the sample at [k] in step [t],
    [name t i] the file of the chunk of the cell that starts at step [t]. *)
Section cells.
Context (vd dims : nat) (junk : N) (L : lib) (HL : lib_ok L) (ct T : nat) (cs : list nat).
Context {I : Type} `{!EqDecision I} (valid : I -> Prop) (lo hi : I -> list N) (val : nat -> I -> list N -> list N) (name : nat -> I -> bytes).
Notation session := (session vd dims junk L).

Record cells_ok : Prop := {
  ce_ct : (0 < ct)%nat;
  ce_cs : exists r, cs = 1%nat :: r /\ Forall (fun c => c = N.to_nat INFTY) r;
  ce_T : (N.of_nat T + 1 < 2 ^ 64)%N;
  ce_lo : forall i, valid i -> length (lo i) = (dims - 1)%nat /\ (0 < dims)%nat;
  ce_box : forall i, valid i -> nonempty (lo i) (hi i);
  ce_apart : forall i j k, valid i -> valid j -> inbox (lo i) (hi i) k -> inbox (lo j) (hi j) k -> i = j;
  ce_count : forall i n, valid i -> (n <= Nat.min ct T)%nat -> countable vd NullSuppressed cs (n :: vto_nat (zip_with N.sub (hi i) (lo i)));
  ce_names : forall t i, (t < T)%nat -> valid i -> name t i <> [] /\ (N.of_nat (length (name t i)) < 2 ^ 64)%N /\ Forall (fun b => b < 256)%N (name t i) /\
    forall t' j, (t' < T)%nat -> valid j -> name t i = name t' j -> t = t' /\ i = j }.

(** The chunk of cell [i] with the steps from [t0] to [t1]. *)
Record rep (t0 t1 : nat) (i : I) (c : chunk) : Prop := {
  rp_start : c_start c = N.of_nat t0 :: lo i;
  rp_end : c_end c = N.of_nat t1 :: hi i;
  rp_ov : c_ov c = 0%N;
  rp_null : c_null c = false;
  rp_file : c_file c = name t0 i;
  rp_ser : c_ser c = cs;
  rp_shape : k_shape (c_val c) = (t1 - t0)%nat :: vto_nat (zip_with N.sub (hi i) (lo i));
  rp_val : forall t k, (t0 <= t < t1)%nat -> inbox (lo i) (hi i) k -> value c (N.of_nat t :: k) = val t i k }.

(** The chunks that exist in step [t] if the cells with [dn i] are done. *)
Definition desc (dn : I -> bool) (t t0 t1 : nat) (i : I) : Prop :=
  valid i /\ exists e, t0 = (e * ct)%nat /\ t1 = Nat.min ((e + 1) * ct) (if dn i then t + 1 else t) /\ (t0 < t1)%nat.
Record inv (dn : I -> bool) (t : nat) (S : lstate) : Prop := {
  iv_sound : forall c, c ∈ ls_chunks S -> exists t0 t1 i, desc dn t t0 t1 i /\ rep t0 t1 i c;
  iv_complete : forall t0 t1 i, desc dn t t0 t1 i -> exists c, c ∈ ls_chunks S /\ rep t0 t1 i c;
  iv_fresh : ls_reopened S = false;
  iv_cs : ls_cs S = cs }.

Lemma inv_ext dn dn' t S : (forall i, valid i -> dn i = dn' i) -> inv dn t S -> inv dn' t S.
Proof using.
  intros E [H1 H2 H3 H4]. assert (forall t0 t1 i, desc dn t t0 t1 i <-> desc dn' t t0 t1 i) as Hd.
  { intros t0 t1 i. unfold desc. split; intros [Hv He]; (split; [done|]); [rewrite <- (E i Hv)|rewrite (E i Hv)]; exact He. }
  split; [| |done|done].
  - intros c Hc. destruct (H1 c Hc) as (t0 & t1 & i & Hi & Hr). exists t0, t1, i. split; [by apply Hd|done].
  - intros t0 t1 i Hi. apply H2. by apply Hd.
Qed.
Lemma inv_next dn t S : (forall i, valid i -> dn i = true) -> inv dn t S -> inv (fun _ => false) (t + 1) S.
Proof using.
  intros E H. assert (inv (fun _ => true) t S) as [H1 H2 H3 H4] by (eapply inv_ext; [|exact H]; auto). split; [| |done|done].
  - intros c Hc. destruct (H1 c Hc) as (t0 & t1 & i & Hi & Hr). exists t0, t1, i. split; [exact Hi|done].
  - intros t0 t1 i Hi. apply H2. exact Hi.
Qed.

Lemma covers_cell t0 t1 i c t k : rep t0 t1 i c -> covers c (t :: k) <-> (N.of_nat t0 <= t < N.of_nat t1)%N /\ inbox (lo i) (hi i) k.
Proof using.
  intros [R1 R2 _ _ _ _ _ _]. unfold covers. rewrite R1, R2, !inbox_at. cbn [length]. split.
  - intros (A & B & C). split; [apply (C 0%nat); lia|]. split; [lia|]. split; [lia|]. intros j Hj. apply (C (Datatypes.S j)). lia.
  - intros (A & B & C & D). split; [lia|]. split; [lia|]. intros [|j] Hj; [exact A|]. apply D. lia.
Qed.
(** Two chunks of the same cell in different epochs, or of different cells, have no common index. *)
Lemma apart_cells (Hok : cells_ok) t0 t1 i t0' t1' j (s e s' e' : list N) : valid i -> valid j -> (i = j -> t1 <= t0' \/ t1' <= t0)%nat ->
  s = N.of_nat t0 :: lo i -> e = N.of_nat t1 :: hi i -> s' = N.of_nat t0' :: lo j -> e' = N.of_nat t1' :: hi j -> apart s e s' e'.
Proof using.
  intros Hi Hj Hor -> -> -> -> ind I1 I2.
  assert (forall t0 t1 i ind, inbox (N.of_nat t0 :: lo i) (N.of_nat t1 :: hi i) ind -> exists t k, ind = t :: k /\ (N.of_nat t0 <= t < N.of_nat t1)%N /\ inbox (lo i) (hi i) k) as Hin.
  { clear. intros t0 t1 i ind. rewrite inbox_at. cbn [length]. intros (A & B & C). destruct ind as [|t k]; [discriminate A|]. cbn [length] in A. exists t, k. split; [done|]. split; [apply (C 0%nat); lia|].
    apply inbox_at. split; [lia|]. split; [lia|]. intros x Hx. apply (C (Datatypes.S x)). lia. }
  destruct (Hin _ _ _ _ I1) as (t & k & -> & H1 & H2). destruct (Hin _ _ _ _ I2) as (t' & k' & E & H3 & H4). injection E as <- <-.
  destruct (Hor (ce_apart Hok _ _ _ Hi Hj H2 H4)); lia.
Qed.
Lemma position_cell t0 t1 i c t k : rep t0 t1 i c -> position c (N.of_nat t :: k) = (t - t0)%nat :: vto_nat (zip_with N.sub k (lo i)).
Proof using.
  intros [R1 R2 R3 _ _ _ _ _]. unfold position. rewrite R1, R3. cbn [zip_with]. f_equal; [lia|]. unfold vto_nat. generalize (lo i) as s. induction k as [|x k IH]; intros [|y s]; try done.
  cbn [zip_with]. rewrite list.fmap_cons. f_equal; [lia|]. apply IH.
Qed.
Lemma epoch_of t : cells_ok -> (t / ct * ct <= t < (t / ct + 1) * ct)%nat.
Proof using. intros [Hct _ _ _ _ _ _]. pose proof (Nat.div_mod t ct ltac:(lia)) as E. pose proof (Nat.mod_upper_bound t ct ltac:(lia)). nia. Qed.
Lemma countable_app n sh : cells_ok -> countable vd NullSuppressed cs (n :: sh) -> aligned 0 cs (n :: sh).
Proof using.
  intros [_ (r & -> & Hr) _ _ _ _ _] [Hsm _] j s c Hs Hc. split; [lia|]. split.
  - intros ->. injection Hc as <-. apply Nat.divide_1_l.
  - intros Hj. left. destruct j as [|j]; [lia|]. cbn in Hc, Hs. apply (Forall_lookup_1 _ _ _ _ Hr) in Hc as ->. apply list.Forall_cons in Hsm as [_ Hsm]. apply (Forall_lookup_1 _ _ _ _ Hsm) in Hs. cbn beta in Hs.
    unfold INFTY. lia.
Qed.

(** One cell in one step. *)
Lemma cell_step (Hok : cells_ok) t i b l S dn : (t < T)%nat -> valid i -> dn i = false -> inv dn t S -> session l S ->
  float_array vd b -> a_shape b = 1%nat :: vto_nat (zip_with N.sub (hi i) (lo i)) ->
  (forall k, inbox (lo i) (hi i) k -> aread vd b (0%nat :: vto_nat (zip_with N.sub k (lo i))) = Some (val t i k)) ->
  ((t mod ct)%nat = 0%nat -> (ls_handed S < 2 ^ 32)%N) ->
  exists l' S', (if (t mod ct =? 0)%nat then darr_register vd dims junk L b (N.of_nat t :: lo i) false (name t i) l else lib_append vd dims junk 0 (N.of_nat t :: lo i) b l) = Done l' /\
    session l' S' /\ inv (fun x => if decide (x = i) then true else dn x) t S' /\ ls_handed S' = (ls_handed S + if (t mod ct =? 0)%nat then 1 else 0)%N.
Proof using HL.
  intros Ht Hi Hdn Hinv Hl Hfl Hsh Hb Hids. pose proof (epoch_of t Hok) as HE. set (E := (t / ct)%nat) in *.
  destruct (ce_lo Hok i Hi) as [Llo Hd]. pose proof (proj1 (nonempty_at _ _) (ce_box Hok i Hi)) as [Lhi Hbox].
  pose proof (Nat.div_mod t ct ltac:(pose proof (ce_ct Hok); lia)) as Edm. fold E in Edm.
  assert (forall x t0 t1, desc (fun x => if decide (x = i) then true else dn x) t t0 t1 x -> x <> i \/ t0 <> (E * ct)%nat -> desc dn t t0 t1 x) as Hback.
  { intros x t0 t1 [Hv (e & -> & -> & Hlt)] Hne. split; [done|]. exists e. split; [done|]. destruct (decide (x = i)) as [->|Hx]; [|done]. rewrite Hdn. destruct Hne as [?|Hne]; [done|].
    assert (e < E \/ E < e)%nat as [He|He] by (destruct (Nat.lt_trichotomy e E) as [?|[->|?]]; [by left|done|by right]).
    - assert ((e + 1) * ct <= E * ct)%nat by nia. split; lia.
    - assert ((E + 1) * ct <= e * ct)%nat by nia. lia. }
  assert (forall x t0 t1, desc dn t t0 t1 x -> x <> i \/ t0 <> (E * ct)%nat -> desc (fun x => if decide (x = i) then true else dn x) t t0 t1 x) as Hforth.
  { intros x t0 t1 [Hv (e & -> & -> & Hlt)] Hne. split; [done|]. exists e. split; [done|]. destruct (decide (x = i)) as [->|Hx]; [|done]. rewrite Hdn in *. destruct Hne as [?|Hne]; [done|].
    assert (e < E \/ E < e)%nat as [He|He] by (destruct (Nat.lt_trichotomy e E) as [?|[->|?]]; [by left|done|by right]).
    - assert ((e + 1) * ct <= E * ct)%nat by nia. split; lia.
    - assert ((E + 1) * ct <= e * ct)%nat by nia. lia. }
  assert (desc (fun x => if decide (x = i) then true else dn x) t (E * ct) (t + 1) i) as Hnew.
  { split; [done|]. exists E. split; [done|]. rewrite decide_True by done. lia. }
  pose proof (ce_T Hok) as HT. destruct (Nat.eqb_spec (t mod ct) 0) as [Hm|Hm].
  - (* register *)
    assert (t = E * ct)%nat as Et by lia.
    assert (vwadd (N.of_nat t :: lo i) (vof_nat (a_shape b)) = N.of_nat (t + 1) :: hi i) as Eend.
    { rewrite Hsh. unfold vwadd, vof_nat. rewrite list.fmap_cons. cbn [zip_with]. f_equal; [rewrite wadd_small; lia|]. change (zip_with wadd (lo i) (vof_nat (vto_nat (zip_with N.sub (hi i) (lo i)))) = hi i). rewrite vof_to.
      apply eq_at. rewrite !zip_with_length. split; [lia|]. intros j Hj. rewrite !zip_at by (rewrite ?zip_with_length; lia). specialize (Hbox j ltac:(lia)). rewrite wadd_small; lia. }
    assert (ok_register vd dims S b (N.of_nat t :: lo i) (N.of_nat (t + 1) :: hi i) 0 (name t i)) as Hreg.
    { split.
      - cbn [length]. lia.
      - apply nonempty_at. cbn [length]. split; [lia|]. intros [|j] Hj; [cbn; lia|]. apply (Hbox j). lia.
      - rewrite Hsh. cbn [zip_with]. constructor; [cbn [fst snd]; lia|]. apply F2_at. unfold vto_nat. rewrite fmap_length, !zip_with_length. split; [lia|]. intros j Hj. rewrite fmap_at by (rewrite zip_with_length; lia).
        rewrite !zip_at by lia. cbn [fst snd]. specialize (Hbox j ltac:(lia)). lia.
      - constructor; [lia|]. apply F1_at. intros j Hj. specialize (Hbox j ltac:(lia)). lia.
      - exact Hfl.
      - rewrite Hsh, (iv_cs _ _ _ Hinv). apply (ce_count Hok); [done|]. pose proof (ce_ct Hok). lia.
      - apply list.Forall_forall. intros c Hc. destruct (iv_sound _ _ _ Hinv c Hc) as (t0 & t1 & j & [Hv (e & -> & -> & Hlt)] & [R1 R2 _ _ _ _ _ _]).
        eapply (apart_cells Hok t (t + 1) i _ _ j); [done|done| |done|done|exact R1|exact R2]. intros <-. rewrite Hdn in *. lia.
      - destruct (ce_names Hok t i Ht Hi) as (N1 & N2 & N3 & N4). split; [done|]. split; [done|]. split; [done|]. apply list.Forall_forall. intros c Hc.
        destruct (iv_sound _ _ _ Hinv c Hc) as (t0 & t1 & j & [Hv (e & -> & -> & Hlt)] & [_ _ _ _ R5 _ _ _]). rewrite R5. intros En. symmetry in En.
        destruct (N4 (e * ct)%nat j) as [E1 <-]; [destruct (dn j); lia|done|exact En|]. rewrite Hdn in Hlt. lia.
      - split; [exact (iv_fresh _ _ _ Hinv)|auto]. }
    assert (is_null_chunk vd b false false) as Hnull by (split; [done|intros [? _]; done]).
    destruct (register_lib_ok vd dims junk L HL l S _ _ _ _ false false _ (session_inv vd dims junk L HL _ _ Hl) Hreg Hnull) as (l' & Hr & _).
    exists l', (registered vd S b (N.of_nat t :: lo i) (N.of_nat (t + 1) :: hi i) 0 false (name t i)). split; [unfold darr_register; rewrite Eend; exact Hr|].
    split; [exact (ss_register vd dims junk L _ _ _ _ _ _ _ _ _ _ Hl Hreg Hnull Hr)|]. split; [|cbn [registered ls_handed]; done].
    set (c := Chunk (N.of_nat t :: lo i) (N.of_nat (t + 1) :: hi i) 0%N false (name t i) (ls_cs S) (content_of vd b)).
    assert (rep t (t + 1) i c) as Hrep.
    { assert (k_shape (c_val c) = (t + 1 - t)%nat :: vto_nat (zip_with N.sub (hi i) (lo i))) as Hks. { cbn [c c_val content_of k_shape]. rewrite Hsh. f_equal. lia. }
      split; [done|done|done|done|done|exact (iv_cs _ _ _ Hinv)|exact Hks|].
      intros t' k Ht' Hk. assert (t' = t) as -> by lia. unfold value, position. cbn [c c_val c_ov c_start content_of k_at zip_with].
      replace (zip_with (fun i s => N.to_nat (i + 0 - s)) k (lo i)) with (vto_nat (zip_with N.sub k (lo i))).
      - replace (N.to_nat (N.of_nat t + 0 - N.of_nat t)) with 0%nat by lia. by rewrite (Hb k Hk).
      - unfold vto_nat. generalize (lo i) as s. clear. induction k as [|x k IH]; intros [|y s]; try done. cbn [zip_with]. rewrite list.fmap_cons. f_equal; [lia|]. apply IH. }
    split; cbn [registered ls_chunks ls_reopened ls_cs].
    + intros c' [Hc'|Hc']%elem_of_app.
      * destruct (iv_sound _ _ _ Hinv c' Hc') as (t0 & t1 & j & Hdj & Hr'). exists t0, t1, j. split; [|done]. apply Hforth; [done|]. destruct (decide (j = i)) as [->|?]; [right|by left].
        destruct Hdj as [_ (e & -> & -> & Hlt)]. rewrite Hdn in Hlt. lia.
      * apply elem_of_list_singleton in Hc' as ->. exists t, (t + 1)%nat, i. split; [|exact Hrep]. rewrite Et at 2. exact Hnew.
    + intros t0 t1 j Hdj. destruct (decide (j = i)) as [->|Hj].
      * destruct (decide (t0 = E * ct)%nat) as [->|Hne].
        -- exists c. split; [apply elem_of_app; right; left|]. destruct Hdj as [_ (e & E1 & -> & _)]. rewrite decide_True by done. replace (Nat.min ((e + 1) * ct) (t + 1)) with (t + 1)%nat by (rewrite Nat.mul_add_distr_r, <- E1; pose proof (ce_ct Hok); lia). rewrite <- Et. exact Hrep.
        -- destruct (iv_complete _ _ _ Hinv t0 t1 i) as (c' & Hc' & Hr'); [apply Hback; auto|]. exists c'. split; [apply elem_of_app; by left|done].
      * destruct (iv_complete _ _ _ Hinv t0 t1 j) as (c' & Hc' & Hr'); [apply Hback; auto|]. exists c'. split; [apply elem_of_app; by left|done].
    + exact (iv_fresh _ _ _ Hinv).
    + exact (iv_cs _ _ _ Hinv).
  - (* append *)
    assert (E * ct < t)%nat as Hlt by lia.
    assert (desc dn t (E * ct) t i) as Hold. { split; [done|]. exists E. split; [done|]. rewrite Hdn. lia. }
    destruct (iv_complete _ _ _ Hinv _ _ _ Hold) as (c & Hc & Hrep). apply elem_of_list_lookup in Hc as [n Hn]. pose proof Hrep as [R1 R2 R3 R4 R5 R6 R7 R8].
    assert (c_end (grown_chunk vd c b) = N.of_nat (t + 1) :: hi i) as Ege. { unfold grown_chunk. cbn [c_end]. rewrite R2, Hsh. cbn [head default id]. f_equal. lia. }
    assert (k_shape (c_val (grown_chunk vd c b)) = (t + 1 - E * ct)%nat :: vto_nat (zip_with N.sub (hi i) (lo i))) as Egk.
    { unfold grown_chunk. cbn [c_val]. unfold concat0. cbn [k_shape]. rewrite R7. cbn [head default id content_of k_shape]. rewrite Hsh. cbn [head default id]. f_equal. lia. }
    assert (countable vd NullSuppressed cs ((t + 1 - E * ct)%nat :: vto_nat (zip_with N.sub (hi i) (lo i)))) as Hcnt. { apply (ce_count Hok); [done|]. lia. }
    assert (forall j c', ls_chunks S !! j = Some c' -> j <> n -> apart (c_start c) (c_end (grown_chunk vd c b)) (c_start c') (c_end c') /\ forall t0 t1, ~ (rep t0 t1 i c' /\ desc dn t t0 t1 i /\ t0 = (E * ct)%nat)) as Hother.
    { intros j c' Hj Hjn. destruct (iv_sound _ _ _ Hinv c' (elem_of_list_lookup_2 _ _ _ Hj)) as (t0 & t1 & x & Hdx & Hrx). pose proof Hrx as [Q1 Q2 _ _ _ _ _ _]. rewrite Ege, R1.
      assert (x = i -> t0 <> (E * ct)%nat) as Hne.
      { intros -> ->. destruct (session_inv vd dims junk L HL l S Hl) as (M & sz & H & Hlr). apply (lr_apart _ _ _ _ _ _ _ Hlr j n c' c Hj Hn Hjn (N.of_nat (E * ct) :: lo i)).
        - rewrite Q1, Q2. apply inbox_at. cbn [length]. split; [lia|]. split; [lia|]. destruct Hdx as [_ (e & _ & _ & Hl1)]. intros [|y] Hy; [cbn; lia|]. specialize (Hbox y ltac:(lia)). exact (conj (N.le_refl _) (proj1 Hbox)).
        - rewrite R1, R2. apply inbox_at. cbn [length]. split; [lia|]. split; [lia|]. intros [|y] Hy; [cbn; lia|]. specialize (Hbox y ltac:(lia)). exact (conj (N.le_refl _) (proj1 Hbox)). }
      split.
      - eapply (apart_cells Hok (E * ct) (t + 1) i t0 t1 x); [done|apply Hdx|intros Ex|done|done|exact Q1|exact Q2]. right. symmetry in Ex. specialize (Hne Ex). subst x. destruct Hdx as [_ (e & -> & -> & Hlt')]. rewrite Hdn in *.
        assert (e < E \/ E < e)%nat as [He|He] by (destruct (Nat.lt_trichotomy e E) as [?|[->|?]]; [by left|done|by right]); [assert ((e + 1) * ct <= E * ct)%nat by nia; lia|assert ((E + 1) * ct <= e * ct)%nat by nia; lia].
      - intros t0' t1' ([Q1' _ _ _ _ _ _ _] & _ & ->). destruct (decide (x = i)) as [->|Hx].
        + apply (Hne eq_refl). rewrite Q1 in Q1'. apply (f_equal (fun l => N.to_nat (hd 0%N l))) in Q1'. cbn [hd] in Q1'. lia.
        + rewrite Q1 in Q1'. injection Q1' as Q0 Q1'. assert (inbox (lo x) (hi x) (lo x)) as Hix. { apply inbox_at. pose proof (proj1 (nonempty_at _ _) (ce_box Hok x (proj1 Hdx))) as [Lx Hbx]. split; [done|]. split; [done|]. intros y Hy. specialize (Hbx y Hy). lia. }
          apply Hx. eapply (ce_apart Hok); [apply Hdx|done|exact Hix|]. rewrite Q1'. apply inbox_at. split; [done|]. split; [done|]. intros y Hy. specialize (Hbox y Hy). lia. }
    assert (ok_append vd dims S n c (N.of_nat t :: lo i) b) as Happ.
    { split.
      - exact Hn.
      - exists (N.of_nat t), (lo i). split; [done|]. split; [by rewrite R2|]. replace (N.of_nat t - 1)%N with (N.of_nat (t - 1)) by lia. apply (covers_cell _ _ _ _ _ _ Hrep). split; [lia|].
        apply inbox_at. split; [done|]. split; [done|]. intros y Hy. specialize (Hbox y Hy). lia.
      - exact R4.
      - exact R3.
      - exact Hfl.
      - rewrite Hsh, R7. cbn [length tail]. split; [|done]. unfold vto_nat. rewrite fmap_length, zip_with_length. lia.
      - rewrite Ege. constructor; [lia|]. apply F1_at. intros j Hj. specialize (Hbox j ltac:(lia)). lia.
      - rewrite R6, R7. apply countable_app; [done|]. apply (ce_count Hok); [done|]. lia.
      - rewrite R6, Egk. exact Hcnt.
      - intros j c' Hj Hne. by apply (Hother j c'). }
    destruct (append_lib_ok vd dims junk L HL l S n c _ b (session_inv vd dims junk L HL _ _ Hl) Happ) as (l' & Hr & _).
    exists l', (set_chunks S (<[n := grown_chunk vd c b]> (ls_chunks S))). split; [exact Hr|]. split; [exact (ss_append vd dims junk L _ _ _ _ _ _ _ Hl Happ Hr)|]. split; [|cbn [set_chunks ls_handed]; lia].
    assert (rep (E * ct) (t + 1) i (grown_chunk vd c b)) as Hrep'.
    { split; [exact R1|exact Ege|exact R3|exact R4|exact R5|exact R6|exact Egk|]. intros t' k Ht' Hk.
      assert (position (grown_chunk vd c b) (N.of_nat t' :: k) = (t' - E * ct)%nat :: vto_nat (zip_with N.sub k (lo i))) as Ep by (rewrite <- (position_cell _ _ _ _ t' k Hrep); done).
      unfold value. rewrite Ep. unfold grown_chunk. cbn [c_val]. unfold concat0. cbn [k_at]. rewrite R7. cbn [head default id]. destruct (Nat.ltb_spec (t' - E * ct) (t - E * ct)) as [Hl1|Hge].
      - rewrite <- (R8 t' k ltac:(lia) Hk). unfold value. by rewrite (position_cell _ _ _ _ t' k Hrep).
      - assert (t' = t) as -> by lia. replace (t - E * ct - (t - E * ct))%nat with 0%nat by lia. cbn [content_of k_at]. by rewrite (Hb k Hk). }
    assert (n < length (ls_chunks S))%nat as Hnl by (by eapply lookup_lt_Some).
    split; cbn [set_chunks ls_chunks ls_reopened ls_cs].
    + intros c' (j & Hj)%elem_of_list_lookup. destruct (decide (j = n)) as [->|Hjn].
      * rewrite list_lookup_insert in Hj by done. injection Hj as <-. eauto 6.
      * rewrite list_lookup_insert_ne in Hj by done. destruct (iv_sound _ _ _ Hinv c' (elem_of_list_lookup_2 _ _ _ Hj)) as (t0 & t1 & x & Hdx & Hrx). exists t0, t1, x. split; [|done]. apply Hforth; [done|].
        destruct (decide (x = i)) as [->|?]; [right|by left]. intros ->. destruct (Hother j c' Hj Hjn) as [_ Ho]. by eapply (Ho (E * ct)%nat t1).
    + intros t0 t1 x Hdx. assert ((x = i /\ t0 = (E * ct)%nat) \/ (x <> i \/ t0 <> (E * ct)%nat)) as [[-> ->]|Hor].
      { destruct (decide (x = i)); [|auto]. destruct (decide (t0 = E * ct)%nat); auto. }
      * exists (grown_chunk vd c b). split; [by apply (elem_of_list_lookup_2 _ n), list_lookup_insert|]. destruct Hdx as [_ (e & E1 & -> & _)]. rewrite decide_True by done.
        assert (e = E) as -> by (pose proof (ce_ct Hok); nia). replace (Nat.min ((E + 1) * ct) (t + 1)) with (t + 1)%nat by lia. exact Hrep'.
      * destruct (iv_complete _ _ _ Hinv t0 t1 x (Hback _ _ _ Hdx Hor)) as (c' & Hc' & Hr'). apply elem_of_list_lookup in Hc' as [j Hj]. exists c'. split; [|done].
        destruct (decide (j = n)) as [->|Hjn]; [|by apply (elem_of_list_lookup_2 _ j); rewrite list_lookup_insert_ne]. exfalso. rewrite Hn in Hj. injection Hj as <-.
        destruct Hr' as [Q1 _ _ _ _ _ _ _]. rewrite R1 in Q1. injection Q1 as Q0 Q1. destruct Hor as [Hx|Ht0]; [|lia]. apply Hx. symmetry.
        assert (inbox (lo i) (hi i) (lo i)) as Hii. { apply inbox_at. split; [done|]. split; [done|]. intros y Hy. specialize (Hbox y Hy). lia. }
        eapply (ce_apart Hok); [done|apply Hdx|exact Hii|]. rewrite Q1. apply inbox_at. pose proof (proj1 (nonempty_at _ _) (ce_box Hok x (proj1 Hdx))) as [Lx Hbx]. split; [done|]. split; [done|]. intros y Hy. specialize (Hbx y Hy). lia.
    + exact (iv_fresh _ _ _ Hinv).
    + exact (iv_cs _ _ _ Hinv).
Qed.
End cells.
