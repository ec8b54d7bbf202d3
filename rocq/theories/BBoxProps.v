(** Property theorems C17. *)
From stdpp Require Import base list list_numbers numbers option.
From Coq Require Import NArith.
From Verif Require Import BBoxModel.

(** * Specification *)
(** Component-wise half-open box membership. *)
Definition inbox (s e c : list N) : Prop :=
  length c = length s /\ length e = length s /\
  forall i x y z, s !! i = Some x -> e !! i = Some y -> c !! i = Some z -> (x <= z < y)%N.
(** A proper 64-bit box: corners with as many components, ordered, all below 2^64. *)
Definition proper (s e : list N) : Prop :=
  length e = length s /\ forall i x y, s !! i = Some x -> e !! i = Some y -> (x <= y < 2 ^ 64)%N.
Definition nonempty (s e : list N) : Prop :=
  length e = length s /\ forall i x y, s !! i = Some x -> e !! i = Some y -> (x < y < 2 ^ 64)%N.
Definition coords (c : list N) : Prop := Forall (fun x => x < 2 ^ 64)%N c.

(** * Inductive characterisations *)
Lemma inbox_nil c : inbox [] [] c <-> c = [].
Proof. split; [intros [Hl _]; by destruct c|]. intros ->. split_and!; try done. Qed.
Lemma inbox_cons s0 s e0 e c0 c : inbox (s0 :: s) (e0 :: e) (c0 :: c) <-> (s0 <= c0 < e0)%N /\ inbox s e c.
Proof.
  split.
  - intros (H1 & H2 & H3). simpl in *. split; [by apply (H3 0%nat)|]. split; [lia|]. split; [lia|]. intros i. apply (H3 (S i)).
  - intros [H0 (H1 & H2 & H3)]. split_and!; simpl; try lia. intros [|i] x y z; simpl; [|apply H3]. by intros [= <-] [= <-] [= <-].
Qed.
Lemma proper_cons s0 s e0 e : proper (s0 :: s) (e0 :: e) <-> (s0 <= e0 < 2 ^ 64)%N /\ proper s e.
Proof.
  split.
  - intros [H1 H2]. simpl in *. split; [by apply (H2 0%nat)|]. split; [lia|]. intros i. apply (H2 (S i)).
  - intros [H0 [H1 H2]]. split; [simpl; lia|]. intros [|i] x y; simpl; [|apply H2]. by intros [= <-] [= <-].
Qed.
Lemma nonempty_cons s0 s e0 e : nonempty (s0 :: s) (e0 :: e) <-> (s0 < e0 < 2 ^ 64)%N /\ nonempty s e.
Proof.
  split.
  - intros [H1 H2]. simpl in *. split; [by apply (H2 0%nat)|]. split; [lia|]. intros i. apply (H2 (S i)).
  - intros [H0 [H1 H2]]. split; [simpl; lia|]. intros [|i] x y; simpl; [|apply H2]. by intros [= <-] [= <-].
Qed.
Lemma nonempty_proper s e : nonempty s e -> proper s e.
Proof. intros [H1 H2]. split; [done|]. intros i x y Hx Hy. specialize (H2 i x y Hx Hy). lia. Qed.

Lemma wsub_le a b : (b <= a < W)%N -> wsub a b = (a - b)%N.
Proof. intros. unfold wsub. replace (a + W - b)%N with ((a - b) + 1 * W)%N by lia. rewrite N.mod_add by done. apply N.mod_small. lia. Qed.
Lemma wsub_gt a b : (a < b < W)%N -> wsub a b = (a + W - b)%N.
Proof. intros. unfold wsub. apply N.mod_small. lia. Qed.

Lemma contains_loop_spec s e c : proper s e -> coords c -> length c = length s ->
  contains_loop s (zip_with wsub e s) c = true <-> inbox s e c.
Proof.
  revert e c. induction s as [|s0 s IH]; intros e c Hp Hc Hl.
  - destruct c; [|done]. destruct e; [|by destruct Hp]. simpl. rewrite inbox_nil. done.
  - destruct e as [|e0 e]; [by destruct Hp|]. destruct c as [|c0 c]; [done|]. apply proper_cons in Hp as [H0 Hp].
    apply list.Forall_cons in Hc as [Hc0 Hc]. rewrite inbox_cons. cbn [zip_with contains_loop].
    assert ((wsub e0 s0 <=? wsub c0 s0)%N = negb ((s0 <=? c0)%N && (c0 <? e0)%N)) as ->.
    { rewrite (wsub_le e0 s0) by (unfold W; lia). destruct (N.leb_spec s0 c0).
      - rewrite (wsub_le c0 s0) by (unfold W; lia). destruct (N.ltb_spec c0 e0), (N.leb_spec (e0 - s0) (c0 - s0)); simpl; try done; lia.
      - rewrite (wsub_gt c0 s0) by (unfold W; lia). simpl. apply N.leb_le. unfold W. lia. }
    destruct (N.leb_spec s0 c0), (N.ltb_spec c0 e0); simpl; try (split; [done|intros [? _]; lia]).
    rewrite IH by (simpl in Hl; auto with lia). intuition lia.
Qed.

(** ** contains *)
Theorem C17_contains_iff_in_extent (s e c : list N) :
  proper s e -> coords c -> length c = length s ->
  bbox_contains (mk_bbox s e) c = true <-> inbox s e c.
Proof. apply contains_loop_spec. Qed.
Print Assumptions C17_contains_iff_in_extent.
(** The cleared box contains nothing (in at least one dimension). *)
Theorem C17_cleared_box_is_empty (dims : nat) (c : list N) :
  (0 < dims)%nat -> length c = dims -> bbox_contains (bbox_reset dims) c = false.
Proof. intros Hd Hl. destruct dims; [lia|]. destruct c; [done|]. unfold bbox_contains. cbn [bbox_reset bb_start bb_shape replicate contains_loop].
  destruct (N.leb_spec 0 (wsub n (W - 1)%N)); [done|lia]. Qed.
Print Assumptions C17_cleared_box_is_empty.

(** ** overlaps *)
Lemma overlaps_loop_spec s1 e1 s2 e2 : nonempty s1 e1 -> nonempty s2 e2 -> length s1 = length s2 ->
  overlaps_loop s1 e1 s2 e2 = true <-> exists c, inbox s1 e1 c /\ inbox s2 e2 c.
Proof.
  revert e1 s2 e2. induction s1 as [|a s1 IH]; intros e1 s2 e2 H1 H2 Hl.
  - destruct e1; [|by destruct H1]. destruct s2; [|done]. destruct e2; [|by destruct H2]. split; [|done]. intros _. exists []. by rewrite inbox_nil.
  - destruct e1 as [|b e1]; [by destruct H1|]. destruct s2 as [|c s2]; [done|]. destruct e2 as [|d e2]; [by destruct H2|].
    apply nonempty_cons in H1 as [Hab H1]. apply nonempty_cons in H2 as [Hcd H2]. simpl in Hl. cbn [overlaps_loop].
    assert (forall x, inbox (a :: s1) (b :: e1) x -> exists x0 x', x = x0 :: x') as Hcons.
    { intros [|x0 x'] (Hx & _); [done|eauto]. }
    destruct (N.leb_spec d a); [|destruct (N.leb_spec b c)].
    + split; [done|]. intros (x & Hx1 & Hx2). destruct (Hcons x Hx1) as (x0 & x' & ->). rewrite inbox_cons in Hx1, Hx2. lia.
    + split; [done|]. intros (x & Hx1 & Hx2). destruct (Hcons x Hx1) as (x0 & x' & ->). rewrite inbox_cons in Hx1, Hx2. lia.
    + rewrite IH by (auto; lia). split.
      * intros (x & Hx1 & Hx2). exists (N.max a c :: x). rewrite !inbox_cons. split_and!; auto; lia.
      * intros (x & Hx1 & Hx2). destruct (Hcons x Hx1) as (x0 & x' & ->). rewrite inbox_cons in Hx1, Hx2. exists x'. tauto.
Qed.
(** Holds for non-empty boxes; for empty boxes see the next theorem. *)
Theorem C17_overlaps_iff_common_index_partial (s1 e1 s2 e2 : list N) :
  nonempty s1 e1 -> nonempty s2 e2 -> length s1 = length s2 ->
  bbox_overlaps (mk_bbox s1 e1) (mk_bbox s2 e2) = true <-> exists c, inbox s1 e1 c /\ inbox s2 e2 c.
Proof. apply overlaps_loop_spec. Qed.
Print Assumptions C17_overlaps_iff_common_index_partial.
(** An empty box strictly inside another one is reported to overlap it. *)
Theorem C17_empty_box_overlap_refuted :
  exists s1 e1 s2 e2, proper s1 e1 /\ proper s2 e2 /\ length s1 = length s2 /\
    bbox_overlaps (mk_bbox s1 e1) (mk_bbox s2 e2) = true /\ ~ exists c, inbox s1 e1 c.
Proof.
  exists [5%N], [5%N], [0%N], [10%N]. split_and!; try done.
  - split; [done|]. intros [|[|i]]; simpl; intros x y [= <-] [= <-]; lia.
  - split; [done|]. intros [|[|i]]; simpl; intros x y [= <-] [= <-]; lia.
  - intros (c & Hl & _ & Hc). destruct c as [|c0 c]; [done|]. specialize (Hc 0%nat 5%N 5%N c0 eq_refl eq_refl eq_refl). lia.
Qed.
Print Assumptions C17_empty_box_overlap_refuted.

(** ** extend *)
(** Box inclusion as sets of indices. *)
Definition subbox (s1 e1 s2 e2 : list N) : Prop := forall c, inbox s1 e1 c -> inbox s2 e2 c.

Lemma nonempty_start s e : nonempty s e -> inbox s e s.
Proof. intros [H1 H2]. split_and!; auto. intros i x y z Hx Hy Hz. specialize (H2 i x y Hx Hy). rewrite Hx in Hz. injection Hz as <-. lia. Qed.
Lemma nonempty_last s e : nonempty s e -> inbox s e (N.pred <$> e).
Proof.
  intros [H1 H2]. split_and!; [by rewrite fmap_length|done|]. intros i x y z Hx Hy Hz. specialize (H2 i x y Hx Hy).
  rewrite list_lookup_fmap, Hy in Hz. injection Hz as <-. lia.
Qed.
Lemma zip_with_lookup {A B C} (f : A -> B -> C) l k i z : zip_with f l k !! i = Some z <->
  exists x y, l !! i = Some x /\ k !! i = Some y /\ z = f x y.
Proof. rewrite lookup_zip_with_Some. naive_solver. Qed.

Theorem C17_extend_is_hull (s1 e1 s2 e2 : list N) :
  nonempty s1 e1 -> nonempty s2 e2 -> length s1 = length s2 ->
  let h := bbox_extend (mk_bbox s1 e1) (mk_bbox s2 e2) in
  h = mk_bbox (bb_start h) (bb_end h) /\ nonempty (bb_start h) (bb_end h) /\
  subbox s1 e1 (bb_start h) (bb_end h) /\ subbox s2 e2 (bb_start h) (bb_end h) /\
  forall s e, nonempty s e -> subbox s1 e1 s e -> subbox s2 e2 s e -> subbox (bb_start h) (bb_end h) s e.
Proof.
  intros H1 H2 Hl h. pose proof H1 as [Hl1 Hb1]. pose proof H2 as [Hl2 Hb2].
  assert (length (bb_start h) = length s1) as Hs by (unfold h; simpl; rewrite zip_with_length; lia).
  assert (length (bb_end h) = length s1) as He by (unfold h; simpl; rewrite zip_with_length; lia).
  split_and!.
  - done.
  - split; [lia|]. intros i x y Hx Hy. apply zip_with_lookup in Hx as (x1 & x2 & Hx1 & Hx2 & ->). apply zip_with_lookup in Hy as (y1 & y2 & Hy1 & Hy2 & ->).
    specialize (Hb1 _ _ _ Hx1 Hy1). specialize (Hb2 _ _ _ Hx2 Hy2). lia.
  - intros c (Hc1 & Hc2 & Hc). split_and!; [lia|lia|]. intros i x y z Hx Hy Hz.
    apply zip_with_lookup in Hx as (x1 & x2 & Hx1 & Hx2 & ->). apply zip_with_lookup in Hy as (y1 & y2 & Hy1 & Hy2 & ->).
    specialize (Hc _ _ _ _ Hx1 Hy1 Hz). lia.
  - intros c (Hc1 & Hc2 & Hc). split_and!; [lia|lia|]. intros i x y z Hx Hy Hz.
    apply zip_with_lookup in Hx as (x1 & x2 & Hx1 & Hx2 & ->). apply zip_with_lookup in Hy as (y1 & y2 & Hy1 & Hy2 & ->).
    specialize (Hc _ _ _ _ Hx2 Hy2 Hz). lia.
  - intros s e [Hse Hne] Hsub1 Hsub2 c (Hc1 & Hc2 & Hc).
    pose proof (Hsub1 _ (nonempty_start _ _ H1)) as (La & _ & A1). pose proof (Hsub1 _ (nonempty_last _ _ H1)) as (_ & _ & B1).
    pose proof (Hsub2 _ (nonempty_start _ _ H2)) as (_ & _ & A2). pose proof (Hsub2 _ (nonempty_last _ _ H2)) as (_ & _ & B2).
    split_and!; [lia|lia|]. intros i x y z Hx Hy Hz.
    assert (i < length s1)%nat as Hi by (apply lookup_lt_Some in Hx; lia).
    destruct (lookup_lt_is_Some_2 s1 i Hi) as [x1 Hx1]. destruct (lookup_lt_is_Some_2 s2 i ltac:(lia)) as [x2 Hx2].
    destruct (lookup_lt_is_Some_2 e1 i ltac:(lia)) as [y1 Hy1]. destruct (lookup_lt_is_Some_2 e2 i ltac:(lia)) as [y2 Hy2].
    specialize (A1 _ _ _ _ Hx Hy Hx1). specialize (A2 _ _ _ _ Hx Hy Hx2).
    specialize (B1 i x y (N.pred y1) Hx Hy ltac:(rewrite list_lookup_fmap, Hy1; done)).
    specialize (B2 i x y (N.pred y2) Hx Hy ltac:(rewrite list_lookup_fmap, Hy2; done)).
    assert (N.min x1 x2 <= z < N.max y1 y2)%N.
    { apply (Hc i); [..|done]; apply zip_with_lookup; eauto 10. }
    specialize (Hb1 _ _ _ Hx1 Hy1). specialize (Hb2 _ _ _ Hx2 Hy2). lia.
Qed.
Print Assumptions C17_extend_is_hull.
(** Growing the cleared box by one box gives that box. *)
Theorem C17_extend_cleared (s e : list N) :
  proper s e -> bbox_extend (bbox_reset (length s)) (mk_bbox s e) = mk_bbox s e.
Proof.
  intros [Hl Hp]. unfold bbox_extend. cbn [bbox_reset mk_bbox bb_start bb_end].
  assert (zip_with N.min (replicate (length s) (W - 1)%N) s = s) as ->.
  { apply list_eq. intros i. destruct (zip_with _ _ _ !! i) as [z|] eqn:Hz.
    - apply zip_with_lookup in Hz as (x & y & Hx & Hy & ->). apply lookup_replicate in Hx as [-> Hi].
      destruct (lookup_lt_is_Some_2 e i ltac:(lia)) as [w Hw]. specialize (Hp _ _ _ Hy Hw). rewrite Hy. f_equal. unfold W. lia.
    - symmetry. apply lookup_ge_None in Hz. apply lookup_ge_None. rewrite zip_with_length, replicate_length in Hz. lia. }
  assert (zip_with N.max (replicate (length s) 0%N) e = e) as ->; [|done].
  apply list_eq. intros i. destruct (zip_with _ _ _ !! i) as [z|] eqn:Hz.
  - apply zip_with_lookup in Hz as (x & y & Hx & Hy & ->). apply lookup_replicate in Hx as [-> Hi]. rewrite Hy. f_equal. lia.
  - symmetry. apply lookup_ge_None in Hz. apply lookup_ge_None. rewrite zip_with_length, replicate_length in Hz. lia.
Qed.
Print Assumptions C17_extend_cleared.

(** ** overlap volume *)
Definition seqN (s n : N) : list N := (fun i => s + N.of_nat i)%N <$> seq 0 (N.to_nat n).
Lemma elem_of_seqN s n x : x ∈ seqN s n <-> (s <= x < s + n)%N.
Proof.
  unfold seqN. rewrite elem_of_list_fmap. split.
  - intros (i & -> & Hi%elem_of_seq). lia.
  - intros Hx. exists (N.to_nat (x - s)). rewrite elem_of_seq. lia.
Qed.
Lemma NoDup_seqN s n : NoDup (seqN s n).
Proof. unfold seqN. apply NoDup_fmap_2; [|apply NoDup_seq]. intros i j Hij. lia. Qed.
Lemma seqN_length s n : length (seqN s n) = N.to_nat n.
Proof. unfold seqN. by rewrite fmap_length, seq_length. Qed.
Fixpoint points (s e : list N) : list (list N) :=
  match s, e with
  | s0 :: s', e0 :: e' => x ← seqN s0 (e0 - s0)%N; (fun p => x :: p) <$> points s' e'
  | _, _ => [[]]
  end.
Lemma points_spec s e p : length e = length s -> p ∈ points s e <-> inbox s e p.
Proof.
  revert e p. induction s as [|s0 s IH]; intros e p Hl.
  - destruct e; [|done]. simpl. rewrite inbox_nil. apply elem_of_list_singleton.
  - destruct e as [|e0 e]; [done|]. cbn [points]. rewrite elem_of_list_bind. split.
    + intros (x & (q & -> & Hq)%elem_of_list_fmap & Hx). apply inbox_cons. apply IH in Hq; [|simpl in Hl; lia]. split; [|done].
      rewrite elem_of_seqN in Hx. lia.
    + intros Hp. destruct p as [|p0 p]; [by destruct Hp|]. apply inbox_cons in Hp as [H0 Hp]. exists p0. split.
      * apply elem_of_list_fmap. exists p. split; [done|]. apply IH; [simpl in Hl; lia|done].
      * rewrite elem_of_seqN. lia.
Qed.
Lemma NoDup_bind {A B} (f : A -> list B) l :
  (forall x1 x2 y, x1 ∈ l -> x2 ∈ l -> y ∈ f x1 -> y ∈ f x2 -> x1 = x2) -> (forall x, x ∈ l -> NoDup (f x)) -> NoDup l -> NoDup (l ≫= f).
Proof.
  intros Hinj Hf. induction l as [|x l IH]; intros Hnd; [constructor|]. apply list.NoDup_cons in Hnd as [Hx Hnd]. cbn [mbind list_bind].
  apply NoDup_app. split_and!.
  - apply Hf. left.
  - intros y Hy (x2 & Hy2 & Hx2)%elem_of_list_bind. apply Hx. rewrite (Hinj x x2 y); auto; [left|by right].
  - apply IH; [| |done].
    + intros x1 x2 y H1 H2. apply Hinj; by right.
    + intros z Hz. apply Hf. by right.
Qed.
Lemma points_NoDup s e : NoDup (points s e).
Proof.
  revert e. induction s as [|s0 s IH]; intros e; [apply NoDup_singleton|]. destruct e as [|e0 e]; [apply NoDup_singleton|].
  cbn [points]. apply NoDup_bind.
  - intros x1 x2 p _ _ (q & -> & _)%elem_of_list_fmap (q2 & [= -> _] & _)%elem_of_list_fmap. done.
  - intros x _. apply NoDup_fmap_2; [|apply IH]. by intros ? ? [= ->].
  - apply NoDup_seqN.
Qed.
Lemma points_length s e : length (points s e) = foldr (fun p a => N.to_nat (p.2 - p.1) * a)%nat 1%nat (zip s e).
Proof.
  revert e. induction s as [|s0 s IH]; intros e; [done|]. destruct e as [|e0 e]; [done|]. cbn [points zip zip_with foldr fst snd].
  rewrite <- IH. assert (forall l : list N, length (x ← l; (fun p => x :: p) <$> points s e) = length l * length (points s e))%nat as Hg.
  { intros l. induction l as [|x l IHl]; [done|]. cbn [mbind list_bind]. rewrite app_length, fmap_length. simpl. f_equal. apply IHl. }
  rewrite Hg. by rewrite seqN_length.
Qed.
Lemma overlap_vol_loop_spec acc s e : Forall (fun x => x < W)%N e -> length e = length s ->
  overlap_vol_loop (acc mod W) s e = (acc * N.of_nat (length (points s e)) mod W)%N.
Proof.
  revert acc e. induction s as [|s0 s IH]; intros acc e Hf Hl.
  - destruct e; [|done]. simpl. by rewrite N.mul_1_r.
  - destruct e as [|e0 e]; [done|]. apply list.Forall_cons in Hf as [He Hf]. cbn [overlap_vol_loop]. rewrite points_length. cbn [zip zip_with foldr fst snd].
    rewrite <- points_length. destruct (N.ltb_spec s0 e0).
    + unfold wmul. rewrite N.mul_mod_idemp_l by done. rewrite IH by (auto; simpl in Hl; lia). f_equal.
      rewrite wsub_le by lia. rewrite Nat2N.inj_mul, N2Nat.id. lia.
    + replace (e0 - s0)%N with 0%N by lia. simpl. rewrite N.mul_0_r. done.
Qed.
(** The overlap volume is the number of indices lying in both boxes, modulo 2^64. *)
Theorem C17_overlap_volume_counts (s1 e1 s2 e2 : list N) :
  proper s1 e1 -> proper s2 e2 -> length s1 = length s2 ->
  exists common, NoDup common /\ (forall c, c ∈ common <-> inbox s1 e1 c /\ inbox s2 e2 c) /\
    bbox_overlap_volume (mk_bbox s1 e1) (mk_bbox s2 e2) = (N.of_nat (length common) mod 2 ^ 64)%N.
Proof.
  intros [Hl1 H1] [Hl2 H2] Hl. exists (points (zip_with N.max s1 s2) (zip_with N.min e1 e2)). split_and!.
  - apply points_NoDup.
  - intros c. rewrite points_spec by (rewrite !zip_with_length; lia). split.
    + intros (Hc1 & Hc2 & Hc). rewrite !zip_with_length in *. split; (split_and!; [lia|lia|]); intros i x y z Hx Hy Hz;
      (assert (i < length s1)%nat as Hi by (apply lookup_lt_Some in Hx; lia));
      destruct (lookup_lt_is_Some_2 s1 i ltac:(lia)) as [x1 Hx1]; destruct (lookup_lt_is_Some_2 s2 i ltac:(lia)) as [x2 Hx2];
      destruct (lookup_lt_is_Some_2 e1 i ltac:(lia)) as [y1 Hy1]; destruct (lookup_lt_is_Some_2 e2 i ltac:(lia)) as [y2 Hy2];
      (assert (N.max x1 x2 <= z < N.min y1 y2)%N by (apply (Hc i); [..|done]; apply zip_with_lookup; eauto 10));
      simplify_eq; lia.
    + intros [(Ha1 & Ha2 & Ha) (Hb1 & Hb2 & Hb)]. split_and!; rewrite ?zip_with_length; [lia|lia|]. intros i x y z Hx Hy Hz.
      apply zip_with_lookup in Hx as (x1 & x2 & Hx1 & Hx2 & ->). apply zip_with_lookup in Hy as (y1 & y2 & Hy1 & Hy2 & ->).
      specialize (Ha _ _ _ _ Hx1 Hy1 Hz). specialize (Hb _ _ _ _ Hx2 Hy2 Hz). lia.
  - unfold bbox_overlap_volume. simpl. change 1%N with (1 mod W)%N at 1. rewrite overlap_vol_loop_spec; [by rewrite N.mul_1_l| |].
    + apply list.Forall_forall. intros y Hy. apply elem_of_list_lookup in Hy as [i Hy].
      apply zip_with_lookup in Hy as (y1 & y2 & Hy1 & Hy2 & ->). assert (i < length s1)%nat as Hi by (apply lookup_lt_Some in Hy1; lia).
      destruct (lookup_lt_is_Some_2 s1 i Hi) as [x1 Hx1]. specialize (H1 _ _ _ Hx1 Hy1). unfold W. lia.
    + rewrite !zip_with_length. lia.
Qed.
Print Assumptions C17_overlap_volume_counts.
Example C17_nonvacuous :
  bbox_contains (mk_bbox [3; 0] [7; 2 ^ 64 - 1])%N [6; 12]%N = true /\
  bbox_contains (mk_bbox [3; 0] [7; 2 ^ 64 - 1])%N [2; 12]%N = false /\
  bbox_overlap_volume (mk_bbox [3; 0] [7; 10])%N (mk_bbox [5; 8] [9; 20])%N = 4%N /\
  bbox_extend (mk_bbox [3; 0] [7; 10])%N (mk_bbox [5; 8] [9; 20])%N = mk_bbox [3; 0]%N [9; 20]%N.
Proof. vm_compute. done. Qed.
