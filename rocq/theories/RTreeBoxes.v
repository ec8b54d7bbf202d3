(** Boxes ordered by inclusion of their corners. *)
From stdpp Require Import base list list_numbers numbers option.
From Coq Require Import NArith.
From Verif Require Import BBoxModel BBoxProps.

Section boxes.
Context (dims : nat).

(** A box as built from ordered 64-bit corners. *)
Definition okbox (b : bbox) : Prop :=
  b = mk_bbox (bb_start b) (bb_end b) /\ proper (bb_start b) (bb_end b) /\ length (bb_start b) = dims.
(** [cover b a]: the corners of [a] lie within those of [b]. *)
Definition cover (b a : bbox) : Prop :=
  (forall i x y, bb_start b !! i = Some x -> bb_start a !! i = Some y -> (x <= y)%N) /\
  (forall i x y, bb_end b !! i = Some x -> bb_end a !! i = Some y -> (y <= x)%N).

Lemma okbox_mk s e : proper s e -> length s = dims -> okbox (mk_bbox s e).
Proof. intros H1 H2. by split_and!. Qed.
Lemma okbox_len_end b : okbox b -> length (bb_end b) = dims.
Proof. intros (_ & [H _] & H2). lia. Qed.
Lemma cover_refl b : cover b b.
Proof. split; intros i x y Hx Hy; rewrite Hx in Hy; injection Hy as <-; lia. Qed.
Lemma cover_trans a b c : okbox b -> okbox c -> okbox a -> cover a b -> cover b c -> cover a c.
Proof.
  intros Hb Hc Ha [H1 H2] [H3 H4]. pose proof (okbox_len_end _ Hb). pose proof (okbox_len_end _ Hc).
  destruct Hb as (_ & _ & Hlb), Hc as (_ & _ & Hlc). split; intros i x y Hx Hy.
  - destruct (lookup_lt_is_Some_2 (bb_start b) i) as [z Hz]; [apply lookup_lt_Some in Hy; lia|]. specialize (H1 _ _ _ Hx Hz). specialize (H3 _ _ _ Hz Hy). lia.
  - destruct (lookup_lt_is_Some_2 (bb_end b) i) as [z Hz]; [apply lookup_lt_Some in Hy; lia|]. specialize (H2 _ _ _ Hx Hz). specialize (H4 _ _ _ Hz Hy). lia.
Qed.
Lemma extend_spec a b : okbox a -> okbox b ->
  okbox (bbox_extend a b) /\ cover (bbox_extend a b) a /\ cover (bbox_extend a b) b /\
  forall c, okbox c -> cover c a -> cover c b -> cover c (bbox_extend a b).
Proof.
  intros Ha Hb. pose proof (okbox_len_end _ Ha). pose proof (okbox_len_end _ Hb).
  destruct Ha as (_ & [Hpa Hpa2] & Hla), Hb as (_ & [Hpb Hpb2] & Hlb). split_and!.
  - split_and!; [done| |].
    + split; [simpl; rewrite !zip_with_length; lia|]. simpl. intros i x y Hx Hy.
      apply zip_with_lookup in Hx as (x1 & x2 & Hx1 & Hx2 & ->). apply zip_with_lookup in Hy as (y1 & y2 & Hy1 & Hy2 & ->).
      specialize (Hpa2 _ _ _ Hx1 Hy1). specialize (Hpb2 _ _ _ Hx2 Hy2). lia.
    + simpl. rewrite zip_with_length. lia.
  - split; simpl; intros i x y Hx Hy; apply zip_with_lookup in Hx as (x1 & x2 & Hx1 & Hx2 & ->); simplify_eq; lia.
  - split; simpl; intros i x y Hx Hy; apply zip_with_lookup in Hx as (x1 & x2 & Hx1 & Hx2 & ->); simplify_eq; lia.
  - intros c _ [H1 H2] [H3 H4]. split; simpl; intros i x y Hx Hy; apply zip_with_lookup in Hy as (y1 & y2 & Hy1 & Hy2 & ->).
    + specialize (H1 _ _ _ Hx Hy1). specialize (H3 _ _ _ Hx Hy2). lia.
    + specialize (H2 _ _ _ Hx Hy1). specialize (H4 _ _ _ Hx Hy2). lia.
Qed.
Lemma extend_reset b : okbox b -> bbox_extend (bbox_reset dims) b = b.
Proof. intros (Hb & Hp & Hl). rewrite Hb at 1. rewrite <- Hl. rewrite C17_extend_cleared by done. by rewrite <- Hb. Qed.

(** The hull of a non-empty list of boxes. *)
Lemma hull_from a bs : okbox a -> Forall okbox bs ->
  okbox (foldl bbox_extend a bs) /\ cover (foldl bbox_extend a bs) a /\ Forall (cover (foldl bbox_extend a bs)) bs /\
  forall c, okbox c -> cover c a -> Forall (cover c) bs -> cover c (foldl bbox_extend a bs).
Proof.
  intros Ha Hbs. revert a Ha. induction Hbs as [|b bs Hb Hbs IH]; intros a Ha; simpl.
  - split_and!; auto. apply cover_refl.
  - destruct (extend_spec a b Ha Hb) as (Hx & Hxa & Hxb & Hmin). destruct (IH _ Hx) as (H1 & H2 & H3 & H4). split_and!; auto.
    + by eapply (cover_trans _ (bbox_extend a b)).
    + constructor; [|done]. by eapply (cover_trans _ (bbox_extend a b)).
    + intros c Hc Hca [Hcb Hcbs]%list.Forall_cons. apply H4; auto.
Qed.
Lemma hull_spec bs : bs <> [] -> Forall okbox bs ->
  okbox (foldl bbox_extend (bbox_reset dims) bs) /\ Forall (cover (foldl bbox_extend (bbox_reset dims) bs)) bs /\
  forall c, okbox c -> Forall (cover c) bs -> cover c (foldl bbox_extend (bbox_reset dims) bs).
Proof.
  intros Hne Hbs. destruct bs as [|b bs]; [done|]. apply list.Forall_cons in Hbs as [Hb Hbs]. simpl. rewrite extend_reset by done.
  destruct (hull_from b bs Hb Hbs) as (H1 & H2 & H3 & H4). split_and!; auto.
  intros c Hc [Hcb Hcbs]%list.Forall_cons. auto.
Qed.

Lemma okbox_contains b c : okbox b -> coords c -> length c = dims -> bbox_contains b c = true <-> inbox (bb_start b) (bb_end b) c.
Proof. intros (Hb & Hp & Hl) Hc Hlc. rewrite Hb at 1. apply C17_contains_iff_in_extent; auto. lia. Qed.
Lemma cover_contains a b c : okbox a -> okbox b -> cover a b -> coords c -> length c = dims -> bbox_contains b c = true -> bbox_contains a c = true.
Proof.
  intros Ha Hb [H1 H2] Hc Hl. rewrite !okbox_contains by done. intros (L1 & L2 & Hin).
  pose proof (okbox_len_end _ Ha). pose proof (okbox_len_end _ Hb). destruct Ha as (_ & _ & Hla), Hb as (_ & _ & Hlb).
  split_and!; [lia|lia|]. intros i x y z Hx Hy Hz.
  destruct (lookup_lt_is_Some_2 (bb_start b) i) as [x2 Hx2]; [apply lookup_lt_Some in Hx; lia|].
  destruct (lookup_lt_is_Some_2 (bb_end b) i) as [y2 Hy2]; [apply lookup_lt_Some in Hx; lia|].
  specialize (H1 _ _ _ Hx Hx2). specialize (H2 _ _ _ Hy Hy2). specialize (Hin _ _ _ _ Hx2 Hy2 Hz). lia.
Qed.
Lemma overlaps_loop_mono s e s1 e1 s2 e2 :
  length s1 = length s2 -> length e1 = length e2 -> length s1 = length e1 ->
  (forall i x y, s1 !! i = Some x -> s2 !! i = Some y -> (x <= y)%N) ->
  (forall i x y, e1 !! i = Some x -> e2 !! i = Some y -> (y <= x)%N) ->
  overlaps_loop s e s2 e2 = true -> overlaps_loop s e s1 e1 = true.
Proof.
  revert e s1 e1 s2 e2. induction s as [|a s IH]; intros e s1 e1 s2 e2 L1 L2 L3 H1 H2; [done|].
  destruct e as [|b e]; [done|]. destruct s1 as [|x s1]; [done|]. destruct e1 as [|y e1]; [done|].
  destruct s2 as [|x2 s2]; [done|]. destruct e2 as [|y2 e2]; [done|]. cbn [overlaps_loop].
  pose proof (H1 0%nat _ _ eq_refl eq_refl). pose proof (H2 0%nat _ _ eq_refl eq_refl).
  destruct (N.leb_spec y2 a); [done|]. destruct (N.leb_spec b x2); [done|].
  destruct (N.leb_spec y a); [lia|]. destruct (N.leb_spec b x); [lia|].
  apply IH; simpl in *; [lia..| |]; intros i; [apply (H1 (S i))|apply (H2 (S i))].
Qed.
Lemma cover_overlaps q a b : okbox a -> okbox b -> cover a b -> bbox_overlaps q b = true -> bbox_overlaps q a = true.
Proof.
  intros Ha Hb [H1 H2]. pose proof (okbox_len_end _ Ha). pose proof (okbox_len_end _ Hb). destruct Ha as (_ & _ & Hla), Hb as (_ & _ & Hlb).
  apply overlaps_loop_mono; auto; lia.
Qed.
End boxes.
