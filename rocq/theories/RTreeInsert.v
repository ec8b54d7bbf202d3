(** Insertion, splitting and forced re-insertion preserve the invariant of the spatial index. *)
From stdpp Require Import base list list_numbers numbers option.
From Coq Require Import NArith.
From Verif Require Import NDArrayModel NullSupModel PoolModel PoolProofs BBoxModel BBoxProps RTreeModel RTreeBoxes RTreeInv.

(** What is assumed of the library functions: sorting permutes; slab counts are positive and 1 in
    one dimension (pow(n, 0) = 1). *)
Record lib_ok (L : lib) : Prop := LibOk {
  sort_perm : forall A lt (l : list A), std_sort L A lt l ≡ₚ l;
  partial_sort_perm : forall A k lt (l : list A), std_partial_sort L A k lt l ≡ₚ l;
  slab_pos : forall n d, (0 < n)%nat -> (0 < slab L n d)%nat;
  slab_one : forall n, (0 < n)%nat -> slab L n 1 = 1%nat
}.

Section ins.
Context {P : Type} (pd : P) (dims : nat) (L : lib) (HL : lib_ok L) (Bs : bbox -> Prop).
Implicit Types t : rtree P.
Local Notation okbox := (okbox dims).
Local Notation id := (nat * nat)%type.
Local Notation flat := (flat dims Bs).
Local Notation covers := (covers dims).

Definition none : nat -> Prop := fun _ => False.
Definition only (s : nat) : nat -> Prop := fun y => y = s.
Definition rooted t (an : list nat) (r : nat) : Prop :=
  t_root t = Some r /\ r ∈ an /\ forall s, s ∈ an -> (lv (get_node t) s <= lv (get_node t) r)%nat.
Lemma lv_eq t s n : get_node t s = Some n -> lv (get_node t) s = n_level n.
Proof. unfold lv. by intros ->. Qed.

(** ** recalculate_bbox *)
Lemma recalc_spec t an ae top ex s n : flat t an ae top ex -> s ∈ an -> get_node t s = Some n -> n_children n <> [] ->
  (forall c, c ∈ n_children n -> n_level n <> 0 -> ~ ex c) ->
  exists t' b, recalculate_bbox dims t s = Some t' /\ pools t' an ae /\ t_root t' = t_root t /\ t_last t' = t_last t /\ t_entries t' = t_entries t /\
    get_node t' s = Some (TNode b (n_level n) (n_children n)) /\ (forall y, y <> s -> get_node t' y = get_node t y) /\
    covers t (TNode b (n_level n) (n_children n)) /\
    (forall B, okbox B -> (forall c b', c ∈ n_children n -> get_bbox t c (n_level n) = Some b' -> cover B b') -> cover B b).
Proof.
  intros Hf Hs Hn Hne Hex. unfold recalculate_bbox. rewrite Hn. cbn [mbind option_bind].
  destruct (mapM_ex (fun c => get_bbox t c (n_level n)) (n_children n)) as (bs & -> & Hbs).
  { intros c Hc. eapply flat_id_box; [done|]. by eapply kid_in_ids. }
  cbn [mbind option_bind].
  assert (Forall okbox bs) as Hok.
  { apply list.Forall_forall. intros b Hb. apply elem_of_list_lookup in Hb as [i Hi].
    destruct (Forall2_lookup_r _ _ _ _ _ Hbs Hi) as (c & Hci & Hc). apply elem_of_list_lookup_2 in Hci.
    eapply (flat_id_okbox dims _ _ _ _ _ _ Hf (n_level n) c); [by eapply kid_in_ids|auto|exact Hc]. }
  assert (bs <> []) as Hbne.
  { intros ->. apply Forall2_nil_inv_r in Hbs. done. }
  destruct (hull_spec dims bs Hbne Hok) as (H1 & H2 & H3).
  destruct (set_node_spec t an ae s (TNode (foldl bbox_extend (bbox_reset dims) bs) (n_level n) (n_children n))) as (t' & -> & Hpt & Hr & Hla & Hen & Hg & Hgo); [by eapply f_pools|done|].
  exists t', (foldl bbox_extend (bbox_reset dims) bs). split_and!; auto.
  - split; [done|]. simpl. intros c Hc. apply elem_of_list_lookup in Hc as [i Hi]. destruct (Forall2_lookup_l _ _ _ _ _ Hbs Hi) as (b & Hb & Hcb).
    exists b. split; [done|]. rewrite list.Forall_forall in H2. apply H2. by eapply elem_of_list_lookup_2.
  - intros B HB Hall. apply H3; [done|]. apply list.Forall_forall. intros b Hb. apply elem_of_list_lookup in Hb as [i Hi].
    destruct (Forall2_lookup_r _ _ _ _ _ Hbs Hi) as (c & Hci & Hc). eapply Hall; [|exact Hc]. by eapply elem_of_list_lookup_2.
Qed.
(** ... applied to a node whose parent (if it has one) covers its children. *)
Lemma recalc_flat t an ae top (ex ex' : nat -> Prop) s n : flat t an ae top ex -> s ∈ an -> get_node t s = Some n -> n_children n <> [] ->
  (forall c, c ∈ n_children n -> n_level n <> 0 -> ~ ex c) ->
  (forall y, y ∈ an -> y <> s -> ~ ex' y -> ~ ex y) ->
  (forall p np, p ∈ an -> ~ ex' p -> get_node t p = Some np -> n_level np = S (n_level n) -> s ∈ n_children np ->
     okbox (n_box np) /\ forall c b', c ∈ n_children n -> get_bbox t c (n_level n) = Some b' -> cover (n_box np) b') ->
  exists t' b, recalculate_bbox dims t s = Some t' /\ flat t' an ae top ex' /\ t_root t' = t_root t /\ t_last t' = t_last t /\ t_entries t' = t_entries t /\
    get_node t' s = Some (TNode b (n_level n) (n_children n)) /\ (forall y, y <> s -> get_node t' y = get_node t y) /\
    covers t (TNode b (n_level n) (n_children n)) /\
    (forall B, okbox B -> (forall c b', c ∈ n_children n -> get_bbox t c (n_level n) = Some b' -> cover B b') -> cover B b).
Proof.
  intros Hf Hs Hn Hne Hex Hex' Hpar.
  destruct (recalc_spec _ _ _ _ _ _ _ Hf Hs Hn Hne Hex) as (t' & b & Hrun & Hpt & Hr & Hla & Hen & Hg & Hgo & Hcov & Hmin).
  exists t', b. split_and!; auto. eapply flat_upd; try exact Hf; eauto.
  - by apply get_entry_ext.
  - intros _ B HB. simpl. apply Hmin; [by apply (f_in _ _ _ _ _ _ _ Hf)|]. intros c b' Hc Hb'. eapply (flat_in_id dims _ _ _ _ _ _ _ (n_level n) c); [exact Hf|done|by eapply kid_in_ids|auto|exact Hb'].
  - intros p np Hp Hnp Hgp Hlp Hsp. destruct (Hpar p np Hp Hnp Hgp Hlp Hsp) as [Hok Hc]. by apply Hmin.
Qed.

(** ** split *)
Lemma eval_splits_range e cs st : (st.2 < NSPLITS)%nat -> ((eval_splits dims e cs st).2 < NSPLITS)%nat.
Proof.
  unfold eval_splits. assert (forall k, k ∈ seq 0 NSPLITS -> (k < NSPLITS)%nat) as Hk by (intros k Hk%elem_of_seq; lia).
  revert st. induction (seq 0 NSPLITS) as [|k ks IH]; intros st Hst; [done|]. cbn [foldl]. apply IH; [intros; apply Hk; by right|].
  destruct st as [[[[margin mo] mv] be] bs]. match goal with |- context [if ?c then _ else _] => destruct c end; simpl; [|done]. apply Hk. by left.
Qed.
Lemma split_axes cs best axes : (best.2 < NSPLITS)%nat ->
  exists cs' best', foldl (split_axis dims L) (cs, best) axes = (cs', best') /\ cs' ≡ₚ cs /\ (best'.2 < NSPLITS)%nat.
Proof.
  revert cs best. induction axes as [|a axes IH]; intros cs best Hb; [by exists cs, best|]. cbn [foldl].
  unfold split_axis at 2.
  set (cs1 := edge_sort L Lower a cs). set (st0 := (0%N, (W - 1)%N, (W - 1)%N, Lower, 0%nat)).
  set (s1 := eval_splits dims Lower cs1 st0). set (cs2 := edge_sort L Upper a cs1).
  assert ((eval_splits dims Upper cs2 s1).2 < NSPLITS)%nat as Hr.
  { apply eval_splits_range, eval_splits_range. unfold st0, NSPLITS, MAXN, MINN. simpl. lia. }
  destruct (eval_splits dims Upper cs2 s1) as [[[[margin mo] mv] be] bs]. simpl in Hr.
  destruct (IH cs2 (if (margin <? best.1.1.1)%N then (margin, a, be, bs) else best)) as (cs' & best' & Hf & Hp & Hb').
  { by destruct (margin <? best.1.1.1)%N. }
  exists cs', best'. split_and!; auto. rewrite Hp. unfold cs2, cs1, edge_sort. by rewrite !(sort_perm _ HL).
Qed.

Lemma nkids_take_drop (bs : list (nat * bbox)) (k lvl : nat) :
  ((fun c => (lvl, c)) <$> (take k bs).*1) ++ ((fun c => (lvl, c)) <$> (drop k bs).*1) = (fun c => (lvl, c)) <$> bs.*1.
Proof. by rewrite <- !fmap_app, take_drop. Qed.

Lemma split_spec t an ae top s n : flat t an ae top none -> s ∈ an -> get_node t s = Some n -> length (n_children n) = 11 ->
  exists s' t' b1 b2 cs1 cs2, split dims L t s = Some (s', t') /\ s' ∉ an /\
    flat t' (an ++ [s']) ae ((S (n_level n), s') :: top) none /\
    t_root t' = t_root t /\ t_last t' = t_last t /\ t_entries t' = t_entries t /\
    (forall y, y ∈ an -> y <> s -> get_node t' y = get_node t y) /\
    get_node t' s = Some (TNode b1 (n_level n) cs1) /\ get_node t' s' = Some (TNode b2 (n_level n) cs2) /\
    (2 <= length cs1 <= 9)%nat /\ (2 <= length cs2 <= 9)%nat /\
    cover (n_box n) b1 /\ cover (n_box n) b2.
Proof.
  intros Hf Hs Hn Hlen. unfold split. rewrite Hn. cbn [mbind option_bind]. rewrite Hlen, Nat.eqb_refl.
  destruct (boxed_spec t (n_level n) (n_children n)) as (bs & -> & Hbs1 & Hbs2).
  { intros c Hc. eapply flat_id_box; [done|]. by eapply kid_in_ids. }
  cbn [mbind option_bind].
  destruct (split_axes bs ((W - 1)%N, 0%nat, Lower, 0%nat) (seq 0 dims)) as (cs1 & [[[mg axis] e] k] & -> & Hp1 & Hk).
  { unfold NSPLITS, MAXN, MINN. simpl. lia. }
  simpl in Hk.
  set (cs2 := match e with Lower => edge_sort L Lower axis cs1 | Upper => if (axis =? dims - 1)%nat then cs1 else edge_sort L Upper axis cs1 end).
  assert (cs2 ≡ₚ bs) as Hp2.
  { unfold cs2. destruct e; [|destruct (axis =? dims - 1)%nat]; unfold edge_sort; rewrite ?(sort_perm _ HL); done. }
  assert (cs2.*1 ≡ₚ n_children n) as Hp3 by (by rewrite Hp2, Hbs1).
  assert (length cs2 = 11%nat) as Hl2 by (rewrite <- Hlen, <- Hp3; by rewrite fmap_length).
  assert (2 <= MINN + k <= 9)%nat as Hk2 by (unfold NSPLITS, MAXN, MINN in *; lia).
  set (K := (MINN + k)%nat) in *. clearbody K cs2. clear Hk Hp1 cs1 mg axis e k.
  set (c1 := (take K cs2).*1). set (c2 := (drop K cs2).*1).
  assert (length c1 = K /\ length c2 = (11 - K)%nat) as [Hlc1 Hlc2].
  { unfold c1, c2. rewrite !fmap_length, take_length, drop_length. lia. }
  assert (((fun c => (n_level n, c)) <$> c1) ++ ((fun c => (n_level n, c)) <$> c2) ≡ₚ nkids n) as Hk12.
  { unfold c1, c2. rewrite nkids_take_drop. unfold nkids. by rewrite Hp3. }
  assert (forall c, c ∈ c1 -> c ∈ n_children n) as Hsub1.
  { intros c Hc. rewrite <- Hp3. rewrite <- (take_drop K cs2), fmap_app. apply elem_of_app. by left. }
  assert (forall c, c ∈ c2 -> c ∈ n_children n) as Hsub2.
  { intros c Hc. rewrite <- Hp3. rewrite <- (take_drop K cs2), fmap_app. apply elem_of_app. by right. }
  destruct (f_cov _ _ _ _ _ _ _ Hf s n Hs ltac:(auto) Hn) as [Hokn Hcovn].
  (* keep the first part *)
  destruct (set_node_spec t an ae s (TNode (n_box n) (n_level n) c1)) as (t1 & -> & Hpt1 & Hr1 & Hla1 & Hen1 & Hg1 & Hgo1); [by eapply f_pools|done|].
  cbn [mbind option_bind].
  assert (flat t1 an ae (((fun c => (n_level n, c)) <$> c2) ++ top) none) as Hf1.
  { eapply flat_upd; try exact Hf; eauto.
    - by apply get_entry_ext.
    - unfold nkids at 1. simpl. by rewrite app_assoc, Hk12.
    - intros _. split; simpl; [done|]. intros c Hc. apply Hcovn. auto.
    - simpl. intros _ B HB. destruct (f_in _ _ _ _ _ _ _ Hf B HB) as (_ & Hb & _). eapply Hb; eauto.
    - simpl. intros p np Hp _ Hgp Hlp Hsp. destruct (f_cov _ _ _ _ _ _ _ Hf p np Hp ltac:(auto) Hgp) as [_ Hc]. destruct (Hc s Hsp) as (b & Hb & Hcb).
      unfold get_bbox in Hb. rewrite Hlp in Hb. simpl in Hb. rewrite Hn in Hb. simpl in Hb. by injection Hb as <-. }
  (* build the second part *)
  destruct (build_new_node_spec dims t1 an ae (n_level n) c2) as (s' & t2 & -> & Hpt2 & Hs' & Hr2 & Hla2 & Hen2 & Hg2 & Hgo2); [done|lia|].
  cbn [mbind option_bind].
  assert (flat t2 (an ++ [s']) ae ((S (n_level n), s') :: top) (only s')) as Hf2.
  { eapply flat_new; try exact Hf1; eauto.
    - by apply get_entry_ext.
    - unfold nkids. simpl. by rewrite <- Permutation_middle.
    - intros H. by destruct H.
    - intros H. by destruct H. }
  assert (s <> s') as Hss' by (intros ->; done).
  assert (s ∈ an ++ [s']) as Hsin by (apply elem_of_app; by left).
  assert (s' ∈ an ++ [s']) as Hsin' by (apply elem_of_app; right; by apply elem_of_list_singleton).
  assert (forall c, c ∈ n_children n -> n_level n <> 0 -> c ∈ an /\ c <> s) as Hkid.
  { intros c Hc Hl0. destruct (flat_child dims _ _ _ _ _ _ Hf s n c Hs Hn Hc) as [[? _]|[Hca (mc & Hgc & Hlc)]]; [done|]. split; [done|].
    intros ->. rewrite Hn in Hgc. injection Hgc as <-. lia. }
  assert (forall c b, c ∈ n_children n -> get_bbox t2 c (n_level n) = Some b -> cover (n_box n) b) as Hcovt2.
  { intros c b Hc Hb. destruct (Hcovn c Hc) as (b' & Hb' & Hcb). assert (get_bbox t2 c (n_level n) = get_bbox t c (n_level n)) as Heq.
    { apply get_bbox_ext.
      - intros _. rewrite (get_entry_ext t1 t2 Hen2). by apply get_entry_ext.
      - intros Hl0. destruct (Hkid c Hc Hl0) as [Hca Hcs]. rewrite Hgo2 by done. by apply Hgo1. }
    rewrite Heq, Hb' in Hb. by injection Hb as <-. }
  destruct (recalc_flat t2 (an ++ [s']) ae ((S (n_level n), s') :: top) (only s') none s' (TNode (bbox_reset dims) (n_level n) c2))
    as (t3 & b2 & -> & Hf3 & Hr3 & Hla3 & Hen3 & Hg3 & Hgo3 & Hcov3 & Hmin3); auto; simpl.
  { intros Hc2. rewrite Hc2 in Hlc2. simpl in Hlc2. lia. }
  { intros c Hc Hl0 ->. by destruct (Hkid s' (Hsub2 _ Hc) Hl0). }
  { intros p np Hp _ Hgp Hlp Hsp. exfalso. eapply (top_no_parent dims); [exact Hf2|exact Hp|exact Hgp|exact Hsp|]. rewrite Hlp. by left. }
  cbn [mbind option_bind]. simpl in Hg3.
  assert (get_node t3 s = Some (TNode (n_box n) (n_level n) c1)) as Hg3s.
  { rewrite Hgo3 by done. by rewrite Hgo2 by done. }
  assert (cover (n_box n) b2) as Hcb2.
  { apply Hmin3; [done|]. simpl. intros c b Hc Hb. eapply Hcovt2; eauto. }
  assert (forall c, c ∈ c1 -> n_level n <> 0 -> get_node t3 c = get_node t2 c) as Hgc1.
  { intros c Hc Hl0. apply Hgo3. intros ->. by destruct (Hkid s' (Hsub1 _ Hc) Hl0). }
  assert (forall c b, c ∈ c1 -> get_bbox t3 c (n_level n) = Some b -> cover (n_box n) b) as Hcovt3.
  { intros c b Hc Hb. eapply (Hcovt2 c); [auto|]. rewrite <- Hb. symmetry. apply get_bbox_ext; [|auto]. intros _. by apply get_entry_ext. }
  destruct (recalc_flat t3 (an ++ [s']) ae ((S (n_level n), s') :: top) none none s (TNode (n_box n) (n_level n) c1))
    as (t4 & b1 & -> & Hf4 & Hr4 & Hla4 & Hen4 & Hg4 & Hgo4 & Hcov4 & Hmin4); auto; simpl.
  { intros Hc1. rewrite Hc1 in Hlc1. simpl in Hlc1. lia. }
  { intros p np Hp _ Hgp Hlp Hsp. destruct (f_cov _ _ _ _ _ _ _ Hf3 p np Hp ltac:(auto) Hgp) as [Hokp Hc]. destruct (Hc s Hsp) as (b & Hb & Hcb).
    unfold get_bbox in Hb. rewrite Hlp in Hb. simpl in Hb. rewrite Hg3s in Hb. simpl in Hb. injection Hb as <-.
    split; [done|]. intros c' b' Hc' Hb'. eapply (cover_trans dims _ (n_box n)); auto.
    - eapply (flat_id_okbox dims _ _ _ _ _ _ Hf3 (n_level n) c'); [|auto|exact Hb']. eapply (kid_in_ids dims _ _ _ _ _ _ Hf3 s (TNode (n_box n) (n_level n) c1)); eauto.
    - eapply Hcovt3; eauto. }
  cbn [mbind option_bind]. simpl in Hg4.
  exists s', t4, b1, b2, c1, c2. split_and!; auto; try lia; try congruence.
  - intros y Hy Hys. rewrite Hgo4 by done. rewrite Hgo3 by (intros ->; done). rewrite Hgo2 by done. by apply Hgo1.
  - by rewrite Hgo4 by done.
Qed.
Context (m : nat) (Hm : (m <= 2)%nat).
(** Between [m] and MAXN children (the root: at least one, two if it is not a leaf); [ov] may have one too many. *)
Definition occ t (an : list nat) (r : nat) (ov : nat -> Prop) : Prop :=
  forall s n, s ∈ an -> get_node t s = Some n ->
    (1 <= length (n_children n) <= 11)%nat /\ (~ ov s -> (length (n_children n) <= 10)%nat) /\
    (s <> r -> (m <= length (n_children n))%nat) /\ (s = r -> (0 < n_level n)%nat -> (2 <= length (n_children n))%nat).


Lemma occ_weaken t an r (ov ov' : nat -> Prop) : occ t an r ov -> (forall s, ov s -> ov' s) -> occ t an r ov'.
Proof. intros H Hov s n Hs Hn. destruct (H s n Hs Hn) as (H1 & H2 & H3 & H4). split_and!; auto; lia. Qed.
(** Occupancy after changing one node. *)
Lemma occ_upd t t' an r (ov ov' : nat -> Prop) s n' : occ t an r ov -> (forall y, y ∈ an -> y <> s -> get_node t' y = get_node t y) -> get_node t' s = Some n' ->
  (forall y, y ∈ an -> y <> s -> ov y -> ov' y) ->
  ((1 <= length (n_children n') <= 11)%nat /\ (~ ov' s -> (length (n_children n') <= 10)%nat) /\
    (s <> r -> (m <= length (n_children n'))%nat) /\ (s = r -> (0 < n_level n')%nat -> (2 <= length (n_children n'))%nat)) ->
  occ t' an r ov'.
Proof.
  intros H Ho Hn' Hov Hnew y n Hy Hn. destruct (decide (y = s)) as [->|Hne].
  - rewrite Hn' in Hn. by injection Hn as <-.
  - rewrite Ho in Hn by done. destruct (H y n Hy Hn) as (H1 & H2 & H3 & H4). split_and!; auto; lia.
Qed.
Lemma rooted_ext t t' an r : rooted t an r -> t_root t' = t_root t -> (forall s, s ∈ an -> lv (get_node t') s = lv (get_node t) s) -> rooted t' an r.
Proof. intros (H1 & H2 & H3) Hr Hl. split_and!; [congruence|done|]. intros s Hs. rewrite !Hl by done. auto. Qed.

(** What insertion below (or overflow of) node [st] of level [lvl] leaves behind: nothing to do, or a
    new sibling of that node waiting for insertion, within [B]. *)
Definition post t (an ae : list nat) (r : nat) (pend : list id) (st lvl : nat) (B : bbox -> Prop) (res : option nat) t' : Prop :=
  exists new, t_last t' = t_last t /\ t_entries t' = t_entries t /\ (forall y, y ∈ an -> lv (get_node t') y = lv (get_node t) y) /\
  match res with
  | None => exists r', rooted t' (an ++ new) r' /\ flat t' (an ++ new) ae ((S (lv (get_node t') r'), r') :: pend) none /\ occ t' (an ++ new) r' none
  | Some s' => rooted t' (an ++ new) r /\ flat t' (an ++ new) ae ((S lvl, s') :: (S (lv (get_node t') r), r) :: pend) none /\ occ t' (an ++ new) r none /\ st <> r /\
      (forall y, y ∈ an -> (lvl < lv (get_node t) y)%nat -> get_node t' y = get_node t y) /\
      exists n', get_node t' s' = Some n' /\ n_level n' = lvl /\ forall b, B b -> cover b (n_box n')
  end.

Definition ovf_ok (overflow : rtree P -> nat -> option (option nat * rtree P)) : Prop :=
  forall t an ae r pend s n, rooted t an r -> flat t an ae ((S (lv (get_node t) r), r) :: pend) none -> occ t an r (only s) ->
    s ∈ an -> get_node t s = Some n -> length (n_children n) = 11 ->
    exists res t', overflow t s = Some (res, t') /\ post t an ae r pend s (n_level n) (fun b => okbox b /\ cover b (n_box n)) res t'.

Lemma overflow_split_ok : ovf_ok (overflow_split dims L).
Proof.
  intros t an ae r pend s n (Hroot & Hr & Hlv) Hf Hocc Hs Hn Hlen. unfold overflow_split. rewrite Hn. cbn [mbind option_bind]. rewrite Hlen, Nat.eqb_refl.
  destruct (split_spec _ _ _ _ _ _ Hf Hs Hn Hlen) as (s' & t1 & b1 & b2 & cs1 & cs2 & -> & Hs' & Hf1 & Hr1 & Hla1 & Hen1 & Hgo1 & Hg1 & Hg1' & Hl1 & Hl2 & Hc1 & Hc2).
  cbn [mbind option_bind].
  assert (forall y, y ∈ an -> lv (get_node t1) y = lv (get_node t) y) as Hlv1.
  { intros y Hy. destruct (decide (y = s)) as [->|Hne]; [by rewrite (lv_eq _ _ _ Hn), (lv_eq _ _ _ Hg1)|]. unfold lv. by rewrite Hgo1. }
  assert (s <> s') as Hss' by (intros ->; done).
  destruct (decide (t_root t1 = Some s)) as [Hrt|Hrt].
  - rewrite bool_decide_eq_true_2 by done. rewrite Hg1. cbn [mbind option_bind n_level].
    assert (s = r) as -> by congruence.
    destruct (build_new_node_spec dims t1 (an ++ [s']) ae (n_level n + 1) [r; s']) as (q & t2 & -> & Hpt2 & Hq & Hr2 & Hla2 & Hen2 & Hg2 & Hgo2); [by eapply f_pools|simpl; lia|].
    cbn [mbind option_bind].
    assert (flat t2 ((an ++ [s']) ++ [q]) ae ((S (S (n_level n)), q) :: pend) (only q)) as Hf2.
    { eapply flat_new; try exact Hf1; eauto.
      - by apply get_entry_ext.
      - unfold nkids. simpl. rewrite (lv_eq _ _ _ Hn), Nat.add_1_r.
        rewrite (perm_swap (S (S (n_level n)), q)). rewrite perm_swap. apply perm_skip, perm_swap.
      - intros H. by destruct H.
      - intros H. by destruct H. }
    assert (r ∈ an ++ [s']) as Hrin by (apply elem_of_app; by left).
    assert (s' ∈ an ++ [s']) as Hsin by (apply elem_of_app; right; by apply elem_of_list_singleton).
    destruct (recalc_flat t2 ((an ++ [s']) ++ [q]) ae ((S (S (n_level n)), q) :: pend) (only q) none q (TNode (bbox_reset dims) (n_level n + 1) [r; s']))
      as (t3 & b3 & -> & Hf3 & Hr3 & Hla3 & Hen3 & Hg3 & Hgo3 & Hcov3 & Hmin3); auto; simpl.
    { apply elem_of_app; right; by apply elem_of_list_singleton. }
    { intros c Hc _ ->. apply Hq. apply elem_of_cons in Hc as [->|Hc]; [done|]. by apply elem_of_list_singleton in Hc as ->. }
    { intros p np Hp _ Hgp Hlp Hsp. exfalso. eapply (top_no_parent dims); [exact Hf2|exact Hp|exact Hgp|exact Hsp|]. rewrite Hlp, Nat.add_1_r. by left. }
    cbn [mbind option_bind]. simpl in Hg3. eexists None, _. split; [done|]. exists [s'; q].
    replace (an ++ [s'; q]) with ((an ++ [s']) ++ [q]) by (by rewrite <- app_assoc).
    unfold set_root; cbn [t_last t_entries].
    assert (forall y, y ∈ an ++ [s'] -> get_node t3 y = get_node t1 y) as Hg31.
    { intros y Hy. rewrite Hgo3 by (intros ->; done). by apply Hgo2. }
    split_and!; [congruence..| |].
    { intros y Hy. change (get_node (RTree _ _ (t_nodes t3) _)) with (get_node t3). rewrite <- Hlv1 by done. unfold lv. rewrite Hg31; [done|]. apply elem_of_app. by left. }
    exists q.
    assert (lv (get_node t3) q = S (n_level n)) as Hlq by (rewrite (lv_eq _ _ _ Hg3); simpl; lia).
    assert (forall y, y ∈ an ++ [s'] -> (lv (get_node t3) y <= n_level n)%nat) as Hlow.
    { intros y Hy. unfold lv. rewrite Hg31 by done. fold (lv (get_node t1) y). apply elem_of_app in Hy as [Hy|Hy].
      - rewrite Hlv1 by done. specialize (Hlv y Hy). rewrite (lv_eq _ _ _ Hn) in Hlv. done.
      - apply elem_of_list_singleton in Hy as ->. rewrite (lv_eq _ _ _ Hg1'). done. }
    split_and!.
    + split_and!; simpl; [done|apply elem_of_app; right; by apply elem_of_list_singleton|].
      intros y Hy. change (get_node (RTree _ _ (t_nodes t3) _)) with (get_node t3). rewrite Hlq. apply elem_of_app in Hy as [Hy|Hy]; [specialize (Hlow y Hy); lia|].
      apply elem_of_list_singleton in Hy as ->. by rewrite Hlq.
    + change (get_node (RTree _ _ (t_nodes t3) _)) with (get_node t3). rewrite Hlq. destruct Hf3 as [A1 A2 A3 A4 A5 A6]. split; auto.
    + change (occ t3 ((an ++ [s']) ++ [q]) q none).
      intros y ny Hy Hny. apply elem_of_app in Hy as [Hy|Hy].
      * rewrite Hg31 in Hny by done. apply elem_of_app in Hy as [Hy|Hy].
        -- destruct (decide (y = r)) as [->|Hne].
           ++ rewrite Hg1 in Hny. injection Hny as <-. simpl. split_and!; intros; lia.
           ++ rewrite Hgo1 in Hny by done. destruct (Hocc y ny Hy Hny) as (O1 & O2 & O3 & O4). split_and!; auto; try lia. intros Hyq. exfalso. apply Hq. rewrite <- Hyq. apply elem_of_app. by left.
        -- apply elem_of_list_singleton in Hy as ->. rewrite Hg1' in Hny. injection Hny as <-. simpl. split_and!; intros; lia.
      * apply elem_of_list_singleton in Hy as ->. rewrite Hg3 in Hny. injection Hny as <-. simpl. split_and!; intros; try lia.
  - rewrite bool_decide_eq_false_2 by done. exists (Some s'), t1. split; [done|]. exists [s'].
    assert (s <> r) as Hsr by (intros ->; congruence).
    assert (rooted t1 (an ++ [s']) r) as Hrt1.
    { split_and!; [congruence|apply elem_of_app; by left|]. rewrite (Hlv1 r) by done. intros y Hy. apply elem_of_app in Hy as [Hy|Hy]; [rewrite Hlv1 by done; auto|].
      apply elem_of_list_singleton in Hy as ->. rewrite (lv_eq _ _ _ Hg1'). simpl. rewrite <- (lv_eq _ _ _ Hn). auto. }
    split_and!; [congruence|congruence|done|done| | |done| |].
    + rewrite (Hlv1 r) by done. done.
    + intros y ny Hy Hny. apply elem_of_app in Hy as [Hy|Hy].
      * destruct (decide (y = s)) as [->|Hne].
        -- rewrite Hg1 in Hny. injection Hny as <-. simpl. split_and!; intros; try lia; done.
        -- rewrite Hgo1 in Hny by done. destruct (Hocc y ny Hy Hny) as (O1 & O2 & O3 & O4). split_and!; auto; lia.
      * apply elem_of_list_singleton in Hy as ->. rewrite Hg1' in Hny. injection Hny as <-. simpl. split_and!; intros; try lia.
    + intros y Hy Hly. apply Hgo1; [done|]. intros ->. rewrite (lv_eq _ _ _ Hn) in Hly. lia.
    + eexists. split_and!; [exact Hg1'|done|]. intros b [Hb1 Hb2]. simpl. eapply (cover_trans dims _ (n_box n)); auto.
      * by apply (f_cov _ _ _ _ _ _ _ Hf s n Hs ltac:(auto) Hn).
      * refine (proj1 (f_cov _ _ _ _ _ _ _ Hf1 s' _ _ _ Hg1')); [|auto]. apply elem_of_app. right. by apply elem_of_list_singleton.
Qed.

(** ** choose_subtree *)
Lemma min_element_in {A} (lt : A -> A -> bool) l x : min_element lt l = Some x -> x ∈ l.
Proof.
  destruct l as [|y l]; simpl; [done|]. intros [= <-].
  assert (forall acc, foldl (fun best z => if lt z best then z else best) acc l = acc \/ foldl (fun best z => if lt z best then z else best) acc l ∈ l) as H.
  { induction l as [|z l IH]; intros acc; simpl; [by left|]. destruct (IH (if lt z acc then z else acc)) as [Heq|Hin].
    - rewrite Heq. destruct (lt z acc); [right; by left|by left].
    - right. by right. }
  destruct (H y) as [->|Hin]; [by left|by right].
Qed.
Lemma min_element_some {A} (lt : A -> A -> bool) l : l <> [] -> exists x, min_element lt l = Some x.
Proof. destruct l; [done|]. simpl. eauto. Qed.
Lemma choose_subtree_spec t an ae top s n slot level add : flat t an ae top none -> s ∈ an -> get_node t s = Some n ->
  n_children n <> [] -> (0 < n_level n)%nat -> get_bbox t slot level = Some add ->
  exists c, choose_subtree t slot level s = Some c /\ c ∈ n_children n.
Proof.
  intros Hf Hs Hn Hne Hl Hadd. unfold choose_subtree. rewrite Hn. cbn [mbind option_bind]. rewrite Hadd. cbn [mbind option_bind].
  destruct (Nat.ltb_spec 0 (n_level n)) as [_|]; [|lia].
  destruct (n_children n) as [|c0 cs] eqn:Hcs; [done|]. cbn [head mbind option_bind].
  destruct (flat_child dims _ _ _ _ _ _ Hf s n c0 Hs Hn ltac:(rewrite Hcs; by left)) as [[? _]|[_ (mc & -> & _)]]; [lia|]. cbn [mbind option_bind].
  destruct (boxed_spec t (n_level n) (n_children n)) as (bs & Hb & Hbs1 & _).
  { intros c Hc. eapply flat_id_box; [done|]. by eapply kid_in_ids. }
  rewrite Hcs in Hb. rewrite Hb. cbn [mbind option_bind].
  assert (bs <> []) as Hbne by (intros ->; simpl in Hbs1; congruence).
  assert (forall x : nat * bbox, x ∈ bs -> x.1 ∈ c0 :: cs) as Hin.
  { intros x Hx. rewrite <- Hcs, <- Hbs1. apply elem_of_list_fmap. eauto. }
  destruct (n_level mc =? 0)%nat; unfold find_min_overlap, find_min_volume.
  - edestruct (min_element_some (A := nat * bbox)) as [x Hx]; [exact Hbne|]. rewrite Hx. eexists. split; [done|]. apply Hin. by eapply min_element_in.
  - edestruct (min_element_some (A := nat * bbox)) as [x Hx]; [exact Hbne|]. rewrite Hx. eexists. split; [done|]. apply Hin. by eapply min_element_in.
Qed.

(** The parent of a node covers it. *)
Lemma parent_cover t an ae top p np c nc : flat t an ae top none -> p ∈ an -> get_node t p = Some np -> c ∈ n_children np ->
  get_node t c = Some nc -> n_level np = S (n_level nc) -> cover (n_box np) (n_box nc).
Proof.
  intros Hf Hp Hnp Hc Hnc Hl. destruct (f_cov _ _ _ _ _ _ _ Hf p np Hp ltac:(auto) Hnp) as [_ Hcov].
  destruct (Hcov c Hc) as (b & Hb & Hcb). unfold get_bbox in Hb. rewrite Hl in Hb. simpl in Hb. rewrite Hnc in Hb. simpl in Hb. by injection Hb as <-.
Qed.
Lemma node_ok t an ae top s n : flat t an ae top none -> s ∈ an -> get_node t s = Some n -> okbox (n_box n).
Proof. intros Hf Hs Hn. by apply (f_cov _ _ _ _ _ _ _ Hf s n Hs ltac:(auto) Hn). Qed.
Lemma in_box t an ae top s n B : flat t an ae top none -> s ∈ an -> get_node t s = Some n -> Bs B -> cover B (n_box n).
Proof. intros Hf Hs Hn HB. destruct (f_in _ _ _ _ _ _ _ Hf B HB) as (_ & H & _). eapply H; eauto. Qed.

(** ** insert_slot *)
Definition insert_pre t (an ae : list nat) (r : nat) (pend : list id) (slot level start : nat) (n : tnode) (add : bbox) : Prop :=
  rooted t an r /\ flat t an ae ((S (lv (get_node t) r), r) :: (level, slot) :: pend) none /\ occ t an r none /\
  start ∈ an /\ get_node t start = Some n /\ (level <= n_level n)%nat /\ get_bbox t slot level = Some add /\
  (forall p np, p ∈ an -> get_node t p = Some np -> n_level np = S (n_level n) -> start ∈ n_children np -> cover (n_box np) add).

Lemma post_weaken t an ae r pend st lvl (B B' : bbox -> Prop) res t' : post t an ae r pend st lvl B res t' -> (forall b, B' b -> B b) -> post t an ae r pend st lvl B' res t'.
Proof.
  intros (new & H1 & H2 & HLV & H3) HB. exists new. split_and!; auto. destruct res as [s'|]; [|done].
  destruct H3 as (K1 & K2 & K3 & K0 & K4 & n' & K5 & K6 & K7). split_and!; auto. exists n'. split_and!; auto.
Qed.
Lemma post_pre t t0 an new0 ae r pend st lvl (B : bbox -> Prop) res t' : post t (an ++ new0) ae r pend st lvl B res t' ->
  t_last t = t_last t0 -> t_entries t = t_entries t0 ->
  (forall y, y ∈ an -> lv (get_node t) y = lv (get_node t0) y) ->
  (forall y, y ∈ an -> (lvl < lv (get_node t0) y)%nat -> get_node t y = get_node t0 y) -> post t0 an ae r pend st lvl B res t'.
Proof.
  intros (new & H1 & H2 & HLV & H3) Hla Hen HLV0 Hg. exists (new0 ++ new). rewrite app_assoc. split_and!; [congruence..| |].
  { intros y Hy. rewrite HLV, HLV0; [done..|]. apply elem_of_app. by left. }
  destruct res as [s'|]; [|done].
  destruct H3 as (K1 & K2 & K3 & K0 & K4 & K5). split_and!; auto. intros y Hy Hl. rewrite K4; auto.
  - apply elem_of_app. by left.
  - unfold lv. rewrite Hg by done. done.
Qed.

Lemma add_child_ok n c : (length (n_children n) <= 10)%nat -> add_child n c = Some (TNode (n_box n) (n_level n) (n_children n ++ [c])).
Proof. intros H. unfold add_child. destruct (Nat.leb_spec (length (n_children n)) MAXN) as [_|H']; [done|unfold MAXN in H'; lia]. Qed.

(** Adding a waiting node or entry to [s], then treating an overflow. *)
Lemma add_to_node overflow t an ae r pend s n c b : ovf_ok overflow ->
  rooted t an r -> flat t an ae ((S (lv (get_node t) r), r) :: (n_level n, c) :: pend) none -> occ t an r none ->
  s ∈ an -> get_node t s = Some n -> get_bbox t c (n_level n) = Some b ->
  forall b', okbox b' -> cover b' (n_box n) -> cover b' b ->
  (forall B, Bs B -> cover B b') ->
  (forall p np, p ∈ an -> get_node t p = Some np -> n_level np = S (n_level n) -> s ∈ n_children np -> cover (n_box np) b') ->
  exists n2 t1 res t', add_child (TNode b' (n_level n) (n_children n)) c = Some n2 /\ set_node t s n2 = Some t1 /\
    (if (MAXN <? length (n_children n2))%nat then overflow t1 s else Some (None, t1)) = Some (res, t') /\
    post t an ae r pend s (n_level n) (fun B => okbox B /\ cover B b') res t'.
Proof.
  intros Hov Hrt Hf Hocc Hs Hn Hb b' Hok' Hcn Hcb HBs Hpar.
  destruct (Hocc s n Hs Hn) as (O1 & O2 & O3 & O4). specialize (O2 ltac:(auto)).
  rewrite add_child_ok by (simpl; lia). set (n2 := TNode b' (n_level n) (n_children n ++ [c])).
  destruct (set_node_spec t an ae s n2) as (t1 & Hset & Hpt1 & Hr1 & Hla1 & Hen1 & Hg1 & Hgo1); [by eapply f_pools|done|].
  assert (forall y, y ∈ an -> lv (get_node t1) y = lv (get_node t) y) as Hlv1.
  { intros y Hy. destruct (decide (y = s)) as [->|Hne]; [by rewrite (lv_eq _ _ _ Hn), (lv_eq _ _ _ Hg1)|]. unfold lv. by rewrite Hgo1. }
  assert (okbox (n_box n)) as Hokn by (by eapply node_ok).
  assert (flat t1 an ae ((S (lv (get_node t1) r), r) :: pend) none) as Hf1.
  { rewrite Hlv1 by apply Hrt. eapply flat_upd; try exact Hf; eauto.
    - by apply get_entry_ext.
    - unfold nkids. simpl. rewrite fmap_app. simpl. rewrite <- app_assoc. apply Permutation_app_head. simpl. apply perm_swap.
    - intros _. split; [done|]. simpl. intros c' Hc'. apply elem_of_app in Hc' as [Hc'|Hc'].
      + destruct (f_cov _ _ _ _ _ _ _ Hf s n Hs ltac:(auto) Hn) as [_ Hcov]. destruct (Hcov c' Hc') as (b0 & Hb0 & Hcb0). exists b0. split; [done|].
        eapply (cover_trans dims _ (n_box n)); eauto.
        eapply (flat_id_okbox dims _ _ _ _ _ _ Hf (n_level n) c'); [by eapply kid_in_ids|auto|done].
      + apply elem_of_list_singleton in Hc' as ->. eauto. }
  assert (occ t1 an r (fun y => y = s /\ (10 < length (n_children n2))%nat)) as Hocc1.
  { eapply (occ_upd t); eauto.
    - intros y _ _ Hno. by destruct Hno.
    - unfold n2. simpl. rewrite app_length. simpl. split_and!; intros; lia. }
  assert (rooted t1 an r) as Hrt1 by (by eapply rooted_ext).
  exists n2, t1. assert (length (n_children n2) = S (length (n_children n))) as Hln2 by (unfold n2; simpl; rewrite app_length; simpl; lia).
  destruct (Nat.ltb_spec MAXN (length (n_children n2))) as [Hgt|Hle]; unfold MAXN in *.
  - destruct (Hov t1 an ae r pend s n2 Hrt1 Hf1) as (res & t' & Hrun & Hpost); auto; [|lia|].
    { eapply occ_weaken; [exact Hocc1|]. intros y [-> _]. done. }
    exists res, t'. split_and!; auto. change (n_level n2) with (n_level n) in Hpost. change (n_box n2) with b' in Hpost.
    eapply (post_pre t1 t an []); [by rewrite app_nil_r|done|done|done|]. intros y Hy Hly. apply Hgo1. intros ->. rewrite (lv_eq _ _ _ Hn) in Hly. lia.
  - exists None, t1. split_and!; auto. exists []. rewrite app_nil_r. split_and!; auto. exists r. split_and!; auto.
    eapply occ_weaken; [exact Hocc1|]. intros y [_ H]. lia.
Qed.

Lemma insert_slot_spec overflow fuel t an ae r pend slot level start n add : ovf_ok overflow ->
  insert_pre t an ae r pend slot level start n add -> (n_level n < fuel)%nat ->
  exists res t', insert_slot_with overflow fuel t slot level start = Some (res, t') /\
    post t an ae r pend start (n_level n) (fun b => okbox b /\ cover b (n_box n) /\ cover b add) res t'.
Proof.
  intros Hov. revert t an pend start n. induction fuel as [|fuel IH]; intros t an pend start n Hpre Hfuel; [lia|].
  destruct Hpre as (Hrt & Hf & Hocc & Hs & Hn & Hlvl & Hadd & Hpar). cbn [insert_slot_with]. rewrite Hn. cbn [mbind option_bind].
  destruct (Nat.leb_spec level (n_level n)) as [_|]; [|lia]. rewrite Hadd. cbn [mbind option_bind].
  assert (okbox (n_box n)) as Hokn by (by eapply node_ok).
  assert ((level, slot) ∈ ids (get_node t) an ae) as Hidin by (eapply (top_in_ids dims _ _ _ _ _ _ Hf); right; left).
  assert (okbox add) as Hokadd by (eapply (flat_id_okbox dims _ _ _ _ _ _ Hf level slot); [done|auto|done]).
  destruct (extend_spec dims _ _ Hokn Hokadd) as (Hx1 & Hx2 & Hx3 & Hx4).
  set (bx := bbox_extend (n_box n) add) in *.
  assert (forall B, Bs B -> cover B bx) as HBx.
  { intros B HB. apply Hx4; [by apply (f_in _ _ _ _ _ _ _ Hf)|by eapply in_box|]. eapply (flat_in_id dims _ _ _ _ _ _ _ level slot); eauto. }
  assert (forall p np, p ∈ an -> get_node t p = Some np -> n_level np = S (n_level n) -> start ∈ n_children np -> cover (n_box np) bx) as Hparx.
  { intros p np Hp Hgp Hlp Hcp. apply Hx4; [by eapply node_ok|by eapply parent_cover|eauto]. }
  destruct (Nat.eqb_spec (n_level n) level) as [Heq|Hne].
  - subst level.
    destruct (add_to_node overflow t an ae r pend start n slot add Hov Hrt Hf Hocc Hs Hn Hadd bx) as (n2 & t1 & res & t' & -> & Hset & Hrun & Hpost); auto.
    cbn [mbind option_bind]. rewrite Hset. cbn [mbind option_bind]. exists res, t'. split; [done|].
    eapply post_weaken; [exact Hpost|]. intros b (Hb1 & Hb2 & Hb3). auto.
  - set (n1 := TNode bx (n_level n) (n_children n)).
    destruct (set_node_spec t an ae start n1) as (t1 & -> & Hpt1 & Hr1 & Hla1 & Hen1 & Hg1 & Hgo1); [by eapply f_pools|done|].
    cbn [mbind option_bind].
    assert (forall y, y ∈ an -> lv (get_node t1) y = lv (get_node t) y) as Hlv1.
    { intros y Hy. destruct (decide (y = start)) as [->|Hne']; [by rewrite (lv_eq _ _ _ Hn), (lv_eq _ _ _ Hg1)|]. unfold lv. by rewrite Hgo1. }
    assert (flat t1 an ae ((S (lv (get_node t1) r), r) :: (level, slot) :: pend) none) as Hf1.
    { rewrite Hlv1 by apply Hrt. eapply flat_upd; try exact Hf; eauto.
      - by apply get_entry_ext.
      - intros _. split; [done|]. simpl. intros c' Hc'.
        destruct (f_cov _ _ _ _ _ _ _ Hf start n Hs ltac:(auto) Hn) as [_ Hcov]. destruct (Hcov c' Hc') as (b0 & Hb0 & Hcb0). exists b0. split; [done|].
        eapply (cover_trans dims _ (n_box n)); eauto.
        eapply (flat_id_okbox dims _ _ _ _ _ _ Hf (n_level n) c'); [by eapply kid_in_ids|auto|done]. }
    assert (occ t1 an r none) as Hocc1 by (eapply (occ_upd t); eauto; exact (Hocc start n Hs Hn)).
    assert (rooted t1 an r) as Hrt1 by (by eapply rooted_ext).
    assert (get_bbox t1 slot level = Some add) as Hadd1.
    { rewrite <- Hadd. apply get_bbox_ext; [intros _; by apply get_entry_ext|]. intros Hl0. apply Hgo1. intros ->.
      apply elem_ids in Hidin as [[Hl1 _]|[? _]]; [|done]. rewrite (lv_eq _ _ _ Hn) in Hl1. lia. }
    destruct (choose_subtree_spec t1 an ae _ start n1 slot level add Hf1 Hs Hg1) as (c & -> & Hc); auto; simpl.
    { intros Hnil. destruct (Hocc start n Hs Hn) as ([O1 _] & _). rewrite Hnil in O1. simpl in O1. lia. }
    { lia. }
    cbn [mbind option_bind]. simpl in Hc.
    destruct (flat_child dims _ _ _ _ _ _ Hf1 start n1 c Hs Hg1 Hc) as [[H0 _]|[Hca (mc & Hmc & Hlc)]]; [simpl in H0; lia|]. simpl in Hlc.
    destruct (IH t1 an pend c mc) as (res & t2 & -> & Hpost).
    { split_and!; auto; [lia|]. intros p np Hp Hgp Hlp Hcp.
      assert (p = start) as -> by (eapply (parent_unique dims _ _ _ _ _ _ Hf1 p start np n1 c); eauto; simpl; lia).
      rewrite Hg1 in Hgp. injection Hgp as <-. done. }
    { lia. }
    cbn [mbind option_bind]. destruct res as [new|].
    + destruct Hpost as (an2 & Hla2 & Hen2 & HLV2 & Hrt2 & Hf2 & Hocc2 & _ & Hhi & nn & Hnn & Hlnn & Hcnn).
      assert (get_node t2 start = Some n1) as Hg2.
      { rewrite Hhi; [done|done|]. rewrite (lv_eq _ _ _ Hg1). simpl. lia. }
      rewrite Hg2. cbn [mbind option_bind].
      assert (start ∈ an ++ an2) as Hs2 by (apply elem_of_app; by left).
      assert (get_bbox t2 new (n_level n1) = Some (n_box nn)) as Hbnew.
      { unfold get_bbox. simpl. rewrite Hlc. simpl. by rewrite Hnn. }
      assert (cover bx (n_box nn)) as Hcbx.
      { apply Hcnn. split_and!; auto. eapply (parent_cover t1 an ae _ start n1 c mc); eauto. }
      destruct (add_to_node overflow t2 (an ++ an2) ae r pend start n1 new (n_box nn) Hov Hrt2) with (b' := bx) as (n2 & t3 & res & t' & Hadc & Hset & Hrun & Hpost); auto.
      { eapply flat_weaken; [exact Hf2| |auto]. simpl. rewrite Hlc. apply perm_swap. }
      { intros p np Hp Hgp Hlp Hcp. eapply (parent_cover t2 (an ++ an2) ae _ p np start n1); eauto. }
      change (TNode bx (n_level n1) (n_children n1)) with n1 in Hadc. rewrite Hadc.
      cbn [mbind option_bind]. rewrite Hset. cbn [mbind option_bind]. exists res, t'. split; [done|]. simpl in Hpost.
      eapply post_pre; [eapply post_weaken; [exact Hpost|]|congruence|congruence| |].
      * intros b (Hb1 & Hb2 & Hb3). auto.
      * intros y Hy. by rewrite HLV2, Hlv1.
      * intros y Hy Hly. rewrite Hhi; [apply Hgo1; intros ->; rewrite (lv_eq _ _ _ Hn) in Hly; lia|done|]. rewrite Hlv1 by done. lia.
    + exists None, t2. split; [done|]. destruct Hpost as (an2 & Hla2 & Hen2 & HLV2 & r' & H1 & H2 & H3).
      exists an2. split_and!; [congruence|congruence|intros y Hy; by rewrite HLV2, Hlv1|]. eauto.
Qed.

Lemma insert_root_spec t an ae r pend slot level add :
  rooted t an r -> flat t an ae ((S (lv (get_node t) r), r) :: (level, slot) :: pend) none -> occ t an r none ->
  (level <= lv (get_node t) r)%nat -> get_bbox t slot level = Some add ->
  forall overflow, ovf_ok overflow ->
  exists n res t', get_node t r = Some n /\ insert_slot_with overflow (S (n_level n)) t slot level r = Some (res, t') /\
  exists new r', t_last t' = t_last t /\ t_entries t' = t_entries t /\ (forall y, y ∈ an -> lv (get_node t') y = lv (get_node t) y) /\ rooted t' (an ++ new) r' /\
    flat t' (an ++ new) ae ((S (lv (get_node t') r'), r') :: pend) none /\ occ t' (an ++ new) r' none.
Proof.
  intros Hrt Hf Hocc Hlvl Hadd overflow Hov. destruct (f_node _ _ _ _ _ _ _ Hf r) as [n Hn]; [by apply Hrt|].
  destruct (insert_slot_spec overflow (S (n_level n)) t an ae r pend slot level r n add Hov) as (res & t' & Hrun & Hpost).
  { split_and!; auto; [by apply Hrt|by rewrite <- (lv_eq _ _ _ Hn)|]. intros p np Hp Hgp Hlp Hcp. exfalso.
    eapply (top_no_parent dims); [exact Hf|exact Hp|exact Hgp|exact Hcp|]. rewrite Hlp, (lv_eq _ _ _ Hn). by left. }
  { lia. }
  exists n, res, t'. split_and!; auto. destruct Hpost as (new & H1 & H2 & HLV & H3). destruct res as [s'|].
  - by destruct H3 as (_ & _ & _ & ? & _).
  - destruct H3 as (r' & K1 & K2 & K3). exists new, r'. split_and!; auto.
Qed.

(** Re-inserting a list of waiting children. *)
Lemma reinsert_all t an ae r pend lvl cs :
  rooted t an r -> flat t an ae ((S (lv (get_node t) r), r) :: ((fun c => (lvl, c)) <$> cs) ++ pend) none -> occ t an r none ->
  (lvl <= lv (get_node t) r)%nat ->
  exists t' new r', foldM (fun t c => '(_, t') ← insert_root dims L t c lvl; Some t') t cs = Some t' /\
    t_last t' = t_last t /\ t_entries t' = t_entries t /\ (forall y, y ∈ an -> lv (get_node t') y = lv (get_node t) y) /\ rooted t' (an ++ new) r' /\
    flat t' (an ++ new) ae ((S (lv (get_node t') r'), r') :: pend) none /\ occ t' (an ++ new) r' none.
Proof.
  revert t an r. induction cs as [|c cs IH]; intros t an r Hrt Hf Hocc Hlvl; cbn [foldM].
  - exists t, [], r. rewrite app_nil_r. split_and!; auto.
  - rewrite fmap_cons in Hf. simpl in Hf.
    destruct (flat_id_box dims _ _ _ _ _ _ Hf lvl c) as [add Hadd]. { eapply (top_in_ids dims); [exact Hf|]. right; left. }
    destruct (insert_root_spec t an ae r (((fun c => (lvl, c)) <$> cs) ++ pend) c lvl add Hrt Hf Hocc Hlvl Hadd (overflow_split dims L) overflow_split_ok)
      as (n & res & t1 & Hn & Hrun & new & r1 & Hla & Hen & HLV & Hrt1 & Hf1 & Hocc1).
    assert (insert_root dims L t c lvl = Some (res, t1)) as ->.
    { unfold insert_root. destruct Hrt as (Hroot & Hr & Hmax). rewrite Hroot. cbn [mbind option_bind]. rewrite Hn. done. }
    cbn [mbind option_bind].
    destruct (IH t1 (an ++ new) r1) as (t2 & new2 & r2 & Hrun2 & Hla2 & Hen2 & HLV2 & Hrt2 & Hf2 & Hocc2); auto.
    { destruct Hrt as (_ & Hr & _), Hrt1 as (_ & _ & Hmax1). specialize (Hmax1 r ltac:(apply elem_of_app; by left)). rewrite HLV in Hmax1 by done. lia. }
    exists t2, (new ++ new2), r2. rewrite app_assoc. split_and!; auto; try congruence.
    intros y Hy. rewrite HLV2, HLV; [done..|]. apply elem_of_app. by left.
Qed.

(** ** reinsert *)
Lemma overflow_first_ok : ovf_ok (overflow_first dims L).
Proof.
  intros t an ae r pend s n Hrt Hf Hocc Hs Hn Hlen. unfold overflow_first. rewrite Hn. cbn [mbind option_bind]. rewrite Hlen, Nat.eqb_refl.
  destruct (decide (t_root t = Some s)) as [Hrs|Hrs].
  { rewrite bool_decide_eq_true_2 by done. by apply overflow_split_ok. }
  rewrite bool_decide_eq_false_2 by done. unfold reinsert. rewrite Hn. cbn [mbind option_bind]. rewrite Hlen, Nat.eqb_refl.
  destruct (boxed_spec t (n_level n) (n_children n)) as (bs & -> & Hbs1 & Hbs2).
  { intros c Hc. eapply flat_id_box; [done|]. by eapply kid_in_ids. }
  cbn [mbind option_bind].
  set (cs2 := std_partial_sort L _ _ _ bs).
  assert (cs2 ≡ₚ bs) as Hp2 by apply (partial_sort_perm _ HL). clearbody cs2.
  change (MAXN + 1 - REINS)%nat with 8%nat.
  assert (cs2.*1 ≡ₚ n_children n) as Hp3 by (by rewrite Hp2, Hbs1).
  assert (length cs2 = 11%nat) as Hl2 by (rewrite <- Hlen, <- Hp3; by rewrite fmap_length).
  set (c1 := (take 8 cs2).*1). set (c2 := (drop 8 cs2).*1).
  assert (length c1 = 8%nat) as Hlc1 by (unfold c1; rewrite fmap_length, take_length; lia).
  assert (((fun c => (n_level n, c)) <$> c1) ++ ((fun c => (n_level n, c)) <$> c2) ≡ₚ nkids n) as Hk12.
  { unfold c1, c2. rewrite nkids_take_drop. unfold nkids. by rewrite Hp3. }
  assert (forall c, c ∈ c1 -> c ∈ n_children n) as Hsub1.
  { intros c Hc. rewrite <- Hp3. rewrite <- (take_drop 8 cs2), fmap_app. apply elem_of_app. by left. }
  clearbody c1 c2.
  destruct (f_cov _ _ _ _ _ _ _ Hf s n Hs ltac:(auto) Hn) as [Hokn Hcovn].
  destruct (set_node_spec t an ae s (TNode (n_box n) (n_level n) c1)) as (t1 & -> & Hpt1 & Hr1 & Hla1 & Hen1 & Hg1 & Hgo1); [by eapply f_pools|done|].
  cbn [mbind option_bind].
  assert (forall y, y ∈ an -> lv (get_node t1) y = lv (get_node t) y) as Hlv1.
  { intros y Hy. destruct (decide (y = s)) as [->|Hne]; [by rewrite (lv_eq _ _ _ Hn), (lv_eq _ _ _ Hg1)|]. unfold lv. by rewrite Hgo1. }
  assert (flat t1 an ae ((S (lv (get_node t) r), r) :: ((fun c => (n_level n, c)) <$> c2) ++ pend) none) as Hf1.
  { eapply flat_upd; try exact Hf; eauto.
    - by apply get_entry_ext.
    - unfold nkids at 1. simpl. rewrite <- Hk12, <- app_assoc. apply Permutation_app_head. apply Permutation_middle.
    - intros _. split; simpl; [done|]. intros c Hc. apply Hcovn. auto.
    - simpl. intros _ B HB. by eapply in_box.
    - simpl. intros p np Hp _ Hgp Hlp Hsp. by eapply parent_cover. }
  destruct (recalc_flat t1 an ae ((S (lv (get_node t) r), r) :: ((fun c => (n_level n, c)) <$> c2) ++ pend) none none s (TNode (n_box n) (n_level n) c1))
    as (t2 & b1 & -> & Hf2 & Hr2 & Hla2 & Hen2 & Hg2 & Hgo2 & _ & _); auto; simpl.
  { intros Hc1. by rewrite Hc1 in Hlc1. }
  { intros p np Hp _ Hgp Hlp Hsp. split; [by eapply node_ok|]. intros c b' Hc Hb'.
    eapply (cover_trans dims _ (n_box n)); auto.
    - eapply (flat_id_okbox dims _ _ _ _ _ _ Hf1 (n_level n) c); [|auto|done]. eapply (kid_in_ids dims _ _ _ _ _ _ Hf1 s (TNode (n_box n) (n_level n) c1)); eauto.
    - by eapply node_ok.
    - eapply (parent_cover t1 an ae _ p np s (TNode (n_box n) (n_level n) c1)); eauto.
    - destruct (f_cov _ _ _ _ _ _ _ Hf1 s _ Hs ltac:(auto) Hg1) as [_ Hcov]. destruct (Hcov c Hc) as (b & Hb & Hcb). simpl in Hb, Hcb. rewrite Hb in Hb'. by injection Hb' as <-. }
  cbn [mbind option_bind]. simpl in Hg2.
  assert (forall y, y ∈ an -> lv (get_node t2) y = lv (get_node t) y) as Hlv2.
  { intros y Hy. rewrite <- Hlv1 by done. destruct (decide (y = s)) as [->|Hne]; [by rewrite (lv_eq _ _ _ Hg1), (lv_eq _ _ _ Hg2)|]. unfold lv. by rewrite Hgo2. }
  assert (s <> r) as Hsr by (intros ->; by destruct Hrt as (? & _)).
  destruct (reinsert_all t2 an ae r pend (n_level n) c2) as (t3 & new & r3 & -> & Hla3 & Hen3 & HLV3 & Hrt3 & Hf3 & Hocc3).
  - eapply (rooted_ext t); [done|congruence|done].
  - rewrite Hlv2 by apply Hrt. done.
  - eapply (occ_upd t); [exact Hocc| |exact Hg2| |].
    + intros y Hy Hys. rewrite Hgo2, Hgo1; done.
    + intros y _ Hys Hon. done.
    + simpl. split_and!; intros; try lia; done.
  - rewrite Hlv2 by apply Hrt. rewrite <- (lv_eq _ _ _ Hn). by apply Hrt.
  - cbn [mbind option_bind]. exists None, t3. split; [done|]. exists new. split_and!; try congruence.
    + intros y Hy. by rewrite HLV3, Hlv2.
    + exists r3. auto.
Qed.
End ins.
