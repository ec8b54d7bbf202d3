From stdpp Require Import base list list_numbers numbers option sorting.
From Verif Require Import IndexSpec LoopsModel.
From Coq Require Import Lia.

(** * Box lemmas *)
Lemma in_box_length b e x : in_box b e x -> length b = length x /\ length e = length x.
Proof.
  revert e x; induction b as [|b0 b IH]; intros [|e0 e] [|x0 x]; simpl; try tauto.
  intros [_ H]; apply IH in H; lia.
Qed.

Lemma in_box_dec b e x : Decision (in_box b e x).
Proof.
  revert e x; induction b as [|b0 b IH]; intros [|e0 e] [|x0 x]; simpl;
    try (left; tauto); try (right; tauto).
  destruct (decide (b0 <= x0 < e0)%nat), (IH e x); (left; tauto) || (right; tauto).
Qed.
Global Existing Instance in_box_dec.

Lemma in_shape_cons s sh x : in_shape (s :: sh) x <-> exists x0 x', x = x0 :: x' /\ (x0 < s)%nat /\ in_shape sh x'.
Proof.
  unfold in_shape; simpl; split.
  - destruct x as [|x0 x']; [tauto|]. intros [? ?]. exists x0, x'; split_and!; auto; lia.
  - intros (x0 & x' & -> & ? & ?). split; [lia|done].
Qed.

Lemma in_shape_nil x : in_shape [] x <-> x = [].
Proof. unfold in_shape; simpl. destruct x; simpl; split; congruence || tauto. Qed.

Lemma in_shape_length sh x : in_shape sh x -> length x = length sh.
Proof. intros H; apply in_box_length in H; lia. Qed.

(** * The one-dimensional loops *)
Lemma for_loop_seq fuel b e : (e - b <= fuel)%nat -> for_loop fuel b e = Some (seq b (e - b)).
Proof.
  revert b; induction fuel as [|f IH]; intros b Hf; simpl.
  - destruct (Nat.ltb_spec b e); [lia|]. by replace (e - b)%nat with 0%nat by lia.
  - destruct (Nat.ltb_spec b e) as [Hlt|Hge].
    + rewrite IH by lia. simpl. replace (e - b)%nat with (S (e - S b)) by lia. done.
    + by replace (e - b)%nat with 0%nat by lia.
Qed.

Lemma mapM_Some_const {A B} (f : A -> option B) (g : A -> B) l :
  (forall x, x ∈ l -> f x = Some (g x)) -> mapM f l = Some (g <$> l).
Proof.
  induction l as [|x l IH]; intros H; simpl; [done|].
  rewrite H by left. simpl. rewrite IH by (intros; apply H; by right). done.
Qed.

Lemma fmap_mjoin {A B} (f : A -> B) (ls : list (list A)) :
  f <$> mjoin ls = mjoin (fmap f <$> ls).
Proof. induction ls as [|l ls IH]; [done|]. simpl. by rewrite fmap_app, IH. Qed.

(** The enumeration computed by the element loop. *)
Fixpoint box_elems (b e : list nat) : list (list nat) :=
  match b, e with
  | [], [] => [[]]
  | b0 :: b', e0 :: e' => mjoin ((fun i => (cons i) <$> box_elems b' e') <$> seq b0 (e0 - b0))
  | _, _ => []
  end.

Lemma elem_loop_dim_spec fuel cur b e :
  length b = length e -> (loop_fuel e <= fuel)%nat ->
  elem_loop_dim fuel cur b e = Some ((fun r => cur ++ r) <$> box_elems b e).
Proof.
  revert cur e; induction b as [|b0 b IH]; intros cur [|e0 e] Hlen Hf; simpl in *; try lia.
  - by rewrite app_nil_r.
  - rewrite for_loop_seq by lia. simpl.
    rewrite (mapM_Some_const _ (fun i => (fun r => (cur ++ [i]) ++ r) <$> box_elems b e)).
    2:{ intros i _. apply IH; lia. }
    cbn. f_equal. rewrite fmap_mjoin, <- list_fmap_compose. f_equal.
    apply list_fmap_ext. intros ? i _. cbn. rewrite <- list_fmap_compose.
    apply list_fmap_ext. intros ? r _. cbn. by rewrite <- app_assoc.
Qed.

Lemma elem_loop_spec fuel b e :
  length b = length e -> (loop_fuel e <= fuel)%nat ->
  elem_loop fuel b e = Some (box_elems b e).
Proof.
  intros. unfold elem_loop. rewrite elem_loop_dim_spec by done. f_equal.
  rewrite <- (list_fmap_id (box_elems b e)) at 2. done.
Qed.

Lemma elem_of_box_elems b e x : x ∈ box_elems b e <-> in_box b e x.
Proof.
  revert e x; induction b as [|b0 b IH]; intros [|e0 e] x; simpl.
  - destruct x; rewrite elem_of_list_singleton; split; congruence || tauto.
  - split; [by intros ?%elem_of_nil|by destruct x].
  - split; [by intros ?%elem_of_nil|by destruct x].
  - rewrite elem_of_list_join. setoid_rewrite elem_of_list_fmap. split.
    + intros (l & Hx & i & -> & Hi). apply elem_of_list_fmap in Hx as (r & -> & Hr).
      apply elem_of_seq in Hi. split; [lia|]. by apply IH.
    + destruct x as [|x0 x]; [tauto|]. intros [Hx0 Hx].
      exists (cons x0 <$> box_elems b e). split; [|exists x0; split; [done|apply elem_of_seq; lia]].
      apply elem_of_list_fmap. exists x. split; [done|]. by apply IH.
Qed.

Lemma StronglySorted_app_intro {A} (R : A -> A -> Prop) l1 l2 :
  StronglySorted R l1 -> StronglySorted R l2 ->
  (forall x y, x ∈ l1 -> y ∈ l2 -> R x y) -> StronglySorted R (l1 ++ l2).
Proof.
  induction l1 as [|a l1 IH]; intros H1 H2 H; simpl; [done|].
  apply StronglySorted_inv in H1 as [H1 Ha].
  constructor.
  - apply IH; auto. intros; apply H; [by right|done].
  - apply Forall_app; split; [done|]. apply Forall_forall. intros y Hy. apply H; [by left|done].
Qed.

Lemma box_elems_sorted b e : StronglySorted lex_lt (box_elems b e).
Proof.
  revert e; induction b as [|b0 b IH]; intros [|e0 e]; simpl; try constructor; try constructor.
  generalize (e0 - b0)%nat as n. intros n. revert b0; induction n as [|n IHn]; intros b0; simpl; [constructor|].
  apply StronglySorted_app_intro.
  - clear IHn. generalize (IH e). intros Hs. induction Hs as [|r l Hs IHl Hr]; simpl; constructor; [done|].
    apply Forall_fmap. eapply Forall_impl; [exact Hr|]. intros y Hy. simpl. right. split; [done|]. exact Hy.
  - apply IHn.
  - intros x y Hx Hy.
    apply elem_of_list_fmap in Hx as (rx & -> & _).
    apply elem_of_list_join in Hy as (l & Hy & Hl).
    apply elem_of_list_fmap in Hl as (i & -> & Hi). apply elem_of_seq in Hi.
    apply elem_of_list_fmap in Hy as (ry & -> & _). simpl. left. lia.
Qed.

Lemma lex_lt_irrefl x : ~ lex_lt x x.
Proof. induction x; simpl; [tauto|]. intros [?|[_ ?]]; [lia|tauto]. Qed.

Lemma StronglySorted_NoDup {A} (R : A -> A -> Prop) l :
  (forall x, ~ R x x) -> StronglySorted R l -> NoDup l.
Proof.
  intros Hir. induction 1 as [|a l Hs IH Ha]; constructor; [|done].
  intros Hin. rewrite Forall_forall in Ha. by apply (Hir a), Ha.
Qed.

Lemma box_elems_NoDup b e : NoDup (box_elems b e).
Proof. eapply StronglySorted_NoDup; [apply lex_lt_irrefl|apply box_elems_sorted]. Qed.

Lemma box_elems_length_shape sh : length (box_elems (replicate (length sh) 0%nat) sh) = volume sh.
Proof.
  induction sh as [|s sh IH]; simpl; [done|].
  rewrite Nat.sub_0_r. revert IH. generalize (box_elems (replicate (length sh) 0%nat) sh) as l. intros l IH.
  generalize 0%nat as b0. induction s as [|s IHs]; intros b0; simpl; [done|].
  rewrite app_length, fmap_length, IH. f_equal. apply IHs.
Qed.

(** * Chunk loops *)
Fixpoint steps_list (fuel cb e cs : nat) : list (nat * nat) :=
  match fuel with
  | O => []
  | S f => if (cb <? e)%nat then (cb, Nat.min (cb + cs) e) :: steps_list f (Nat.min (cb + cs) e) e cs else []
  end.

Lemma chunk_steps_spec fuel cb e cs :
  (0 < cs)%nat -> (e - cb <= fuel)%nat -> chunk_steps fuel cb e cs = Some (steps_list fuel cb e cs).
Proof.
  intros Hcs. revert cb; induction fuel as [|f IH]; intros cb Hf; simpl.
  - destruct (Nat.ltb_spec cb e); [lia|done].
  - destruct (Nat.ltb_spec cb e); [|done]. rewrite IH by lia. done.
Qed.

Lemma chunk_steps_diverges fuel cb e : (cb < e)%nat -> chunk_steps fuel cb e 0 = None.
Proof.
  intros H. induction fuel as [|f IH]; simpl.
  - destruct (Nat.ltb_spec cb e); [done|lia].
  - destruct (Nat.ltb_spec cb e); [|lia]. replace (Nat.min (cb + 0) e) with cb by lia. by rewrite IH.
Qed.

Lemma steps_list_in fuel cb e cs s :
  (0 < cs)%nat -> s ∈ steps_list fuel cb e cs ->
  (cb <= s.1 /\ s.1 < s.2 /\ s.2 <= e /\ s.2 - s.1 <= cs)%nat.
Proof.
  intros Hcs. revert cb; induction fuel as [|f IH]; intros cb; simpl; [by intros ?%elem_of_nil|].
  destruct (Nat.ltb_spec cb e); [|by intros ?%elem_of_nil].
  rewrite elem_of_cons. intros [->|Hs]; simpl; [lia|]. apply IH in Hs. lia.
Qed.

Lemma steps_list_start fuel cb e cs k s :
  (0 < cs)%nat -> steps_list fuel cb e cs !! k = Some s ->
  (s.1 = cb + k * cs /\ s.2 = Nat.min (s.1 + cs) e)%nat.
Proof.
  intros Hcs. revert cb k; induction fuel as [|f IH]; intros cb k; simpl; [done|].
  destruct (Nat.ltb_spec cb e); [|done].
  destruct k as [|k]; simpl.
  - intros [= <-]. simpl. lia.
  - intros Hs. pose proof (elem_of_list_lookup_2 _ _ _ Hs) as Hin.
    apply steps_list_in in Hin; [|done]. apply IH in Hs as [H1 H2].
    destruct (Nat.le_gt_cases (cb + cs) e).
    + rewrite Nat.min_l in H1 by lia. lia.
    + rewrite Nat.min_r in H1 by lia. lia.
Qed.

Lemma steps_list_cover fuel cb e cs x :
  (0 < cs)%nat -> (e - cb <= fuel)%nat -> (cb <= x < e)%nat ->
  exists k s, steps_list fuel cb e cs !! k = Some s /\ (s.1 <= x < s.2)%nat.
Proof.
  intros Hcs. revert cb; induction fuel as [|f IH]; intros cb Hf Hx; simpl; [lia|].
  destruct (Nat.ltb_spec cb e); [|lia].
  destruct (Nat.lt_ge_cases x (Nat.min (cb + cs) e)).
  - exists 0%nat. eexists. split; [done|]. simpl; lia.
  - destruct (IH (Nat.min (cb + cs) e)) as (k & s & Hk & Hs); [lia|lia|].
    exists (S k), s. done.
Qed.

Lemma steps_list_unique fuel cb e cs x k k' s s' :
  (0 < cs)%nat -> steps_list fuel cb e cs !! k = Some s -> steps_list fuel cb e cs !! k' = Some s' ->
  (s.1 <= x < s.2)%nat -> (s'.1 <= x < s'.2)%nat -> k' = k.
Proof.
  intros Hcs Hk Hk' Hs Hs'.
  apply steps_list_start in Hk as [? ?]; [|done]. apply steps_list_start in Hk' as [? ?]; [|done].
  assert (x < s.1 + cs)%nat by lia. assert (x < s'.1 + cs)%nat by lia.
  destruct (Nat.lt_trichotomy k k') as [Hl|[->|Hl]]; [|done|]; exfalso.
  - assert ((k + 1) * cs <= k' * cs)%nat by (apply Nat.mul_le_mono_r; lia). lia.
  - assert ((k' + 1) * cs <= k * cs)%nat by (apply Nat.mul_le_mono_r; lia). lia.
Qed.

(** The list of chunks computed by the chunk loop. *)
Fixpoint box_chunks (fuel : nat) (b e cs : list nat) : list (list nat * list nat) :=
  match b, e, cs with
  | [], [], [] => [([], [])]
  | b0 :: b', e0 :: e', c0 :: cs' =>
      mjoin ((fun s => (fun r => (s.1 :: r.1, s.2 :: r.2)) <$> box_chunks fuel b' e' cs')
               <$> steps_list fuel b0 e0 c0)
  | _, _, _ => []
  end.

Lemma chunk_loop_dim_spec fuel cb ce b e cs :
  length b = length e -> length cs = length e -> Forall (fun c => 0 < c)%nat cs ->
  (loop_fuel e <= fuel)%nat ->
  chunk_loop_dim fuel cb ce b e cs =
    Some ((fun r => (cb ++ r.1, ce ++ r.2)) <$> box_chunks fuel b e cs).
Proof.
  revert cb ce e cs; induction b as [|b0 b IH]; intros cb ce [|e0 e] [|c0 cs] Hlen Hlc Hpos Hf; simpl in *; try lia.
  - by rewrite !app_nil_r.
  - inversion Hpos as [|? ? Hc0 Hcs]; subst.
    rewrite chunk_steps_spec by lia. simpl.
    rewrite (mapM_Some_const _ (fun s => (fun r => ((cb ++ [s.1]) ++ r.1, (ce ++ [s.2]) ++ r.2)) <$> box_chunks fuel b e cs)).
    2:{ intros s _. apply IH; auto; lia. }
    cbn. f_equal. rewrite fmap_mjoin, <- list_fmap_compose. f_equal.
    apply list_fmap_ext. intros ? i _. cbn. rewrite <- list_fmap_compose.
    apply list_fmap_ext. intros ? r _. cbn. by rewrite <- !app_assoc.
Qed.

Lemma chunk_loop_spec fuel b e cs :
  length b = length e -> length cs = length e -> Forall (fun c => 0 < c)%nat cs ->
  (loop_fuel e <= fuel)%nat -> chunk_loop fuel b e cs = Some (box_chunks fuel b e cs).
Proof.
  intros. unfold chunk_loop. rewrite chunk_loop_dim_spec by done. f_equal.
  rewrite <- (list_fmap_id (box_chunks fuel b e cs)) at 2.
  apply list_fmap_ext. by intros ? [? ?].
Qed.

(** Lookup in a join of equally long blocks is awkward; use [tiles] by an
    explicit induction instead. *)
Definition disjoint_boxes (l : list (list nat * list nat)) : Prop :=
  forall k k' c c' x, l !! k = Some c -> l !! k' = Some c' ->
    in_box c.1 c.2 x -> in_box c'.1 c'.2 x -> k' = k.

Lemma disjoint_boxes_app l1 l2 :
  disjoint_boxes l1 -> disjoint_boxes l2 ->
  (forall c c' x, c ∈ l1 -> c' ∈ l2 -> in_box c.1 c.2 x -> in_box c'.1 c'.2 x -> False) ->
  disjoint_boxes (l1 ++ l2).
Proof.
  intros H1 H2 H k k' c c' x Hk Hk' Hc Hc'.
  apply lookup_app_Some in Hk as [Hk|[Hl Hk]]; apply lookup_app_Some in Hk' as [Hk'|[Hl' Hk']].
  - eauto.
  - exfalso. eapply (H c c' x); eauto using elem_of_list_lookup_2.
  - exfalso. eapply (H c' c x); eauto using elem_of_list_lookup_2.
  - pose proof (H2 _ _ _ _ _ Hk Hk' Hc Hc'). lia.
Qed.

Lemma box_chunks_elem fuel b0 e0 c0 b e cs c :
  c ∈ box_chunks fuel (b0 :: b) (e0 :: e) (c0 :: cs) <->
  exists s r, s ∈ steps_list fuel b0 e0 c0 /\ r ∈ box_chunks fuel b e cs /\ c = (s.1 :: r.1, s.2 :: r.2).
Proof.
  simpl. rewrite elem_of_list_join. split.
  - intros (l & Hc & Hl). apply elem_of_list_fmap in Hl as (s & -> & Hs).
    apply elem_of_list_fmap in Hc as (r & -> & Hr). eauto.
  - intros (s & r & Hs & Hr & ->). eexists. split; [|apply elem_of_list_fmap; exists s; split; [reflexivity|done]].
    apply elem_of_list_fmap. eauto.
Qed.

Lemma box_chunks_disjoint fuel b e cs :
  Forall (fun c => 0 < c)%nat cs -> disjoint_boxes (box_chunks fuel b e cs).
Proof.
  revert e cs; induction b as [|b0 b IH]; intros [|e0 e] [|c0 cs] Hpos; simpl; try (by intros ????? [=]).
  - intros [|k] [|k'] ???; simpl; done.
  - inversion Hpos as [|? ? Hc0 Hcs]; subst. specialize (IH e cs Hcs).
    assert (forall l : list (nat * nat),
      (forall k k' s s' x, l !! k = Some s -> l !! k' = Some s' -> (s.1 <= x < s.2)%nat -> (s'.1 <= x < s'.2)%nat -> k' = k) ->
      disjoint_boxes (mjoin ((fun s => (fun r => (s.1 :: r.1, s.2 :: r.2)) <$> box_chunks fuel b e cs) <$> l))) as Hgen.
    { induction l as [|s l IHl]; intros Hd; simpl; [by intros ????? [=]|].
      apply disjoint_boxes_app.
      - intros k k' c c' x Hk Hk' Hc Hc'. rewrite list_lookup_fmap in Hk, Hk'.
        apply fmap_Some in Hk as (r & Hr & ->). apply fmap_Some in Hk' as (r' & Hr' & ->).
        destruct x as [|x0 x]; simpl in *; [done|]. destruct Hc as [_ Hc], Hc' as [_ Hc']. eauto.
      - apply IHl. intros k k' s1 s2 x Hk Hk' Hs Hs'.
        cut (S k' = S k); [lia|]. eapply (Hd (S k) (S k')); simpl; eauto.
      - intros c c' x Hc Hc' Hx Hx'.
        apply elem_of_list_fmap in Hc as (r & -> & _).
        apply elem_of_list_join in Hc' as (l' & Hc' & Hl').
        apply elem_of_list_fmap in Hl' as (s' & -> & Hs').
        apply elem_of_list_fmap in Hc' as (r' & -> & _).
        destruct x as [|x0 x]; simpl in *; [done|]. destruct Hx as [Hx _], Hx' as [Hx' _].
        apply elem_of_list_lookup in Hs' as [k Hk].
        specialize (Hd 0%nat (S k) s s' x0 eq_refl Hk Hx Hx'). lia. }
    apply Hgen. intros. eapply steps_list_unique; eauto.
Qed.

Lemma box_chunks_sound fuel b e cs c x :
  Forall (fun c => 0 < c)%nat cs -> c ∈ box_chunks fuel b e cs -> in_box c.1 c.2 x -> in_box b e x.
Proof.
  revert e cs c x; induction b as [|b0 b IH]; intros [|e0 e] [|c0 cs] c x Hpos Hc;
    try (by apply elem_of_nil in Hc).
  - simpl in Hc. apply elem_of_list_singleton in Hc as ->. done.
  - inversion Hpos; subst. apply box_chunks_elem in Hc as (s & r & Hs & Hr & ->). simpl.
    destruct x as [|x0 x]; [done|]. intros [Hx0 Hx]. apply steps_list_in in Hs; [|done].
    split; [lia|]. eapply IH; eauto.
Qed.

Lemma box_chunks_cover fuel b e cs x :
  Forall (fun c => 0 < c)%nat cs -> length cs = length e -> (loop_fuel e <= fuel)%nat -> in_box b e x ->
  exists c, c ∈ box_chunks fuel b e cs /\ in_box c.1 c.2 x.
Proof.
  revert e cs x; induction b as [|b0 b IH]; intros [|e0 e] [|c0 cs] [|x0 x] Hpos Hlen Hf Hx; simpl in Hlen, Hf; try done.
  - exists ([], []). split; [by left|done].
  - inversion Hpos; subst. destruct Hx as [Hx0 Hx].
    destruct (steps_list_cover fuel b0 e0 c0 x0) as (k & s & Hk & Hs); [done|lia|done|].
    destruct (IH e cs x) as (r & Hr & Hrx); auto; [lia|].
    exists (s.1 :: r.1, s.2 :: r.2). split.
    + apply box_chunks_elem. exists s, r. split_and!; [by eapply elem_of_list_lookup_2|done|done].
    + simpl. auto.
Qed.

Lemma box_chunks_sizes fuel b e cs c :
  Forall (fun c => 0 < c)%nat cs -> c ∈ box_chunks fuel b e cs ->
  length c.1 = length b /\ length c.2 = length b /\
  Forall2 lt c.1 c.2 /\ Forall2 le (vsub c.2 c.1) cs /\ Forall2 le b c.1 /\ Forall2 le c.2 e.
Proof.
  revert e cs c; induction b as [|b0 b IH]; intros [|e0 e] [|c0 cs] c Hpos Hc;
    try (by apply elem_of_nil in Hc).
  - simpl in Hc. apply elem_of_list_singleton in Hc as ->. split_and!; simpl; auto; constructor.
  - inversion Hpos; subst. apply box_chunks_elem in Hc as (s & r & Hs & Hr & ->). simpl.
    apply steps_list_in in Hs; [|done]. apply IH in Hr as (? & ? & ? & ? & ? & ?); [|done].
    split_and!; try (constructor; [lia|done]); lia.
Qed.

Lemma Forall2_lt_in_box b e : Forall2 lt b e -> in_box b e b.
Proof. induction 1; simpl; [done|]. split; [lia|done]. Qed.

Lemma box_chunks_tiles fuel b e cs :
  Forall (fun c => 0 < c)%nat cs -> length cs = length e -> (loop_fuel e <= fuel)%nat ->
  tiles (box_chunks fuel b e cs) b e.
Proof.
  intros Hpos Hlen Hf. split_and!.
  - intros c Hc. apply box_chunks_sizes in Hc as (_ & _ & Hlt & _); [|done].
    exists c.1. by apply Forall2_lt_in_box.
  - intros c x Hc Hx. eapply box_chunks_sound; eauto.
  - intros x Hx. destruct (box_chunks_cover fuel b e cs x) as (c & Hc & Hcx); auto.
    apply elem_of_list_lookup in Hc as [k Hk]. exists k, c. split_and!; auto.
    intros k' c' Hk' Hc'. eapply box_chunks_disjoint; eauto.
Qed.

(** Extents of the chunk loop do not depend on the fuel once sufficient. *)
Lemma steps_list_fuel f1 f2 cb e cs :
  (0 < cs)%nat -> (e - cb <= f1)%nat -> (e - cb <= f2)%nat -> steps_list f1 cb e cs = steps_list f2 cb e cs.
Proof.
  intros Hcs. revert f2 cb; induction f1 as [|f1 IH]; intros f2 cb H1 H2; simpl.
  - destruct f2; simpl; [done|]. destruct (Nat.ltb_spec cb e); [lia|done].
  - destruct f2; simpl; destruct (Nat.ltb_spec cb e); try done; try lia. f_equal. apply IH; lia.
Qed.

Lemma box_chunks_fuel f1 f2 b e cs :
  Forall (fun c => 0 < c)%nat cs -> (loop_fuel e <= f1)%nat -> (loop_fuel e <= f2)%nat ->
  box_chunks f1 b e cs = box_chunks f2 b e cs.
Proof.
  revert e cs; induction b as [|b0 b IH]; intros [|e0 e] [|c0 cs] Hpos H1 H2; simpl in *; try done.
  inversion Hpos; subst. rewrite (steps_list_fuel f1 f2) by lia. rewrite (IH e cs) by (auto; lia). done.
Qed.

(** The wrapping loop agrees with the unbounded one when no addition overflows. *)
Lemma chunk_steps_w_nowrap fuel cb e cs :
  (e + cs < 2 ^ 64)%N ->
  chunk_steps_w fuel cb e cs =
    fmap (M := option) (fmap (fun s : nat * nat => (N.of_nat s.1, N.of_nat s.2)))
      (chunk_steps fuel (N.to_nat cb) (N.to_nat e) (N.to_nat cs)).
Proof.
  intros Hb. revert cb; induction fuel as [|f IH]; intros cb; cbn [chunk_steps chunk_steps_w].
  - destruct (N.ltb_spec cb e), (Nat.ltb_spec (N.to_nat cb) (N.to_nat e)); try lia; done.
  - destruct (N.ltb_spec cb e), (Nat.ltb_spec (N.to_nat cb) (N.to_nat e)); try lia; [|done].
    rewrite N.mod_small by lia. rewrite IH.
    replace (N.to_nat (N.min (cb + cs) e)) with (Nat.min (N.to_nat cb + N.to_nat cs) (N.to_nat e)) by lia.
    destruct (chunk_steps f _ _ _); simpl; [|done]. f_equal. f_equal. f_equal; lia.
Qed.
