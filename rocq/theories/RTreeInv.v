(** The invariant of the spatial index: every live node and entry is referred to exactly once (by
    a parent one level above, as the root, or as waiting for insertion), and boxes cover what is
    below.  Primitive operations and their effect on it. *)
From stdpp Require Import base list list_numbers numbers option.
From Coq Require Import NArith.
From Verif Require Import NDArrayModel NullSupModel PoolModel PoolProofs BBoxModel BBoxProps RTreeModel RTreeBoxes.

Section inv.
Context {P : Type} (pd : P) (dims : nat) (L : lib).
Implicit Types t : rtree P.
Local Notation okbox := (okbox dims).
Local Notation id := (nat * nat)%type.

Definition lv (g : nat -> option tnode) (s : nat) : nat := match g s with Some n => n_level n | None => 0 end.
Definition nkids (n : tnode) : list id := (fun c => (n_level n, c)) <$> n_children n.
Definition kid_ids (g : nat -> option tnode) (s : nat) : list id := match g s with Some n => nkids n | None => [] end.
Definition kids (g : nat -> option tnode) (an : list nat) : list id := mbind (M := list) (kid_ids g) an.
Definition nid (g : nat -> option tnode) (s : nat) : id := (S (lv g s), s).
Definition ids (g : nat -> option tnode) (an ae : list nat) : list id := (nid g <$> an) ++ ((fun e => (0, e)) <$> ae).

(** The pools hold the live nodes [an] and entries [ae]. *)
Definition pools t (an ae : list nat) : Prop :=
  (exists fr, pinv (t_nodes t) fr an) /\ (exists fr, pinv (t_entries t) fr ae) /\
  (0 < length (p_data (t_nodes t)))%nat /\ (0 < length (p_data (t_entries t)))%nat /\
  (0 < p_init (t_nodes t))%nat /\ (0 < p_init (t_entries t))%nat.

Definition covers t (n : tnode) : Prop :=
  okbox (n_box n) /\ forall c, c ∈ n_children n -> exists b, get_bbox t c (n_level n) = Some b /\ cover (n_box n) b.

(** [top]: the ids not referred to by a node; [ex]: nodes whose box is out of date; [Bs]: boxes
    which cover everything in the tree. *)
Record flat (Bs : bbox -> Prop) t (an ae : list nat) (top : list id) (ex : nat -> Prop) : Prop := Flat {
  f_pools : pools t an ae;
  f_perm : kids (get_node t) an ++ top ≡ₚ ids (get_node t) an ae;
  f_node : forall s, s ∈ an -> exists n, get_node t s = Some n;
  f_cov : forall s n, s ∈ an -> ~ ex s -> get_node t s = Some n -> covers t n;
  f_entry : forall e, e ∈ ae -> exists en, get_entry t e = Some en /\ okbox (en_box en);
  f_in : forall B, Bs B -> okbox B /\ (forall s n, s ∈ an -> ~ ex s -> get_node t s = Some n -> cover B (n_box n)) /\
                   (forall e en, e ∈ ae -> get_entry t e = Some en -> cover B (en_box en))
}.

(** ** Basic facts *)
Lemma pools_nodup_n t an ae : pools t an ae -> NoDup an.
Proof. intros ((fr & Hp) & _). apply pinv_NoDup in Hp. by apply NoDup_app in Hp as (_ & _ & ?). Qed.
Lemma pools_nodup_e t an ae : pools t an ae -> NoDup ae.
Proof. intros (_ & (fr & Hp) & _). apply pinv_NoDup in Hp. by apply NoDup_app in Hp as (_ & _ & ?). Qed.
Lemma NoDup_ids g an ae : NoDup an -> NoDup ae -> NoDup (ids g an ae).
Proof.
  intros Hn He. unfold ids. apply NoDup_app. split_and!.
  - apply NoDup_fmap_2_strong; [|done]. intros x y _ _ [= _ H]. done.
  - intros x Hx Hx2. apply elem_of_list_fmap in Hx as (y & -> & _). apply elem_of_list_fmap in Hx2 as (z & [=] & _).
  - apply NoDup_fmap_2_strong; [|done]. intros x y _ _ [= H]. done.
Qed.
Lemma elem_ids g an ae l s : (l, s) ∈ ids g an ae <-> (l = S (lv g s) /\ s ∈ an) \/ (l = 0 /\ s ∈ ae).
Proof.
  unfold ids. rewrite elem_of_app, !elem_of_list_fmap. split.
  - intros [(y & [= -> ->] & Hy)|(y & [= -> ->] & Hy)]; auto.
  - intros [[-> H]|[-> H]]; [left|right]; eauto.
Qed.
Lemma flat_nodup Bs t an ae top ex : flat Bs t an ae top ex -> NoDup (kids (get_node t) an ++ top).
Proof. intros H. rewrite (f_perm _ _ _ _ _ _ H). apply NoDup_ids; [eapply pools_nodup_n|eapply pools_nodup_e]; by eapply f_pools. Qed.
Lemma elem_kids g an l c : (l, c) ∈ kids g an <-> exists s n, s ∈ an /\ g s = Some n /\ n_level n = l /\ c ∈ n_children n.
Proof.
  unfold kids. rewrite elem_of_list_bind. unfold kid_ids. split.
  - intros (s & Hc & Hs). destruct (g s) as [n|] eqn:Hg; [|by apply elem_of_nil in Hc].
    apply elem_of_list_fmap in Hc as (c' & [= -> ->] & Hc). eauto 10.
  - intros (s & n & Hs & Hg & <- & Hc). exists s. rewrite Hg. split; [|done]. apply elem_of_list_fmap. eauto.
Qed.

Section flatfacts.
Context Bs t an ae top ex (Hf : flat Bs t an ae top ex).
Lemma flat_child s n c : s ∈ an -> get_node t s = Some n -> c ∈ n_children n ->
  (n_level n = 0 /\ c ∈ ae) \/ (c ∈ an /\ exists m, get_node t c = Some m /\ n_level n = S (n_level m)).
Proof using Hf.
  intros Hs Hn Hc. assert ((n_level n, c) ∈ ids (get_node t) an ae) as Hin.
  { rewrite <- (f_perm _ _ _ _ _ _ Hf). apply elem_of_app. left. apply elem_kids. eauto 10. }
  apply elem_ids in Hin as [[Hl Hin]|[Hl Hin]]; [right|by left]. split; [done|].
  destruct (f_node _ _ _ _ _ _ Hf c Hin) as [m Hm]. exists m. split; [done|]. rewrite Hl. unfold lv. by rewrite Hm.
Qed.
Lemma flat_top l c : (l, c) ∈ top ->
  (l = 0 /\ c ∈ ae) \/ (c ∈ an /\ exists m, get_node t c = Some m /\ l = S (n_level m)).
Proof using Hf.
  intros Hin. assert ((l, c) ∈ ids (get_node t) an ae) as Hin'.
  { rewrite <- (f_perm _ _ _ _ _ _ Hf). apply elem_of_app. by right. }
  apply elem_ids in Hin' as [[Hl Hc]|[Hl Hc]]; [right|by left]. split; [done|].
  destruct (f_node _ _ _ _ _ _ Hf c Hc) as [m Hm]. exists m. split; [done|]. rewrite Hl. unfold lv. by rewrite Hm.
Qed.
Lemma flat_id_box l c : (l, c) ∈ ids (get_node t) an ae -> exists b, get_bbox t c l = Some b.
Proof using Hf.
  intros [[-> Hc]|[-> Hc]]%elem_ids; unfold get_bbox; simpl.
  - destruct (f_node _ _ _ _ _ _ Hf c Hc) as [m ->]. by eexists.
  - destruct (f_entry _ _ _ _ _ _ Hf c Hc) as (en & -> & _). by eexists.
Qed.
Lemma flat_id_okbox l c b : (l, c) ∈ ids (get_node t) an ae -> (l <> 0 -> ~ ex c) -> get_bbox t c l = Some b -> okbox b.
Proof using Hf.
  intros [[-> Hc]|[-> Hc]]%elem_ids Hex; unfold get_bbox; simpl.
  - destruct (f_node _ _ _ _ _ _ Hf c Hc) as [m Hm]. rewrite Hm. simpl. intros [= <-].
    by apply (f_cov _ _ _ _ _ _ Hf c m Hc (Hex ltac:(done)) Hm).
  - destruct (f_entry _ _ _ _ _ _ Hf c Hc) as (en & -> & Hok). by intros [= <-].
Qed.
Lemma kid_in_ids s n c : s ∈ an -> get_node t s = Some n -> c ∈ n_children n -> (n_level n, c) ∈ ids (get_node t) an ae.
Proof using Hf. intros Hs Hn Hc. rewrite <- (f_perm _ _ _ _ _ _ Hf). apply elem_of_app. left. apply elem_kids. eauto 10. Qed.
Lemma top_in_ids i : i ∈ top -> i ∈ ids (get_node t) an ae.
Proof using Hf. intros Hi. rewrite <- (f_perm _ _ _ _ _ _ Hf). apply elem_of_app. by right. Qed.
(** A node or entry has at most one parent, and none if it is a top id. *)
Lemma parent_unique p q np nq c : p ∈ an -> q ∈ an -> get_node t p = Some np -> get_node t q = Some nq ->
  n_level np = n_level nq -> c ∈ n_children np -> c ∈ n_children nq -> p = q.
Proof using Hf.
  intros Hp Hq Hnp Hnq Hl Hcp Hcq. pose proof (flat_nodup _ _ _ _ _ _ Hf) as Hnd. apply NoDup_app in Hnd as (Hnd & _ & _).
  destruct (decide (p = q)) as [|Hne]; [done|exfalso].
  apply elem_of_list_split in Hp as (l1 & l2 & ->). unfold kids in Hnd. rewrite bind_app, bind_cons in Hnd.
  assert ((n_level np, c) ∈ kid_ids (get_node t) p) as H1.
  { unfold kid_ids. rewrite Hnp. apply elem_of_list_fmap. eauto. }
  assert ((n_level np, c) ∈ kid_ids (get_node t) q) as H2.
  { unfold kid_ids. rewrite Hnq, Hl. apply elem_of_list_fmap. eauto. }
  apply NoDup_app in Hnd as (_ & Hd1 & Hnd). apply NoDup_app in Hnd as (_ & Hd2 & _).
  apply elem_of_app in Hq as [Hq|Hq]; [|apply elem_of_cons in Hq as [Hq|Hq]; [congruence|]].
  - apply (Hd1 (n_level np, c)); [apply elem_of_list_bind; eauto|]. apply elem_of_app. by left.
  - apply (Hd2 (n_level np, c) H1). apply elem_of_list_bind; eauto.
Qed.
Lemma top_no_parent p np c : p ∈ an -> get_node t p = Some np -> c ∈ n_children np -> (n_level np, c) ∈ top -> False.
Proof using Hf.
  intros Hp Hnp Hc Htop. pose proof (flat_nodup _ _ _ _ _ _ Hf) as Hnd. apply NoDup_app in Hnd as (_ & Hd & _).
  apply (Hd (n_level np, c)); [|done]. apply elem_kids. eauto 10.
Qed.
Lemma children_nodup s n : s ∈ an -> get_node t s = Some n -> NoDup (n_children n).
Proof using Hf.
  intros Hs Hn. pose proof (flat_nodup _ _ _ _ _ _ Hf) as Hnd. apply NoDup_app in Hnd as (Hnd & _ & _).
  apply elem_of_list_split in Hs as (l1 & l2 & ->). unfold kids in Hnd. rewrite bind_app, bind_cons in Hnd.
  apply NoDup_app in Hnd as (_ & _ & Hnd). apply NoDup_app in Hnd as (Hnd & _ & _). unfold kid_ids in Hnd. rewrite Hn in Hnd.
  by apply NoDup_fmap_1 in Hnd.
Qed.
End flatfacts.

Lemma flat_weaken Bs t an ae top top' (ex ex' : nat -> Prop) : flat Bs t an ae top ex -> top ≡ₚ top' -> (forall s, s ∈ an -> ex s -> ex' s) -> flat Bs t an ae top' ex'.
Proof.
  intros [H1 H2 H3 H4 H5 H6] Ht Hex. split; auto; [by rewrite <- Ht| |].
  - intros s n Hs Hn. apply H4; auto.
  - intros B HB. destruct (H6 B HB) as (Ha & Hb & Hc). split_and!; auto. intros s n Hs Hn. apply Hb; auto.
Qed.

(** ** Primitive operations *)
Lemma set_node_spec t an ae s n : pools t an ae -> s ∈ an ->
  exists t', set_node t s n = Some t' /\ pools t' an ae /\ t_root t' = t_root t /\ t_last t' = t_last t /\ t_entries t' = t_entries t /\
    get_node t' s = Some n /\ (forall y, y <> s -> get_node t' y = get_node t y).
Proof.
  intros ((fr & Hp) & Hpe & Hn & He & Hin & Hie) Hs. unfold set_node.
  destruct (pool_set_spec _ _ _ s n Hp (pinv_bound _ _ _ _ Hp Hs)) as (p' & -> & Hp' & Hd & Hi'). cbn [mbind option_bind].
  eexists. split; [done|]. unfold pools, get_node, pool_get. cbn [t_nodes t_entries t_root t_last]. rewrite Hd, insert_length, Hi'. split_and!; auto.
  - eauto.
  - apply list_lookup_insert. by eapply pinv_bound.
  - intros y Hy. by rewrite list_lookup_insert_ne.
Qed.
Lemma set_entry_spec t an ae s n : pools t an ae -> s ∈ ae ->
  exists t', set_entry t s n = Some t' /\ pools t' an ae /\ t_root t' = t_root t /\ t_last t' = t_last t /\ t_nodes t' = t_nodes t /\
    get_entry t' s = Some n /\ (forall y, y <> s -> get_entry t' y = get_entry t y).
Proof.
  intros (Hpn & (fr & Hp) & Hn & He & Hin & Hie) Hs. unfold set_entry.
  destruct (pool_set_spec _ _ _ s n Hp (pinv_bound _ _ _ _ Hp Hs)) as (p' & -> & Hp' & Hd & Hi'). cbn [mbind option_bind].
  eexists. split; [done|]. unfold pools, get_entry, pool_get. cbn [t_nodes t_entries t_root t_last]. rewrite Hd, insert_length, Hi'. split_and!; auto.
  - eauto.
  - apply list_lookup_insert. by eapply pinv_bound.
  - intros y Hy. by rewrite list_lookup_insert_ne.
Qed.
Lemma foldM_add_child cs n : (length (n_children n) + length cs <= 11)%nat ->
  foldM add_child n cs = Some (TNode (n_box n) (n_level n) (n_children n ++ cs)).
Proof.
  revert n. induction cs as [|c cs IH]; intros n Hl; cbn [foldM].
  - rewrite app_nil_r. by destruct n.
  - simpl in Hl. assert (add_child n c = Some (TNode (n_box n) (n_level n) (n_children n ++ [c]))) as ->.
    { unfold add_child. destruct (Nat.leb_spec (length (n_children n)) MAXN) as [_|H]; [done|unfold MAXN in H; lia]. }
    cbn [mbind option_bind]. rewrite IH; cbn [n_box n_level n_children]; [|rewrite app_length; simpl; lia]. by rewrite <- app_assoc.
Qed.
Lemma build_new_node_spec t an ae lvl cs : pools t an ae -> (length cs <= 11)%nat ->
  exists s t', build_new_node dims t lvl cs = Some (s, t') /\ pools t' (an ++ [s]) ae /\ s ∉ an /\
    t_root t' = t_root t /\ t_last t' = t_last t /\ t_entries t' = t_entries t /\
    get_node t' s = Some (TNode (bbox_reset dims) lvl cs) /\ (forall y, y ∈ an -> get_node t' y = get_node t y).
Proof.
  intros ((fr & Hp) & Hpe & Hn & He & Hin & Hie) Hl. unfold build_new_node.
  destruct (pool_alloc_spec (dflt_node dims) _ _ _ Hp Hn) as (s & p' & fr' & -> & Hp' & Hs & Hk & Hlen & Hi'). cbn [mbind option_bind].
  rewrite foldM_add_child by (simpl; lia). cbn [mbind option_bind n_box n_level n_children app].
  set (t1 := RTree _ _ p' _).
  destruct (set_node_spec t1 (an ++ [s]) ae s (TNode (bbox_reset dims) lvl cs)) as (t' & -> & Hpt & Hr & Hla & Hen & Hg & Hgo).
  { unfold pools. simpl. rewrite Hi'. split_and!; eauto. lia. }
  { apply elem_of_app. right. by apply elem_of_list_singleton. }
  cbn [mbind option_bind]. exists s, t'. split_and!; auto.
  intros y Hy. rewrite Hgo by (intros ->; done). unfold get_node, pool_get. cbn [t_nodes t1].
  destruct (lookup_lt_is_Some_2 (p_data (t_nodes t)) y) as [v Hv]; [by eapply pinv_bound|]. by rewrite Hv, (Hk _ _ Hv).
Qed.
Lemma build_new_entry_spec t an ae en : pools t an ae ->
  exists s t', build_new_entry pd dims t en = Some (s, t') /\ pools t' an (ae ++ [s]) /\ s ∉ ae /\
    t_root t' = t_root t /\ t_last t' = t_last t /\ t_nodes t' = t_nodes t /\
    get_entry t' s = Some en /\ (forall y, y ∈ ae -> get_entry t' y = get_entry t y).
Proof.
  intros (Hpn & (fr & Hp) & Hn & He & Hin & Hie). unfold build_new_entry.
  destruct (pool_alloc_spec (dflt_entry pd dims) _ _ _ Hp He) as (s & p' & fr' & -> & Hp' & Hs & Hk & Hlen & Hi'). cbn [mbind option_bind].
  set (t1 := RTree _ _ _ p').
  destruct (set_entry_spec t1 an (ae ++ [s]) s en) as (t' & -> & Hpt & Hr & Hla & Hen & Hg & Hgo).
  { unfold pools. simpl. rewrite Hi'. split_and!; eauto. lia. }
  { apply elem_of_app. right. by apply elem_of_list_singleton. }
  cbn [mbind option_bind]. exists s, t'. split_and!; auto.
  intros y Hy. rewrite Hgo by (intros ->; done). unfold get_entry, pool_get. cbn [t_entries t1].
  destruct (lookup_lt_is_Some_2 (p_data (t_entries t)) y) as [v Hv]; [by eapply pinv_bound|]. by rewrite Hv, (Hk _ _ Hv).
Qed.

Lemma mapM_ex {A B} (f : A -> option B) l : (forall x, x ∈ l -> exists y, f x = Some y) -> exists ys, mapM f l = Some ys /\ Forall2 (fun x y => f x = Some y) l ys.
Proof.
  intros H. assert (is_Some (mapM f l)) as [ys Hys].
  { apply mapM_is_Some_2. apply list.Forall_forall. intros x Hx. exact (H x Hx). }
  exists ys. split; [done|]. by apply mapM_Some.
Qed.

(** The children of a node paired with their boxes. *)
Lemma boxed_spec t lvl cs : (forall c, c ∈ cs -> exists b, get_bbox t c lvl = Some b) ->
  exists bs, boxed t lvl cs = Some bs /\ bs.*1 = cs /\ (forall c b, (c, b) ∈ bs -> get_bbox t c lvl = Some b).
Proof.
  intros H. unfold boxed.
  destruct (mapM_ex (fun s => b ← get_bbox t s lvl; Some (s, b)) cs) as (bs & -> & Hf).
  { intros c Hc. destruct (H c Hc) as [b ->]. by eexists. }
  exists bs. split_and!; [done| |].
  - clear H. induction Hf as [|c y cs ys Hy Hf IH]; [done|]. rewrite fmap_cons, IH.
    destruct (get_bbox t c lvl); [|done]. cbn [mbind option_bind] in Hy. by injection Hy as <-.
  - intros c b Hin. apply elem_of_list_lookup in Hin as [i Hi]. destruct (Forall2_lookup_r _ _ _ _ _ Hf Hi) as (x & _ & Hx).
    simpl in Hx. destruct (get_bbox t x lvl) eqn:E; [|done]. cbn [mbind option_bind] in Hx. by injection Hx as <- <-.
Qed.

(** ** Changing one node *)
Lemma kids_ext g g' l : (forall x, x ∈ l -> g' x = g x) -> kids g' l = kids g l.
Proof.
  induction l as [|x l IH]; intros H; [done|]. unfold kids in *. rewrite !bind_cons, IH by (intros; apply H; by right). f_equal.
  unfold kid_ids. by rewrite H by left.
Qed.
Lemma kids_upd g g' an s n n' : NoDup an -> s ∈ an -> g s = Some n -> g' s = Some n' -> (forall y, y ∈ an -> y <> s -> g' y = g y) ->
  exists R, kids g an ≡ₚ nkids n ++ R /\ kids g' an ≡ₚ nkids n' ++ R.
Proof.
  intros Hnd Hs Hg Hg' Ho. apply elem_of_list_split in Hs as (l1 & l2 & ->). exists (kids g l1 ++ kids g l2).
  assert (forall y, y ∈ l1 ++ l2 -> y <> s) as Hne.
  { rewrite <- (Permutation_middle l1 l2 s) in Hnd. apply list.NoDup_cons in Hnd as [Hs _]. intros y Hy ->. done. }
  assert (forall y, y ∈ l1 ++ l2 -> g' y = g y) as Ho'.
  { intros y Hy. apply Ho; [|by apply Hne]. apply elem_of_app in Hy as [Hy|Hy]; apply elem_of_app; [by left|right; by right]. }
  split.
  - unfold kids. rewrite bind_app, bind_cons. unfold kid_ids at 2. rewrite Hg. by rewrite Permutation_app_swap_app.
  - rewrite <- (kids_ext g g' l1), <- (kids_ext g g' l2); [|intros; apply Ho', elem_of_app; by right|intros; apply Ho', elem_of_app; by left].
    unfold kids. rewrite bind_app, bind_cons. unfold kid_ids at 2. rewrite Hg'. by rewrite Permutation_app_swap_app.
Qed.
Lemma ids_ext g g' an ae : (forall x, x ∈ an -> lv g' x = lv g x) -> ids g' an ae = ids g an ae.
Proof.
  intros H. unfold ids. f_equal. apply list_fmap_ext. intros i x Hx. unfold nid. rewrite H; [done|]. by eapply elem_of_list_lookup_2.
Qed.
Lemma get_bbox_ext t t' c l : (l = 0 -> get_entry t' c = get_entry t c) -> (l <> 0 -> get_node t' c = get_node t c) -> get_bbox t' c l = get_bbox t c l.
Proof. unfold get_bbox. destruct (Nat.eqb_spec l 0) as [->|]; intros H1 H2; [by rewrite H1|by rewrite H2]. Qed.
Lemma get_entry_ext t t' : t_entries t' = t_entries t -> forall c, get_entry t' c = get_entry t c.
Proof. intros H c. unfold get_entry. by rewrite H. Qed.

(** Replace node [s] by [n'] of the same level; children may move between it and the top list. *)
Lemma flat_upd Bs t t' an ae top top' (ex ex' : nat -> Prop) s n n' :
  flat Bs t an ae top ex -> s ∈ an -> get_node t s = Some n ->
  pools t' an ae -> (forall c, get_entry t' c = get_entry t c) -> get_node t' s = Some n' -> (forall y, y ∈ an -> y <> s -> get_node t' y = get_node t y) ->
  n_level n' = n_level n -> nkids n' ++ top' ≡ₚ nkids n ++ top ->
  (forall y, y ∈ an -> y <> s -> ~ ex' y -> ~ ex y) ->
  (~ ex' s -> covers t n') -> (~ ex' s -> forall B, Bs B -> cover B (n_box n')) ->
  (forall p np, p ∈ an -> ~ ex' p -> get_node t p = Some np -> n_level np = S (n_level n) -> s ∈ n_children np -> cover (n_box np) (n_box n')) ->
  flat Bs t' an ae top' ex'.
Proof.
  intros Hf Hs Hn Hpools He Hn' Ho Hl Hperm Hex Hcs HinB Hpar.
  assert (forall l c, (l, c) ∈ ids (get_node t) an ae -> (l, c) <> (S (n_level n), s) -> get_bbox t' c l = get_bbox t c l) as Hbx.
  { intros l c Hin Hne. apply get_bbox_ext; [done|]. intros Hl0. apply elem_ids in Hin as [[Hl1 Hin]|[? _]]; [|done].
    apply Ho; [done|]. intros ->. apply Hne. rewrite Hl1. unfold lv. by rewrite Hn. }
  split.
  - done.
  - destruct (kids_upd (get_node t) (get_node t') an s n n') as (R & HR1 & HR2); auto.
    { eapply pools_nodup_n, f_pools, Hf. }
    rewrite (ids_ext (get_node t)).
    2:{ intros x Hx. unfold lv. destruct (decide (x = s)) as [->|Hne]; [rewrite Hn', Hn; done|]. by rewrite Ho. }
    rewrite <- (f_perm _ _ _ _ _ _ Hf), HR1, HR2.
    rewrite (Permutation_app_comm (nkids n') R), (Permutation_app_comm (nkids n) R), <- !app_assoc. by rewrite Hperm.
  - intros y Hy. destruct (decide (y = s)) as [->|Hne]; [eauto|]. rewrite Ho by done. by eapply f_node.
  - intros y m Hy Hney Hm. destruct (decide (y = s)) as [->|Hne].
    + rewrite Hn' in Hm. injection Hm as <-. destruct (Hcs Hney) as [Hok Hcov]. split; [done|].
      intros c Hc. destruct (Hcov c Hc) as (b & Hb & Hcb). exists b. split; [|done]. rewrite (Hbx (n_level n') c); [done| |].
      * assert ((n_level n', c) ∈ nkids n ++ top) as Hin.
        { rewrite <- Hperm. apply elem_of_app. left. apply elem_of_list_fmap. eauto. }
        apply elem_of_app in Hin as [Hin|Hin]; [|by eapply top_in_ids].
        apply elem_of_list_fmap in Hin as (c' & [= _ ->] & Hin). rewrite Hl. by eapply kid_in_ids.
      * intros [= Hlv _]. lia.
    + rewrite Ho in Hm by done. destruct (f_cov _ _ _ _ _ _ Hf y m Hy (Hex y Hy Hne Hney) Hm) as [Hok Hcov]. split; [done|].
      intros c Hc. destruct (Hcov c Hc) as (b & Hb & Hcb).
      destruct (decide ((n_level m, c) = (S (n_level n), s))) as [Heq|Hneq].
      * injection Heq as Hlm ->. exists (n_box n'). split; [|by eapply Hpar]. unfold get_bbox. rewrite Hlm. simpl. by rewrite Hn'.
      * exists b. split; [|done]. rewrite Hbx; auto. by eapply kid_in_ids.
  - intros e He'. rewrite He. by eapply f_entry.
  - intros B HB. destruct (f_in _ _ _ _ _ _ Hf B HB) as (Ha & Hb & Hc). split_and!; [done| |].
    + intros y m Hy Hney Hm. destruct (decide (y = s)) as [->|Hne]; [rewrite Hn' in Hm; injection Hm as <-; by apply HinB|].
      rewrite Ho in Hm by done. eapply Hb; eauto.
    + intros e en He' Hen. rewrite He in Hen. eauto.
Qed.

(** Add a node [s] whose children come from the top list. *)
Lemma flat_new Bs t t' an ae top top' (ex ex' : nat -> Prop) s n :
  flat Bs t an ae top ex -> s ∉ an ->
  pools t' (an ++ [s]) ae -> (forall c, get_entry t' c = get_entry t c) -> get_node t' s = Some n -> (forall y, y ∈ an -> get_node t' y = get_node t y) ->
  nkids n ++ top' ≡ₚ (S (n_level n), s) :: top ->
  (forall y, y ∈ an -> ~ ex' y -> ~ ex y) ->
  (~ ex' s -> covers t n) -> (~ ex' s -> forall B, Bs B -> cover B (n_box n)) ->
  flat Bs t' (an ++ [s]) ae top' ex'.
Proof.
  intros Hf Hs Hpools He Hn Ho Hperm Hex Hcs HinB.
  assert (forall l c, (l, c) ∈ ids (get_node t) an ae -> get_bbox t' c l = get_bbox t c l) as Hbx.
  { intros l c Hin. apply get_bbox_ext; [done|]. intros Hl0. apply elem_ids in Hin as [[Hl1 Hin]|[? _]]; [|done]. by apply Ho. }
  split.
  - done.
  - unfold kids, ids. rewrite bind_app, fmap_app. simpl. rewrite app_nil_r. unfold kid_ids at 2. unfold nid at 2. unfold lv. rewrite Hn.
    rewrite <- app_assoc, Hperm. fold (kids (get_node t') an). rewrite (kids_ext (get_node t)) by done.
    rewrite <- Permutation_middle. rewrite (f_perm _ _ _ _ _ _ Hf). unfold ids. rewrite <- app_assoc. cbn [app]. rewrite <- (Permutation_middle (nid (get_node t') <$> an)).
    apply perm_skip. apply Permutation_app; [|done].
    erewrite list_fmap_ext; [done|]. intros i x Hx. apply elem_of_list_lookup_2 in Hx. unfold nid, lv. by rewrite Ho.
  - intros y Hy. apply elem_of_app in Hy as [Hy|Hy].
    + rewrite Ho by done. by eapply f_node.
    + apply elem_of_list_singleton in Hy as ->. eauto.
  - intros y m Hy Hney Hm. destruct (decide (y = s)) as [->|Hne].
    + rewrite Hn in Hm. injection Hm as <-. destruct (Hcs Hney) as [Hok Hcov]. split; [done|].
      intros c Hc. destruct (Hcov c Hc) as (b & Hb & Hcb). exists b. split; [|done]. rewrite Hbx; [done|].
      assert ((n_level n, c) ∈ (S (n_level n), s) :: top) as Hin.
      { rewrite <- Hperm. apply elem_of_app. left. apply elem_of_list_fmap. eauto. }
      apply elem_of_cons in Hin as [[= Hlv _]|Hin]; [lia|]. by eapply top_in_ids.
    + apply elem_of_app in Hy as [Hy|Hy]; [|by apply elem_of_list_singleton in Hy].
      rewrite Ho in Hm by done. destruct (f_cov _ _ _ _ _ _ Hf y m Hy (Hex y Hy Hney) Hm) as [Hok Hcov]. split; [done|].
      intros c Hc. destruct (Hcov c Hc) as (b & Hb & Hcb). exists b. split; [|done]. rewrite Hbx; auto. by eapply kid_in_ids.
  - intros e He'. rewrite He. by eapply f_entry.
  - intros B HB. destruct (f_in _ _ _ _ _ _ Hf B HB) as (Ha & Hb & Hc). split_and!; [done| |].
    + intros y m Hy Hney Hm. destruct (decide (y = s)) as [->|Hne]; [rewrite Hn in Hm; injection Hm as <-; by apply HinB|].
      apply elem_of_app in Hy as [Hy|Hy]; [|by apply elem_of_list_singleton in Hy]. rewrite Ho in Hm by done. eapply Hb; eauto.
    + intros e en He' Hen. rewrite He in Hen. eauto.
Qed.

(** A new entry waits for insertion. *)
Lemma flat_new_entry (Bs Bs' : bbox -> Prop) t t' an ae top ex e en :
  flat Bs t an ae top ex -> e ∉ ae -> pools t' an (ae ++ [e]) -> (forall y, get_node t' y = get_node t y) ->
  get_entry t' e = Some en -> okbox (en_box en) -> (forall y, y ∈ ae -> get_entry t' y = get_entry t y) ->
  (forall B, Bs' B -> Bs B /\ cover B (en_box en)) ->
  flat Bs' t' an (ae ++ [e]) ((0, e) :: top) ex.
Proof.
  intros Hf He Hpools Hg Hen Hok Ho HBs.
  assert (forall l c, (l, c) ∈ ids (get_node t) an ae -> get_bbox t' c l = get_bbox t c l) as Hbx.
  { intros l c Hin. apply get_bbox_ext; [|done]. intros ->. apply elem_ids in Hin as [[Hl1 Hin]|[_ Hin]]; [done|]. by apply Ho. }
  split.
  - done.
  - rewrite (kids_ext (get_node t)) by done. rewrite (ids_ext (get_node t)) by (intros; unfold lv; by rewrite Hg).
    rewrite <- Permutation_middle, (f_perm _ _ _ _ _ _ Hf). unfold ids. rewrite fmap_app. simpl. rewrite app_assoc. by rewrite <- Permutation_cons_append.
  - intros y Hy. rewrite Hg. by eapply f_node.
  - intros y m Hy Hney Hm. rewrite Hg in Hm. destruct (f_cov _ _ _ _ _ _ Hf y m Hy Hney Hm) as [Hok' Hcov]. split; [done|].
    intros c Hc. destruct (Hcov c Hc) as (b & Hb & Hcb). exists b. split; [|done]. rewrite Hbx; auto. by eapply kid_in_ids.
  - intros y Hy. apply elem_of_app in Hy as [Hy|Hy]; [rewrite Ho by done; by eapply f_entry|]. apply elem_of_list_singleton in Hy as ->. eauto.
  - intros B HB. destruct (HBs B HB) as [HB1 HB2]. destruct (f_in _ _ _ _ _ _ Hf B HB1) as (Ha & Hb & Hc). split_and!; [done| |].
    + intros y m Hy Hney Hm. rewrite Hg in Hm. eauto.
    + intros y en' Hy Hen'. apply elem_of_app in Hy as [Hy|Hy]; [rewrite Ho in Hen' by done; eauto|].
      apply elem_of_list_singleton in Hy as ->. rewrite Hen in Hen'. by injection Hen' as <-.
Qed.
Lemma flat_in_id Bs t an ae top ex B l c b : flat Bs t an ae top ex -> Bs B -> (l, c) ∈ ids (get_node t) an ae -> (l <> 0 -> ~ ex c) ->
  get_bbox t c l = Some b -> cover B b.
Proof.
  intros Hf HB [[-> Hc]|[-> Hc]]%elem_ids Hex; destruct (f_in _ _ _ _ _ _ Hf B HB) as (Ha & Hb & Hcc); unfold get_bbox; simpl.
  - destruct (f_node _ _ _ _ _ _ Hf c Hc) as [m Hm]. rewrite Hm. simpl. intros [= <-]. eapply Hb; eauto.
  - destruct (f_entry _ _ _ _ _ _ Hf c Hc) as (en & Hen & Hok). rewrite Hen. simpl. intros [= <-]. eauto.
Qed.
End inv.
