(** Sort-tile-recursive rebuild (RebuildSTR): the grouping, and the tree built from it. *)
From stdpp Require Import base list list_numbers numbers option.
From Coq Require Import NArith.
From Verif Require Import NDArrayModel NullSupModel PoolModel PoolProofs BBoxModel BBoxProps RTreeModel RTreeBoxes RTreeInv RTreeInsert RTreeSearch RTreeOps.

(** ** Groups *)
Lemma mjoin_cons {A} (x : list A) l : mjoin (x :: l) = x ++ mjoin l.
Proof. done. Qed.
Lemma mjoin_app {A} (a b : list (list A)) : mjoin (a ++ b) = mjoin a ++ mjoin b.
Proof. induction a as [|x a IH]; [done|]. simpl app. by rewrite !mjoin_cons, IH, <- app_assoc. Qed.
Lemma sum_cons (x : nat) l : sum_list (x :: l) = (x + sum_list l)%nat.
Proof. done. Qed.
Definition ceil10 (n : nat) : nat := int_div_ceil n 10.
Lemma ceil10_add a b : ceil10 (10 * a + b) = (a + ceil10 b)%nat.
Proof.
  unfold ceil10, int_div_ceil. replace (10 * a + b + 10 - 1)%nat with (a * 10 + (b + 10 - 1))%nat by lia. by rewrite Nat.div_add_l by lia.
Qed.
Lemma ceil10_lt n : (2 <= n)%nat -> (1 <= ceil10 n < n)%nat.
Proof. intros H. unfold ceil10, int_div_ceil. split; [apply Nat.div_le_lower_bound; lia|]. apply Nat.div_lt_upper_bound; lia. Qed.
Lemma ceil10_pos n : (0 < n)%nat -> (0 < ceil10 n)%nat.
Proof. intros H. unfold ceil10, int_div_ceil. apply Nat.div_str_pos. lia. Qed.
Lemma ceil10_0 : ceil10 0 = 0%nat. Proof. done. Qed.
Lemma ceil10_1 n : (1 <= n <= 10)%nat -> ceil10 n = 1%nat.
Proof. intros H. unfold ceil10, int_div_ceil. symmetry. apply (Nat.div_unique _ _ _ (n - 1)); lia. Qed.

Lemma slabs_spec {A} (k : nat) (Hk : (0 < k)%nat) (fuel : nat) (l : list A) : (length l <= fuel)%nat ->
  exists gs, slabs fuel (10 * k) l = Some gs /\ mjoin gs = l /\ Forall (fun g => 1 <= length g <= 10 * k)%nat gs /\
    sum_list ((fun g => ceil10 (length g)) <$> gs) = ceil10 (length l).
Proof.
  revert l. induction fuel as [|fuel IH]; intros l Hl.
  - destruct l; [|simpl in Hl; lia]. exists []. simpl. split_and!; auto.
  - destruct l as [|x l']; [exists []; split_and!; auto|]. set (l := x :: l') in *. unfold slabs; fold (@slabs A). 
    change (match l with [] => Some [] | _ :: _ => rest ← slabs fuel (10 * k) (drop (10 * k) l); Some (take (10 * k) l :: rest) end)
      with (rest ← slabs fuel (10 * k) (drop (10 * k) l); Some (take (10 * k) l :: rest)).
    assert (0 < length l)%nat as Hpos by (simpl; lia).
    destruct (IH (drop (10 * k) l)) as (gs & -> & Hj & Hall & Hsum). { rewrite drop_length. lia. }
    cbn [mbind option_bind]. exists (take (10 * k) l :: gs). split_and!; [done| | |].
    + rewrite mjoin_cons, Hj. apply take_drop.
    + constructor; [|done]. rewrite take_length. lia.
    + rewrite fmap_cons. rewrite sum_cons, Hsum, take_length, drop_length.
      destruct (decide (10 * k <= length l)%nat) as [Hle|Hgt].
      * rewrite Nat.min_l by done. replace (length l) with (10 * k + (length l - 10 * k))%nat at 2 by lia.
        rewrite ceil10_add. replace (10 * k)%nat with (10 * k + 0)%nat at 1 by lia. rewrite ceil10_add. change (ceil10 0) with 0%nat. lia.
      * rewrite Nat.min_r by lia. replace (length l - 10 * k)%nat with 0%nat by lia. change (ceil10 0) with 0%nat. lia.
Qed.

Lemma str_groups_SS (dims : nat) (L : lib) {A} (box : A -> bbox) (d : nat) (l : list A) : str_groups dims L box (S (S d)) l =
  (let axis := (dims - S (S d))%nat in
   let l' := std_sort L _ (fun a b => bbox_center (box a) !!! axis <? bbox_center (box b) !!! axis)%N l in
   let per := (MAXN * slab L (int_div_ceil (length l') MAXN) (S (S d)))%nat in
   gs ← slabs (length l') per l'; rs ← mapM (str_groups dims L box (S d)) gs; Some (mjoin rs)).
Proof. done. Qed.
Lemma str_groups_spec (dims : nat) (L : lib) (HL : lib_ok L) {A} (box : A -> bbox) (d : nat) : (0 < d)%nat -> forall l : list A,
  exists gs, str_groups dims L box d l = Some gs /\ mjoin gs ≡ₚ l /\ Forall (fun g => 1 <= length g <= 10)%nat gs /\ length gs = ceil10 (length l).
Proof.
  intros Hd. destruct d as [|d]; [lia|]. clear Hd. induction d as [|d IH]; intros l.
  - cbn [str_groups]. set (l' := std_sort L A _ l). assert (l' ≡ₚ l) as Hp by apply (sort_perm _ HL). assert (length l' = length l) as Hlen by (by rewrite Hp).
    destruct l' as [|x l'0] eqn:Hl'.
    + exists []. rewrite <- Hlen. simpl. split_and!; auto.
    + rewrite <- Hl' in *. assert (0 < length l')%nat as Hpos by (rewrite Hl'; simpl; lia).
      rewrite (slab_one _ HL) by (by apply ceil10_pos). change (MAXN * 1)%nat with (10 * 1)%nat.
      destruct (slabs_spec 1 ltac:(lia) (length l') l' ltac:(lia)) as (gs & -> & Hj & Hall & Hsum). cbn [mbind option_bind].
      assert (forallb (fun g => length g <=? MAXN)%nat gs = true) as ->.
      { apply forallb_forall. intros g Hg%elem_of_list_In. rewrite list.Forall_forall in Hall. apply Hall in Hg. unfold MAXN. apply Nat.leb_le. lia. }
      exists gs. split_and!; [done|by rewrite Hj|done|]. rewrite <- Hlen, <- Hsum. clear -Hall. induction Hall as [|g gs Hg Hall IH]; [done|].
      rewrite fmap_cons, sum_cons. cbn [length]. rewrite ceil10_1 by lia. lia.
  - rewrite str_groups_SS. cbv zeta. set (l' := std_sort L A _ l). assert (l' ≡ₚ l) as Hp by apply (sort_perm _ HL). assert (length l' = length l) as Hlen by (by rewrite Hp).
    destruct l' as [|x l'0] eqn:Hl'.
    + exists []. rewrite <- Hlen. simpl. split_and!; auto.
    + rewrite <- Hl' in *. assert (0 < length l')%nat as Hpos by (rewrite Hl'; simpl; lia).
      change (MAXN * ?z)%nat with (10 * z)%nat.
      destruct (slabs_spec (slab L (int_div_ceil (length l') 10) (S (S d))) ltac:(by apply (slab_pos _ HL), ceil10_pos) (length l') l' ltac:(lia)) as (gs & Hgs & Hj & Hall & Hsum).
      unfold MAXN in *. rewrite Hgs. cbn [mbind option_bind].
      assert (forall gs0, exists rs, mapM (str_groups dims L box (S d)) gs0 = Some rs /\ mjoin (mjoin rs) ≡ₚ mjoin gs0 /\
        Forall (fun g => 1 <= length g <= 10)%nat (mjoin rs) /\ length (mjoin rs) = sum_list ((fun g => ceil10 (length g)) <$> gs0)) as Hmap.
      { clear -IH. induction gs0 as [|g gs0 IHg].
        - exists []. split_and!; [done|done|constructor|done].
        - destruct (IH g) as (r & Hr & Hr1 & Hr2 & Hr3). destruct IHg as (rs & Hrs & Hs1 & Hs2 & Hs3). exists (r :: rs).
          cbn [mapM]. rewrite Hr. cbn [mbind option_bind]. rewrite Hrs. cbn [mbind option_bind]. split_and!; [done| | |]; rewrite !mjoin_cons.
          + rewrite mjoin_app, Hr1, Hs1. done.
          + apply Forall_app. by split.
          + rewrite app_length, fmap_cons, sum_cons. rewrite Hr3. f_equal. exact Hs3. }
      destruct (Hmap gs) as (rs & -> & Hr1 & Hr2 & Hr3). cbn [mbind option_bind]. exists (mjoin rs). split_and!; [done| |done|].
      * by rewrite Hr1, Hj.
      * by rewrite Hr3, Hsum, Hlen.
Qed.

Section rebuild.
Context {P : Type} (pd : P) (dims : nat) (L : lib) (HL : lib_ok L) (Bs : bbox -> Prop).
Implicit Types t : rtree P.
Local Notation okbox := (okbox dims).

Definition small t (an : list nat) : Prop := forall s n, s ∈ an -> get_node t s = Some n -> (1 <= length (n_children n) <= 10)%nat.

(** ** The leaves *)
Lemma add_entries (g : list (entry P)) : Forall (fun e => okbox (en_box e) /\ forall B, Bs B -> cover B (en_box e)) g ->
  forall t an ae top (acc : list nat), flat dims Bs t an ae top none ->
  exists t' es, foldM (fun '(t, es) e => '(s, t') ← build_new_entry pd dims t e; Some (t', es ++ [s])) (t, acc) g = Some (t', acc ++ es) /\
    flat dims Bs t' an (ae ++ es) (((fun e => (0, e)) <$> es) ++ top) none /\ Forall2 (fun s e => get_entry t' s = Some e) es g /\
    t_nodes t' = t_nodes t /\ t_root t' = t_root t /\ t_last t' = t_last t /\ (forall y, y ∈ ae -> get_entry t' y = get_entry t y).
Proof.
  induction 1 as [|e g [Hok HB] Hg IH]; intros t an ae top acc Hf.
  - exists t, []. simpl. rewrite !app_nil_r. split_and!; auto.
  - cbn [foldM]. destruct (build_new_entry_spec pd dims t an ae e) as (s & t1 & Hrun & Hp1 & Hs & Hr1 & Hla1 & Hn1 & Hg1 & Hgo1); [by eapply f_pools|].
    rewrite Hrun. cbn [mbind option_bind].
    assert (flat dims Bs t1 an (ae ++ [s]) ((0, s) :: top) none) as Hf1.
    { eapply flat_new_entry; eauto. intros y. unfold get_node. by rewrite Hn1. }
    destruct (IH t1 an (ae ++ [s]) ((0, s) :: top) (acc ++ [s]) Hf1) as (t2 & es & -> & Hf2 & Hes & Hn2 & Hr2 & Hla2 & Hgo2).
    exists t2, (s :: es). split_and!; try congruence.
    + by rewrite <- app_assoc.
    + replace (ae ++ s :: es) with ((ae ++ [s]) ++ es) by (by rewrite <- app_assoc). eapply flat_weaken; [exact Hf2| |auto].
      rewrite fmap_cons. simpl. by rewrite <- Permutation_middle.
    + constructor; [|done]. rewrite Hgo2; [done|]. apply elem_of_app. right. by left.
    + intros y Hy. rewrite Hgo2; [by apply Hgo1|]. apply elem_of_app. by left.
Qed.

Lemma small_new t t' an s b lvl cs : small t an -> (1 <= length cs <= 10)%nat -> get_node t' s = Some (TNode b lvl cs) ->
  (forall y, y ∈ an -> get_node t' y = get_node t y) -> s ∉ an -> small t' (an ++ [s]).
Proof.
  intros Hs Hcs Hg Ho Hns y n Hy Hn. apply elem_of_app in Hy as [Hy|Hy]; [|apply elem_of_list_singleton in Hy as ->].
  - rewrite Ho in Hn by done. eauto.
  - rewrite Hg in Hn. by injection Hn as <-.
Qed.

Lemma add_leaf_spec g t an ae slots es : Forall (fun e => okbox (en_box e) /\ forall B, Bs B -> cover B (en_box e)) g -> (1 <= length g <= 10)%nat ->
  flat dims Bs t an ae ((fun s => (1, s)) <$> slots) none -> small t an -> (forall s, s ∈ an -> lv (get_node t) s = 0) ->
  Forall2 (fun s e => get_entry t s = Some e) ae es ->
  exists t' an' ae' s, add_leaf pd dims (t, slots) g = Some (t', slots ++ [s]) /\
    flat dims Bs t' an' ae' ((fun s => (1, s)) <$> (slots ++ [s])) none /\ small t' an' /\ (forall s, s ∈ an' -> lv (get_node t') s = 0) /\
    Forall2 (fun s e => get_entry t' s = Some e) ae' (es ++ g) /\ t_root t' = t_root t /\ t_last t' = t_last t.
Proof.
  intros Hg Hlen Hf Hsm Hlv Hes. unfold add_leaf.
  destruct (add_entries g Hg t an ae _ [] Hf) as (t1 & new & -> & Hf1 & Hnew & Hn1 & Hr1 & Hla1 & Hgo1). cbn [mbind option_bind app].
  assert (length new = length g) as Hlnew by (by eapply Forall2_length).
  destruct (build_and_recalc dims 1 ltac:(lia) Bs t1 an (ae ++ new) _ ((fun s => (1, s)) <$> slots) 0 new Hf1) as (s & t2 & t3 & b & Hrun & Hrec & Hs & Hf3 & Hr3 & Hla3 & Hen3 & Hg3 & Hgo3); [lia|done|].
  rewrite Hrun. cbn [mbind option_bind]. rewrite Hrec. cbn [mbind option_bind].
  assert (forall y, get_node t1 y = get_node t y) as Hgn by (intros y; unfold get_node; by rewrite Hn1).
  exists t3, (an ++ [s]), (ae ++ new), s. split_and!; auto; try congruence.
  - eapply flat_weaken; [exact Hf3| |auto]. rewrite fmap_app. simpl. by rewrite Permutation_app_comm.
  - eapply (small_new t1); eauto; [|lia]. intros y n Hy. rewrite Hgn. eauto.
  - intros y Hy. apply elem_of_app in Hy as [Hy|Hy]; [|apply elem_of_list_singleton in Hy as ->].
    + unfold lv. rewrite Hgo3, Hgn by done. by apply Hlv.
    + by rewrite (lv_eq _ _ _ Hg3).
  - apply Forall2_app.
    + eapply Forall2_in; [exact Hes|]. intros x y Hx Hxy. rewrite (get_entry_ext t1 t3) by done. by rewrite Hgo1.
    + eapply Forall2_in; [exact Hnew|]. intros x y Hx Hxy. by rewrite (get_entry_ext t1 t3).
Qed.

Lemma add_leaves gs : Forall (fun g => 1 <= length g <= 10)%nat gs -> forall t an ae slots es,
  Forall (fun e => okbox (en_box e) /\ forall B, Bs B -> cover B (en_box e)) (mjoin gs) ->
  flat dims Bs t an ae ((fun s => (1, s)) <$> slots) none -> small t an -> (forall s, s ∈ an -> lv (get_node t) s = 0) ->
  Forall2 (fun s e => get_entry t s = Some e) ae es ->
  exists t' an' ae' new, foldM (add_leaf pd dims) (t, slots) gs = Some (t', slots ++ new) /\ length new = length gs /\
    flat dims Bs t' an' ae' ((fun s => (1, s)) <$> (slots ++ new)) none /\ small t' an' /\ (forall s, s ∈ an' -> lv (get_node t') s = 0) /\
    Forall2 (fun s e => get_entry t' s = Some e) ae' (es ++ mjoin gs) /\ t_root t' = t_root t /\ t_last t' = t_last t.
Proof.
  induction 1 as [|g gs Hg Hgs IH]; intros t an ae slots es Hall Hf Hsm Hlv Hes.
  - exists t, an, ae, []. cbn [foldM]. change (mjoin []) with (@nil (entry P)). rewrite !app_nil_r. split_and!; auto.
  - rewrite mjoin_cons in Hall. apply Forall_app in Hall as [Hall1 Hall2].
    destruct (add_leaf_spec g t an ae slots es Hall1 Hg Hf Hsm Hlv Hes) as (t1 & an1 & ae1 & s & Hrun & Hf1 & Hsm1 & Hlv1 & Hes1 & Hr1 & Hla1).
    cbn [foldM]. rewrite Hrun. cbn [mbind option_bind].
    destruct (IH t1 an1 ae1 (slots ++ [s]) (es ++ g) Hall2 Hf1 Hsm1 Hlv1 Hes1) as (t2 & an2 & ae2 & new & -> & Hlen & Hf2 & Hsm2 & Hlv2 & Hes2 & Hr2 & Hla2).
    exists t2, an2, ae2, (s :: new). rewrite mjoin_cons. rewrite !app_assoc in *. rewrite <- !app_assoc in *. simpl in *.
    split_and!; auto; try congruence.
Qed.

(** ** The inner layers *)
Lemma add_inners level gs : Forall (fun g : list nat => 1 <= length g <= 10)%nat gs -> forall t an ae slots,
  flat dims Bs t an ae (((fun s => (level, s)) <$> mjoin gs) ++ ((fun s => (S level, s)) <$> slots)) none -> small t an ->
  (forall s, s ∈ an -> lv (get_node t) s <= level)%nat ->
  exists t' an' new, foldM (add_inner dims level) (t, slots) gs = Some (t', slots ++ new) /\
    flat dims Bs t' an' ae ((fun s => (S level, s)) <$> (slots ++ new)) none /\ small t' an' /\ (forall s, s ∈ an' -> lv (get_node t') s <= level)%nat /\
    Forall2 (fun s g => exists b, get_node t' s = Some (TNode b level g)) new gs /\
    (forall y, y ∈ an -> y ∈ an' /\ get_node t' y = get_node t y) /\ t_entries t' = t_entries t /\ t_root t' = t_root t /\ t_last t' = t_last t.
Proof.
  induction 1 as [|g gs Hg Hgs IH]; intros t an ae slots Hf Hsm Hlv.
  - exists t, an, []. cbn [foldM] in *. change (mjoin []) with (@nil nat) in Hf. rewrite app_nil_r. split_and!; auto.
  - rewrite mjoin_cons in Hf. cbn [foldM add_inner] in *. rewrite fmap_app, <- app_assoc in Hf.
    destruct (build_and_recalc dims 1 ltac:(lia) Bs t an ae _ _ level g Hf ltac:(lia) ltac:(reflexivity)) as (s & t2 & t3 & b & Hrun & Hrec & Hs & Hf3 & Hr3 & Hla3 & Hen3 & Hg3 & Hgo3).
    rewrite Hrun. cbn [mbind option_bind]. rewrite Hrec. cbn [mbind option_bind].
    destruct (IH t3 (an ++ [s]) ae (slots ++ [s])) as (t4 & an4 & new & -> & Hf4 & Hsm4 & Hlv4 & Hnew & Hold & Hen4 & Hr4 & Hla4).
    { eapply flat_weaken; [exact Hf3| |auto]. rewrite fmap_app. simpl. rewrite app_assoc. apply Permutation_cons_append. }
    { eapply (small_new t); eauto. }
    { intros y Hy. apply elem_of_app in Hy as [Hy|Hy]; [|apply elem_of_list_singleton in Hy as ->].
      - unfold lv. rewrite Hgo3 by done. by apply Hlv.
      - by rewrite (lv_eq _ _ _ Hg3). }
    exists t4, an4, (s :: new). rewrite <- !app_assoc in *. simpl in *. split_and!; auto; try congruence.
    + constructor; [|done]. exists b. destruct (Hold s) as [_ ->]; [apply elem_of_app; right; by left|done].
    + intros y Hy. destruct (Hold y) as [H1 H2]; [apply elem_of_app; by left|]. split; [done|]. rewrite H2. auto.
Qed.

Lemma str_layers_spec (Hd : (0 < dims)%nat) (fuel : nat) : forall level t an ae slots, (1 <= length slots <= fuel)%nat -> (0 < level)%nat ->
  flat dims Bs t an ae ((fun s => (level, s)) <$> slots) none -> small t an -> (forall s, s ∈ an -> S (lv (get_node t) s) <= level)%nat ->
  (forall s n, slots = [s] -> get_node t s = Some n -> (0 < n_level n)%nat -> (2 <= length (n_children n))%nat) ->
  exists t' an' r level', str_layers dims L fuel level t slots = Some (t', [r]) /\
    flat dims Bs t' an' ae [(level', r)] none /\ small t' an' /\ (forall s, s ∈ an' -> S (lv (get_node t') s) <= level')%nat /\
    (forall n, get_node t' r = Some n -> (0 < n_level n)%nat -> (2 <= length (n_children n))%nat) /\ (0 < level')%nat /\
    t_entries t' = t_entries t /\ t_last t' = t_last t.
Proof.
  induction fuel as [|fuel IH]; intros level t an ae slots Hlen Hpos Hf Hsm Hlv Hone; [lia|]. cbn [str_layers].
  destruct (Nat.ltb_spec 1 (length slots)) as [Hgt|Hle].
  - destruct (boxed_spec t level slots) as (cs & -> & Hcs & Hbox).
    { intros c Hc. eapply (flat_id_box dims _ _ _ _ _ _ Hf). eapply (top_in_ids dims _ _ _ _ _ _ Hf). apply elem_of_list_fmap. eauto. }
    cbn [mbind option_bind]. destruct (str_groups_spec dims L HL snd dims Hd cs) as (gs & -> & Hj & Hall & Hngs). cbn [mbind option_bind].
    assert (length cs = length slots) as Hlcs by (by rewrite <- Hcs, fmap_length).
    assert (mjoin ((fun g : list (nat * bbox) => g.*1) <$> gs) ≡ₚ slots) as Hperm.
    { rewrite <- Hcs, <- Hj. clear. induction gs as [|g gs IH]; [done|]. rewrite fmap_cons, !mjoin_cons, fmap_app. by rewrite <- IH. }
    destruct (add_inners level ((fun g : list (nat * bbox) => g.*1) <$> gs)) with (t := t) (an := an) (ae := ae) (slots := @nil nat)
      as (t1 & an1 & new & -> & Hf1 & Hsm1 & Hlv1 & Hnew & Hold & Hen1 & Hr1 & Hla1); auto.
    { apply Forall_fmap. eapply list.Forall_impl; [exact Hall|]. intros g Hg. simpl. rewrite fmap_length. done. }
    { rewrite app_nil_r. eapply flat_weaken; [exact Hf| |auto]. by rewrite Hperm. }
    { intros s Hs. specialize (Hlv s Hs). lia. }
    cbn [mbind option_bind app] in *.
    assert (length new = length gs) as Hln by (rewrite (Forall2_length _ _ _ Hnew), fmap_length; done).
    pose proof (ceil10_lt (length cs) ltac:(lia)) as Hc.
    destruct (IH (S level) t1 an1 ae new) as (t2 & an2 & r & level' & -> & Hf2 & Hsm2 & Hlv2 & Htwo & Hp' & Hen2 & Hla2); auto; try lia.
    { intros s Hs. specialize (Hlv1 s Hs). lia. }
    { intros s n -> Hn _. inversion Hnew as [|? g ? gs' [b Hb] Hrest Heq1 Heq2]; subst. rewrite Hn in Hb. injection Hb as ->. simpl.
      apply Forall2_nil_inv_l in Hrest. subst gs'. destruct gs as [|g0 gs]; [done|]. cbn [fmap list_fmap] in Heq2. injection Heq2 as -> Hgs. destruct gs; [|done].
      rewrite fmap_length. rewrite mjoin_cons in Hj. change (mjoin []) with (@nil (nat * bbox)) in Hj. rewrite app_nil_r in Hj. rewrite Hj. lia. }
    exists t2, an2, r, level'. split_and!; auto; congruence.
  - destruct slots as [|s [|? ?]]; simpl in *; try lia. exists t, an, s, level. split_and!; eauto.
Qed.

Lemma rebuild_str_good m (Bs0 : bbox -> Prop) t ae es : (0 < dims)%nat -> es <> [] -> good dims m Bs0 t ae es ->
  (forall B, Bs B -> okbox B /\ forall en, en ∈ es -> cover B (en_box en)) ->
  exists t' ae' es', rebuild_str pd dims L t = Some t' /\ es' ≡ₚ es /\ good dims 1 Bs t' ae' es' /\ t_last t' = None.
Proof.
  intros Hd Hne Hg HBs. unfold rebuild_str. destruct (good_pools _ _ _ _ _ _ Hg) as (an & _ & _ & _ & _ & Hi & Hj).
  destruct (fresh_good pd dims 1 Bs _ _ Hi Hj) as (ns & es0 & Hns & Hes0 & Hg0 & _).
  unfold pool_reset. rewrite Hns. cbn [mbind option_bind]. rewrite (pool_entries_good _ _ _ _ _ _ Hg). cbn [mbind option_bind]. rewrite Hes0. cbn [mbind option_bind].
  destruct (str_groups_spec dims L HL en_box dims Hd es) as (gs & -> & Hp & Hall & Hngs). cbn [mbind option_bind].
  assert (Forall (fun e => okbox (en_box e) /\ forall B, Bs B -> cover B (en_box e)) (mjoin gs)) as Hboxes.
  { rewrite Hp. apply list.Forall_forall. intros en Hen. destruct (good_lookup_r _ _ _ _ _ _ _ Hg Hen) as (e & He & Hge).
    destruct Hg as ([(_ & _ & ->)|(an' & r & _ & _ & Hf & _)] & _); [by apply elem_of_nil in He|].
    destruct (f_entry _ _ _ _ _ _ _ Hf e He) as (en' & Hen' & Hok). rewrite Hge in Hen'. injection Hen' as <-. split; [done|].
    intros B HB. by apply HBs. }
  assert (forall B, Bs B -> okbox B) as HBok.
  { intros B HB. by apply HBs. }
  destruct Hg0 as ([(_ & Hp0 & _)|(? & ? & ? & _)] & _); [|done].
  destruct (add_leaves gs Hall (RTree None None ns es0) [] [] [] []) as (t1 & an1 & ae1 & new & -> & Hlen & Hf1 & Hsm1 & Hlv1 & Hes1 & Hr1 & Hla1); auto.
  { apply (flat_empty dims Bs _ [] Hp0).
    - intros e He. by apply elem_of_nil in He.
    - intros B HB. split; [auto|]. intros e en He. by apply elem_of_nil in He. }
  { intros s n Hs. by apply elem_of_nil in Hs. }
  { intros s Hs. by apply elem_of_nil in Hs. }
  cbn [mbind option_bind app] in *.
  assert (0 < length es)%nat as Hpos by (destruct es; [done|simpl; lia]). pose proof (ceil10_pos _ Hpos).
  destruct (str_layers_spec Hd (length new) 1 t1 an1 ae1 new) as (t2 & an2 & r & level' & -> & Hf2 & Hsm2 & Hlv2 & Htwo & Hp' & Hen2 & Hla2); auto; try lia.
  { intros s Hs. rewrite Hlv1 by done. lia. }
  { intros s n -> Hn Hl0. exfalso. destruct (flat_top dims _ _ _ _ _ _ Hf1 1 s) as [[? _]|[Hs _]]; [by left|done|]. specialize (Hlv1 s Hs).
    rewrite (lv_eq _ _ _ Hn) in Hlv1. lia. }
  cbn [mbind option_bind]. exists (set_root t2 (Some r)), ae1, (mjoin gs). split; [done|]. split; [done|]. split; [|simpl in *; congruence].
  destruct (flat_top dims _ _ _ _ _ _ Hf2 level' r) as [[-> _]|[Hr (nr & Hnr & Hlr)]]; [by left|lia|].
  split_and!.
  - right. exists an2, r. split_and!.
    + intros ->. apply Forall2_nil_inv_l in Hes1. rewrite Hes1 in Hp. apply Permutation_nil in Hp. done.
    + split_and!; [done|done|]. intros s Hs. change (lv (get_node t2) s <= lv (get_node t2) r)%nat. rewrite (lv_eq _ _ _ Hnr). specialize (Hlv2 s Hs). lia.
    + change (lv (get_node (set_root t2 (Some r))) r) with (lv (get_node t2) r). rewrite (lv_eq _ _ _ Hnr), <- Hlr. destruct Hf2 as [A1 A2 A3 A4 A5 A6]. split; auto.
    + intros s n Hs Hn. change (get_node t2 s = Some n) in Hn. pose proof (Hsm2 s n Hs Hn). split_and!; intros; try lia. subst s. eauto.
  - eapply Forall2_in; [exact Hes1|]. intros x y Hx Hxy. change (get_entry t2 x = Some y). by rewrite (get_entry_ext t1 t2).
  - simpl. intros l Hl. rewrite Hla2, Hla1 in Hl. done.
Qed.
End rebuild.
