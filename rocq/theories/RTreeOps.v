(** Operations of the spatial index on its invariant and abstract content. *)
From stdpp Require Import base list list_numbers numbers option.
From Coq Require Import NArith.
From Verif Require Import NDArrayModel NullSupModel PoolModel PoolProofs BBoxModel BBoxProps RTreeModel RTreeBoxes RTreeInv RTreeInsert RTreeSearch.

Section ops.
Context {P : Type} (pd : P) (dims : nat) (L : lib) (HL : lib_ok L) (m : nat) (Hm : (m <= 2)%nat).
Implicit Types t : rtree P.
Local Notation okbox := (okbox dims).
Local Notation covers := (covers dims).

(** The index is well formed, its live entries are [ae], holding [es]. *)
Definition good (Bs : bbox -> Prop) t (ae : list nat) (es : list (entry P)) : Prop :=
  ((t_root t = None /\ pools t [] [] /\ ae = []) \/
   (exists an r, ae <> [] /\ rooted t an r /\ flat dims Bs t an ae [(S (lv (get_node t) r), r)] none /\ occ m t an r none)) /\
  Forall2 (fun s e => get_entry t s = Some e) ae es /\
  (forall l, t_last t = Some l -> l ∈ ae).

Lemma good_empty (Bs Bs' : bbox -> Prop) t ae : good Bs t ae [] -> ae = [] /\ good Bs' t [] [].
Proof.
  intros (H1 & H2 & H3). apply Forall2_nil_inv_r in H2 as ->. split; [done|]. split_and!; auto.
  destruct H1 as [H1|(an & r & Hne & _)]; [by left|done].
Qed.

Lemma Forall2_in {A B} (R Q : A -> B -> Prop) l k : Forall2 R l k -> (forall x y, x ∈ l -> R x y -> Q x y) -> Forall2 Q l k.
Proof.
  intros H. induction H as [|x y l k Hxy H IH]; intros HQ; constructor.
  - apply HQ; [by left|done].
  - apply IH. intros x' y' Hx'. apply HQ. by right.
Qed.

(** ** Construction, Clear *)
Lemma fresh_good (Bs : bbox -> Prop) (i j : nat) : (0 < i)%nat -> (0 < j)%nat ->
  exists ns es, pool_fresh (dflt_node dims) i = Some ns /\ pool_fresh (dflt_entry pd dims) j = Some es /\ good Bs (RTree None None ns es) [] [] /\
    p_init ns = i /\ p_init es = j.
Proof.
  intros Hi Hj. destruct (pool_fresh_spec (dflt_node dims) i) as (ns & -> & Hn & Hnd & Hni). destruct (pool_fresh_spec (dflt_entry pd dims) j) as (es & -> & He & Hed & Hei).
  exists ns, es. split_and!; auto. split_and!; [|constructor|done]. left. split_and!; auto. unfold pools; simpl.
  rewrite Hnd, Hed, !replicate_length, Hni, Hei. split_and!; eauto.
Qed.
Lemma rt_new_good Bs init : (0 < init)%nat -> exists t, rt_new pd dims init = Some t /\ good Bs t [] [].
Proof.
  intros Hi. destruct (fresh_good Bs init init Hi Hi) as (ns & es & Hns & Hes & Hg & _). exists (RTree None None ns es).
  unfold rt_new, pool_new. rewrite Hns. cbn [mbind option_bind]. rewrite Hes. done.
Qed.
Lemma good_pools Bs t ae es : good Bs t ae es -> exists an, pools t an ae.
Proof. intros ([(_ & H & ->)|(an & r & _ & _ & Hf & _)] & _); [eauto|]. exists an. apply (f_pools _ _ _ _ _ _ _ Hf). Qed.
Lemma rt_clear_good Bs Bs' t ae es : good Bs t ae es -> exists t', rt_clear pd dims t = Some t' /\ good Bs' t' [] [].
Proof.
  intros Hg. destruct (good_pools _ _ _ _ Hg) as (an & _ & _ & _ & _ & Hi & Hj).
  destruct (fresh_good Bs' _ _ Hi Hj) as (ns & es' & Hns & Hes & Hg' & _). exists (RTree None None ns es').
  unfold rt_clear, pool_reset. rewrite Hns. cbn [mbind option_bind]. rewrite Hes. done.
Qed.

(** ** InsertElement *)
Lemma flat_empty (Bs : bbox -> Prop) t ae : pools t [] ae -> (forall e, e ∈ ae -> exists en, get_entry t e = Some en /\ okbox (en_box en)) ->
  (forall B, Bs B -> okbox B /\ forall e en, e ∈ ae -> get_entry t e = Some en -> cover B (en_box en)) ->
  flat dims Bs t [] ae ((fun e => (0, e)) <$> ae) none.
Proof.
  intros Hp He HB. split; auto.
  - intros s Hs. by apply elem_of_nil in Hs.
  - intros s n Hs. by apply elem_of_nil in Hs.
  - intros B HB'. destruct (HB B HB') as [H1 H2]. split_and!; auto. intros s n Hs. by apply elem_of_nil in Hs.
Qed.

(** A new leaf or inner node over waiting children, with its box computed. *)
Lemma build_and_recalc Bs t an ae top top' lvl cs : flat dims Bs t an ae top none -> (1 <= length cs <= 11)%nat ->
  top ≡ₚ ((fun c => (lvl, c)) <$> cs) ++ top' ->
  exists s t1 t2 b, build_new_node dims t lvl cs = Some (s, t1) /\ recalculate_bbox dims t1 s = Some t2 /\ s ∉ an /\
    flat dims Bs t2 (an ++ [s]) ae ((S lvl, s) :: top') none /\ t_root t2 = t_root t /\ t_last t2 = t_last t /\ t_entries t2 = t_entries t /\
    get_node t2 s = Some (TNode b lvl cs) /\ (forall y, y ∈ an -> get_node t2 y = get_node t y).
Proof.
  intros Hf Hlen Htop.
  destruct (build_new_node_spec dims t an ae lvl cs) as (s & t1 & Hrun1 & Hpt1 & Hs & Hr1 & Hla1 & Hen1 & Hg1 & Hgo1); [by eapply f_pools|lia|].
  assert (flat dims Bs t1 (an ++ [s]) ae ((S lvl, s) :: top') (only s)) as Hf1.
  { eapply flat_new; try exact Hf; eauto.
    - by apply get_entry_ext.
    - unfold nkids. simpl. rewrite <- Permutation_middle. by rewrite Htop.
    - intros H. by destruct H.
    - intros H. by destruct H. }
  destruct (recalc_flat dims Bs t1 (an ++ [s]) ae ((S lvl, s) :: top') (only s) none s (TNode (bbox_reset dims) lvl cs))
    as (t2 & b & Hrun2 & Hf2 & Hr2 & Hla2 & Hen2 & Hg2 & Hgo2 & _ & _); auto; simpl.
  { apply elem_of_app; right; by apply elem_of_list_singleton. }
  { intros ->. simpl in Hlen. lia. }
  { intros c Hc Hl0 ->. destruct (flat_top dims _ _ _ _ _ _ Hf lvl s) as [[? _]|[? _]]; [|done|done].
    rewrite Htop. apply elem_of_app. left. apply elem_of_list_fmap. eauto. }
  { intros p np Hp _ Hgp Hlp Hsp. exfalso. eapply (top_no_parent dims); [exact Hf1|exact Hp|exact Hgp|exact Hsp|]. rewrite Hlp. by left. }
  exists s, t1, t2, b. split_and!; auto; try congruence. intros y Hy. rewrite Hgo2 by (intros ->; done). by apply Hgo1.
Qed.

Lemma insert_element_good (Bs Bs' : bbox -> Prop) t ae es p lo hi : good Bs t ae es -> proper lo hi -> length lo = dims ->
  (forall B, Bs' B -> Bs B /\ okbox B /\ cover B (mk_bbox lo hi)) ->
  exists slot t', insert_element pd dims L t p lo hi = Some (slot, t') /\ slot ∉ ae /\
    good Bs' t' (ae ++ [slot]) (es ++ [Entry (mk_bbox lo hi) p]).
Proof.
  intros (Hst & Hes & Hlast) Hprop Hdim HBs. unfold insert_element. assert (okbox (mk_bbox lo hi)) as Hok by (by apply okbox_mk).
  destruct Hst as [(Hroot & Hp & ->)|(an & r & Hne & Hrt & Hf & Hocc)].
  - destruct (build_new_entry_spec pd dims t [] [] (Entry (mk_bbox lo hi) p) Hp) as (slot & t1 & -> & Hp1 & Hs & Hr1 & Hla1 & Hn1 & Hg1 & Hgo1).
    cbn [mbind option_bind]. rewrite Hr1, Hroot. simpl in Hp1.
    assert (flat dims Bs' t1 [] [slot] [(0, slot)] none) as Hf1.
    { apply (flat_empty Bs' t1 [slot] Hp1).
      - intros e He%elem_of_list_singleton. subst. eauto.
      - intros B HB. destruct (HBs B HB) as (_ & H1 & H2). split; [done|]. intros e en He%elem_of_list_singleton Hen. subst.
        rewrite Hg1 in Hen. by injection Hen as <-. }
    destruct (build_and_recalc Bs' t1 [] [slot] [(0, slot)] [] 0 [slot] Hf1) as (s & t2 & t3 & b & Hrun & Hrec & _ & Hf3 & Hr3 & Hla3 & Hen3 & Hg3 & _); [simpl; lia|done|].
    rewrite Hrun. cbn [mbind option_bind].
    assert (recalculate_bbox dims (set_root t2 (Some s)) s = Some (set_root t3 (Some s))) as ->.
    { unfold recalculate_bbox in *. change (get_node (set_root t2 (Some s)) s) with (get_node t2 s). destruct (get_node t2 s) as [n|]; [|done]. cbn [mbind option_bind] in *.
      change (fun c => get_bbox (set_root t2 (Some s)) c (n_level n)) with (fun c => get_bbox t2 c (n_level n)).
      destruct (mapM _ (n_children n)) as [bs|]; [|done]. cbn [mbind option_bind] in *. unfold set_node in *. change (t_nodes (set_root t2 (Some s))) with (t_nodes t2).
      destruct (pool_set (t_nodes t2) s _) as [ns|]; [|done]. cbn [mbind option_bind] in *. injection Hrec as <-. done. }
    cbn [mbind option_bind]. exists slot, (set_root t3 (Some s)). split_and!; auto. simpl in Hf3.
    assert (lv (get_node (set_root t3 (Some s))) s = 0) as Hlv.
    { unfold lv. change (get_node (set_root t3 (Some s)) s) with (get_node t3 s). by rewrite Hg3. }
    split_and!.
    + right. exists [s], s. split_and!; [done| | |].
      * split_and!; [done|by left|]. intros y Hy%elem_of_list_singleton. by subst.
      * rewrite Hlv. destruct Hf3 as [A1 A2 A3 A4 A5 A6]. split; auto.
      * intros y ny Hy%elem_of_list_singleton Hny. subst y. change (get_node t3 s = Some ny) in Hny. rewrite Hg3 in Hny. injection Hny as <-. simpl. split_and!; intros; try lia.
    + apply Forall2_nil_inv_l in Hes as ->. simpl. constructor; [|constructor]. change (get_entry t3 slot = Some (Entry (mk_bbox lo hi) p)).
      rewrite (get_entry_ext t1 t3); [done|congruence].
    + simpl. intros l Hl. rewrite Hla3, Hla1 in Hl. apply Hlast in Hl. by apply elem_of_nil in Hl.
  - destruct (build_new_entry_spec pd dims t an ae (Entry (mk_bbox lo hi) p)) as (slot & t1 & -> & Hp1 & Hs & Hr1 & Hla1 & Hn1 & Hg1 & Hgo1); [by eapply f_pools|].
    assert (forall y, get_node t1 y = get_node t y) as Hgn by (intros y; unfold get_node; by rewrite Hn1).
    cbn [mbind option_bind]. rewrite Hr1. destruct Hrt as (Hroot & Hr & Hmax). rewrite Hroot.
    assert (flat dims Bs' t1 an (ae ++ [slot]) ((0, slot) :: [(S (lv (get_node t) r), r)]) none) as Hf1.
    { eapply flat_new_entry; eauto. simpl. intros B HB. destruct (HBs B HB) as (? & ? & ?). auto. }
    assert (forall y, lv (get_node t1) y = lv (get_node t) y) as Hlv1 by (intros; unfold lv; by rewrite Hgn).
    assert (rooted t1 an r) as A1.
    { split_and!; [congruence|done|]. intros s Hsin. rewrite !Hlv1. auto. }
    assert (flat dims Bs' t1 an (ae ++ [slot]) ((S (lv (get_node t1) r), r) :: (0, slot) :: []) none) as A2.
    { rewrite Hlv1. eapply flat_weaken; [exact Hf1|apply perm_swap|auto]. }
    assert (occ m t1 an r none) as A3.
    { intros s n Hsin Hsn. rewrite Hgn in Hsn. eauto. }
    assert (get_bbox t1 slot 0 = Some (mk_bbox lo hi)) as A4.
    { unfold get_bbox. simpl. by rewrite Hg1. }
    destruct (insert_root_spec dims Bs' m Hm t1 an (ae ++ [slot]) r [] slot 0 (mk_bbox lo hi) A1 A2 A3 (Nat.le_0_l _) A4 (overflow_first dims L) (overflow_first_ok dims L HL Bs' m Hm))
      as (n & res & t2 & Hn & Hrun & new & r' & Hla2 & Hen2 & _ & Hrt2 & Hf2 & Hocc2).
    rewrite Hn. cbn [mbind option_bind]. rewrite Hrun. cbn [mbind option_bind]. exists slot, t2. split_and!; auto. split_and!.
    + right. exists (an ++ new), r'. split_and!; auto. by destruct ae.
    + apply Forall2_app.
      * eapply Forall2_in; [exact Hes|]. intros x y Hx Hxy. rewrite (get_entry_ext t1 t2) by done. by rewrite Hgo1.
      * constructor; [|constructor]. by rewrite (get_entry_ext t1 t2).
    + intros l Hl. rewrite Hla2, Hla1 in Hl. apply elem_of_app. left. auto.
Qed.

(** ** UpdateBoundingBox *)
Lemma flat_set_entry (Bs Bs' : bbox -> Prop) t t' an ae top e en p : flat dims Bs t an ae top none -> e ∈ ae -> pools t' an ae ->
  t_nodes t' = t_nodes t -> get_entry t' e = Some en -> okbox (en_box en) -> (forall y, y <> e -> get_entry t' y = get_entry t y) ->
  (forall s n, s ∈ an -> s <> p -> get_node t s = Some n -> n_level n = 0 -> e ∉ n_children n) ->
  (forall B, Bs' B -> Bs B /\ cover B (en_box en)) ->
  flat dims Bs' t' an ae top (only p).
Proof.
  intros Hf He Hp Hn Hen Hok Ho Hpar HB. assert (forall y, get_node t' y = get_node t y) as Hg by (intros y; unfold get_node; by rewrite Hn). split.
  - done.
  - rewrite (kids_ext (get_node t)) by done. rewrite (ids_ext (get_node t)) by (intros; unfold lv; by rewrite Hg). apply (f_perm _ _ _ _ _ _ _ Hf).
  - intros s Hs. rewrite Hg. by eapply f_node.
  - intros s n Hs Hsp Hsn. rewrite Hg in Hsn. destruct (f_cov _ _ _ _ _ _ _ Hf s n Hs ltac:(auto) Hsn) as [H1 H2]. split; [done|].
    intros c Hc. destruct (H2 c Hc) as (b & Hb & Hcb). exists b. split; [|done]. rewrite <- Hb. apply get_bbox_ext; [|done]. intros Hl. apply Ho. intros ->.
    eapply (Hpar s n); eauto.
  - intros y Hy. destruct (decide (y = e)) as [->|Hne]; [eauto|]. rewrite Ho by done. by eapply f_entry.
  - intros B HB'. destruct (HB B HB') as [HB1 HB2]. destruct (f_in _ _ _ _ _ _ _ Hf B HB1) as (Ha & Hb & Hc). split_and!; [done| |].
    + intros y n Hy _ Hny. rewrite Hg in Hny. eapply Hb; eauto.
    + intros y n Hy Hny. destruct (decide (y = e)) as [->|Hne]; [rewrite Hen in Hny; by injection Hny as <-|]. rewrite Ho in Hny by done. eauto.
Qed.

Lemma update_bbox_spec (Bs Bs' : bbox -> Prop) t an ae r c lo hi fuel s n :
  flat dims Bs t an ae [(S (lv (get_node t) r), r)] none -> s ∈ an -> get_node t s = Some n -> (n_level n < fuel)%nat -> okbox (mk_bbox lo hi) ->
  (forall B, Bs' B -> Bs B /\ cover B (mk_bbox lo hi)) ->
  (update_bbox dims fuel t s c lo hi = Some (false, t) /\ (forall e en, under t s e -> get_entry t e = Some en -> bbox_contains (en_box en) c = false)) \/
  (exists t' e en, update_bbox dims fuel t s c lo hi = Some (true, t') /\ under t s e /\ get_entry t e = Some en /\ bbox_contains (en_box en) c = true /\
     flat dims Bs' t' an ae [(S (lv (get_node t) r), r)] (only s) /\ t_root t' = t_root t /\ t_last t' = t_last t /\
     get_entry t' e = Some (Entry (mk_bbox lo hi) (en_pay en)) /\ (forall y, y <> e -> get_entry t' y = get_entry t y) /\
     (forall y ny, y ∈ an -> get_node t y = Some ny -> exists b, get_node t' y = Some (TNode b (n_level ny) (n_children ny)))).
Proof.
  intros Hf Hs Hn Hfuel Hok HB. revert s n Hs Hn Hfuel. induction fuel as [|fuel IH]; intros s n Hs Hn Hfuel; [lia|].
  cbn [update_bbox]. rewrite Hn. cbn [mbind option_bind]. destruct (Nat.eqb_spec (n_level n) 0) as [Hl|Hl].
  - destruct (first_containing_spec t c (n_children n)) as (res & -> & Hres).
    { intros e He. eapply (leaf_entries dims _ _ _ _ _ Hf); eauto. }
    cbn [mbind option_bind]. destruct res as [e|].
    + right. destruct Hres as [He (en & Hen & Hc)]. rewrite Hen. cbn [mbind option_bind].
      assert (e ∈ ae) as Hea by (eapply (leaf_entries dims _ _ _ _ _ Hf s); eauto).
      destruct (set_entry_spec t an ae e (Entry (mk_bbox lo hi) (en_pay en))) as (t' & -> & Hp' & Hr' & Hla' & Hn' & Hg' & Hgo'); [by eapply f_pools|done|].
      cbn [mbind option_bind]. exists t', e, en. assert (forall y, get_node t' y = get_node t y) as Hg by (intros y; unfold get_node; by rewrite Hn').
      split_and!; auto.
      * by eapply under_leaf.
      * eapply (flat_set_entry Bs Bs'); eauto. intros p np Hp Hps Hnp Hlp Hin. apply Hps. eapply (parent_unique dims _ _ _ _ _ _ Hf p s); eauto. lia.
      * intros y ny Hy Hny. rewrite Hg, Hny. exists (n_box ny). by destruct ny.
    + left. split; [done|]. intros e en Hu Hen.
      inversion Hu as [s' n' e' Hn' Hl' He'|s' n' c' e' Hn' Hl' Hc' Hu']; subst; rewrite Hn in Hn'; injection Hn' as <-; [eauto|lia].
  - match goal with |- context [?F t (n_children n)] => set (loop := F) end.
    assert (forall cs, (forall ch, ch ∈ cs -> ch ∈ n_children n) ->
      (loop t cs = Some (false, t) /\ (forall ch e en, ch ∈ cs -> under t ch e -> get_entry t e = Some en -> bbox_contains (en_box en) c = false)) \/
      (exists t' e en, loop t cs = Some (true, t') /\ under t s e /\ get_entry t e = Some en /\ bbox_contains (en_box en) c = true /\
         flat dims Bs' t' an ae [(S (lv (get_node t) r), r)] (only s) /\ t_root t' = t_root t /\ t_last t' = t_last t /\
         get_entry t' e = Some (Entry (mk_bbox lo hi) (en_pay en)) /\ (forall y, y <> e -> get_entry t' y = get_entry t y) /\
             (forall y ny, y ∈ an -> get_node t y = Some ny -> exists b, get_node t' y = Some (TNode b (n_level ny) (n_children ny))))) as Hloop.
    { induction cs as [|ch cs IHcs]; intros Hcs; cbn [loop].
      - left. split; [done|]. intros ch e en Hch. by apply elem_of_nil in Hch.
      - fold loop. destruct (flat_child dims _ _ _ _ _ _ Hf s n ch Hs Hn (Hcs ch ltac:(by left))) as [[? _]|[Hca (mc & Hmc & Hlm)]]; [done|].
        destruct (IH ch mc Hca Hmc ltac:(lia)) as [[-> Hno]|(t1 & e & en & -> & Hu & Hen & Hc & Hf1 & Hr1 & Hla1 & Hg1 & Hgo1 & Hnodes)]; cbn [mbind option_bind].
        + destruct IHcs as [[-> Hno']|Hyes]; [intros; apply Hcs; by right| |by right].
          left. split; [done|]. intros ch' e en Hch' Hu Hen. apply elem_of_cons in Hch' as [->|Hch']; eauto.
        + right. assert (ch <> s) as Hchs by (intros ->; rewrite Hn in Hmc; injection Hmc as <-; lia).
          destruct (Hnodes ch mc Hca Hmc) as [bch Hns]. destruct (Hnodes s n Hs Hn) as [bs Hns1].
          destruct (recalc_flat dims Bs' t1 an ae [(S (lv (get_node t) r), r)] (only ch) (only s) ch (TNode bch (n_level mc) (n_children mc))) as (t2 & b & -> & Hf2 & Hr2 & Hla2 & Hen2 & Hg2 & Hgo2 & _ & _); auto.
          { simpl. intros Hnil. inversion Hu as [s' n' e' Hn' Hl' He'|s' n' c' e' Hn' Hl' Hc' Hu']; subst; rewrite Hmc in Hn'; injection Hn' as <-.
            - rewrite Hnil in He'. by apply elem_of_nil in He'.
            - rewrite Hnil in Hc'. by apply elem_of_nil in Hc'. }
          { intros c' Hc' Hl0 ->. destruct (flat_child dims _ _ _ _ _ _ Hf1 ch _ ch Hca Hns Hc') as [[? _]|[_ (m' & Hm' & Hlm')]]; [done|]. rewrite Hns in Hm'. injection Hm' as <-. simpl in Hlm'. lia. }
          { simpl. intros p np Hp Hps Hnp Hlp Hcp. exfalso. apply Hps. eapply (parent_unique dims _ _ _ _ _ _ Hf1 p s np _ ch); eauto; simpl; [lia|]. apply Hcs. by left. }
          cbn [mbind option_bind]. exists t2, e, en. split_and!; auto; try congruence.
          * eapply under_inner; eauto. apply Hcs. by left.
          * rewrite (get_entry_ext t1 t2) by done. done.
          * intros y Hy. rewrite (get_entry_ext t1 t2) by done. auto.
          * intros y ny Hy Hny. destruct (decide (y = ch)) as [->|Hne].
            -- rewrite Hmc in Hny. injection Hny as <-. eauto.
            -- rewrite Hgo2 by done. auto. }
    destruct (Hloop (n_children n)) as [[-> Hno]|Hyes]; [auto| |by right].
    left. split; [done|]. intros e en Hu Hen.
    inversion Hu as [s' n' e' Hn' Hl' He'|s' n' c' e' Hn' Hl' Hc' Hu']; subst; rewrite Hn in Hn'; injection Hn' as <-; [lia|eauto].
Qed.

Lemma good_lookup Bs t ae es e : good Bs t ae es -> e ∈ ae -> exists i en, ae !! i = Some e /\ es !! i = Some en /\ get_entry t e = Some en.
Proof.
  intros (_ & Hes & _) He. apply elem_of_list_lookup in He as [i Hi]. destruct (Forall2_lookup_l _ _ _ _ _ Hes Hi) as (en & Hen & Hg). eauto.
Qed.
Lemma good_lookup_r Bs t ae es en : good Bs t ae es -> en ∈ es -> exists e, e ∈ ae /\ get_entry t e = Some en.
Proof.
  intros (_ & Hes & _) He. apply elem_of_list_lookup in He as [i Hi]. destruct (Forall2_lookup_r _ _ _ _ _ Hes Hi) as (e & Hen & Hg).
  exists e. split; [|done]. by eapply elem_of_list_lookup_2.
Qed.
Lemma good_nodup Bs t ae es : good Bs t ae es -> NoDup ae.
Proof. intros Hg. destruct (good_pools _ _ _ _ Hg) as [an Hp]. by eapply pools_nodup_e. Qed.

Lemma update_bounding_box_good (Bs Bs' : bbox -> Prop) t ae es c lo hi : good Bs t ae es -> es <> [] -> proper lo hi -> length lo = dims ->
  (forall B, Bs' B -> Bs B /\ cover B (mk_bbox lo hi)) ->
  (update_bounding_box dims t c lo hi = Some t /\ forall en, en ∈ es -> bbox_contains (en_box en) c = false) \/
  (exists t' i en, update_bounding_box dims t c lo hi = Some t' /\ es !! i = Some en /\ bbox_contains (en_box en) c = true /\
     good Bs' t' ae (<[i := Entry (mk_bbox lo hi) (en_pay en)]> es)).
Proof.
  intros Hg Hne Hprop Hdim HB. pose proof Hg as ([(_ & _ & ->)|(an & r & Hae & Hrt & Hf & Hocc)] & Hes & Hlast).
  { apply Forall2_nil_inv_l in Hes. done. }
  unfold update_bounding_box. destruct Hrt as (Hroot & Hr & Hmax). rewrite Hroot. cbn [mbind option_bind].
  destruct (f_node _ _ _ _ _ _ _ Hf r Hr) as [n Hn]. rewrite Hn. cbn [mbind option_bind].
  destruct (update_bbox_spec Bs Bs' t an ae r c lo hi (S (n_level n)) r n) as [[-> Hno]|(t1 & e & en & -> & Hu & Hen & Hc & Hf1 & Hr1 & Hla1 & Hg1 & Hgo1 & Hnodes)]; auto.
  { by apply okbox_mk. }
  - cbn [mbind option_bind]. left. split; [done|]. intros en Hin. destruct (good_lookup_r _ _ _ _ _ Hg Hin) as (e & He & Hen).
    eapply Hno; [|exact Hen]. eapply (under_root dims); [exact Hf|split_and!; eauto|done].
  - cbn [mbind option_bind]. right. destruct (Hnodes r n Hr Hn) as [br Hnr].
    assert (e ∈ ae) as Hea by (eapply (under_ae dims); [exact Hf|exact Hr|done]).
    destruct (recalc_flat dims Bs' t1 an ae [(S (lv (get_node t) r), r)] (only r) none r (TNode br (n_level n) (n_children n))) as (t2 & b & -> & Hf2 & Hr2 & Hla2 & Hen2 & Hg2 & Hgo2 & _ & _); auto; simpl.
    { destruct (Hocc r n Hr Hn) as ([O1 _] & _). intros Hnil. rewrite Hnil in O1. simpl in O1. lia. }
    { intros c' Hc' Hl0 ->. destruct (flat_child dims _ _ _ _ _ _ Hf r n r Hr Hn Hc') as [[? _]|[_ (m' & Hm' & Hlm')]]; [done|]. rewrite Hn in Hm'. injection Hm' as <-. lia. }
    { intros p np Hp _ Hgp Hlp Hsp. exfalso. eapply (top_no_parent dims); [exact Hf1|exact Hp|exact Hgp|exact Hsp|]. rewrite Hlp, (lv_eq _ _ _ Hn). by left. }
    destruct (good_lookup _ _ _ _ e Hg Hea) as (i & en' & Hi & Hei & Hen'). rewrite Hen in Hen'. injection Hen' as <-.
    exists t2, i, en. split_and!; auto.
    assert (forall y ny, y ∈ an -> get_node t y = Some ny -> exists b, get_node t2 y = Some (TNode b (n_level ny) (n_children ny))) as Hnodes2.
    { intros y ny Hy Hny. destruct (decide (y = r)) as [->|Hner]; [rewrite Hn in Hny; injection Hny as <-; eauto|]. rewrite Hgo2 by done. auto. }
    assert (forall y, y ∈ an -> lv (get_node t2) y = lv (get_node t) y) as Hlv.
    { intros y Hy. destruct (f_node _ _ _ _ _ _ _ Hf y Hy) as [ny Hny]. destruct (Hnodes2 y ny Hy Hny) as [by' Hby]. by rewrite (lv_eq _ _ _ Hny), (lv_eq _ _ _ Hby). }
    split_and!.
    + right. exists an, r. split_and!; auto.
      * split_and!; [congruence|done|]. intros y Hy. rewrite !Hlv by done. auto.
      * by rewrite Hlv.
      * intros y ny Hy Hny. destruct (f_node _ _ _ _ _ _ _ Hf y Hy) as [ny0 Hny0]. destruct (Hnodes2 y ny0 Hy Hny0) as [by' Hby].
        rewrite Hny in Hby. injection Hby as ->. simpl. exact (Hocc y ny0 Hy Hny0).
    + pose proof (good_nodup _ _ _ _ Hg) as Hnd. apply Forall2_same_length_lookup_2.
      { rewrite insert_length. by eapply Forall2_length. }
      intros j x y Hx Hy. rewrite (get_entry_ext t1 t2) by done. destruct (decide (j = i)) as [->|Hji].
      * rewrite list_lookup_insert in Hy by (by eapply lookup_lt_Some). injection Hy as <-. rewrite Hi in Hx. injection Hx as <-. done.
      * rewrite list_lookup_insert_ne in Hy by done. rewrite Hgo1.
        -- destruct (Forall2_lookup_l _ _ _ _ _ Hes Hx) as (y' & Hy' & Hgy). rewrite Hy in Hy'. by injection Hy' as <-.
        -- intros ->. apply Hji. eapply NoDup_lookup; eauto.
    + intros l Hl. apply Hlast. congruence.
Qed.

(** ** Lookups *)
Lemma search_point_good Bs t ae es c : good Bs t ae es -> es <> [] -> coords c -> length c = dims ->
  exists res t', search_point t c = Some (res, t') /\ good Bs t' ae es /\ t_nodes t' = t_nodes t /\ t_entries t' = t_entries t /\ t_root t' = t_root t /\
    match res with
    | Some s => exists i en, ae !! i = Some s /\ es !! i = Some en /\ bbox_contains (en_box en) c = true /\ payload_at t' s = Some (en_pay en)
    | None => forall en, en ∈ es -> bbox_contains (en_box en) c = false
    end.
Proof.
  intros Hg Hne Hc Hlc. pose proof Hg as ([(_ & _ & ->)|(an & r & Hae & Hrt & Hf & Hocc)] & Hes & Hlast).
  { apply Forall2_nil_inv_l in Hes. done. }
  destruct (f_node _ _ _ _ _ _ _ Hf r ltac:(apply Hrt)) as [n Hn].
  assert (forall hit : option nat, (forall l, hit = Some l -> l ∈ ae /\ exists en, get_entry t l = Some en /\ bbox_contains (en_box en) c = true) ->
    exists res t', match hit with Some l => Some (Some l, t) | None =>
      r ← t_root t; n ← get_node t r; f ← search_entry (S (n_level n)) t r c;
      match f with Some s => Some (Some s, set_last t (Some s)) | None => Some (None, t) end end = Some (res, t') /\
    good Bs t' ae es /\ t_nodes t' = t_nodes t /\ t_entries t' = t_entries t /\ t_root t' = t_root t /\
    match res with
    | Some s => exists i en, ae !! i = Some s /\ es !! i = Some en /\ bbox_contains (en_box en) c = true /\ payload_at t' s = Some (en_pay en)
    | None => forall en, en ∈ es -> bbox_contains (en_box en) c = false
    end) as Hmain.
  { intros hit Hhit. destruct hit as [l|].
    - exists (Some l), t. destruct (Hhit l eq_refl) as (Hl & en & Hen & Hcn). split_and!; auto.
      destruct (good_lookup _ _ _ _ l Hg Hl) as (i & en' & Hi & Hei & Hen'). rewrite Hen in Hen'. injection Hen' as <-.
      exists i, en. split_and!; auto. unfold payload_at. by rewrite Hen.
    - destruct Hrt as (Hroot & Hr & Hmax). rewrite Hroot. cbn [mbind option_bind]. rewrite Hn. cbn [mbind option_bind].
      destruct (search_entry_spec dims Bs t an ae r Hf (S (n_level n)) r n c Hr Hn) as (res & -> & Hres); auto. cbn [mbind option_bind].
      destruct res as [s|].
      + destruct Hres as [Hu (en & Hen & Hcn)]. exists (Some s), (set_last t (Some s)). split; [done|].
        assert (s ∈ ae) as Hs by (eapply (under_ae dims); [exact Hf|exact Hr|done]).
        split_and!; auto.
        * split_and!; auto.
          -- right. exists an, r. split_and!; auto; [done|]. destruct Hf as [A1 A2 A3 A4 A5 A6]. split; auto.
          -- simpl. by intros l [= <-].
        * destruct (good_lookup _ _ _ _ s Hg Hs) as (i & en' & Hi & Hei & Hen'). rewrite Hen in Hen'. injection Hen' as <-.
          exists i, en. split_and!; auto. unfold payload_at. change (get_entry (set_last t (Some s)) s) with (get_entry t s). by rewrite Hen.
      + exists None, t. split_and!; auto. intros en Hin. destruct (good_lookup_r _ _ _ _ _ Hg Hin) as (e & He & Hen).
        eapply Hres; [|exact Hen]. eapply (under_root dims); [exact Hf|split_and!; eauto|done]. }
  unfold search_point. destruct (t_last t) as [l|] eqn:Hl.
  - specialize (Hlast l eq_refl). destruct (good_lookup _ _ _ _ l Hg Hlast) as (i & en & Hi & Hei & Hen). rewrite Hen. cbn [mbind option_bind].
    apply Hmain. intros l' Hl'. destruct (bbox_contains (en_box en) c) eqn:Hcn; [|done]. injection Hl' as <-. eauto.
  - cbn [mbind option_bind]. by apply (Hmain None).
Qed.

Lemma bind_hits t q ae es : Forall2 (fun s e => get_entry t s = Some e) ae es ->
  mbind (M := list) (hits t q) ae = en_pay <$> filter (fun e => bbox_overlaps q (en_box e) = true) es.
Proof.
  intros H. symmetry. apply hits_leaf. induction H as [|s e ae es Hs H IH]; [done|]. cbn [mapM]. rewrite Hs. cbn [mbind option_bind]. rewrite IH. done.
Qed.
Lemma search_range_good Bs t ae es lo hi : good Bs t ae es ->
  exists ps, search_range t lo hi = Some ps /\ ps ≡ₚ en_pay <$> filter (fun e => bbox_overlaps (mk_bbox lo hi) (en_box e) = true) es.
Proof.
  intros Hg. pose proof Hg as ([(Hroot & _ & ->)|(an & r & Hae & Hrt & Hf & Hocc)] & Hes & _); unfold search_range.
  - rewrite Hroot. apply Forall2_nil_inv_l in Hes as ->. by exists [].
  - destruct (f_node _ _ _ _ _ _ _ Hf r ltac:(apply Hrt)) as [n Hn]. rewrite (proj1 Hrt). cbn [mbind option_bind]. rewrite Hn. cbn [mbind option_bind].
    rewrite (search_range_spec dims Bs t an ae r Hf (S (n_level n)) r n); auto; [|by apply Hrt]. eexists. split; [done|].
    rewrite <- (bind_hits t (mk_bbox lo hi) ae es) by done. by rewrite (collect_root dims Bs t an ae r Hf Hrt n Hn).
Qed.
Lemma get_all_entries_good Bs t ae es : good Bs t ae es -> get_all_entries t = Some (en_pay <$> es).
Proof.
  intros Hg. destruct (good_pools _ _ _ _ Hg) as (an & _ & (fr & Hp) & _). destruct Hg as (_ & Hes & _). unfold get_all_entries. rewrite (pool_elements_spec _ _ _ Hp).
  assert (mapM (fun x => p_data (t_entries t) !! x) ae = Some es) as -> by (by apply mapM_Some). done.
Qed.
Lemma pool_entries_good Bs t ae es : good Bs t ae es -> pool_elements (t_entries t) = Some es.
Proof.
  intros Hg. destruct (good_pools _ _ _ _ Hg) as (an & _ & (fr & Hp) & _). destruct Hg as (_ & Hes & _). rewrite (pool_elements_spec _ _ _ Hp). by apply mapM_Some.
Qed.
Lemma get_bounding_box_good Bs t ae es : good Bs t ae es -> es <> [] ->
  exists b, get_bounding_box dims t = Some b /\ okbox b /\ (forall en, en ∈ es -> cover b (en_box en)) /\ forall B, Bs B -> cover B b.
Proof.
  intros Hg Hne. pose proof Hg as ([(Hroot & _ & ->)|(an & r & Hae & Hrt & Hf & Hocc)] & Hes & _); unfold get_bounding_box.
  - by apply Forall2_nil_inv_l in Hes.
  - destruct (f_node _ _ _ _ _ _ _ Hf r ltac:(apply Hrt)) as [n Hn]. rewrite (proj1 Hrt), Hn. simpl. exists (n_box n). split_and!; auto.
    + eapply (node_ok dims Bs _ _ _ _ r); eauto. apply Hrt.
    + intros en Hin. destruct (good_lookup_r _ _ _ _ _ Hg Hin) as (e & He & Hen). eapply (under_cover dims); eauto; [apply Hrt|]. by eapply under_root.
    + intros B HB. eapply (in_box dims Bs _ _ _ _ r); eauto. apply Hrt.
Qed.
End ops.
