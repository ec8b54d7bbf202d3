(** Lookups in the spatial index. *)
From stdpp Require Import base list list_numbers numbers option.
From Coq Require Import NArith.
From Verif Require Import NDArrayModel NullSupModel PoolModel PoolProofs BBoxModel BBoxProps RTreeModel RTreeBoxes RTreeInv RTreeInsert.

Section search.
Context {P : Type} (pd : P) (dims : nat) (Bs : bbox -> Prop).
Implicit Types t : rtree P.
Local Notation okbox := (okbox dims).
Local Notation flat := (flat dims Bs).
Local Notation covers := (covers dims).

(** The entry [e] is below node [s]. *)
Inductive under t : nat -> nat -> Prop :=
  | under_leaf s n e : get_node t s = Some n -> n_level n = 0 -> e ∈ n_children n -> under t s e
  | under_inner s n c e : get_node t s = Some n -> n_level n <> 0 -> c ∈ n_children n -> under t c e -> under t s e.

Section facts.
Context t an ae r (Hf : flat t an ae [(S (lv (get_node t) r), r)] none) (Hrt : rooted t an r).

Lemma under_ae s e : s ∈ an -> under t s e -> e ∈ ae.
Proof using Hf.
  intros Hs Hu. induction Hu as [s n e Hn Hl He|s n c e Hn Hl Hc Hu IH].
  - destruct (flat_child dims _ _ _ _ _ _ Hf s n e Hs Hn He) as [[_ ?]|[_ (m & _ & ?)]]; [done|lia].
  - apply IH. destruct (flat_child dims _ _ _ _ _ _ Hf s n c Hs Hn Hc) as [[? _]|[? _]]; done.
Qed.
Lemma entry_ok e en : e ∈ ae -> get_entry t e = Some en -> okbox (en_box en).
Proof using Hf. intros He Hen. destruct (f_entry _ _ _ _ _ _ _ Hf e He) as (en' & Hen' & Hok). rewrite Hen in Hen'. by injection Hen' as <-. Qed.
Lemma under_cover s n e en : s ∈ an -> get_node t s = Some n -> under t s e -> get_entry t e = Some en -> cover (n_box n) (en_box en).
Proof using Hf.
  intros Hs Hn Hu Hen. revert n Hs Hn. induction Hu as [s n' e Hn' Hl He|s n' c e Hn' Hl Hc Hu IH]; intros n Hs Hn; rewrite Hn in Hn'; injection Hn' as <-.
  - destruct (f_cov _ _ _ _ _ _ _ Hf s n Hs ltac:(auto) Hn) as [_ Hcov]. destruct (Hcov e He) as (b & Hb & Hcb).
    unfold get_bbox in Hb. rewrite Hl in Hb. simpl in Hb. rewrite Hen in Hb. by injection Hb as <-.
  - destruct (flat_child dims _ _ _ _ _ _ Hf s n c Hs Hn Hc) as [[? _]|[Hca (mc & Hmc & Hlc)]]; [done|].
    eapply (cover_trans dims _ (n_box mc)).
    + by eapply (node_ok _ _ _ _ _ _ c).
    + eapply entry_ok; [|done]. by eapply under_ae.
    + by eapply (node_ok _ _ _ _ _ _ s).
    + by eapply (parent_cover _ _ _ _ _ _ s n c mc).
    + eauto.
Qed.
Lemma under_unique s1 s2 n1 n2 e : s1 ∈ an -> s2 ∈ an -> get_node t s1 = Some n1 -> get_node t s2 = Some n2 -> n_level n1 = n_level n2 ->
  under t s1 e -> under t s2 e -> s1 = s2.
Proof using Hf.
  intros H1 H2 Hn1 Hn2 Hl Hu1. revert s2 n1 n2 H1 H2 Hn1 Hn2 Hl. induction Hu1 as [s n e Hn Hln He|s n c e Hn Hln Hc Hu IH]; intros s2 n1 n2 H1 H2 Hn1 Hn2 Hl Hu2;
    rewrite Hn in Hn1; injection Hn1 as <-; inversion Hu2 as [s' n' e' Hn' Hl' He'|s' n' c' e' Hn' Hl' Hc' Hu']; subst;
    rewrite Hn2 in Hn'; injection Hn' as <-; try lia.
  - eapply (parent_unique dims _ _ _ _ _ _ Hf s s2); eauto.
  - assert (c = c') as <-.
    { destruct (flat_child dims _ _ _ _ _ _ Hf s n c H1 Hn Hc) as [[? _]|[Hca (mc & Hmc & Hlc)]]; [done|].
      destruct (flat_child dims _ _ _ _ _ _ Hf s2 n2 c' H2 Hn2 Hc') as [[? _]|[Hca' (mc' & Hmc' & Hlc')]]; [done|].
      eapply IH; eauto. lia. }
    eapply (parent_unique dims _ _ _ _ _ _ Hf s s2); eauto.
Qed.
(** Everything is below the root. *)
Lemma under_climb k s n e : (lv (get_node t) r - n_level n <= k)%nat -> s ∈ an -> get_node t s = Some n -> under t s e -> under t r e.
Proof using Hf Hrt.
  revert s n. induction k as [|k IH]; intros s n Hk Hs Hn Hu.
  - assert ((S (n_level n), s) ∈ ids (get_node t) an ae) as Hin.
    { apply elem_ids. left. by rewrite (lv_eq _ _ _ Hn). }
    rewrite <- (f_perm _ _ _ _ _ _ _ Hf) in Hin. apply elem_of_app in Hin as [Hin|Hin].
    + apply elem_kids in Hin as (p & np & Hp & Hnp & Hlp & Hcp). destruct Hrt as (_ & _ & Hmax). specialize (Hmax p Hp).
      rewrite (lv_eq _ _ _ Hnp) in Hmax. lia.
    + apply elem_of_list_singleton in Hin as [= _ ->]. done.
  - assert ((S (n_level n), s) ∈ ids (get_node t) an ae) as Hin.
    { apply elem_ids. left. by rewrite (lv_eq _ _ _ Hn). }
    rewrite <- (f_perm _ _ _ _ _ _ _ Hf) in Hin. apply elem_of_app in Hin as [Hin|Hin].
    + apply elem_kids in Hin as (p & np & Hp & Hnp & Hlp & Hcp). eapply (IH p np); [lia|done|done|]. eapply under_inner; eauto. lia.
    + apply elem_of_list_singleton in Hin as [= _ ->]. done.
Qed.
Lemma under_root e : e ∈ ae -> under t r e.
Proof using Hf Hrt.
  intros He. assert ((0, e) ∈ ids (get_node t) an ae) as Hin by (apply elem_ids; by right).
  rewrite <- (f_perm _ _ _ _ _ _ _ Hf) in Hin. apply elem_of_app in Hin as [Hin|Hin].
  - apply elem_kids in Hin as (p & np & Hp & Hnp & Hlp & Hcp). eapply under_climb; [reflexivity|exact Hp|exact Hnp|]. by eapply under_leaf.
  - by apply elem_of_list_singleton in Hin.
Qed.

(** ** Point lookup *)
Lemma first_containing_spec c slots : (forall s, s ∈ slots -> exists en, get_entry t s = Some en) ->
  exists res, first_containing t c slots = Some res /\
    match res with
    | Some s => s ∈ slots /\ exists en, get_entry t s = Some en /\ bbox_contains (en_box en) c = true
    | None => forall s en, s ∈ slots -> get_entry t s = Some en -> bbox_contains (en_box en) c = false
    end.
Proof.
  induction slots as [|s slots IH]; intros H; cbn [first_containing].
  - exists None. split; [done|]. intros s en Hs. by apply elem_of_nil in Hs.
  - destruct (H s ltac:(by left)) as [en Hen]. rewrite Hen. cbn [mbind option_bind]. destruct (bbox_contains (en_box en) c) eqn:Hc.
    + exists (Some s). split; [done|]. split; [by left|eauto].
    + destruct IH as (res & -> & Hres); [intros; apply H; by right|]. exists res. split; [done|]. destruct res as [s'|].
      * destruct Hres as [Hin Hen']. split; [by right|done].
      * intros s' en' Hs' Hen'. apply elem_of_cons in Hs' as [->|Hs']; [|eauto]. rewrite Hen in Hen'. by injection Hen' as <-.
Qed.
Lemma leaf_entries s n : s ∈ an -> get_node t s = Some n -> n_level n = 0 -> forall e, e ∈ n_children n -> e ∈ ae /\ exists en, get_entry t e = Some en.
Proof using Hf.
  intros Hs Hn Hl e He. destruct (flat_child dims _ _ _ _ _ _ Hf s n e Hs Hn He) as [[_ Hin]|[_ (m & _ & ?)]]; [|lia]. split; [done|].
  destruct (f_entry _ _ _ _ _ _ _ Hf e Hin) as (en & Hen & _). eauto.
Qed.
Lemma search_entry_spec fuel s n c : s ∈ an -> get_node t s = Some n -> (n_level n < fuel)%nat -> coords c -> length c = dims ->
  exists res, search_entry fuel t s c = Some res /\
    match res with
    | Some e => under t s e /\ exists en, get_entry t e = Some en /\ bbox_contains (en_box en) c = true
    | None => forall e en, under t s e -> get_entry t e = Some en -> bbox_contains (en_box en) c = false
    end.
Proof using Hf.
  intros Hs Hn Hfuel Hc Hlc. revert s n Hs Hn Hfuel. induction fuel as [|fuel IH]; intros s n Hs Hn Hfuel; [lia|].
  cbn [search_entry]. rewrite Hn. cbn [mbind option_bind]. destruct (Nat.eqb_spec (n_level n) 0) as [Hl|Hl].
  - destruct (first_containing_spec c (n_children n)) as (res & -> & Hres).
    { intros e He. by eapply leaf_entries. }
    exists res. split; [done|]. destruct res as [e|].
    + destruct Hres as [He Hen]. split; [by eapply under_leaf|done].
    + intros e en Hu Hen. inversion Hu as [s' n' e' Hn' Hl' He'|s' n' c' e' Hn' Hl' Hc' Hu']; subst; rewrite Hn in Hn'; injection Hn' as <-; [eauto|lia].
  - match goal with |- context [?F (n_children n)] => set (loop := F) end.
    assert (forall cs, (forall ch, ch ∈ cs -> ch ∈ n_children n) -> exists res, loop cs = Some res /\
      match res with
      | Some e => under t s e /\ exists en, get_entry t e = Some en /\ bbox_contains (en_box en) c = true
      | None => forall ch e en, ch ∈ cs -> under t ch e -> get_entry t e = Some en -> bbox_contains (en_box en) c = false
      end) as Hloop.
    { induction cs as [|ch cs IHcs]; intros Hcs; cbn [loop].
      - exists None. split; [done|]. intros ch e en Hch. by apply elem_of_nil in Hch.
      - fold loop. destruct (flat_child dims _ _ _ _ _ _ Hf s n ch Hs Hn (Hcs ch ltac:(by left))) as [[? _]|[Hca (mc & Hmc & Hlm)]]; [done|].
        rewrite Hmc. cbn [mbind option_bind].
        destruct IHcs as (res & Hlp & Hres); [intros; apply Hcs; by right|]. rewrite Hlp.
        assert ((forall e en, under t ch e -> get_entry t e = Some en -> bbox_contains (en_box en) c = false) ->
          exists res0, Some res = Some res0 /\ match res0 with
            | Some e => under t s e /\ exists en, get_entry t e = Some en /\ bbox_contains (en_box en) c = true
            | None => forall ch0 e en, ch0 ∈ ch :: cs -> under t ch0 e -> get_entry t e = Some en -> bbox_contains (en_box en) c = false end) as Hskip.
        { intros Hno. exists res. split; [done|]. destruct res as [e|]; [done|]. intros ch' e en Hch' Hu Hen. apply elem_of_cons in Hch' as [->|Hch']; eauto. }
        destruct (bbox_contains (n_box mc) c) eqn:Hbc.
        + destruct (IH ch mc Hca Hmc ltac:(lia)) as (res1 & -> & Hres1). cbn [mbind option_bind]. destruct res1 as [e|]; [|by apply Hskip].
          destruct Hres1 as [Hu Hen]. exists (Some e). split; [done|]. split; [|done]. eapply under_inner; eauto. apply Hcs. by left.
        + apply Hskip. intros e en Hu Hen. destruct (bbox_contains (en_box en) c) eqn:Hbe; [|done]. exfalso.
          assert (bbox_contains (n_box mc) c = true); [|congruence].
          eapply (cover_contains dims (n_box mc) (en_box en)); eauto.
          * by eapply (node_ok _ _ _ _ _ _ ch).
          * eapply entry_ok; [|done]. by eapply under_ae.
          * eapply (under_cover ch); eauto. }
    destruct (Hloop (n_children n)) as (res & -> & Hres); [auto|]. exists res. split; [done|]. destruct res as [e|]; [done|].
    intros e en Hu Hen. inversion Hu as [s' n' e' Hn' Hl' He'|s' n' c' e' Hn' Hl' Hc' Hu']; subst; rewrite Hn in Hn'; injection Hn' as <-; [lia|eauto].
Qed.

(** ** Range lookup *)
Fixpoint collect (fuel : nat) (s : nat) : list nat :=
  match fuel with
  | O => []
  | S f => match get_node t s with
           | Some n => if (n_level n =? 0)%nat then n_children n else mbind (M := list) (collect f) (n_children n)
           | None => []
           end
  end.
Lemma collect_under fuel s n e : s ∈ an -> get_node t s = Some n -> (n_level n < fuel)%nat -> e ∈ collect fuel s <-> under t s e.
Proof using Hf.
  revert s n. induction fuel as [|fuel IH]; intros s n Hs Hn Hfuel; [lia|]. cbn [collect]. rewrite Hn. destruct (Nat.eqb_spec (n_level n) 0) as [Hl|Hl].
  - split; [by eapply under_leaf|].
    intros Hu. inversion Hu as [s' n' e' Hn' Hl' He'|s' n' c' e' Hn' Hl' Hc' Hu']; subst; rewrite Hn in Hn'; injection Hn' as <-; [done|lia].
  - rewrite elem_of_list_bind. split.
    + intros (c & He & Hc). destruct (flat_child dims _ _ _ _ _ _ Hf s n c Hs Hn Hc) as [[? _]|[Hca (mc & Hmc & Hlm)]]; [done|].
      eapply under_inner; eauto. apply (IH c mc); auto. lia.
    + intros Hu. inversion Hu as [s' n' e' Hn' Hl' He'|s' n' c' e' Hn' Hl' Hc' Hu']; subst; rewrite Hn in Hn'; injection Hn' as <-; [done|].
      exists c'. split; [|done]. destruct (flat_child dims _ _ _ _ _ _ Hf s n c' Hs Hn Hc') as [[? _]|[Hca (mc & Hmc & Hlm)]]; [done|].
      apply (IH c' mc); auto. lia.
Qed.
Lemma NoDup_bind_disjoint {A B} (f : A -> list B) l : NoDup l -> (forall x, x ∈ l -> NoDup (f x)) ->
  (forall x y b, x ∈ l -> y ∈ l -> b ∈ f x -> b ∈ f y -> x = y) -> NoDup (mbind (M := list) f l).
Proof.
  induction l as [|x l IH]; intros Hnd Hf' Hd; [constructor|]. apply list.NoDup_cons in Hnd as [Hx Hnd]. rewrite bind_cons. apply NoDup_app. split_and!.
  - apply Hf'. by left.
  - intros b Hb Hb2. apply elem_of_list_bind in Hb2 as (y & Hby & Hy). apply Hx.
    rewrite (Hd x y b); auto; [by left|by right].
  - apply IH; [done|intros; apply Hf'; by right|]. intros y z b Hy Hz. apply Hd; by right.
Qed.
Lemma collect_nodup fuel s n : s ∈ an -> get_node t s = Some n -> (n_level n < fuel)%nat -> NoDup (collect fuel s).
Proof using Hf.
  revert s n. induction fuel as [|fuel IH]; intros s n Hs Hn Hfuel; [lia|]. cbn [collect]. rewrite Hn. destruct (Nat.eqb_spec (n_level n) 0) as [Hl|Hl].
  - by eapply (children_nodup dims _ _ _ _ _ _ Hf).
  - assert (forall c, c ∈ n_children n -> c ∈ an /\ exists mc, get_node t c = Some mc /\ n_level n = S (n_level mc)) as Hk.
    { intros c Hc. by destruct (flat_child dims _ _ _ _ _ _ Hf s n c Hs Hn Hc) as [[? _]|?]. }
    apply NoDup_bind_disjoint.
    + by eapply (children_nodup dims _ _ _ _ _ _ Hf).
    + intros c Hc. destruct (Hk c Hc) as (Hca & mc & Hmc & Hlm). eapply (IH c mc); auto. lia.
    + intros c1 c2 e Hc1 Hc2 He1 He2. destruct (Hk c1 Hc1) as (Hca1 & m1 & Hm1 & Hl1). destruct (Hk c2 Hc2) as (Hca2 & m2 & Hm2 & Hl2).
      apply (collect_under fuel c1 m1) in He1; [|done|done|lia]. apply (collect_under fuel c2 m2) in He2; [|done|done|lia].
      eapply (under_unique c1 c2 m1 m2 e); auto; lia.
Qed.
Lemma collect_root n : get_node t r = Some n -> collect (S (n_level n)) r ≡ₚ ae.
Proof using Hf Hrt.
  intros Hn. apply NoDup_Permutation.
  - eapply collect_nodup; eauto; apply Hrt.
  - eapply pools_nodup_e, f_pools, Hf.
  - intros e. rewrite (collect_under _ r n); auto; [|by apply Hrt]. split; [eapply under_ae, Hrt|apply under_root].
Qed.

Definition hits (q : bbox) (e : nat) : list P :=
  match get_entry t e with Some en => if bbox_overlaps q (en_box en) then [en_pay en] else [] | None => [] end.
Lemma hits_leaf q slots es : mapM (get_entry t) slots = Some es -> en_pay <$> filter (fun e => bbox_overlaps q (en_box e) = true) es = mbind (M := list) (hits q) slots.
Proof.
  revert es. induction slots as [|e slots IH]; intros es Hm.
  - injection Hm as <-. done.
  - cbn [mapM] in Hm. destruct (get_entry t e) as [en|] eqn:Hen; [|done]. cbn [mbind option_bind] in Hm.
    destruct (mapM (get_entry t) slots) as [es'|]; [|done]. cbn [mbind option_bind] in Hm. injection Hm as <-.
    rewrite bind_cons. unfold hits at 1. rewrite Hen, filter_cons. rewrite <- (IH es' eq_refl).
    destruct (decide (bbox_overlaps q (en_box en) = true)) as [Ho|Ho]; [rewrite Ho; done|]. destruct (bbox_overlaps q (en_box en)); done.
Qed.
Lemma search_range_spec fuel s n q : s ∈ an -> get_node t s = Some n -> (n_level n < fuel)%nat ->
  search_range_node fuel t s q = Some (mbind (M := list) (hits q) (collect fuel s)).
Proof using Hf.
  revert s n. induction fuel as [|fuel IH]; intros s n Hs Hn Hfuel; [lia|]. cbn [search_range_node collect]. rewrite Hn. cbn [mbind option_bind].
  destruct (Nat.eqb_spec (n_level n) 0) as [Hl|Hl].
  - destruct (mapM_ex (get_entry t) (n_children n)) as (es & Hes & _).
    { intros e He. by eapply leaf_entries. }
    rewrite Hes. cbn [mbind option_bind]. f_equal. by apply hits_leaf.
  - match goal with |- context [mapM ?F (n_children n)] => set (f := F) end.
    assert (forall cs, (forall ch, ch ∈ cs -> ch ∈ n_children n) ->
      exists rs : list (list P), mapM f cs = Some rs /\ mjoin rs = mbind (M := list) (hits q) (mbind (M := list) (collect fuel) cs)) as Hcs.
    { induction cs as [|ch cs IHcs]; intros Hin; [by exists []|].
      destruct (flat_child dims _ _ _ _ _ _ Hf s n ch Hs Hn (Hin ch ltac:(by left))) as [[? _]|[Hca (mc & Hmc & Hlm)]]; [done|].
      assert (f ch = Some (mbind (M := list) (hits q) (collect fuel ch))) as Hfch.
      { unfold f. rewrite Hmc. cbn [mbind option_bind]. destruct (bbox_overlaps q (n_box mc)) eqn:Ho.
        - apply (IH ch mc); auto. lia.
        - f_equal. symmetry. assert (forall l, (forall e, e ∈ l -> hits q e = []) -> mbind (M := list) (hits q) l = []) as Hnil.
          { induction l as [|e l IHl]; intros He; [done|]. rewrite bind_cons, He by left. simpl. apply IHl. intros; apply He; by right. }
          apply Hnil. intros e He. apply (collect_under fuel ch mc) in He; auto; [|lia]. unfold hits. destruct (get_entry t e) as [en|] eqn:Hen; [|done].
          destruct (bbox_overlaps q (en_box en)) eqn:Hoe; [|done]. exfalso. assert (bbox_overlaps q (n_box mc) = true); [|congruence].
          eapply (cover_overlaps dims q (n_box mc) (en_box en)); eauto.
          + by eapply (node_ok _ _ _ _ _ _ ch).
          + eapply entry_ok; [|done]. by eapply under_ae.
          + eapply (under_cover ch); eauto. }
      destruct IHcs as (rs & Hrs & Hj); [intros; apply Hin; by right|].
      exists (mbind (M := list) (hits q) (collect fuel ch) :: rs). cbn [mapM]. rewrite Hfch. cbn [mbind option_bind]. rewrite Hrs. split; [done|].
      rewrite bind_cons, bind_app, <- Hj. done. }
    destruct (Hcs (n_children n)) as (rs & -> & Hj); [auto|]. cbn [mbind option_bind]. by rewrite Hj.
Qed.
End facts.
End search.
