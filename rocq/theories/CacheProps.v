(** Property theorems C14, C15. *)
From stdpp Require Import base list numbers option countable gmap sorting.
From Verif Require Import CacheModel CacheProofs.

(** * Specification: a bounded map in which every entry carries the time of its last use *)
Section spec.
Context {K V : Type} `{Countable K}.

Inductive cop := OpInsert (k : K) (v : V) | OpGet (k : K) | OpWrite (k : K) (v : V) (* store through the reference returned by get *)
  | OpEvict (k : K) | OpEvictOldest | OpContains (k : K) | OpHasFree | OpOldToNew | OpNewToOld.
Inductive cout := RUnit | RVal (v : V) | RBool (b : bool) | RVals (l : list V).

(** The entries of [m] in order of their last use. *)
Definition by_age (m : gmap K (V * nat)) (l : list (K * (V * nat))) : Prop :=
  l ≡ₚ map_to_list m /\ StronglySorted (fun a b => a.2.2 < b.2.2)%nat l.

(** One call at time [t] on a cache of capacity [n]. *)
Inductive lru_step (n t : nat) (m : gmap K (V * nat)) : cop -> cout -> gmap K (V * nat) -> Prop :=
  | lru_insert k v : m !! k = None -> (size m < n)%nat -> lru_step n t m (OpInsert k v) RUnit (<[k := (v, t)]> m)
  | lru_get k v s : m !! k = Some (v, s) -> lru_step n t m (OpGet k) (RVal v) (<[k := (v, t)]> m)
  | lru_write k v s w : m !! k = Some (v, s) -> lru_step n t m (OpWrite k w) RUnit (<[k := (w, t)]> m)
  | lru_evict k v s : m !! k = Some (v, s) -> lru_step n t m (OpEvict k) (RVal v) (delete k m)
  | lru_evict_oldest k v s : size m = n -> m !! k = Some (v, s) ->
      (forall k' v' s', m !! k' = Some (v', s') -> (s <= s')%nat) -> (* least recently used *)
      lru_step n t m OpEvictOldest (RVal v) (delete k m)
  | lru_contains k : lru_step n t m (OpContains k) (RBool (bool_decide (is_Some (m !! k)))) m
  | lru_free : lru_step n t m OpHasFree (RBool (bool_decide (size m < n)%nat)) m
  | lru_old_to_new l : by_age m l -> lru_step n t m OpOldToNew (RVals (fst ∘ snd <$> l)) m
  | lru_new_to_old l : by_age m l -> lru_step n t m OpNewToOld (RVals (reverse (fst ∘ snd <$> l))) m.

(** A history of calls, the results it yields and the map it leads to. *)
Inductive lru_run (n : nat) : nat -> gmap K (V * nat) -> list cop -> list cout -> gmap K (V * nat) -> Prop :=
  | lru_nil t m : lru_run n t m [] [] m
  | lru_cons t m op o m' ops os m'' : lru_step n t m op o m' -> lru_run n (S t) m' ops os m'' -> lru_run n t m (op :: ops) (o :: os) m''.

(** * The modelled cache *)
Definition cstep (c : cache K V) (op : cop) : option (cout * cache K V) :=
  match op with
  | OpInsert k v => c' ← cinsert c k v; Some (RUnit, c')
  | OpGet k => '(v, c') ← cget c k; Some (RVal v, c')
  | OpWrite k v => c' ← cupdate c k v; Some (RUnit, c')
  | OpEvict k => '(v, c') ← cevict c k; Some (RVal v, c')
  | OpEvictOldest => '(v, c') ← cevict_oldest c; Some (RVal v, c')
  | OpContains k => Some (RBool (ccontains c k), c)
  | OpHasFree => Some (RBool (has_free_slot c), c)
  | OpOldToNew => l ← old_to_new c; Some (RVals l, c)
  | OpNewToOld => l ← new_to_old c; Some (RVals l, c)
  end.
Fixpoint crun (c : cache K V) (ops : list cop) : option (list cout * cache K V) :=
  match ops with [] => Some ([], c) | op :: ops' => '(o, c') ← cstep c op; '(os, c'') ← crun c' ops'; Some (o :: os, c'') end.

(** * Proof *)
Definition forget (x : K * (V * nat)) : K * V := (x.1, x.2.1).
Definition trel (t : nat) (L : list (K * (V * nat))) (m : gmap K (V * nat)) : Prop :=
  m = list_to_map L /\ NoDup L.*1 /\ StronglySorted (fun a b => a.2.2 < b.2.2)%nat L /\ Forall (fun a => a.2.2 < t)%nat L.

Lemma forget_fst L : (forget <$> L).*1 = L.*1.
Proof. rewrite <- list_fmap_compose. by apply list_fmap_ext. Qed.
Lemma forget_snd L : (forget <$> L).*2 = fst ∘ snd <$> L.
Proof. rewrite <- list_fmap_compose. by apply list_fmap_ext. Qed.

Lemma trel_lookup t L m k v s : trel t L m -> m !! k = Some (v, s) ->
  exists L1 L2, L = L1 ++ (k, (v, s)) :: L2.
Proof. intros (-> & Hnd & _) Hk. apply elem_of_list_to_map in Hk; [|done]. by apply elem_of_list_split. Qed.
Lemma trel_lookup_2 t L1 k v s L2 m : trel t (L1 ++ (k, (v, s)) :: L2) m -> m !! k = Some (v, s).
Proof. intros (-> & Hnd & _). apply elem_of_list_to_map; [done|]. apply elem_of_app; right; left. Qed.
Lemma trel_None t L m k : trel t L m -> m !! k = None <-> k ∉ L.*1.
Proof. intros (-> & Hnd & _). symmetry. apply not_elem_of_list_to_map. Qed.
Lemma trel_size t L m : trel t L m -> size m = length L.
Proof. intros (-> & Hnd & _). unfold size, map_size. by rewrite map_to_list_to_map. Qed.
Lemma trel_mono t L m : trel t L m -> trel (S t) L m.
Proof. intros (H1 & H2 & H3 & H4). split_and!; auto. eapply Forall_impl; [exact H4|]. simpl; lia. Qed.
Lemma sorted_app_inv L1 L2 : StronglySorted (fun a b : K * (V * nat) => a.2.2 < b.2.2)%nat (L1 ++ L2) <->
  StronglySorted (fun a b => a.2.2 < b.2.2)%nat L1 /\ StronglySorted (fun a b => a.2.2 < b.2.2)%nat L2 /\
  (forall a b, a ∈ L1 -> b ∈ L2 -> a.2.2 < b.2.2)%nat.
Proof.
  induction L1 as [|x L1 IH]; simpl.
  - split; [|tauto]. intros. split_and!; auto; [constructor|]. intros a b Ha. by apply elem_of_nil in Ha.
  - split.
    + intros Hs. inversion Hs as [|? ? Hs' Hf]; subst. apply IH in Hs' as (H1 & H2 & H3). apply Forall_app in Hf as [Hf1 Hf2].
      split_and!; auto; [by constructor|]. intros a b [->|Ha]%elem_of_cons Hb; [|auto]. rewrite list.Forall_forall in Hf2. by apply Hf2.
    + intros (H1 & H2 & H3). inversion H1 as [|? ? Hs' Hf]; subst. constructor.
      * apply IH. split_and!; auto. intros a b Ha. apply H3. by right.
      * apply Forall_app. split; [done|]. apply list.Forall_forall. intros b Hb. apply H3; [left|done].
Qed.
Lemma trel_touch t L1 k v s L2 m w : trel t (L1 ++ (k, (v, s)) :: L2) m -> trel (S t) (L1 ++ L2 ++ [(k, (w, t))]) (<[k := (w, t)]> m).
Proof.
  intros (-> & Hnd & Hs & Hf). rewrite fmap_app, fmap_cons in Hnd. pose proof (NoDup_mid _ _ _ Hnd) as (Hk1 & Hk2 & Hnd').
  apply sorted_app_inv in Hs as (Hs1 & Hs2 & Hs3). inversion Hs2 as [|? ? Hs2' Hs2f]; subst.
  apply Forall_app in Hf as [Hf1 Hf2]. apply list.Forall_cons in Hf2 as [_ Hf2].
  rewrite list.Forall_forall in Hf1, Hf2. split_and!.
  - rewrite !list_to_map_app. simpl.
    apply map_eq. intros k'. destruct (decide (k' = k)) as [->|Hne].
    + rewrite lookup_insert. rewrite lookup_union_r by (by apply not_elem_of_list_to_map).
      rewrite lookup_union_r by (by apply not_elem_of_list_to_map). by rewrite lookup_insert.
    + rewrite lookup_insert_ne by done. rewrite !lookup_union, !lookup_insert_ne, lookup_empty by done.
      by destruct (list_to_map L1 !! k'), (list_to_map L2 !! k').
  - rewrite !fmap_app. simpl. rewrite app_assoc. apply NoDup_app. split_and!; [done| |apply NoDup_singleton].
    intros x Hx ->%elem_of_list_singleton. apply elem_of_app in Hx. tauto.
  - apply sorted_app_inv. split_and!; [done| |].
    + apply sorted_app_inv. split_and!; [done|repeat constructor|]. intros a b Ha ->%elem_of_list_singleton. by apply Hf2.
    + intros a b Ha [Hb| ->%elem_of_list_singleton]%elem_of_app; [apply Hs3; [done|by right]|by apply Hf1].
  - rewrite !Forall_app. split_and!; [| |repeat constructor; simpl; lia].
    + apply list.Forall_forall. intros a Ha. specialize (Hf1 a Ha). simpl in Hf1. lia.
    + apply list.Forall_forall. intros a Ha. specialize (Hf2 a Ha). simpl in Hf2. lia.
Qed.
Lemma trel_insert t L k v m : trel t L m -> k ∉ L.*1 -> trel (S t) (L ++ [(k, (v, t))]) (<[k := (v, t)]> m).
Proof.
  intros (-> & Hnd & Hs & Hf) Hk. split_and!.
  - rewrite list_to_map_app. simpl. rewrite <- insert_union_r by (by apply not_elem_of_list_to_map). by rewrite (right_id_L ∅ (∪)).
  - rewrite fmap_app. simpl. apply NoDup_app. split_and!; [done| |apply NoDup_singleton]. intros x Hx ->%elem_of_list_singleton. done.
  - apply sorted_app_inv. split_and!; [done|repeat constructor|]. rewrite list.Forall_forall in Hf. intros a b Ha ->%elem_of_list_singleton. by apply Hf.
  - apply Forall_app. split; [|repeat constructor; simpl; lia]. eapply list.Forall_impl; [exact Hf|]. simpl; lia.
Qed.
Lemma trel_delete t L1 k x L2 m : trel t (L1 ++ (k, x) :: L2) m -> trel (S t) (L1 ++ L2) (delete k m).
Proof.
  intros (-> & Hnd & Hs & Hf). rewrite fmap_app, fmap_cons in Hnd. pose proof (NoDup_mid _ _ _ Hnd) as (Hk1 & Hk2 & Hnd').
  apply sorted_app_inv in Hs as (Hs1 & Hs2 & Hs3). inversion Hs2 as [|? ? Hs2' Hs2f]; subst.
  apply Forall_app in Hf as [Hf1 Hf2]. apply list.Forall_cons in Hf2 as [_ Hf2]. split_and!.
  - rewrite !list_to_map_app. simpl. rewrite delete_union, delete_insert by (by apply not_elem_of_list_to_map).
    rewrite delete_notin; [done|]. by apply not_elem_of_list_to_map.
  - by rewrite fmap_app.
  - apply sorted_app_inv. split_and!; auto. intros a b Ha Hb. apply Hs3; [done|by right].
  - apply Forall_app. split; [eapply list.Forall_impl; [exact Hf1|]|eapply list.Forall_impl; [exact Hf2|]]; simpl; lia.
Qed.
Lemma trel_by_age t L m : trel t L m -> by_age m L.
Proof. intros (-> & Hnd & Hs & _). split; [|done]. by rewrite map_to_list_to_map. Qed.
Lemma by_age_unique m L L' : by_age m L -> by_age m L' -> L = L'.
Proof.
  intros [H1 H2] [H3 H4]. eapply (StronglySorted_unique (fun a b : K * (V * nat) => a.2.2 < b.2.2)%nat); [done|done|by rewrite H1, H3].
  Unshelve. intros x y Hx Hy. lia.
Qed.

Lemma cstep_refines c n t L m op :
  cinv c (forget <$> L) -> trel t L m -> c_depth c = n ->
  match cstep c op with
  | Some (o, c') => exists L' m', lru_step n t m op o m' /\ cinv c' (forget <$> L') /\ trel (S t) L' m' /\ c_depth c' = n /\
                      forall o2 m2, lru_step n t m op o2 m2 -> o2 = o /\ m2 = m'
  | None => forall o2 m2, ~ lru_step n t m op o2 m2
  end.
Proof.
  intros Hc Ht Hn. pose proof (trel_size _ _ _ Ht) as Hsz.
  destruct op as [k v|k|k w|k| |k| | |]; unfold cstep.
  - (* insert *)
    destruct (decide (k ∈ L.*1)) as [Hk|Hk].
    { rewrite (cinsert_None _ _ _ _ Hc) by (rewrite forget_fst; auto). intros o2 m2 Hst. inversion Hst; subst.
      apply (trel_None _ _ _ k Ht) in H2. done. }
    destruct (decide (length L < c_depth c)%nat) as [Hlt|Hge].
    + destruct (cinsert_spec c _ k v Hc) as (c' & -> & Hc' & Hd); [by rewrite forget_fst|by rewrite fmap_length|]. cbn [mbind option_bind].
      exists (L ++ [(k, (v, t))]), (<[k := (v, t)]> m). split_and!.
      * constructor; [by apply (trel_None _ _ _ k Ht)|lia].
      * by rewrite fmap_app.
      * by apply trel_insert.
      * lia.
      * intros o2 m2 Hst. by inversion Hst.
    + rewrite (cinsert_None _ _ _ _ Hc) by (rewrite fmap_length; auto with lia). intros o2 m2 Hst. inversion Hst; subst. lia.
  - (* get *)
    destruct (m !! k) as [[v s]|] eqn:Hk.
    + destruct (trel_lookup _ _ _ _ _ _ Ht Hk) as (L1 & L2 & ->). rewrite fmap_app, fmap_cons in Hc.
      destruct (cget_spec _ _ _ _ _ Hc) as (c' & Hg & Hc' & Hd). cbn [forget fst snd] in Hg. rewrite Hg. cbn [mbind option_bind].
      exists (L1 ++ L2 ++ [(k, (v, t))]), (<[k := (v, t)]> m). split_and!.
      * by econstructor.
      * by rewrite !fmap_app.
      * by eapply trel_touch.
      * lia.
      * intros o2 m2 Hst. inversion Hst; subst. split; congruence.
    + rewrite (cget_None _ _ _ Hc) by (rewrite forget_fst; by apply (trel_None _ _ _ k Ht)). cbn. intros o2 m2 Hst. inversion Hst; congruence.
  - (* write *)
    destruct (m !! k) as [[v s]|] eqn:Hk.
    + destruct (trel_lookup _ _ _ _ _ _ Ht Hk) as (L1 & L2 & ->). rewrite fmap_app, fmap_cons in Hc.
      destruct (cupdate_spec _ _ _ _ _ w Hc) as (c' & Hg & Hc' & Hd). cbn [forget fst snd] in Hg. rewrite Hg. cbn [mbind option_bind].
      exists (L1 ++ L2 ++ [(k, (w, t))]), (<[k := (w, t)]> m). split_and!.
      * by econstructor.
      * by rewrite !fmap_app.
      * by eapply trel_touch.
      * lia.
      * intros o2 m2 Hst. inversion Hst; subst. split; congruence.
    + unfold cupdate. rewrite (cget_None _ _ _ Hc) by (rewrite forget_fst; by apply (trel_None _ _ _ k Ht)). cbn. intros o2 m2 Hst. inversion Hst; congruence.
  - (* evict *)
    destruct (m !! k) as [[v s]|] eqn:Hk.
    + destruct (trel_lookup _ _ _ _ _ _ Ht Hk) as (L1 & L2 & ->). rewrite fmap_app, fmap_cons in Hc.
      destruct (cevict_spec _ _ _ _ _ Hc) as (c' & Hg & Hc' & Hd). cbn [forget fst snd] in Hg. rewrite Hg. cbn [mbind option_bind].
      exists (L1 ++ L2), (delete k m). split_and!.
      * by econstructor.
      * by rewrite !fmap_app.
      * by eapply trel_delete.
      * lia.
      * intros o2 m2 Hst. inversion Hst; subst. split; congruence.
    + rewrite (cevict_None _ _ _ Hc) by (rewrite forget_fst; by apply (trel_None _ _ _ k Ht)). cbn. intros o2 m2 Hst. inversion Hst; congruence.
  - (* evict oldest *)
    pose proof (has_free_slot_spec _ _ Hc) as [_ Hle]. rewrite fmap_length in Hle.
    destruct (decide (length L = c_depth c)) as [Heq|Hne].
    + destruct L as [|[k [v s]] L].
      { destruct Hc as (? & ? & _ & _ & _ & Hpos & _). simpl in Heq. lia. }
      destruct (cevict_oldest_spec c k v (forget <$> L)) as (c' & -> & Hc' & Hd); [done|rewrite fmap_length; simpl in Heq; lia|]. cbn [mbind option_bind].
      assert (m !! k = Some (v, s)) as Hk by (by apply (trel_lookup_2 t [] k v s L)).
      assert (forall k' v' s', m !! k' = Some (v', s') -> (s < s')%nat \/ (k', (v', s')) = (k, (v, s))) as Hmin.
      { intros k' v' s' Hk'. destruct Ht as (-> & Hnd & Hs & _). apply elem_of_list_to_map in Hk'; [|done].
        apply elem_of_cons in Hk' as [->|Hin]; [by right|]. left. inversion Hs as [|? ? _ Hf]; subst. rewrite list.Forall_forall in Hf. by apply (Hf _ Hin). }
      exists L, (delete k m). split_and!; auto.
      * econstructor; [lia|done|]. intros k' v' s' Hk'. destruct (Hmin _ _ _ Hk') as [|[= -> -> ->]]; lia.
      * by apply (trel_delete t [] k (v, s) L).
      * lia.
      * intros o2 m2 Hst. inversion Hst as [| | | |k2 v2 s2 Hsz2 Hk2 Hmin2| | | |]; subst.
        destruct (Hmin _ _ _ Hk2) as [Hlt|[= -> -> ->]]; [|done]. specialize (Hmin2 k v s Hk). lia.
    + rewrite (cevict_oldest_None _ _ Hc) by (rewrite fmap_length; lia). cbn. intros o2 m2 Hst. inversion Hst; subst. lia.
  - (* contains *)
    exists L, m. rewrite (ccontains_spec _ _ k Hc), forget_fst.
    assert (bool_decide (k ∈ L.*1) = bool_decide (is_Some (m !! k))) as ->.
    { apply bool_decide_ext. rewrite <- not_eq_None_Some. rewrite (trel_None _ _ _ k Ht). destruct (decide (k ∈ L.*1)); tauto. }
    split_and!; auto using trel_mono; [constructor|]. intros o2 m2 Hst. by inversion Hst.
  - (* has_free_slot *)
    exists L, m. pose proof (has_free_slot_spec _ _ Hc) as [-> _]. rewrite fmap_length.
    assert ((length L <? c_depth c)%nat = bool_decide (size m < n)%nat) as ->.
    { rewrite Hsz, Hn. destruct (Nat.ltb_spec (length L) n); symmetry; [by apply bool_decide_eq_true|apply bool_decide_eq_false; lia]. }
    split_and!; auto using trel_mono; [constructor|]. intros o2 m2 Hst. by inversion Hst.
  - rewrite (old_to_new_spec _ _ Hc), forget_snd. cbn [mbind option_bind]. pose proof (trel_by_age _ _ _ Ht) as Hb. exists L, m.
    split_and!; auto using trel_mono; [by constructor|]. intros o2 m2 Hst. inversion Hst; subst. by match goal with Hl : by_age _ _ |- _ => rewrite (by_age_unique _ _ _ Hl Hb) end.
  - rewrite (new_to_old_spec _ _ Hc), forget_snd. cbn [mbind option_bind]. pose proof (trel_by_age _ _ _ Ht) as Hb. exists L, m.
    split_and!; auto using trel_mono; [by constructor|]. intros o2 m2 Hst. inversion Hst; subst. by match goal with Hl : by_age _ _ |- _ => rewrite (by_age_unique _ _ _ Hl Hb) end.
Qed.

Lemma crun_refines ops c n t L m :
  cinv c (forget <$> L) -> trel t L m -> c_depth c = n ->
  match crun c ops with
  | Some (outs, c') => exists t' L' m', lru_run n t m ops outs m' /\ cinv c' (forget <$> L') /\ trel t' L' m' /\
                         forall outs2 m2, lru_run n t m ops outs2 m2 -> outs2 = outs /\ m2 = m'
  | None => forall outs2 m2, ~ lru_run n t m ops outs2 m2
  end.
Proof.
  revert c t L m. induction ops as [|op ops IH]; intros c t L m Hc Ht Hn.
  - simpl. exists t, L, m. split_and!; auto; [constructor|]. by inversion 1.
  - cbn [crun]. pose proof (cstep_refines c n t L m op Hc Ht Hn) as Hst.
    destruct (cstep c op) as [[o c']|]; cbn [mbind option_bind].
    + destruct Hst as (L' & m' & Hst & Hc' & Ht' & Hn' & Hu).
      specialize (IH c' (S t) L' m' Hc' Ht' Hn'). destruct (crun c' ops) as [[os c'']|]; cbn [mbind option_bind].
      * destruct IH as (t2 & L2 & m2 & Hr & Hc2 & Ht2 & Hu2). exists t2, L2, m2. split_and!; auto; [by econstructor|].
        intros outs2 m3. inversion 1 as [|? ? ? o2 m4 ? os2 ? Hs2 Hr2]; subst. destruct (Hu _ _ Hs2) as [-> ->].
        by destruct (Hu2 _ _ Hr2) as [-> ->].
      * intros outs2 m2. inversion 1 as [|? ? ? o2 m4 ? os2 ? Hs2 Hr2]; subst. destruct (Hu _ _ Hs2) as [-> ->]. by eapply IH.
    + intros outs2 m2. inversion 1; subst. by edestruct Hst.
Qed.
End spec.
Arguments cop : clear implicits. Arguments cout : clear implicits.

Lemma cnew_refines {K V} `{Countable K} (n : nat) (init : V) : (0 < n)%nat ->
  exists c : cache K V, cnew n init = Some c /\ cinv c (forget <$> []) /\ c_depth c = n /\ trel 0 [] (∅ : gmap K (V * nat)).
Proof.
  intros Hn. destruct (@cnew_inv K V _ _ n init Hn) as (c & Hc & Hinv). exists c. split_and!; auto.
  - unfold cnew in Hc. destruct (n =? 0)%nat; [done|]. by injection Hc as <-.
  - split_and!; auto; constructor.
Qed.
(** C14: whatever sequence of calls is made on a new cache of capacity n >= 1, it completes
    with exactly the results the timestamped map allows (in particular a call fails exactly
    if the map has no such step: double insertion, insertion into a full cache, missing key, ...). *)
Theorem C14_cache_is_lru_map {K V} `{Countable K} (n : nat) (init : V) (ops : list (cop K V)) outs :
  (0 < n)%nat ->
  (exists c0 c, cnew n init = Some c0 /\ crun c0 ops = Some (outs, c)) <-> (exists m, lru_run n 0 ∅ ops outs m).
Proof.
  intros Hn. destruct (@cnew_refines K V _ _ n init Hn) as (c0 & Hc & Hinv & Hd & Ht).
  pose proof (crun_refines ops c0 n 0 [] ∅ Hinv Ht Hd) as Hr. rewrite Hc. split.
  - intros (? & c & [= <-] & Hrun). rewrite Hrun in Hr. destruct Hr as (? & ? & m' & ? & _). eauto.
  - intros [m Hm]. destruct (crun c0 ops) as [[os c']|] eqn:Hrun; [|by edestruct Hr].
    destruct Hr as (? & ? & m' & _ & _ & _ & Hu). destruct (Hu _ _ Hm) as [-> ->]. eauto.
Qed.
Print Assumptions C14_cache_is_lru_map.
Example C14_nonvacuous :
  (c ← cnew 2 0%nat; fst <$> crun c [OpInsert 10 1; OpInsert 20 2; OpGet 10; OpHasFree; OpEvictOldest; OpContains 20; OpInsert 30 3;
                              OpOldToNew; OpNewToOld; OpWrite 10 7; OpEvict 30; OpOldToNew])%nat =
  Some [RUnit; RUnit; RVal 1; RBool false; RVal 2; RBool false; RUnit; RVals [1; 3]; RVals [3; 1]; RUnit; RVal 3; RVals [7]]%nat.
Proof. vm_compute. reflexivity. Qed.

(** The spec's states: never more than n entries (a map holds no key twice). *)
Theorem C14_capacity_respected {K V} `{Countable K} n t (m : gmap K (V * nat)) op o m' :
  lru_step n t m op o m' -> (size m <= n)%nat -> (size m' <= n)%nat.
Proof.
  intros Hst Hm. inversion Hst as [k v Hk Hlt|k v s Hk|k v s w Hk|k v s Hk|k v s Hs Hk Hmin|k| |l Hl|l Hl]; subst; try lia.
  - rewrite map_size_insert_None by done. lia.
  - rewrite map_size_insert_Some by eauto. lia.
  - rewrite map_size_insert_Some by eauto. lia.
  - pose proof (map_size_delete_Some k m ltac:(eauto)). lia.
  - pose proof (map_size_delete_Some k m ltac:(eauto)). lia.
Qed.
Print Assumptions C14_capacity_respected.

Theorem C14_reached_sizes {K V} `{Countable K} n (ops : list (cop K V)) outs m :
  lru_run n 0 ∅ ops outs m -> (size m <= n)%nat.
Proof.
  assert (forall t (m0 : gmap K (V * nat)), lru_run n t m0 ops outs m -> (size m0 <= n)%nat -> (size m <= n)%nat) as Hgen.
  { intros t m0. induction 1; [done|]. intros. eauto using C14_capacity_respected. }
  intros Hr. apply (Hgen _ _ Hr). rewrite map_size_empty. lia.
Qed.
Print Assumptions C14_reached_sizes.

(** C15: after any history, both loops list each stored value exactly once, ordered by last use. *)
Theorem C15_iteration_complete_and_ordered {K V} `{Countable K} (n : nat) (init : V) (ops : list (cop K V)) outs c0 c :
  cnew n init = Some c0 -> crun c0 ops = Some (outs, c) ->
  exists m l, lru_run n 0 ∅ ops outs m /\ by_age m l /\
    old_to_new c = Some (fst ∘ snd <$> l) /\ new_to_old c = Some (reverse (fst ∘ snd <$> l)).
Proof.
  intros Hc Hrun. assert (0 < n)%nat as Hn.
  { unfold cnew in Hc. destruct (Nat.eqb_spec n 0); [done|lia]. }
  destruct (@cnew_refines K V _ _ n init Hn) as (c1 & Hc1 & Hinv & Hd & Ht). rewrite Hc in Hc1. injection Hc1 as <-.
  pose proof (crun_refines ops c0 n 0 [] ∅ Hinv Ht Hd) as Hr. rewrite Hrun in Hr.
  destruct Hr as (t' & L' & m' & Hr & Hci & Ht' & _). exists m', L'. split_and!; auto.
  - by eapply trel_by_age.
  - by rewrite (old_to_new_spec _ _ Hci), forget_snd.
  - by rewrite (new_to_old_spec _ _ Hci), forget_snd.
Qed.
Print Assumptions C15_iteration_complete_and_ordered.
