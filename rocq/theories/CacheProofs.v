From stdpp Require Import base list numbers option countable gmap sorting.
From Verif Require Import CacheModel.

Definition hd_or (l : list nat) (n : option nat) : option nat := match l with [] => n | x :: _ => Some x end.
Definition last_or (l : list nat) (p : option nat) : option nat := match last l with Some x => Some x | None => p end.

(** * Doubly linked list segments *)
Fixpoint seg (S : list link) (p : option nat) (l : list nat) (n : option nat) : Prop :=
  match l with
  | [] => True
  | s :: l' => S !! s = Some (Link (hd_or l' n) p) /\ seg S (Some s) l' n
  end.

Lemma seg_ext S S' p l n : (forall s, s ∈ l -> S' !! s = S !! s) -> seg S p l n -> seg S' p l n.
Proof.
  revert p; induction l as [|s l IH]; intros p Hs; [done|]. intros [H1 H2]. split; [rewrite Hs by left; done|].
  apply IH; [|done]. intros; apply Hs. by right.
Qed.
Lemma seg_app S p l1 l2 n : seg S p (l1 ++ l2) n <-> seg S p l1 (hd_or l2 n) /\ seg S (last_or l1 p) l2 n.
Proof.
  revert p; induction l1 as [|s l1 IH]; intros p; simpl; [tauto|]. rewrite IH.
  assert (hd_or (l1 ++ l2) n = hd_or l1 (hd_or l2 n)) as -> by (by destruct l1).
  assert (last_or (s :: l1) p = last_or l1 (Some s)) as ->.
  { unfold last_or. destruct l1 as [|y l1] using rev_ind; [done|]. rewrite app_comm_cons, !last_snoc. done. }
  tauto.
Qed.
Lemma seg_cons S p s l n : seg S p (s :: l) n <-> S !! s = Some (Link (hd_or l n) p) /\ seg S (Some s) l n.
Proof. done. Qed.
Lemma seg_bound S p l n s : seg S p l n -> s ∈ l -> (s < length S)%nat.
Proof.
  revert p; induction l as [|x l IH]; intros p; [by intros _ ?%elem_of_nil|]. intros [H1 H2] [->|Hs]%elem_of_cons; [|eauto].
  by eapply lookup_lt_Some.
Qed.
Lemma seg_alter_out S p l n s f : s ∉ l -> seg S p l n -> seg (alter f s S) p l n.
Proof. intros Hs. apply seg_ext. intros x Hx. apply list_lookup_alter_ne. intros ->. done. Qed.
Lemma seg_set_prev S p p' x l n : x ∉ l -> seg S p (x :: l) n -> seg (set_prev S x p') p' (x :: l) n.
Proof.
  intros Hx [H1 H2]. split; [|by apply seg_alter_out].
  unfold set_prev. rewrite list_lookup_alter, H1. done.
Qed.
Lemma seg_set_next S p l x n n' : x ∉ l -> seg S p (l ++ [x]) n -> seg (set_next S x n') p (l ++ [x]) n'.
Proof.
  intros Hx. rewrite !seg_app. intros [H1 [H2 _]]. split.
  - simpl in *. by apply seg_alter_out.
  - split; [|done]. unfold set_next. rewrite list_lookup_alter, H2. done.
Qed.
Lemma seg_set_next_app S p l x l2 n n' : x ∉ l -> NoDup l2 -> x ∉ l2 -> seg S p (l ++ [x]) n -> seg (set_next S x n') p (l ++ [x]) n'.
Proof. intros; eapply seg_set_next; eauto. Qed.

Definition dll (S : list link) (l : list nat) (o n : option nat) : Prop :=
  NoDup l /\ seg S None l None /\ o = head l /\ n = last l.

Lemma NoDup_mid {A} (l1 l2 : list A) s : NoDup (l1 ++ s :: l2) -> s ∉ l1 /\ s ∉ l2 /\ NoDup (l1 ++ l2).
Proof.
  intros Hn. rewrite <- Permutation_middle in Hn. apply list.NoDup_cons in Hn as [H1 H2].
  rewrite elem_of_app in H1. tauto.
Qed.

Lemma Forall2_impl_in_l {A B} (P Q : A -> B -> Prop) l k :
  Forall2 P l k -> (forall x y, x ∈ l -> P x y -> Q x y) -> Forall2 Q l k.
Proof.
  intros HP. induction HP as [|x y l k Hxy HP IH]; intros HQ; constructor; [apply HQ; [left|done]|].
  apply IH. intros; apply HQ; [by right|done].
Qed.

Section proofs.
Context {K V : Type} `{Countable K}.
Implicit Types c : cache K V.

Lemma mark_as_newest_spec c l1 s l2 :
  dll (c_links c) (l1 ++ s :: l2) (c_oldest c) (c_newest c) ->
  exists ls o n, mark_as_newest c s = Some (Cache (c_depth c) (c_map c) ls (c_data c) o n) /\
    dll ls (l1 ++ l2 ++ [s]) o n /\ length ls = length (c_links c).
Proof.
  intros (Hnd & Hseg & Ho & Hn). pose proof (NoDup_mid _ _ _ Hnd) as (Hs1 & Hs2 & Hnd12).
  assert (NoDup (l1 ++ l2 ++ [s])) as Hnd'.
  { rewrite app_assoc. apply NoDup_app. split_and!; [done| |apply NoDup_singleton]. intros x Hx ->%elem_of_list_singleton.
    apply elem_of_app in Hx. tauto. }
  apply seg_app in Hseg as [Hseg1 Hseg2]. apply seg_cons in Hseg2 as [Hs Hseg2].
  unfold mark_as_newest. rewrite Hs. cbn [mbind option_bind l_next l_prev].
  destruct l2 as [|x l2]; simpl hd_or.
  { exists (c_links c), (c_oldest c), (c_newest c). split; [by destruct c|]. split; [|done].
    split_and!; auto. apply seg_app. split; [done|]. by split. }
  simpl hd_or in *.
  (* the new predecessor of s *)
  destruct (exists_last (l := x :: l2)) as (l2' & z & Hz); [done|].
  assert (c_newest c = Some z) as Hnew. { rewrite Hn, Hz. rewrite app_comm_cons, app_assoc. by rewrite last_snoc. }
  rewrite Hnew. cbn [mbind option_bind].
  apply NoDup_app in Hnd12 as (Hn1 & Hdis & Hn2).
  set (S0 := c_links c) in *.
  assert (exists S2 o2, (match last_or l1 None with Some pr => (set_next (set_prev S0 x (last_or l1 None)) pr (Some x), c_oldest c)
                            | None => (set_prev S0 x (last_or l1 None), Some x) end) = (S2, o2) /\
     o2 = head (l1 ++ x :: l2) /\ length S2 = length S0 /\ S2 !! s = S0 !! s /\
     seg S2 None l1 (Some x) /\ seg S2 (last_or l1 None) (x :: l2) None) as (S2 & o2 & -> & Ho2 & Hlen2 & Hss & Hg1 & Hg2).
  { apply list.NoDup_cons in Hn2 as [Hxl2 Hn2].
    assert (s <> x) by (intros ->; apply Hs2; left).
    destruct l1 as [|y l1' _] using rev_ind.
    - eexists _, _. split; [done|]. split_and!; auto.
      + unfold set_prev. by rewrite alter_length.
      + unfold set_prev. by rewrite list_lookup_alter_ne.
      + by eapply seg_set_prev.
    - unfold last_or in *. rewrite last_snoc in *. eexists _, _. split; [done|].
      assert (y ∉ x :: l2) as Hy by (apply Hdis; apply elem_of_app; right; left).
      assert (x ∉ l1' ++ [y]) as Hx by (intros Hx; by apply (Hdis x Hx); left).
      apply NoDup_app in Hn1 as (Hn1 & Hy1 & _).
      assert (s <> y) by (intros ->; apply Hs1; apply elem_of_app; right; left).
      split_and!; auto.
      + rewrite Ho. by destruct l1'.
      + unfold set_next, set_prev. by rewrite !alter_length.
      + unfold set_next, set_prev. by rewrite !list_lookup_alter_ne.
      + eapply seg_set_next; [|by apply seg_alter_out].
        intros Hin. by apply (Hy1 y Hin); left.
      + apply seg_alter_out; [done|]. by eapply seg_set_prev. }
  assert (z ∈ x :: l2) as Hzin by (rewrite Hz; apply elem_of_app; right; left).
  assert (s <> z) as Hsz by (intros ->; done).
  eexists _, _, _. split; [reflexivity|]. split.
  - split_and!; auto.
    + apply seg_app. split.
      * simpl. unfold set_next, set_prev. apply seg_alter_out; [intros Hin; by apply (Hdis z)|].
        do 2 (apply seg_alter_out; [done|]). done.
      * apply seg_app. split.
        -- rewrite Hz. simpl hd_or. apply (seg_set_next _ _ _ _ None).
           ++ intros Hin. rewrite Hz in Hn2. apply NoDup_app in Hn2 as (_ & Hd & _). by apply (Hd z Hin); left.
           ++ rewrite <- Hz. unfold set_next, set_prev. do 2 (apply seg_alter_out; [done|]). done.
        -- split; [|done]. unfold set_next, set_prev. rewrite list_lookup_alter_ne by done. rewrite list_lookup_alter.
           rewrite list_lookup_alter, Hss, Hs. simpl. unfold last_or. rewrite Hz, last_snoc. done.
    + rewrite Ho2. by destruct l1.
    + rewrite app_assoc. by rewrite last_snoc.
  - unfold set_next, set_prev. rewrite !alter_length. done.
Qed.

Lemma mark_as_oldest_spec c l1 s l2 :
  dll (c_links c) (l1 ++ s :: l2) (c_oldest c) (c_newest c) ->
  exists ls o n, mark_as_oldest c s = Some (Cache (c_depth c) (c_map c) ls (c_data c) o n) /\
    dll ls (s :: l1 ++ l2) o n /\ length ls = length (c_links c).
Proof.
  intros (Hnd & Hseg & Ho & Hn). pose proof (NoDup_mid _ _ _ Hnd) as (Hs1 & Hs2 & Hnd12).
  assert (NoDup (s :: l1 ++ l2)) as Hnd'. { apply list.NoDup_cons. rewrite elem_of_app. tauto. }
  apply seg_app in Hseg as [Hseg1 Hseg2]. apply seg_cons in Hseg2 as [Hs Hseg2].
  unfold mark_as_oldest. rewrite Hs. cbn [mbind option_bind l_next l_prev].
  destruct l1 as [|h l1].
  { simpl. exists (c_links c), (c_oldest c), (c_newest c). split; [by destruct c|]. split; [|done]. split_and!; auto. simpl. done. }
  destruct (exists_last (l := h :: l1)) as (l1' & y & Hy); [done|].
  assert (last_or (h :: l1) None = Some y) as Hlast by (unfold last_or; rewrite Hy, last_snoc; done).
  rewrite Hlast in *. simpl head in *. rewrite Ho. cbn [mbind option_bind].
  apply NoDup_app in Hnd12 as (Hn1 & Hdis & Hn2). set (S0 := c_links c) in *.
  assert (y ∈ h :: l1) as Hyin by (rewrite Hy; apply elem_of_app; right; left).
  assert (s <> y) as Hsy by (intros ->; done).
  assert (s <> h) as Hsh by (intros ->; apply Hs1; left).
  assert (y ∉ l1') as Hyl1. { intros Hin. rewrite Hy in Hn1. apply NoDup_app in Hn1 as (_ & Hd & _). by apply (Hd y Hin); left. }
  assert (exists S2 n2, (match hd_or l2 None with Some nx => (set_prev (set_next S0 y (hd_or l2 None)) nx (Some y), c_newest c)
                            | None => (set_next S0 y (hd_or l2 None), Some y) end) = (S2, n2) /\
     n2 = last ((h :: l1) ++ l2) /\ length S2 = length S0 /\ S2 !! s = S0 !! s /\
     seg S2 None (h :: l1) (hd_or l2 None) /\ seg S2 (Some y) l2 None) as (S2 & n2 & -> & Hn2' & Hlen2 & Hss & Hg1 & Hg2).
  { destruct l2 as [|x l2]; simpl hd_or.
    - eexists _, _. split; [done|]. split_and!; auto.
      + rewrite app_nil_r, Hy, last_snoc. done.
      + unfold set_next. by rewrite alter_length.
      + unfold set_next. by rewrite list_lookup_alter_ne.
      + rewrite Hy in *. by eapply seg_set_next.
    - assert (x ∉ h :: l1) as Hx by (intros Hx; by apply (Hdis x Hx); left).
      assert (s <> x) by (intros ->; apply Hs2; left).
      apply list.NoDup_cons in Hn2 as [Hxl2 Hn2]. simpl in Hseg2.
      eexists _, _. split; [done|]. split_and!; auto.
      + rewrite Hn. rewrite !last_app. simpl. done.
      + unfold set_next, set_prev. by rewrite !alter_length.
      + unfold set_next, set_prev. by rewrite !list_lookup_alter_ne.
      + apply seg_alter_out; [done|]. rewrite Hy in *. by eapply seg_set_next.
      + eapply seg_set_prev; [done|]. apply seg_alter_out; [|exact Hseg2]. intros Hin. by apply (Hdis y). }
  eexists _, _, _. split; [reflexivity|]. split.
  - split_and!; auto.
    + split.
      * unfold set_next, set_prev. rewrite list_lookup_alter_ne by done. rewrite !list_lookup_alter, Hss, Hs. done.
      * apply seg_app. assert (last_or (h :: l1) (Some s) = Some y) as -> by (unfold last_or; rewrite Hy, last_snoc; done). split.
        -- apply list.NoDup_cons in Hn1 as [Hh Hn1]. eapply seg_set_prev; [done|]. unfold set_next, set_prev.
           do 2 (apply seg_alter_out; [done|]). exact Hg1.
        -- unfold set_next, set_prev. apply seg_alter_out; [intros Hin; apply (Hdis h); [left|done]|].
           do 2 (apply seg_alter_out; [done|]). done.
  - unfold set_next, set_prev. rewrite !alter_length. done.
Qed.
(** * Abstraction to the list of (key, value) pairs, oldest first *)
Definition cinv (c : cache K V) (l : list (K * V)) : Prop :=
  exists free used,
    dll (c_links c) (free ++ used) (c_oldest c) (c_newest c) /\
    length (free ++ used) = c_depth c /\ length (c_data c) = c_depth c /\ (0 < c_depth c)%nat /\
    (forall s, s ∈ free -> exists d, c_data c !! s = Some d /\ e_occ d = false) /\
    Forall2 (fun s kv => c_data c !! s = Some (CData true (Some kv.1) kv.2)) used l /\
    NoDup l.*1 /\ c_map c = list_to_map (zip l.*1 used).

Lemma cnew_inv depth init : (0 < depth)%nat -> exists c, cnew depth init = Some c /\ cinv c [].
Proof.
  intros Hd. unfold cnew. destruct (Nat.eqb_spec depth 0) as [|_]; [lia|]. eexists. split; [done|].
  exists (seq 0 depth), []. rewrite app_nil_r. simpl. split_and!; auto using NoDup_nil_2.
  - split_and!.
    + apply NoDup_seq.
    + assert (forall a n, (a + n = depth)%nat -> seg (link_of depth <$> seq 0 depth) (match a with O => None | S j => Some j end) (seq a n) None) as Hg.
      { intros a n. revert a. induction n as [|n IH]; intros a Ha; simpl; [done|]. split.
        - rewrite list_lookup_fmap, lookup_seq_lt by lia. simpl. unfold link_of. f_equal. f_equal.
          destruct n; simpl; destruct (Nat.ltb_spec (S a) depth); try lia; done.
        - apply (IH (S a)). lia. }
      by apply (Hg 0%nat).
    + destruct depth; [lia|]. done.
    + destruct depth; [lia|]. rewrite seq_S, last_snoc. f_equal. lia.
  - apply seq_length.
  - apply replicate_length.
  - intros s [_ Hs]%elem_of_seq. rewrite lookup_replicate_2 by lia. eauto.
Qed.

Lemma Forall2_lookup_split {A B} (P : A -> B -> Prop) l1 l2 b : Forall2 P l1 l2 -> b ∈ l2 ->
  exists a u1 u2 v1 v2, l1 = u1 ++ a :: u2 /\ l2 = v1 ++ b :: v2 /\ P a b /\ Forall2 P u1 v1 /\ Forall2 P u2 v2.
Proof.
  intros HF Hb. apply elem_of_list_split in Hb as (v1 & v2 & ->).
  apply Forall2_app_inv_r in HF as (u1 & u2' & Hu1 & Hu2 & ->). inversion Hu2; subst. eauto 20.
Qed.

Lemma lookup_map_Some (l : list (K * V)) used k s :
  NoDup l.*1 -> length used = length l ->
  (list_to_map (zip l.*1 used) : gmap K nat) !! k = Some s <-> exists i v, l !! i = Some (k, v) /\ used !! i = Some s.
Proof.
  intros Hnd Hl. rewrite <- elem_of_list_to_map.
  2:{ rewrite fst_zip by (rewrite fmap_length; lia). done. }
  rewrite elem_of_list_lookup. split.
  - intros [i Hi]. apply lookup_zip_with_Some in Hi as (x & y & [= <- <-] & Hx & Hy). rewrite list_lookup_fmap in Hx.
    apply fmap_Some in Hx as ([k' v] & Hk & ->). eauto.
  - intros (i & v & Hi & Hs). exists i. rewrite lookup_zip_with, list_lookup_fmap, Hi, Hs. done.
Qed.
Lemma lookup_map_None (l : list (K * V)) used k :
  length used = length l -> (list_to_map (zip l.*1 used) : gmap K nat) !! k = None <-> k ∉ l.*1.
Proof. intros Hl. rewrite <- not_elem_of_list_to_map. by rewrite fst_zip by (rewrite fmap_length; lia). Qed.

Lemma size_map (l : list (K * V)) used : NoDup l.*1 -> length used = length l ->
  size (list_to_map (zip l.*1 used) : gmap K nat) = length l.
Proof.
  intros Hnd Hl. unfold size, map_size. rewrite map_to_list_to_map.
  - rewrite zip_with_length, fmap_length. lia.
  - by rewrite fst_zip by (rewrite fmap_length; lia).
Qed.

Lemma ccontains_spec c l k : cinv c l -> ccontains c k = bool_decide (k ∈ l.*1).
Proof.
  intros (free & used & _ & _ & _ & _ & _ & Hu & Hnd & Hm). unfold ccontains. apply bool_decide_ext. rewrite Hm.
  pose proof (Forall2_length _ _ _ Hu) as Hl. split.
  - intros [s Hs]. destruct (decide (k ∈ l.*1)); [done|]. apply lookup_map_None with (used := used) in n; [congruence|done].
  - intros Hk. destruct (list_to_map (zip l.*1 used) !! k) eqn:E; [eauto|]. apply lookup_map_None in E; done.
Qed.
Lemma has_free_slot_spec c l : cinv c l -> has_free_slot c = (length l <? c_depth c)%nat /\ (length l <= c_depth c)%nat.
Proof.
  intros (free & used & _ & Hlen & _ & _ & _ & Hu & Hnd & Hm). unfold has_free_slot.
  pose proof (Forall2_length _ _ _ Hu) as Hl. rewrite Hm, size_map by done. rewrite app_length in Hlen. split; [done|lia].
Qed.

(** Moving the entry of [k] to the end. *)
Lemma cinv_touch c l1 k v l2 : cinv c (l1 ++ (k, v) :: l2) ->
  exists s c', c_map c !! k = Some s /\ mark_as_newest c s = Some c' /\ cinv c' (l1 ++ l2 ++ [(k, v)]) /\
    c_map c' = c_map c /\ c_data c' !! s = Some (CData true (Some k) v) /\ c_depth c' = c_depth c.
Proof.
  intros (free & used & Hdll & Hlen & Hdata & Hpos & Hfree & Hu & Hnd & Hm).
  apply Forall2_app_inv_r in Hu as (u1 & u2' & Hu1 & Hu2 & ->). inversion Hu2 as [|s ? u2 ? Hs Hu2' E]; subst.
  pose proof (Forall2_length _ _ _ Hu1) as L1. pose proof (Forall2_length _ _ _ Hu2') as L2.
  exists s. rewrite app_assoc in Hdll. apply (mark_as_newest_spec) in Hdll as (ls & o & n & Hmk & Hdll' & Hlls).
  rewrite Hmk. eexists. split; [|split; [done|]].
  { rewrite Hm. apply lookup_map_Some; [done|rewrite !app_length; simpl; lia|]. exists (length l1), v.
    rewrite !lookup_app_r by lia. rewrite Nat.sub_diag. replace (length l1 - length u1)%nat with 0%nat by lia. done. }
  assert (NoDup ((l1 ++ l2 ++ [(k, v)]).*1)) as Hnd'.
  { rewrite fmap_app, fmap_cons in Hnd. rewrite !fmap_app. simpl. rewrite <- Permutation_middle in Hnd.
    rewrite app_assoc, Permutation_app_comm. done. }
  split_and!; auto.
  exists free, (u1 ++ u2 ++ [s]). simpl. split_and!; auto.
  - by rewrite app_assoc.
  - rewrite <- Hlen, !app_length. simpl. lia.
  - repeat apply Forall2_app; auto.
  - rewrite Hm. rewrite !fmap_app, fmap_cons. simpl. rewrite !zip_with_app by (rewrite ?fmap_length; lia). simpl.
    apply list_to_map_proper.
    + rewrite fmap_app, fmap_cons, !fst_zip by (rewrite fmap_length; lia). simpl. by rewrite fmap_app, fmap_cons in Hnd.
    + rewrite <- Permutation_middle. rewrite app_assoc. by rewrite (Permutation_app_comm (_ ++ _) [_]).
Qed.

Lemma cget_spec c l1 k v l2 : cinv c (l1 ++ (k, v) :: l2) ->
  exists c', cget c k = Some (v, c') /\ cinv c' (l1 ++ l2 ++ [(k, v)]) /\ c_depth c' = c_depth c.
Proof.
  intros Hc. destruct (cinv_touch _ _ _ _ _ Hc) as (s & c' & Hs & Hmk & Hinv & Hm & Hd & Hdep).
  exists c'. split; [|done]. unfold cget. rewrite Hs. cbn [mbind option_bind]. rewrite Hmk. cbn [mbind option_bind].
  rewrite Hd. done.
Qed.
Lemma cget_None c l k : cinv c l -> k ∉ l.*1 -> cget c k = None.
Proof.
  intros (free & used & _ & _ & _ & _ & _ & Hu & Hnd & Hm) Hk. unfold cget. rewrite Hm.
  rewrite (proj2 (lookup_map_None l used k (Forall2_length _ _ _ Hu))) by done. done.
Qed.

Lemma dll_free_data c free used : dll (c_links c) (free ++ used) (c_oldest c) (c_newest c) -> forall s, s ∈ free -> s ∉ used.
Proof. intros (Hnd & _) s. apply NoDup_app in Hnd as (_ & Hd & _). apply Hd. Qed.

Lemma cupdate_spec c l1 k v l2 w : cinv c (l1 ++ (k, v) :: l2) ->
  exists c', cupdate c k w = Some c' /\ cinv c' (l1 ++ l2 ++ [(k, w)]) /\ c_depth c' = c_depth c.
Proof.
  intros Hc. destruct (cinv_touch _ _ _ _ _ Hc) as (s & c' & Hs & Hmk & Hinv & Hm & Hd & Hdep).
  unfold cupdate, cget. rewrite Hs. cbn [mbind option_bind]. rewrite Hmk. cbn [mbind option_bind].
  rewrite Hd. cbn [mbind option_bind]. rewrite Hm, Hs. cbn [mbind option_bind]. eexists. split; [done|]. split; [|done].
  destruct Hinv as (free & used & Hdll & Hlen & Hdata & Hpos & Hfree & Hu & Hnd & Hmm).
  pose proof (dll_free_data _ _ _ Hdll) as Hfu.
  rewrite app_assoc in Hu. apply Forall2_app_inv_r in Hu as (u1 & u2 & Hu1 & Hu2 & ->). inversion Hu2 as [|s' ? ? ? Hs' Hnil E]; subst.
  inversion Hnil; subst. clear Hnil.
  assert (s' = s) as ->.
  { assert (c_map c' !! k = Some s') as Hx; [|congruence]. rewrite Hmm. apply lookup_map_Some; [done| |].
    - pose proof (Forall2_length _ _ _ Hu1). rewrite !app_length in *. simpl in *. lia.
    - pose proof (Forall2_length _ _ _ Hu1). rewrite app_assoc. exists (length (l1 ++ l2)), v. rewrite !lookup_app_r by lia.
      rewrite Nat.sub_diag. replace (length (l1 ++ l2) - length u1)%nat with 0%nat by lia. done. }
  assert (s ∉ u1) as Hsu1.
  { destruct Hdll as (Hnd' & _). apply NoDup_app in Hnd' as (_ & _ & Hnd'). apply NoDup_app in Hnd' as (_ & Hd1 & _).
    intros Hin. by apply (Hd1 s Hin); left. }
  exists free, (u1 ++ [s]). simpl. split_and!; auto.
  - by rewrite alter_length.
  - intros x Hx. rewrite list_lookup_alter_ne; [by apply Hfree|]. intros ->. apply (Hfu x Hx). apply elem_of_app. right. left.
  - rewrite app_assoc. apply Forall2_app.
    + eapply Forall2_impl_in_l; [exact Hu1|]. intros x kv Hx Hk. simpl in *. rewrite list_lookup_alter_ne; [done|]. by intros ->.
    + constructor; [|constructor]. rewrite list_lookup_alter, Hd. done.
  - rewrite !fmap_app in *. done.
  - rewrite !fmap_app in *. simpl in *. congruence.
Qed.

Lemma cinsert_spec c l k v : cinv c l -> k ∉ l.*1 -> (length l < c_depth c)%nat ->
  exists c', cinsert c k v = Some c' /\ cinv c' (l ++ [(k, v)]) /\ c_depth c' = c_depth c.
Proof.
  intros Hc Hk Hlt. pose proof (ccontains_spec _ _ k Hc) as Hcc.
  destruct Hc as (free & used & Hdll & Hlen & Hdata & Hpos & Hfree & Hu & Hnd & Hmm).
  pose proof (Forall2_length _ _ _ Hu) as Hlu. rewrite app_length in Hlen.
  destruct free as [|s free]; [simpl in Hlen; lia|].
  destruct (Hfree s) as (d & Hd & Hocc); [left|].
  unfold cinsert. rewrite Hcc, bool_decide_eq_false_2 by done.
  destruct Hdll as (Hdnd & Hdseg & Ho & Hn). simpl head in Ho. rewrite Ho. cbn [mbind option_bind]. rewrite Hd. cbn [mbind option_bind]. rewrite Hocc.
  set (c1 := Cache (c_depth c) (c_map c) (c_links c) (<[s:=CData true (Some k) (e_payload d)]> (c_data c)) (c_oldest c) (c_newest c)).
  destruct (mark_as_newest_spec c1 [] s (free ++ used)) as (ls & o & n & Hmk & Hdll' & Hlls).
  { unfold c1; simpl. split_and!; auto. }
  rewrite <- Ho. fold c1. rewrite Hmk. cbn [mbind option_bind]. eexists. split; [done|]. split; [|done].
  simpl in Hdnd. apply list.NoDup_cons in Hdnd as [Hsn Hdnd].
  assert (s < length (c_data c))%nat as Hsb by (by eapply lookup_lt_Some).
  exists free, (used ++ [s]). simpl. split_and!; auto.
  - simpl in Hdll'. by rewrite <- app_assoc in Hdll'.
  - rewrite !app_length in *. simpl in *. lia.
  - by rewrite alter_length, insert_length.
  - intros x Hx. assert (x <> s) by (intros ->; apply Hsn; apply elem_of_app; by left).
    rewrite list_lookup_alter_ne, list_lookup_insert_ne by done. apply Hfree. by right.
  - apply Forall2_app.
    + eapply Forall2_impl_in_l; [exact Hu|]. intros x kv Hx Hkv. simpl in *.
      assert (x <> s) by (intros ->; apply Hsn; apply elem_of_app; by right).
      by rewrite list_lookup_alter_ne, list_lookup_insert_ne.
    + constructor; [|constructor]. rewrite list_lookup_alter, list_lookup_insert by done. done.
  - rewrite fmap_app. simpl. apply NoDup_app. split_and!; [done| |apply NoDup_singleton]. intros x Hx ->%elem_of_list_singleton. done.
  - rewrite fmap_app. simpl. rewrite zip_with_app by (by rewrite fmap_length). simpl.
    rewrite Hmm. symmetry. transitivity (list_to_map ((k, s) :: zip l.*1 used) : gmap K nat); [|done].
    apply list_to_map_proper; [|by rewrite Permutation_app_comm].
    rewrite fmap_app. simpl. rewrite fst_zip by (rewrite fmap_length; lia).
    apply NoDup_app. split_and!; [done| |apply NoDup_singleton]. intros x Hx ->%elem_of_list_singleton. done.
Qed.
Lemma cinsert_None c l k v : cinv c l -> k ∈ l.*1 \/ (length l >= c_depth c)%nat -> cinsert c k v = None.
Proof.
  intros Hc Hk. unfold cinsert. rewrite (ccontains_spec _ _ k Hc). destruct (bool_decide_reflect (k ∈ l.*1)) as [|Hn]; [done|].
  destruct Hk as [|Hfull]; [done|].
  destruct Hc as (free & used & (Hdnd & Hdseg & Ho & Hn') & Hlen & Hdata & Hpos & Hfree & Hu & Hnd & Hmm).
  pose proof (Forall2_length _ _ _ Hu) as Hlu. rewrite app_length in Hlen. assert (length free = 0%nat) as Hf by lia.
  apply nil_length_inv in Hf as ->. destruct Hu as [|s kv used l Hs Hu]; [simpl in *; lia|].
  rewrite Ho. simpl head. cbn [mbind option_bind]. rewrite Hs. done.
Qed.

Lemma cevict_oldest_spec c k v l : cinv c ((k, v) :: l) -> c_depth c = S (length l) ->
  exists c', cevict_oldest c = Some (v, c') /\ cinv c' l /\ c_depth c' = c_depth c.
Proof.
  intros Hc Hfull. pose proof (has_free_slot_spec _ _ Hc) as [Hfs _].
  destruct Hc as (free & used & Hdll & Hlen & Hdata & Hpos & Hfree & Hu & Hnd & Hmm).
  inversion Hu as [|s ? used' ? Hs Hu' E1]; subst. pose proof (Forall2_length _ _ _ Hu') as Hlu.
  rewrite app_length in Hlen. simpl in Hlen. assert (length free = 0%nat) as Hf by lia. apply nil_length_inv in Hf as ->.
  unfold cevict_oldest. rewrite Hfs. simpl length. rewrite Hfull, Nat.ltb_irrefl.
  pose proof Hdll as (Hdnd & _ & Ho & _). rewrite Ho. simpl head. cbn [mbind option_bind]. rewrite Hs. cbn [mbind option_bind e_index e_payload].
  simpl in Hdnd. apply list.NoDup_cons in Hdnd as [Hsn _].
  assert (s < length (c_data c))%nat as Hsb by (by eapply lookup_lt_Some).
  eexists. split; [done|]. split; [|done].
  exists [s], used'. simpl. split_and!; auto; try (simpl; lia).
  - simpl in Ho. rewrite <- Ho. done.
  - rewrite insert_length. lia.
  - intros x ->%elem_of_list_singleton. rewrite list_lookup_insert by done. eauto.
  - eapply Forall2_impl_in_l; [exact Hu'|]. intros x kv Hx Hkv. simpl in *. rewrite list_lookup_insert_ne; [done|]. by intros ->.
  - by apply list.NoDup_cons in Hnd as [_ Hnd].
  - simpl in Hnd. apply list.NoDup_cons in Hnd as [Hk Hnd]. unfold erase_index. simpl. rewrite Hmm. simpl.
    rewrite delete_insert; [done|]. apply lookup_map_None; done.
Qed.
Lemma cevict_oldest_None c l : cinv c l -> (length l < c_depth c)%nat -> cevict_oldest c = None.
Proof.
  intros Hc Hl. pose proof (has_free_slot_spec _ _ Hc) as [Hfs _]. unfold cevict_oldest. rewrite Hfs.
  by rewrite (proj2 (Nat.ltb_lt _ _) Hl).
Qed.

Lemma cevict_spec c l1 k v l2 : cinv c (l1 ++ (k, v) :: l2) ->
  exists c', cevict c k = Some (v, c') /\ cinv c' (l1 ++ l2) /\ c_depth c' = c_depth c.
Proof.
  intros Hc. pose proof (ccontains_spec _ _ k Hc) as Hcc.
  destruct Hc as (free & used & Hdll & Hlen & Hdata & Hpos & Hfree & Hu & Hnd & Hmm).
  apply Forall2_app_inv_r in Hu as (u1 & u2' & Hu1 & Hu2 & ->). inversion Hu2 as [|s ? u2 ? Hs Hu2' E]; subst.
  pose proof (Forall2_length _ _ _ Hu1) as L1. pose proof (Forall2_length _ _ _ Hu2') as L2.
  assert (c_map c !! k = Some s) as Hks.
  { rewrite Hmm. apply lookup_map_Some; [done|rewrite !app_length; simpl; lia|]. exists (length l1), v.
    rewrite !lookup_app_r by lia. rewrite Nat.sub_diag. replace (length l1 - length u1)%nat with 0%nat by lia. done. }
  unfold cevict. rewrite Hcc, bool_decide_eq_true_2 by (rewrite fmap_app; apply elem_of_app; right; left). cbn [negb].
  rewrite Hks. cbn [mbind option_bind]. rewrite Hs. cbn [mbind option_bind e_index e_payload fst snd].
  set (c1 := Cache (c_depth c) (c_map c) (c_links c) (<[s:=CData false (Some k) v]> (c_data c)) (c_oldest c) (c_newest c)).
  rewrite app_assoc in Hdll. pose proof Hdll as (Hdnd & _). apply NoDup_mid in Hdnd as (Hsn1 & Hsn2 & _).
  destruct (mark_as_oldest_spec c1 (free ++ u1) s u2) as (ls & o & n & Hmk & Hdll' & Hlls); [done|].
  rewrite Hmk. cbn [mbind option_bind]. eexists. split; [done|]. split; [|done].
  assert (s < length (c_data c))%nat as Hsb by (by eapply lookup_lt_Some).
  rewrite elem_of_app in Hsn1.
  exists (s :: free), (u1 ++ u2). simpl. split_and!; auto.
  - simpl in Hdll'. by rewrite <- app_assoc in Hdll'.
  - rewrite !app_length in *. simpl in *. lia.
  - by rewrite insert_length.
  - intros x [->|Hx]%elem_of_cons; [rewrite list_lookup_insert by done; eauto|].
    rewrite list_lookup_insert_ne; [by apply Hfree|]. intros ->. tauto.
  - apply Forall2_app.
    + eapply Forall2_impl_in_l; [exact Hu1|]. intros x kv Hx Hkv. simpl in *. rewrite list_lookup_insert_ne; [done|]. intros ->. tauto.
    + eapply Forall2_impl_in_l; [exact Hu2'|]. intros x kv Hx Hkv. simpl in *. rewrite list_lookup_insert_ne; [done|]. intros ->. tauto.
  - rewrite fmap_app, fmap_cons in Hnd. rewrite fmap_app. by apply NoDup_mid in Hnd as (_ & _ & Hnd).
  - rewrite fmap_app, fmap_cons in Hnd. pose proof (NoDup_mid _ _ _ Hnd) as (Hk1 & Hk2 & Hnd').
    unfold erase_index. simpl. rewrite Hmm. rewrite !fmap_app, fmap_cons. rewrite !zip_with_app by (rewrite ?fmap_length; lia). simpl.
    rewrite !list_to_map_app. simpl. rewrite delete_union, delete_insert.
    + rewrite delete_notin; [done|]. apply not_elem_of_list_to_map. by rewrite fst_zip by (rewrite fmap_length; lia).
    + apply not_elem_of_list_to_map. by rewrite fst_zip by (rewrite fmap_length; lia).
Qed.
Lemma cevict_None c l k : cinv c l -> k ∉ l.*1 -> cevict c k = None.
Proof. intros Hc Hk. unfold cevict. by rewrite (ccontains_spec _ _ k Hc), bool_decide_eq_false_2. Qed.

(** * Iteration *)
Lemma walk_next_spec c free used l p fuel n :
  n = hd_or (free ++ used) None -> seg (c_links c) p (free ++ used) None -> (length (free ++ used) <= fuel)%nat ->
  (forall s, s ∈ free -> exists d, c_data c !! s = Some d /\ e_occ d = false) ->
  Forall2 (fun s kv => c_data c !! s = Some (CData true (Some kv.1) kv.2)) used l ->
  walk_next fuel c n = Some l.*2.
Proof.
  intros -> Hs Hf Hfree Hu. revert p fuel Hs Hf. induction free as [|s free IH]; intros p fuel Hs Hf.
  - simpl in *. clear Hfree. revert p fuel Hs Hf. induction Hu as [|s kv used l Hd Hu IH]; intros p fuel Hs Hf; [by destruct fuel|].
    destruct fuel as [|fuel]; simpl in Hf; [lia|]. destruct Hs as [Hs1 Hs2]. cbn [hd_or walk_next]. rewrite Hd, Hs1. cbn [mbind option_bind l_next].
    rewrite (IH (Some s)) by (auto; lia). done.
  - destruct fuel as [|fuel]; simpl in Hf; [lia|]. destruct Hs as [Hs1 Hs2]. cbn [hd_or app walk_next].
    destruct (Hfree s) as (d & Hd & Hocc); [left|]. rewrite Hd. rewrite Hs1. cbn [mbind option_bind l_next].
    rewrite (IH ltac:(intros; apply Hfree; by right) (Some s)) by (auto; lia). cbn [mbind option_bind]. by rewrite Hocc.
Qed.
Lemma old_to_new_spec c l : cinv c l -> old_to_new c = Some l.*2.
Proof.
  intros (free & used & (Hdnd & Hseg & Ho & Hn) & Hlen & Hdata & Hpos & Hfree & Hu & Hnd & Hmm).
  unfold old_to_new. eapply (walk_next_spec c free used); eauto; try lia; rewrite Ho; by destruct (free ++ used).
Qed.
Lemma walk_prev_free c free nx fuel : seg (c_links c) None free nx -> (length free <= fuel)%nat ->
  (forall s, s ∈ free -> exists d, c_data c !! s = Some d /\ e_occ d = false) ->
  walk_prev fuel c (last free) = Some [].
Proof.
  revert nx fuel. induction free as [|s free IH] using rev_ind; intros nx fuel Hs Hf Hfree; [by destruct fuel|].
  rewrite last_snoc. rewrite app_length in Hf. simpl in Hf. destruct fuel as [|fuel]; [lia|].
  apply seg_app in Hs as [Hs1 [Hs2 _]]. cbn [walk_prev]. destruct (Hfree s) as (d & Hd & Hocc); [apply elem_of_app; right; left|].
  rewrite Hd, Hs2. cbn [mbind option_bind l_prev]. assert (last_or free None = last free) as -> by (unfold last_or; by destruct (last free)).
  rewrite (IH (Some s)); auto; [|lia|intros; apply Hfree; apply elem_of_app; by left]. cbn [mbind option_bind]. by rewrite Hocc.
Qed.
Lemma walk_prev_spec c free used l nx fuel :
  seg (c_links c) None (free ++ used) nx -> (length (free ++ used) <= fuel)%nat ->
  (forall s, s ∈ free -> exists d, c_data c !! s = Some d /\ e_occ d = false) ->
  Forall2 (fun s kv => c_data c !! s = Some (CData true (Some kv.1) kv.2)) used l ->
  walk_prev fuel c (last (free ++ used)) = Some (reverse l.*2).
Proof.
  revert nx fuel l. induction used as [|s used IH] using rev_ind; intros nx fuel l Hs Hf Hfree Hu.
  - inversion Hu; subst. rewrite app_nil_r in *. by eapply walk_prev_free.
  - apply Forall2_app_inv_l in Hu as (l1 & l2 & Hu1 & Hu2 & ->). inversion Hu2 as [|? [k v] ? ? Hd Hnil]; subst. inversion Hnil; subst.
    rewrite app_assoc in *. rewrite last_snoc. rewrite app_length in Hf. simpl in Hf. destruct fuel as [|fuel]; [lia|].
    apply seg_app in Hs as [Hs1 [Hs2 _]]. cbn [walk_prev]. rewrite Hd, Hs2. cbn [mbind option_bind l_prev].
    assert (last_or (free ++ used) None = last (free ++ used)) as -> by (unfold last_or; by destruct (last (free ++ used))).
    rewrite (IH (Some s) fuel l1); auto; [|lia]. cbn [mbind option_bind e_occ e_payload]. rewrite fmap_app, reverse_app. done.
Qed.
Lemma new_to_old_spec c l : cinv c l -> new_to_old c = Some (reverse l.*2).
Proof.
  intros (free & used & (Hdnd & Hseg & Ho & Hn) & Hlen & Hdata & Hpos & Hfree & Hu & Hnd & Hmm).
  unfold new_to_old. rewrite Hn. eapply walk_prev_spec; eauto; lia.
Qed.
End proofs.
