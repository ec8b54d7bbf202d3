From stdpp Require Import base list list_numbers numbers option sorting.
From Verif Require Import CacheModel CacheProofs NDArrayModel PoolModel.

Lemma set_next_len ls p q : length (set_next ls p q) = length ls.
Proof. unfold set_next. apply alter_length. Qed.
Lemma set_prev_len ls p q : length (set_prev ls p q) = length ls.
Proof. unfold set_prev. apply alter_length. Qed.

Lemma slot_next_ok ls p q : (p < length ls)%nat -> slot_next ls p q = Some (set_next ls p q).
Proof. intros. unfold slot_next. by destruct (Nat.ltb_spec p (length ls)); [|lia]. Qed.
Lemma slot_prev_ok ls p q : (p < length ls)%nat -> slot_prev ls p q = Some (set_prev ls p q).
Proof. intros. unfold slot_prev. by destruct (Nat.ltb_spec p (length ls)); [|lia]. Qed.
Lemma dll_bound ls l st en x : dll ls l st en -> x ∈ l -> (x < length ls)%nat.
Proof. intros (_ & Hs & _) Hx. by eapply seg_bound. Qed.
Lemma dll_ext ls ls' l st en : (forall x, x ∈ l -> ls' !! x = ls !! x) -> dll ls l st en -> dll ls' l st en.
Proof. intros Hx (H1 & H2 & H3 & H4). split_and!; auto. by eapply seg_ext. Qed.

Lemma slot_add_back_spec ls l st en x :
  dll ls l st en -> x ∉ l -> (x < length ls)%nat ->
  exists ls' st' en', slot_add_back ls x st en = Some (ls', st', en') /\ dll ls' (l ++ [x]) st' en' /\ length ls' = length ls /\
    forall y, y ∉ l -> y <> x -> ls' !! y = ls !! y.
Proof.
  intros (Hnd & Hs & -> & ->) Hx Hlt. unfold slot_add_back. destruct (Nat.ltb_spec x (length ls)) as [_|]; [|lia].
  destruct l as [|e l _] using rev_ind.
  - cbn [last head app]. rewrite slot_prev_ok by done. cbn [mbind option_bind].
    rewrite slot_next_ok by (by rewrite set_prev_len). cbn [mbind option_bind].
    destruct (lookup_lt_is_Some_2 ls x Hlt) as [lx Hlx].
    eexists _, _, _. split; [done|]. split_and!.
    + split_and!; [apply NoDup_singleton| |done|done]. split; [|done]. unfold set_next, set_prev. rewrite !list_lookup_alter, Hlx. done.
    + by rewrite set_next_len, set_prev_len.
    + intros y _ Hy. unfold set_next, set_prev. rewrite !list_lookup_alter_ne by done. done.
  - rewrite last_snoc. assert (e ∈ l ++ [e]) as He by (apply elem_of_app; right; left).
    assert (e < length ls)%nat by (by eapply seg_bound).
    rewrite slot_next_ok by done. cbn [mbind option_bind].
    rewrite slot_prev_ok by (by rewrite set_next_len). cbn [mbind option_bind].
    rewrite slot_next_ok by (by rewrite set_prev_len, set_next_len). cbn [mbind option_bind].
    destruct (lookup_lt_is_Some_2 ls x Hlt) as [lx Hlx].
    assert (e <> x) as Hex by (intros ->; done).
    eexists _, _, _. split; [done|]. split_and!.
    + split_and!.
      * apply NoDup_app. split_and!; [done| |apply NoDup_singleton]. intros y Hy ->%elem_of_list_singleton. done.
      * apply seg_app. simpl. split.
        -- apply seg_alter_out; [done|]. apply seg_alter_out; [done|].
           eapply (seg_set_next _ _ _ _ None); [|done]. rewrite <- (Permutation_cons_append l e) in Hnd. by apply list.NoDup_cons in Hnd as [? _].
        -- split; [|done]. unfold last_or. rewrite last_snoc. unfold set_next, set_prev.
           rewrite !list_lookup_alter. rewrite list_lookup_alter_ne by done. by rewrite Hlx.
      * by destruct l.
      * by rewrite last_snoc.
    + by rewrite set_next_len, set_prev_len, set_next_len.
    + intros y Hy Hyx. unfold set_next, set_prev. rewrite !list_lookup_alter_ne; [done| |done|done]. intros ->. done.
Qed.

Lemma slot_remove_spec ls l1 x l2 st en :
  dll ls (l1 ++ x :: l2) st en ->
  exists ls' st' en', slot_remove ls x st en = Some (ls', st', en') /\ dll ls' (l1 ++ l2) st' en' /\ length ls' = length ls /\
    forall y, y ∉ l1 ++ l2 -> ls' !! y = ls !! y.
Proof.
  intros (Hnd & Hs & -> & ->). pose proof (NoDup_mid _ _ _ Hnd) as (Hx1 & Hx2 & Hnd').
  pose proof (seg_bound _ _ _ _ x Hs ltac:(apply elem_of_app; right; left)) as Hlt.
  apply seg_app in Hs as [Hs1 Hs2]. destruct Hs2 as [Hx Hs2]. unfold slot_remove. rewrite Hx. cbn [mbind option_bind l_prev l_next hd_or].
  assert (forall S p n, seg S p l1 n -> x ∉ l1 -> forall n', l1 = [] \/ exists l e, l1 = l ++ [e] /\ e ∉ l /\ seg (set_next S e n') p l1 n') as Hset.
  { intros S p n Hsg _ n'. destruct l1 as [|e l _] using rev_ind; [by left|]. right. exists l, e. split; [done|].
    assert (e ∉ l). { apply NoDup_app in Hnd' as (Hnd1 & _ & _). rewrite <- Permutation_cons_append in Hnd1. by apply list.NoDup_cons in Hnd1 as [? _]. }
    split; [done|]. by eapply seg_set_next. }
  destruct (Hset ls None _ Hs1 Hx1 (hd_or l2 None)) as [->|(l & e & -> & He & Hseg)].
  - (* first element *)
    cbn [last_or last mbind option_bind app].
    destruct l2 as [|y l2]; cbn [hd_or mbind option_bind].
    + eexists _, _, _. split; [done|]. split_and!; try done. 
    + assert (y < length ls)%nat by (eapply seg_bound; [exact Hs2|left]). rewrite slot_prev_ok by done. cbn [mbind option_bind].
      eexists _, _, _. split; [done|]. split_and!; try done.
      * apply list.NoDup_cons in Hnd as [_ Hnd]. split_and!; try done.
        apply (seg_set_prev _ (Some x)); [|done]. by apply list.NoDup_cons in Hnd as [? _].
      * by rewrite set_prev_len.
      * intros z Hz. unfold set_prev. apply list_lookup_alter_ne. intros ->. apply Hz. left.
  - assert (last_or (l ++ [e]) None = Some e) as Hle by (unfold last_or; by rewrite last_snoc). rewrite Hle in *.
    assert (e < length ls)%nat by (eapply seg_bound; [exact Hs1|apply elem_of_app; right; left]).
    rewrite slot_next_ok by done. cbn [mbind option_bind].
    destruct l2 as [|y l2]; cbn [hd_or mbind option_bind].
    + eexists _, _, _. split; [done|]. split_and!.
      * rewrite app_nil_r in *. split_and!; try done; [by destruct l|by rewrite last_snoc].
      * by rewrite set_next_len.
      * intros z Hz. unfold set_next. apply list_lookup_alter_ne. intros ->. apply Hz. rewrite app_nil_r. apply elem_of_app; right; left.
    + assert (y < length ls)%nat by (eapply seg_bound; [exact Hs2|left]). rewrite slot_prev_ok by (by rewrite set_next_len). cbn [mbind option_bind].
      assert (y ∉ l ++ [e]) as Hy1.
      { intros Hy. apply NoDup_app in Hnd' as (_ & Hd & _). apply (Hd y Hy). left. }
      assert (e ∉ y :: l2) as He2.
      { apply NoDup_app in Hnd' as (_ & Hd & _). apply Hd. apply elem_of_app; right; left. }
      eexists _, _, _. split; [done|]. split_and!.
      * split_and!; [done| |by destruct l|].
        -- apply seg_app. split; [by apply seg_alter_out|]. rewrite Hle. apply (seg_set_prev _ (Some x)).
           ++ apply NoDup_app in Hnd' as (_ & _ & Hn2). by apply list.NoDup_cons in Hn2 as [? _].
           ++ by apply seg_alter_out.
        -- rewrite !last_app. simpl. done.
      * by rewrite set_prev_len, set_next_len.
      * intros z Hz. rewrite elem_of_app in Hz. unfold set_prev, set_next.
        rewrite !list_lookup_alter_ne; [done| |]; intros ->; apply Hz; [left; apply elem_of_app; right; left|right; left].
Qed.

Lemma slot_walk_spec ls p l fuel : seg ls p l None -> (length l <= fuel)%nat -> slot_walk fuel ls (head l) = Some l.
Proof.
  revert p fuel. induction l as [|x l IH]; intros p fuel Hs Hf; [by destruct fuel|].
  destruct fuel as [|fuel]; [simpl in Hf; lia|]. destruct Hs as [Hx Hs]. cbn [head slot_walk]. rewrite Hx. cbn [mbind option_bind l_next].
  assert (hd_or l None = head l) as -> by (by destruct l). rewrite (IH _ _ Hs) by (simpl in Hf; lia). done.
Qed.

Lemma add_free_spec ls l st en xs :
  dll ls l st en -> NoDup (l ++ xs) -> Forall (fun x => x < length ls)%nat xs ->
  exists ls' st' en', add_free ls st en xs = Some (ls', st', en') /\ dll ls' (l ++ xs) st' en' /\ length ls' = length ls /\
    forall y, y ∉ l ++ xs -> ls' !! y = ls !! y.
Proof.
  unfold add_free. revert ls l st en. induction xs as [|x xs IH]; intros ls l st en Hd Hnd Hf.
  - simpl. rewrite app_nil_r. eauto 10.
  - cbn [foldM]. apply list.Forall_cons in Hf as [Hx Hf].
    assert (x ∉ l) as Hxl. { pose proof (NoDup_mid _ _ _ Hnd). tauto. }
    destruct (slot_add_back_spec ls l st en x Hd Hxl Hx) as (ls1 & st1 & en1 & -> & Hd1 & Hl1 & Hk1). cbn [mbind option_bind].
    destruct (IH ls1 (l ++ [x]) st1 en1 Hd1) as (ls2 & st2 & en2 & -> & Hd2 & Hl2 & Hk2).
    + by rewrite <- app_assoc.
    + by rewrite Hl1.
    + rewrite <- app_assoc in Hd2. eexists _, _, _. split; [done|]. split_and!; [done|congruence|].
      intros y Hy. rewrite Hk2; [apply Hk1|].
      * intros ?. apply Hy. apply elem_of_app; by left.
      * intros ->. apply Hy. apply elem_of_app; right; left.
      * by rewrite <- app_assoc.
Qed.

Section pool.
Context {T : Type} (dflt : T).

(** The live slots [al], in allocation order; [fr] are the free ones. *)
Definition pinv (p : pool T) (fr al : list nat) : Prop :=
  dll (p_slots p) fr (p_fs p) (p_fe p) /\ dll (p_slots p) al (p_as p) (p_ae p) /\
  fr ++ al ≡ₚ seq 0 (length (p_data p)) /\ length (p_slots p) = length (p_data p).

Lemma pinv_NoDup p fr al : pinv p fr al -> NoDup (fr ++ al).
Proof. intros (_ & _ & Hp & _). rewrite Hp. apply NoDup_seq. Qed.
Lemma pinv_bound p fr al x : pinv p fr al -> x ∈ al -> (x < length (p_data p))%nat.
Proof.
  intros (_ & _ & Hp & _) Hx. assert (x ∈ fr ++ al) as Hin by (apply elem_of_app; by right).
  rewrite Hp in Hin. apply elem_of_seq in Hin. lia.
Qed.

Lemma pool_fresh_spec n : exists p, pool_fresh dflt n = Some p /\ pinv p (seq 0 n) [] /\ p_data p = replicate n dflt /\ p_init p = n.
Proof.
  unfold pool_fresh. destruct (add_free_spec (replicate n (Link None None)) [] None None (seq 0 n)) as (ls & st & en & -> & Hd & Hl & _).
  - split_and!; try done. constructor.
  - apply NoDup_seq.
  - apply list.Forall_forall. intros x Hx%elem_of_seq. rewrite replicate_length. lia.
  - cbn [mbind option_bind]. eexists. split; [done|]. unfold pinv; simpl. split_and!; try done; simpl.
    + split_and!; try done. constructor.
    + by rewrite app_nil_r, replicate_length.
    + by rewrite Hl, !replicate_length.
Qed.

Lemma pool_grow_spec p fr al : pinv p fr al ->
  exists p', pool_grow dflt p = Some p' /\ pinv p' (fr ++ seq (length (p_data p)) (length (p_data p))) al /\
    p_data p' = p_data p ++ replicate (length (p_data p)) dflt /\ p_init p' = p_init p.
Proof.
  intros Hp. pose proof (pinv_NoDup _ _ _ Hp) as Hnd. destruct Hp as (Hf & Ha & Hperm & Hlen). unfold pool_grow.
  set (cur := length (p_data p)) in *. replace (2 * cur - cur)%nat with cur by lia.
  assert (forall x, x ∈ fr ++ al -> (x < cur)%nat) as Hb.
  { intros x Hx. rewrite Hperm in Hx. apply elem_of_seq in Hx. lia. }
  assert (forall x, (x < cur)%nat -> (p_slots p ++ replicate cur (Link None None)) !! x = p_slots p !! x) as Hkeep.
  { intros x Hx. rewrite lookup_app_l; [done|]. rewrite Hlen. done. }
  destruct (add_free_spec (p_slots p ++ replicate cur (Link None None)) fr (p_fs p) (p_fe p) (seq cur cur)) as (ls & st & en & -> & Hd & Hl & Hk).
  - eapply dll_ext; [|exact Hf]. intros x Hx. apply Hkeep, Hb. apply elem_of_app; by left.
  - apply NoDup_app. split_and!.
    + by apply NoDup_app in Hnd as (? & _ & _).
    + intros x Hx Hx2%elem_of_seq. specialize (Hb x ltac:(apply elem_of_app; by left)). lia.
    + apply NoDup_seq.
  - apply list.Forall_forall. intros x Hx%elem_of_seq. rewrite app_length, replicate_length, Hlen. lia.
  - cbn [mbind option_bind]. eexists. split; [done|]. unfold pinv; simpl.
    assert (vresize dflt (2 * cur) (p_data p) = p_data p ++ replicate cur dflt) as Hv.
    { unfold vresize. rewrite take_ge by (unfold cur; lia). f_equal. f_equal. unfold cur. lia. }
    change (cur + (cur + 0))%nat with (2 * cur)%nat. rewrite Hv. split_and!; try done; simpl.
    + eapply dll_ext; [|exact Ha]. intros x Hx. rewrite Hk, Hkeep; [done| |].
      * apply Hb. apply elem_of_app; by right.
      * intros [Hx2|Hx2%elem_of_seq]%elem_of_app.
        -- apply NoDup_app in Hnd as (_ & Hdis & _). by apply (Hdis x).
        -- specialize (Hb x ltac:(apply elem_of_app; by right)). lia.
    + rewrite app_length, replicate_length. fold cur. rewrite seq_app. rewrite <- Hperm. simpl. solve_Permutation.
    + rewrite Hl, !app_length, !replicate_length. fold cur. lia.
Qed.

Lemma pool_alloc_spec p fr al : pinv p fr al -> (0 < length (p_data p))%nat ->
  exists x p' fr', pool_alloc dflt p = Some (x, p') /\ pinv p' fr' (al ++ [x]) /\ x ∉ al /\
    (forall y v, p_data p !! y = Some v -> p_data p' !! y = Some v) /\
    (length (p_data p) <= length (p_data p'))%nat /\ p_init p' = p_init p.
Proof.
  intros Hp Hpos. unfold pool_alloc.
  assert (exists p1 x fr1, match p_fs p with None => pool_grow dflt p | Some _ => Some p end = Some p1 /\ pinv p1 (x :: fr1) al /\
            (forall y v, p_data p !! y = Some v -> p_data p1 !! y = Some v) /\ (length (p_data p) <= length (p_data p1))%nat /\ p_init p1 = p_init p) as
    (p1 & x & fr1 & -> & Hp1 & Hk & Hl & Hi).
  { destruct (p_fs p) as [x|] eqn:Hfs.
    - destruct fr as [|y fr]; [by destruct Hp as ((_ & _ & Hh & _) & _); rewrite Hfs in Hh|]. exists p, y, fr. auto.
    - destruct fr as [|y fr]; [|by destruct Hp as ((_ & _ & Hh & _) & _); rewrite Hfs in Hh].
      destruct (pool_grow_spec p [] al Hp) as (p' & -> & Hp' & Hd & Hi). simpl in Hp'.
      destruct (length (p_data p)) as [|n] eqn:Hn; [lia|]. exists p', (S n), (seq (S (S n)) n). split_and!; auto.
      + intros y v Hy. rewrite Hd. by apply lookup_app_l_Some.
      + rewrite Hd, app_length, replicate_length. lia. }
  pose proof (pinv_NoDup _ _ _ Hp1) as Hnd. cbn [mbind option_bind]. destruct Hp1 as (Hf & Ha & Hperm & Hlen).
  assert (p_fs p1 = Some x) as Hx by (by destruct Hf as (_ & _ & -> & _)). rewrite Hx in *. cbn [mbind option_bind].
  destruct (slot_remove_spec _ [] x fr1 _ _ Hf) as (ls1 & fs & fe & -> & Hf1 & Hl1 & Hk1). cbn [mbind option_bind app] in *.
  assert (x ∉ fr1 ++ al) as Hxn by (simpl in Hnd; by apply list.NoDup_cons in Hnd as [? _]).
  assert (forall y, y ∈ al -> y ∉ fr1) as Hdis.
  { simpl in Hnd. apply list.NoDup_cons in Hnd as [_ Hnd]. apply NoDup_app in Hnd as (_ & Hd & _). intros y Hy Hy2. by apply (Hd y). }
  rewrite elem_of_app in Hxn.
  destruct (slot_add_back_spec ls1 al (p_as p1) (p_ae p1) x) as (ls2 & as2 & ae2 & -> & Ha2 & Hl2 & Hk2).
  - eapply dll_ext; [|exact Ha]. intros y Hy. apply Hk1. by apply Hdis.
  - tauto.
  - rewrite Hl1, Hlen. assert (x ∈ (x :: fr1) ++ al) as Hin by (left). rewrite Hperm in Hin. apply elem_of_seq in Hin. lia.
  - cbn. exists x, (Pool (p_init p1) fs fe as2 ae2 (p_data p1) ls2), fr1. split; [done|]. split; [|tauto]. unfold pinv; simpl; split_and!; simpl; auto.
    + eapply dll_ext; [|exact Hf1]. intros y Hy. apply Hk2.
      * intros Hy2. by apply (Hdis y).
      * intros ->. tauto.
    + rewrite <- Hperm. simpl. solve_Permutation.
    + congruence.
Qed.

Lemma pool_free_spec p fr al1 x al2 : pinv p fr (al1 ++ x :: al2) ->
  exists p', pool_free p x = Some p' /\ pinv p' (fr ++ [x]) (al1 ++ al2) /\ p_data p' = p_data p /\ p_init p' = p_init p.
Proof.
  intros Hp. pose proof (pinv_NoDup _ _ _ Hp) as Hnd. pose proof (pinv_bound _ _ _ x Hp ltac:(apply elem_of_app; right; left)) as Hb.
  destruct Hp as (Hf & Ha & Hperm & Hlen). unfold pool_free.
  destruct (slot_remove_spec _ al1 x al2 _ _ Ha) as (ls1 & as1 & ae1 & -> & Ha1 & Hl1 & Hk1). cbn [mbind option_bind].
  rewrite <- (Permutation_middle al1 al2 x) in Hnd. apply NoDup_app in Hnd as (Hnf & Hdis & Hna). apply list.NoDup_cons in Hna as [Hxa Hna].
  assert (x ∉ fr) as Hxf by (intros Hx; apply (Hdis x Hx); left).
  destruct (slot_add_back_spec ls1 fr (p_fs p) (p_fe p) x) as (ls2 & fs2 & fe2 & -> & Hf2 & Hl2 & Hk2).
  - eapply dll_ext; [|exact Hf]. intros y Hy. apply Hk1. intros Hy2. apply (Hdis y Hy). by right.
  - done.
  - rewrite Hl1, Hlen. done.
  - cbn. eexists. split; [done|]. split_and!; auto. unfold pinv; simpl; split_and!; simpl; auto.
    + eapply dll_ext; [|exact Ha1]. intros y Hy. apply Hk2.
      * intros Hy2. apply (Hdis y Hy2). by right.
      * intros ->. done.
    + rewrite <- Hperm. solve_Permutation.
    + congruence.
Qed.

Lemma pool_set_spec p fr al i v : pinv p fr al -> (i < length (p_data p))%nat ->
  exists p', pool_set p i v = Some p' /\ pinv p' fr al /\ p_data p' = <[i := v]> (p_data p) /\ p_init p' = p_init p.
Proof.
  intros (H1 & H2 & H3 & H4) Hi. unfold pool_set. destruct (Nat.ltb_spec i (length (p_data p))) as [_|]; [|lia].
  eexists. split; [done|]. split_and!; auto. unfold pinv; simpl; split_and!; simpl; auto; by rewrite insert_length.
Qed.

Lemma pool_elements_spec p fr al : pinv p fr al -> pool_elements p = mapM (fun x => p_data p !! x) al.
Proof.
  intros Hp. pose proof (pinv_NoDup _ _ _ Hp) as Hnd. destruct Hp as (_ & (Hnd2 & Hs & Hh & _) & Hperm & Hlen). unfold pool_elements.
  rewrite Hh, (slot_walk_spec _ _ _ _ Hs); [done|]. rewrite Hlen.
  assert (length (fr ++ al) = length (p_data p)) as Hl by (rewrite Hperm; apply seq_length). rewrite app_length in Hl. lia.
Qed.
End pool.
