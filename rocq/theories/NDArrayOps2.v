From stdpp Require Import base list list_numbers numbers option.
From Verif Require Import IndexSpec LoopsModel LoopsProofs NDArrayModel NDArrayProofs NDArrayOps.
From Coq Require Import Lia.

Lemma zeros_snoc (psh : list nat) s : replicate (length (psh ++ [s])) 0%nat = replicate (length psh) 0%nat ++ [0%nat].
Proof.
  rewrite app_length. simpl. rewrite Nat.add_comm. simpl.
  induction (length psh) as [|k IH]; simpl; [done|]. by rewrite <- IH.
Qed.

Lemma elem_of_box_elems_shape sh x : x ∈ box_elems (replicate (length sh) 0%nat) sh <-> in_shape sh x.
Proof. apply elem_of_box_elems. Qed.

(** * Views *)
Lemma aview_read {A} vd (a : ndarr A) s e x :
  wf vd a -> Forall2 le s e -> Forall2 le e (a_shape a) ->
  in_shape (a_shape (aview a s e)) x ->
  in_shape (a_shape a) (vadd s x) /\ aread vd (aview a s e) x = aread vd a (vadd s x).
Proof.
  intros [(st & Hst & Hl) Hb] Hse Hes Hx. simpl in Hx.
  assert (in_shape (a_shape a) (vadd s x)) as Hin.
  { apply in_shape_forall2 in Hx. apply in_shape_forall2. fold (vsub e s) in Hx.
    clear -Hse Hes Hx. revert x Hx. generalize dependent (a_shape a).
    induction Hse as [|s0 e0 s e H0 Hse IH]; intros sh Hes x Hx; inversion Hx; inversion Hes; subst; simpl in *; try done; constructor; [lia|].
    eapply IH; eauto. }
  split; [done|]. rewrite !aread_eq by done. simpl.
  pose proof (Forall2_length _ _ _ Hse). pose proof (Forall2_length _ _ _ Hes).
  pose proof (in_shape_length _ _ Hx) as Hlx. rewrite zip_with_length in Hlx.
  rewrite flat_ind_add; [done|lia|]. rewrite Hst, app_length. simpl. lia.
Qed.

Lemma aview_wf {A} vd (a : ndarr A) s e :
  wf vd a -> Forall2 le s e -> Forall2 le e (a_shape a) -> wf vd (aview a s e).
Proof.
  intros Hwf Hse Hes. pose proof (Forall2_length _ _ _ Hse). pose proof (Forall2_length _ _ _ Hes).
  split.
  - destruct Hwf as [(st & Hst & Hl) _]. exists st. simpl. rewrite zip_with_length. split; [done|lia].
  - intros x Hx. destruct (aview_read vd a s e x Hwf Hse Hes Hx) as [Hin _].
    destruct Hwf as [(st & Hst & Hl) Hb]. specialize (Hb _ Hin). simpl in *.
    pose proof (in_shape_length _ _ Hx) as Hlx. rewrite zip_with_length in Hlx.
    rewrite flat_ind_add; [done|lia|]. rewrite Hst, app_length. simpl. lia.
Qed.

(** * Copying *)
Lemma acopy_assign_spec {A} vd (junk : A) (this other : ndarr A) :
  a_owns this = true -> wf_owned vd other ->
  exists this', acopy_assign vd junk this other = Some this' /\ wf_owned vd this' /\
    a_shape this' = a_shape other /\
    forall x, in_shape (a_shape other) x -> aread vd this' x = aread vd other x.
Proof.
  intros Hown Hwf. pose proof Hwf as (Hne & Hst & Hoff & Hlen & _).
  unfold acopy_assign. destruct (aresize vd junk (a_shape other) this) as [t|] eqn:Ht.
  2:{ unfold aresize in Ht. rewrite Hown in Ht. done. }
  apply aresize_wf in Ht as [Hwft Hsht]; [|done]. cbn [mbind option_bind].
  destruct (list_snoc (a_shape other)) as (psh & s & Hsh); [done|].
  rewrite Hsht, Hsh. unfold array_chunk_loop, row_chunk. rewrite zeros_snoc, vlast_app, app_length. simpl.
  replace (length psh + 1 - 1)%nat with (length (replicate (length psh) 0%nat)) by (rewrite replicate_length; lia).
  pose proof (fun fuel H1 H2 => chunk_loop_rows fuel (replicate (length psh) 0%nat) psh 0 s H1 H2) as Hcl.
  rewrite (Nat.sub_0_r s) in Hcl.
  rewrite Hcl by (rewrite ?replicate_length; auto). cbn [mbind option_bind].
  assert (forall x, length x = length (a_shape other) ->
    flat_ind (a_strides t) (a_off t) x = flat_ind (a_strides other) (a_off other) x) as Hfl.
  { intros x Hx. rewrite !(wf_owned_flat vd) by (rewrite ?Hsht; auto). by rewrite Hsht. }
  assert (length (a_data t) = length (a_data other)) as Hlt.
  { destruct Hwft as (_ & _ & _ & -> & _). by rewrite Hsht, Hlen. }
  unfold rows. destruct (Nat.ltb_spec 0 s) as [Hs|Hs].
  - set (qs := box_elems (replicate (length psh) 0%nat) psh).
    set (src := fun q => take (s * vd) (drop (flat_ind (a_strides other) (a_off other) (q ++ [0%nat])) (a_data other))).
    assert (forall q, q ∈ qs -> (flat_ind (a_strides other) (a_off other) (q ++ [0%nat]) + s * vd <= length (a_data other))%nat) as Hrow.
    { intros q Hq%elem_of_box_elems_shape. pose proof (in_shape_length _ _ Hq).
      rewrite (wf_owned_flat vd) by (rewrite ?Hsh, ?app_length; auto; simpl; lia).
      rewrite Hlen. unfold compute_volume. rewrite number_elements_volume, Hsh, rank_snoc by done.
      pose proof (rank_bound _ _ Hq) as Hr.
      assert (volume (psh ++ [s]) = volume psh * s)%nat as -> by (clear; induction psh; simpl; lia).
      rewrite <- Nat.mul_add_distr_r. apply Nat.mul_le_mono_r.
      assert ((rank psh q + 1) * s <= volume psh * s)%nat by (apply Nat.mul_le_mono_r; lia). lia. }
    rewrite (foldM_ext_in _ (fun d (c : list nat * list nat) =>
       set_block d (flat_ind (a_strides t) (a_off t) (removelast c.1 ++ [0%nat])) (src (removelast c.1)))).
    2:{ intros d c Hc. apply elem_of_list_fmap in Hc as (q & -> & Hq). cbn [fst].
        rewrite removelast_last. unfold copy_n, src.
        assert (Hfq : flat_ind (a_strides t) (a_off t) (q ++ [0%nat]) = flat_ind (a_strides other) (a_off other) (q ++ [0%nat])).
        { apply Hfl. apply elem_of_box_elems_shape, in_shape_length in Hq. rewrite Hsh, !app_length. simpl. lia. }
        rewrite Hfq. unfold block. specialize (Hrow _ Hq).
        destruct (Nat.leb_spec (flat_ind (a_strides other) (a_off other) (q ++ [0%nat]) + s * vd) (length (a_data other))); [|lia].
        done. }
    rewrite (foldM_map (fun d o => set_block d o.1 o.2) (fun c : list nat * list nat => (flat_ind (a_strides t) (a_off t) (removelast c.1 ++ [0%nat]), src (removelast c.1)))).
    rewrite <- list_fmap_compose.
    assert ((_ <$> qs) = ((fun q => (flat_ind (a_strides t) (a_off t) (q ++ [0%nat]), src q)) <$> qs)) as ->.
    { apply list_fmap_ext. intros ? q _. cbn. by rewrite removelast_last. }
    destruct (rows_write vd t psh s qs 0 s src) as (d & Hd & Hdl & Hval); auto; try lia.
    { by rewrite Hsht. }
    { intros q Hq. by apply elem_of_box_elems_shape. }
    { intros q Hq. unfold src. rewrite take_length, drop_length. specialize (Hrow _ Hq). lia. }
    rewrite Hd. simpl. eexists. split; [done|].
    assert (wf_owned vd (NDArr (psh ++ [s]) (a_strides t) (a_off t) d true)) as Hwf'.
    { destruct Hwft as (? & ? & ? & ? & ?). unfold wf_owned; simpl. rewrite Hdl, <- Hsh, <- Hsht. auto. }
    split_and!; auto.
    intros x Hx. pose proof (in_shape_length _ _ Hx) as Hlx. rewrite app_length in Hlx. simpl in Hlx.
    apply aread_ext; [by apply wf_owned_wf|by apply wf_owned_wf|done|by rewrite Hsh|].
    destruct (list_snoc x) as (xp & x0 & ->); [intros ->; simpl in Hlx; lia|].
    rewrite app_length in Hlx. simpl in Hlx.
    pose proof Hx as Hx'. rewrite in_shape_snoc in Hx' by lia. destruct Hx' as [Hxp Hx0].
    intros c Hc. cbn [a_data a_strides a_off]. rewrite Hval by done.
    rewrite decide_True by (split; [by apply elem_of_box_elems_shape|lia]).
    unfold src. rewrite lookup_take, lookup_drop.
    + f_equal. rewrite !(wf_owned_flat vd) by (rewrite ?Hsh, ?app_length; auto; simpl; lia).
      rewrite Hsh, !rank_snoc by lia. lia.
    + assert ((x0 + 1) * vd <= s * vd)%nat by (apply Nat.mul_le_mono_r; lia). lia.
  - simpl. eexists. split; [done|]. split_and!; auto.
    + destruct Hwft as (? & ? & ? & ? & ?). unfold wf_owned; simpl. rewrite <- Hsh, <- Hsht. auto.
    + intros x Hx. exfalso. pose proof (in_shape_length _ _ Hx) as Hlx. rewrite app_length in Hlx. simpl in Hlx.
      destruct (list_snoc x) as (xp & x0 & ->); [intros ->; simpl in Hlx; lia|].
      rewrite app_length in Hlx. simpl in Hlx. rewrite in_shape_snoc in Hx by lia. lia.
Qed.

(** * Appending *)
Lemma shape_allows_concat_true sh1 sh2 :
  shape_allows_concat sh1 sh2 0 = true <->
  length sh1 = length sh2 /\ tail sh1 = tail sh2.
Proof.
  unfold shape_allows_concat. rewrite andb_true_iff, Nat.eqb_eq, forallb_forall. split.
  - intros [Hl H]. split; [done|]. destruct sh1 as [|s1 sh1], sh2 as [|s2 sh2]; simpl in *; try done; try lia.
    apply list_eq. intros i. destruct (decide (i < length sh1)%nat).
    + specialize (H (S i)). simpl in H. apply bool_decide_eq_true in H; [done|]. right. apply in_seq. lia.
    + rewrite !lookup_ge_None_2 by lia. done.
  - intros [Hl H]. split; [done|]. intros [|i] _; simpl; [done|].
    apply bool_decide_eq_true. destruct sh1, sh2; simpl in *; try done. by subst.
Qed.

Lemma aappend0_spec {A} vd (junk : A) (this other : ndarr A) n1 n2 sh :
  wf_owned vd this -> wf_owned vd other -> a_shape this = n1 :: sh -> a_shape other = n2 :: sh ->
  exists this', aappend0 vd junk this other = Some this' /\ wf_owned vd this' /\
    a_shape this' = (n1 + n2)%nat :: sh /\
    forall i x, in_shape sh x ->
      ((i < n1)%nat -> aread vd this' (i :: x) = aread vd this (i :: x)) /\
      ((n1 <= i < n1 + n2)%nat -> aread vd this' (i :: x) = aread vd other ((i - n1)%nat :: x)).
Proof.
  intros Hwf Hwfo Hs1 Hs2. pose proof Hwf as (_ & Hst & Hoff & Hlen & Hown). pose proof Hwfo as (_ & Hsto & Hoffo & Hleno & Howno).
  unfold aappend0. rewrite Hown. rewrite (proj2 (shape_allows_concat_true _ _)) by (rewrite Hs1, Hs2; done). cbn [andb].
  rewrite Hs1, Hs2. simpl. unfold aresize. rewrite Hown. cbn [mbind option_bind a_shape a_strides a_off a_data].
  assert (length (a_data this) = n1 * volume sh * vd)%nat as L1.
  { rewrite Hlen. unfold compute_volume. by rewrite number_elements_volume, Hs1. }
  assert (length (a_data other) = n2 * volume sh * vd)%nat as L2.
  { rewrite Hleno. unfold compute_volume. by rewrite number_elements_volume, Hs2. }
  assert (compute_volume vd ((n1 + n2)%nat :: sh) = length (a_data this) + length (a_data other))%nat as LV.
  { unfold compute_volume. rewrite number_elements_volume, L1, L2. simpl. lia. }
  set (D := vresize junk (compute_volume vd ((n1 + n2)%nat :: sh)) (a_data this)).
  assert (D = a_data this ++ replicate (length (a_data other)) junk) as HD.
  { unfold D, vresize. rewrite LV. rewrite take_ge by lia. f_equal. f_equal. lia. }
  unfold copy_n, block. rewrite Nat.add_0_l, Nat.leb_refl. simpl. rewrite drop_0, take_ge by done.
  rewrite set_block_Some by (rewrite HD, app_length, replicate_length; lia). simpl.
  eexists. split; [done|].
  set (D' := list_inserts _ _ _).
  assert (D' = a_data this ++ a_data other) as HD'.
  { unfold D'. rewrite HD. apply list_eq. intros i.
    destruct (decide (i < length (a_data this))%nat).
    { rewrite list_lookup_inserts_lt by done. by rewrite !lookup_app_l by done. }
    destruct (decide (i < length (a_data this) + length (a_data other))%nat).
    { rewrite list_lookup_inserts by (rewrite ?app_length, ?replicate_length; lia). by rewrite lookup_app_r by lia. }
    rewrite !lookup_ge_None_2; [done|rewrite app_length; lia|rewrite inserts_length, app_length, replicate_length; lia]. }
  clearbody D'. subst D'.
  set (R := NDArr _ _ _ _ _).
  assert (wf_owned vd R) as HwfR.
  { unfold wf_owned, R; simpl. split_and!; auto. rewrite app_length. by rewrite LV. }
  split_and!; auto. intros i x Hx. pose proof (in_shape_length _ _ Hx) as Hlx.
  pose proof (rank_bound _ _ Hx) as Hrx.
  split.
  - intros Hi. apply aread_ext; [by apply wf_owned_wf|by apply wf_owned_wf|..].
    + simpl. apply in_shape_cons. eexists _, _. split_and!; eauto. lia.
    + rewrite Hs1. apply in_shape_cons. eauto.
    + intros c Hc. rewrite !(wf_owned_flat vd) by (simpl; rewrite ?Hs1; simpl; auto; lia).
      rewrite Hs1. simpl. rewrite lookup_app_l; [done|].
      rewrite L1. assert ((i * volume sh + rank sh x + 1) * vd <= n1 * volume sh * vd)%nat; [|lia].
      apply Nat.mul_le_mono_r. assert ((i + 1) * volume sh <= n1 * volume sh)%nat by (apply Nat.mul_le_mono_r; lia). lia.
  - intros Hi. apply aread_ext; [by apply wf_owned_wf|by apply wf_owned_wf|..].
    + simpl. apply in_shape_cons. eexists _, _. split_and!; eauto. lia.
    + rewrite Hs2. apply in_shape_cons. eexists _, _. split_and!; eauto. lia.
    + intros c Hc. rewrite !(wf_owned_flat vd) by (simpl; rewrite ?Hs2; simpl; auto; lia).
      rewrite Hs2. simpl.
      assert ((i * volume sh + rank sh x) * vd + c = length (a_data this) + (((i - n1) * volume sh + rank sh x) * vd + c))%nat as ->.
      { rewrite L1. replace i with (n1 + (i - n1))%nat at 1 by lia. generalize (i - n1)%nat. intros; lia. }
      generalize (((i - n1) * volume sh + rank sh x) * vd + c)%nat as k. intros k.
      rewrite lookup_app_r by lia. f_equal. lia.
Qed.

(** * Element loops *)
Lemma mjoin_app {A} (l1 l2 : list (list A)) : mjoin (l1 ++ l2) = mjoin l1 ++ mjoin l2.
Proof. induction l1 as [|x l1 IH]; [done|]. cbn. rewrite <- app_assoc. f_equal. exact IH. Qed.

Lemma box_elems_snoc pb pe b0 e0 :
  length pb = length pe ->
  box_elems (pb ++ [b0]) (pe ++ [e0]) = mjoin ((fun p => (fun k => p ++ [(b0 + k)%nat]) <$> seq 0 (e0 - b0)) <$> box_elems pb pe).
Proof.
  revert pe; induction pb as [|p0 pb IH]; intros [|q0 pe] Hl; simpl in Hl; try lia.
  - cbn. rewrite app_nil_r.
    assert (forall n b, mjoin ((fun i => [[i]]) <$> seq b n) = (fun k => [k]) <$> seq b n) as H1.
    { induction n as [|n IHn]; intros b; simpl; [done|]. f_equal. apply IHn. }
    rewrite H1.
    assert (forall n b, (fun k => [k]) <$> seq b n = (fun k => [(b + k)%nat]) <$> seq 0 n) as H2.
    { intros n b. apply list_eq. intros i. rewrite !list_lookup_fmap.
      destruct (decide (i < n)%nat).
      - rewrite !lookup_seq_lt by done. simpl. do 2 f_equal.
      - rewrite !lookup_seq_ge by lia. done. }
    apply H2.
  - cbn [app box_elems]. rewrite IH by lia.
    generalize (seq p0 (q0 - p0)) as l. induction l as [|i l IHl]; [done|].
    cbn. rewrite fmap_app. rewrite mjoin_app. f_equal; [|apply IHl].
    rewrite fmap_mjoin. f_equal. rewrite <- !list_fmap_compose. apply list_fmap_ext. intros ? p _. cbn.
    rewrite <- list_fmap_compose. done.
Qed.

Lemma index_loop_positions_spec vd st off s e :
  s <> [] -> length s = length e -> S (length st) = length s ->
  index_loop_positions vd (st ++ [vd]) off s e = Some ((fun x => (x, flat_ind (st ++ [vd]) off x)) <$> box_elems s e).
Proof.
  intros Hne Hl Hst. destruct (list_snoc s Hne) as (pb & b0 & ->).
  destruct (list_snoc e) as (pe & e0 & ->); [intros ->; rewrite app_length in Hl; simpl in Hl; lia|].
  rewrite !app_length in *. simpl in *.
  unfold index_loop_positions, row_chunk. rewrite !vlast_app, app_length. simpl.
  replace (length pe + 1 - 1)%nat with (length pb) by lia.
  rewrite chunk_loop_rows by (auto; lia). cbn [mbind option_bind]. f_equal.
  rewrite box_elems_snoc by lia. rewrite fmap_mjoin. unfold rows.
  destruct (Nat.ltb_spec b0 e0).
  - f_equal. rewrite <- !list_fmap_compose. apply list_fmap_ext. intros ? p Hp. cbn -[flat_ind].
    apply elem_of_list_lookup_2, elem_of_box_elems, in_box_length in Hp as [Hp _].
    unfold row_positions. rewrite removelast_last, vlast_app.
    rewrite <- list_fmap_compose. apply list_fmap_ext. intros ? k _. cbn -[flat_ind].
    rewrite !flat_ind_snoc by lia. f_equal. lia.
  - replace (e0 - b0)%nat with 0%nat by lia. cbn. clear.
    induction (box_elems pb pe) as [|? l IH]; [done|]. cbn in *. done.
Qed.

Lemma aelements_spec {A} vd (a : ndarr A) :
  wf vd a ->
  exists l, aelements vd a = Some l /\ length l = volume (a_shape a) /\
    forall x, in_shape (a_shape a) x -> l !! rank (a_shape a) x = aread vd a x.
Proof.
  intros [(st & Hst & Hl) Hb]. unfold aelements. rewrite Hst.
  rewrite index_loop_positions_spec.
  2:{ destruct (a_shape a); simpl in *; [lia|done]. }
  2:{ by rewrite replicate_length. }
  2:{ rewrite replicate_length. lia. }
  cbn [mbind option_bind].
  rewrite <- (Hst).
  set (g := fun p : list nat * nat => default [] (block (a_data a) p.2 vd)).
  rewrite (mapM_Some_const _ g).
  2:{ intros p Hp. apply elem_of_list_fmap in Hp as (x & -> & Hx%elem_of_box_elems). unfold g. simpl.
      destruct (block_Some (a_data a) (flat_ind (a_strides a) (a_off a) x) vd) as [v Hv]; [by apply Hb|]. by rewrite Hv. }
  eexists. split; [done|]. rewrite <- list_fmap_compose. split.
  - rewrite fmap_length. apply box_elems_length_shape.
  - intros x Hx. rewrite list_lookup_fmap.
    assert (box_elems (replicate (length (a_shape a)) 0%nat) (a_shape a) !! rank (a_shape a) x = Some x) as ->.
    { by apply box_elems_rank. }
    rewrite aread_eq by done. cbn. unfold g. cbn.
    destruct (block_Some (a_data a) (flat_ind (a_strides a) (a_off a) x) vd) as [v Hv]; [by apply Hb|]. by rewrite Hv.
Qed.

(** * Sequences of element writes *)
Lemma foldM_awrite {A} vd (ws : list (list nat * list A)) (a : ndarr A) :
  wf_owned vd a -> NoDup ws.*1 ->
  (forall w, w ∈ ws -> in_shape (a_shape a) w.1 /\ length w.2 = vd) ->
  exists a', foldM (fun a w => awrite vd a w.1 w.2) a ws = Some a' /\ wf_owned vd a' /\ a_shape a' = a_shape a /\
    (forall w, w ∈ ws -> aread vd a' w.1 = Some w.2) /\
    (forall y, in_shape (a_shape a) y -> y ∉ ws.*1 -> aread vd a' y = aread vd a y).
Proof.
  revert a; induction ws as [|w ws IH]; intros a Hwf Hnd Hin; simpl.
  - exists a. split_and!; auto. intros w Hw. by apply elem_of_nil in Hw.
  - destruct (Hin w) as [Hw1 Hw2]; [left|].
    destruct (awrite_spec vd a w.1 w.2) as (a1 & -> & Hwf1 & Hsh1 & Hr1 & Ho1); auto. simpl.
    apply list.NoDup_cons in Hnd as [Hnot Hnd].
    destruct (IH a1) as (a' & -> & Hwf' & Hsh' & Hr' & Ho'); auto.
    { intros w' Hw'. rewrite Hsh1. apply Hin. by right. }
    exists a'. split_and!; auto; [congruence| |].
    + intros w' Hw'. apply elem_of_cons in Hw' as [->|Hw']; [|auto].
      rewrite Ho'; [done|by rewrite Hsh1|done].
    + intros y Hy Hny. apply not_elem_of_cons in Hny as [Hne Hny].
      rewrite Ho'; [|by rewrite Hsh1|done]. by apply Ho1.
Qed.

(** * Swapping axes *)
Lemma vswap_length i j v : length (vswap i j v) = length v.
Proof. unfold vswap. destruct (v !! i), (v !! j); rewrite ?insert_length; done. Qed.

Lemma vswap_lookup i j v k : (i < length v)%nat -> (j < length v)%nat ->
  vswap i j v !! k = if decide (k = i) then v !! j else if decide (k = j) then v !! i else v !! k.
Proof.
  intros Hi Hj. unfold vswap. destruct (lookup_lt_is_Some_2 v i Hi) as [x Hx], (lookup_lt_is_Some_2 v j Hj) as [y Hy].
  rewrite Hx, Hy. destruct (decide (k = i)) as [->|].
  - rewrite list_lookup_insert; [done|by rewrite insert_length].
  - rewrite list_lookup_insert_ne by done. destruct (decide (k = j)) as [->|].
    + by rewrite list_lookup_insert.
    + by rewrite list_lookup_insert_ne.
Qed.

Lemma vswap_involutive i j v : (i < length v)%nat -> (j < length v)%nat -> vswap i j (vswap i j v) = v.
Proof.
  intros Hi Hj. apply list_eq. intros k. rewrite !vswap_lookup by (rewrite ?vswap_length; done).
  repeat case_decide; subst; try done; congruence.
Qed.

Lemma in_shape_vswap i j sh x : (i < length sh)%nat -> (j < length sh)%nat ->
  in_shape sh x -> in_shape (vswap i j sh) (vswap i j x).
Proof.
  intros Hi Hj Hx. pose proof (in_shape_length _ _ Hx) as Hl. apply in_shape_forall2 in Hx. apply in_shape_forall2.
  rewrite Forall2_lookup in *. intros k. rewrite !vswap_lookup by lia.
  repeat case_decide; apply Hx.
Qed.

Lemma in_shape_vswap_inv i j sh x : (i < length sh)%nat -> (j < length sh)%nat ->
  in_shape (vswap i j sh) x -> in_shape sh (vswap i j x).
Proof.
  intros Hi Hj Hx. rewrite <- (vswap_involutive i j sh) by done. apply in_shape_vswap; rewrite ?vswap_length; done.
Qed.

Lemma aswap_axes_spec {A} vd (junk : A) i j (this dest : ndarr A) :
  wf vd this -> a_owns dest = true -> (i < length (a_shape this))%nat -> (j < length (a_shape this))%nat ->
  exists dest', aswap_axes vd junk i j this dest = Some dest' /\ wf_owned vd dest' /\
    a_shape dest' = vswap i j (a_shape this) /\
    forall x, in_shape (vswap i j (a_shape this)) x -> aread vd dest' x = aread vd this (vswap i j x).
Proof.
  intros [(st & Hst & Hl) Hb] Hown Hi Hj. unfold aswap_axes.
  destruct (aresize vd junk (vswap i j (a_shape this)) dest) as [t|] eqn:Ht.
  2:{ unfold aresize in Ht. by rewrite Hown in Ht. }
  apply aresize_wf in Ht as [Hwft Hsht].
  2:{ intros Heq. apply (f_equal length) in Heq. rewrite vswap_length in Heq. simpl in Heq. lia. }
  cbn [mbind option_bind]. rewrite Hst.
  rewrite index_loop_positions_spec.
  2:{ destruct (a_shape this); simpl in *; [lia|done]. }
  2:{ by rewrite replicate_length. }
  2:{ rewrite replicate_length. lia. }
  cbn [mbind option_bind]. rewrite <- Hst.
  set (xs := box_elems _ _).
  set (val := fun x => default [] (aread vd this x)).
  assert (forall x, x ∈ xs -> aread vd this x = Some (val x) /\ length (val x) = vd) as Hval.
  { intros x Hx%elem_of_box_elems_shape. unfold val.
    destruct (aread_Some vd this x) as (v & -> & ?); [by split; [eauto|]|done|]. done. }
  rewrite (foldM_ext_in _ (fun d (p : list nat * nat) => awrite vd d (vswap i j p.1) (val p.1))).
  2:{ intros d p Hp. apply elem_of_list_fmap in Hp as (x & -> & Hx). cbn [fst snd].
      destruct (Hval _ Hx) as [Hv _]. rewrite aread_eq in Hv by (by apply elem_of_box_elems_shape). rewrite Hv. done. }
  rewrite (foldM_map (fun d w => awrite vd d w.1 w.2) (fun p : list nat * nat => (vswap i j p.1, val p.1))).
  rewrite <- list_fmap_compose.
  set (ws := _ <$> xs).
  assert (ws = (fun x => (vswap i j x, val x)) <$> xs) as Hws by reflexivity.
  assert (ws.*1 = vswap i j <$> xs) as Hws1 by (rewrite Hws, <- list_fmap_compose; done).
  assert (forall x, x ∈ xs -> length x = length (a_shape this)) as Hlx by (by intros x Hx%elem_of_box_elems_shape%in_shape_length).
  destruct (foldM_awrite vd ws t) as (t' & Ht' & Hwf' & Hsh' & Hr & _).
  - done.
  - rewrite Hws1. apply NoDup_fmap_2_strong; [|apply box_elems_NoDup].
    intros x y Hx Hy Heq. rewrite <- (vswap_involutive i j x), <- (vswap_involutive i j y) by (rewrite Hlx; done). by rewrite Heq.
  - intros w Hw. rewrite Hws in Hw. apply elem_of_list_fmap in Hw as (x & -> & Hx). cbn. split; [|by apply Hval].
    rewrite Hsht. apply in_shape_vswap; auto. by apply elem_of_box_elems_shape.
  - exists t'. split_and!; auto; [congruence|]. intros x Hx.
    pose proof (in_shape_vswap_inv _ _ _ _ Hi Hj Hx) as Hx'.
    assert (vswap i j x ∈ xs) as Hin by (by apply elem_of_box_elems_shape).
    destruct (Hval _ Hin) as [-> _].
    specialize (Hr (vswap i j (vswap i j x), val (vswap i j x))). cbn in Hr.
    rewrite vswap_involutive in Hr by (apply in_shape_length in Hx; rewrite vswap_length in Hx; lia).
    apply Hr. rewrite Hws. apply elem_of_list_fmap. exists (vswap i j x). split; [|done].
    rewrite vswap_involutive; [done|..]; apply in_shape_length in Hx; rewrite vswap_length in Hx; lia.
Qed.

(** * IsAllNull *)
Lemma foldM_all_null {B} (f : B -> option bool) (g : B -> bool) l :
  (forall b, b ∈ l -> f b = Some (g b)) ->
  foldM (fun (b : bool) c => if b then f c else Some false) true l = Some (forallb g l).
Proof.
  intros H. assert (forall b0, foldM (fun (b : bool) c => if b then f c else Some false) b0 l = Some (b0 && forallb g l)) as Hg; [|apply Hg].
  induction l as [|c l IH]; intros b0; simpl; [by rewrite andb_true_r|].
  destruct b0; simpl.
  - rewrite H by left. simpl. rewrite IH; [done|]. intros; apply H; by right.
  - rewrite IH; [done|]. intros; apply H; by right.
Qed.

Lemma ais_all_null_spec {A} vd (isz : A -> bool) (a : ndarr A) :
  wf vd a -> exists b, ais_all_null vd isz a = Some b /\
    (b = true <-> forall x v, in_shape (a_shape a) x -> aread vd a x = Some v -> Forall (fun z => isz z = true) v).
Proof.
  intros Hwf. pose proof Hwf as [(st & Hst & Hl) Hb]. unfold ais_all_null.
  destruct (list_snoc (a_shape a)) as (psh & s & Hsh); [intros Heq; rewrite Heq in Hl; simpl in Hl; lia|].
  rewrite Hsh in *. unfold array_chunk_loop, row_chunk. rewrite zeros_snoc, vlast_app, app_length in *. simpl in *.
  replace (length psh + 1 - 1)%nat with (length (replicate (length psh) 0%nat)) by (rewrite replicate_length; lia).
  pose proof (fun fuel H1 H2 => chunk_loop_rows fuel (replicate (length psh) 0%nat) psh 0 s H1 H2) as Hcl.
  rewrite (Nat.sub_0_r s) in Hcl.
  rewrite Hcl by (rewrite ?replicate_length; auto). cbn [mbind option_bind].
  assert (forall q, in_shape psh q -> (0 < s)%nat ->
     (flat_ind (a_strides a) (a_off a) (q ++ [0%nat]) + s * vd <= length (a_data a))%nat) as Hrow.
  { intros q Hq Hs. pose proof (in_shape_length _ _ Hq).
    specialize (Hb (q ++ [(s - 1)%nat])). rewrite Hst in *. rewrite !flat_ind_snoc in * by lia.
    assert ((s - 1) * vd + vd = s * vd)%nat. { replace s with (S (s - 1))%nat at 2 by lia. simpl. lia. }
    specialize (Hb ltac:(apply in_shape_snoc; [done|]; split; [done|lia])). lia. }
  set (g := fun c : list nat * list nat => forallb isz (take (s * vd) (drop (flat_ind (a_strides a) (a_off a) c.1) (a_data a)))).
  assert (forall c, c ∈ rows (replicate (length psh) 0%nat) psh 0 s ->
     (r ← block (a_data a) (flat_ind (a_strides a) (a_off a) c.1) (s * vd); Some (forallb isz r)) = Some (g c)) as Hg.
  { intros c Hc. unfold rows in Hc. destruct (Nat.ltb_spec 0 s); [|by apply elem_of_nil in Hc].
    apply elem_of_list_fmap in Hc as (q & -> & Hq%elem_of_box_elems_shape). unfold g; cbn [fst].
    unfold block. specialize (Hrow q Hq). destruct (Nat.leb_spec (flat_ind (a_strides a) (a_off a) (q ++ [0%nat]) + s * vd) (length (a_data a))); [done|lia]. }
  rewrite (foldM_all_null _ g) by exact Hg.
  eexists. split; [done|]. rewrite forallb_forall. setoid_rewrite <- elem_of_list_In. split.
  - intros Hall x v Hx Hv.
    assert (length x = S (length psh)) as Hlx by (apply in_shape_length in Hx; rewrite app_length in Hx; simpl in Hx; lia).
    destruct (list_snoc x) as (q & x0 & ->); [intros ->; simpl in Hlx; lia|]. rewrite app_length in Hlx. simpl in Hlx.
    pose proof Hx as Hx'. rewrite in_shape_snoc in Hx' by lia. destruct Hx' as [Hq Hx0].
    specialize (Hall (q ++ [0%nat], (S <$> q) ++ [s])). unfold g in Hall. cbn -[flat_ind] in Hall.
    rewrite forallb_forall in Hall. setoid_rewrite <- elem_of_list_In in Hall.
    rewrite aread_eq in Hv by (by rewrite Hsh). apply block_lookup in Hv as [Hlv Hv].
    apply Forall_lookup. intros c z Hz. apply Hall.
    + unfold rows. destruct (Nat.ltb_spec 0 s); [|lia]. apply elem_of_list_fmap. exists q. split; [done|]. by apply elem_of_box_elems_shape.
    + pose proof (lookup_lt_Some _ _ _ Hz) as Hc. rewrite Hv in Hz by lia.
      apply elem_of_list_lookup. exists (x0 * vd + c)%nat. rewrite lookup_take, lookup_drop.
      * rewrite <- Hz. f_equal. rewrite Hst, !flat_ind_snoc by lia. lia.
      * assert ((x0 + 1) * vd <= s * vd)%nat by (apply Nat.mul_le_mono_r; lia). lia.
  - intros Hall c Hc. unfold rows in Hc. destruct (Nat.ltb_spec 0 s); [|by apply elem_of_nil in Hc].
    apply elem_of_list_fmap in Hc as (q & -> & Hq%elem_of_box_elems_shape). unfold g; cbn [fst].
    apply forallb_forall. intros z Hz%elem_of_list_In. apply elem_of_list_lookup in Hz as [k Hk].
    assert (k < s * vd)%nat as Hlt.
    { apply lookup_lt_Some in Hk. rewrite take_length in Hk. lia. }
    rewrite lookup_take, lookup_drop in Hk by done.
    assert (0 < vd)%nat by (destruct vd; lia).
    assert (in_shape (psh ++ [s]) (q ++ [(k / vd)%nat])) as Hin.
    { pose proof (in_shape_length _ _ Hq). apply in_shape_snoc; [done|]. split; [done|]. apply Nat.div_lt_upper_bound; lia. }
    destruct (aread_Some vd a (q ++ [(k / vd)%nat])) as (v & Hv & Hlv); [done|by rewrite Hsh|].
    specialize (Hall _ _ Hin Hv). rewrite Forall_lookup in Hall. apply (Hall (k mod vd)%nat).
    rewrite aread_eq in Hv by (by rewrite Hsh). apply block_lookup in Hv as [_ Hv].
    rewrite Hv by (apply Nat.mod_upper_bound; lia). rewrite <- Hk. f_equal.
    pose proof (in_shape_length _ _ Hq). rewrite Hst, !flat_ind_snoc by lia.
    pose proof (Nat.div_mod k vd). lia.
Qed.
