(** Proofs about re-chunking, part 1: one chunk. *)
From stdpp Require Import base list list_numbers numbers option gmap countable sets.
From Coq Require Import NArith ZArith Lia.
From Verif Require Import IndexSpec LoopsModel LoopsProofs NDArrayModel NDArrayProofs NDArrayOps NDArrayOps2 NDArrayOps3 NDArrayProps StreamerModel StreamerProps NullSupModel
  BBoxModel BBoxProps DownsampleModel DownsampleProps
  RTreeModel RTreeInsert RTreeRebuild RTreeProps ChunkMetaModel ChunkMetaProps ChunkCacheModel ChunkCacheSpec ChunkCacheProofs ChunkCacheProofs2 ChunkCacheProofs3 ChunkCacheProps
  LibraryModel LibrarySpec LibraryProofs LibraryProofs2 LibraryProofs3 LibraryProofs4 LibraryProofs5 LibraryProofs6 LibraryProofs7 LibraryProps
  BoundaryModel BoundaryProps RebuildModel RebuildSpec.
From Verif Require Import IndexSpec LibrarySpec.

(** ** Vectors by component *)
Lemma in_zbox_at b e x : in_zbox b e x <-> length b = length x /\ length e = length x /\ forall i, (i < length x)%nat -> (b !!! i <= x !!! i < e !!! i)%Z.
Proof.
  rewrite in_zbox_lookup. split; intros (H1 & H2 & H3); (split; [done|]); (split; [done|]).
  - intros i Hi. eapply H3; apply list_lookup_lookup_total_lt; lia.
  - intros i bi ei xi Hb He Hx. pose proof (lookup_lt_Some _ _ _ Hx). rewrite <- (list_lookup_total_correct _ _ _ Hb), <- (list_lookup_total_correct _ _ _ He), <- (list_lookup_total_correct _ _ _ Hx). by apply H3.
Qed.
Lemma pos_at es x i : (i < length x)%nat -> length es = length x -> pos_in es x !!! i = Z.to_nat (x !!! i - es !!! i).
Proof. intros H1 H2. unfold pos_in. by rewrite zip_at by lia. Qed.
Lemma pos_len es x : length es = length x -> length (pos_in es x) = length x.
Proof. intros H. unfold pos_in. rewrite zip_with_length. lia. Qed.

Lemma comes_back_trans m v w u : comes_back m v w -> comes_back m w u -> comes_back m v u.
Proof.
  intros [->|(-> & Hv & ->)] H; [done|]. right. split; [done|]. split; [done|]. destruct H as [->|(_ & _ & ->)]; [done|]. by rewrite replicate_length.
Qed.

Lemma shift_word c s o : (s <= c)%N -> (s < 2 ^ 64)%N -> (o + (c - s) < 2 ^ 64)%N -> wadd c (wsub o s) = (o + (c - s))%N.
Proof.
  intros H1 H2 H3. unfold wadd, wsub. unfold W.
  destruct (N.le_gt_cases s o) as [H|H].
  - replace (o + 2 ^ 64 - s)%N with ((o - s) + 1 * 2 ^ 64)%N by lia. rewrite N.mod_add by lia. rewrite (N.mod_small (o - s)) by lia. rewrite N.mod_small by lia. lia.
  - rewrite (N.mod_small (o + 2 ^ 64 - s)) by lia. replace (c + (o + 2 ^ 64 - s))%N with ((o + (c - s)) + 1 * 2 ^ 64)%N by lia.
    rewrite N.mod_add by lia. by rewrite N.mod_small by lia.
Qed.

Section rb.
Context (vd dims : nat) (junk : N) (L : lib) (HL : lib_ok L).

(** ** Buffers *)
Lemma resize_float sh (a : ndarr N) : (junk < 2 ^ 32)%N -> sh <> [] -> float_array vd a ->
  exists b, aresize vd junk sh a = Some b /\ float_array vd b /\ a_shape b = sh.
Proof.
  intros Hj Hsh [Ha Hd]. destruct (api_array_wf vd a Ha) as (_ & _ & _ & _ & Hown).
  destruct (aresize vd junk sh a) as [b|] eqn:E; [|unfold aresize in E; by rewrite Hown in E].
  exists b. split; [done|]. split; [split|].
  - by eapply api_resize.
  - unfold aresize in E. rewrite Hown in E. injection E as <-. cbn [a_data]. unfold vresize. apply Forall_app. split; [by apply Forall_take|]. by apply Forall_replicate.
  - unfold aresize in E. rewrite Hown in E. by injection E as <-.
Qed.
Lemma write_float (a : ndarr N) x v : float_array vd a -> in_shape (a_shape a) x -> length v = vd -> Forall (fun b => b < 2 ^ 32)%N v ->
  exists a', awrite vd a x v = Some a' /\ float_array vd a' /\ a_shape a' = a_shape a /\ aread vd a' x = Some v /\
    forall y, in_shape (a_shape a) y -> y <> x -> aread vd a' y = aread vd a y.
Proof.
  intros Ha Hx Hv Hf. pose proof Ha as [Hapi Hd]. destruct (awrite_spec vd a x v) as (b & Hb & Hw & Hs & Hr & Ho); [by apply api_array_wf|done..|].
  exists b. split; [done|]. split; [split|].
  - by eapply api_write.
  - apply (data_from_reads _ vd); [by eapply api_write|]. intros y w Hy Hrw. rewrite Hs in Hy.
    destruct (decide (y = x)) as [->|Hne]; [rewrite Hr in Hrw; by injection Hrw as <-|]. rewrite Ho in Hrw by done. by eapply float_reads.
  - split; [done|]. split; [done|]. intros y Hy Hne. by apply Ho.
Qed.
Lemma null_exists (a : ndarr N) opt : float_array vd a -> exists null, is_null_chunk vd a opt null.
Proof.
  intros [Ha _]. unfold is_null_chunk. destruct opt; [|exists false; naive_solver].
  destruct (C28_is_all_null_exact vd is_zero_bits a Ha) as (b & _ & Hiff). exists b. rewrite Hiff. split.
  - intros H. split; [done|]. intros x v Hx Hv. eapply list.Forall_impl; [exact (H x v Hx Hv)|]. intros z Hz. cbn beta in Hz.
    unfold is_zero_bits in Hz. apply orb_true_iff in Hz as [?%N.eqb_eq|?%N.eqb_eq]; auto.
  - intros [_ H] x v Hx Hv. eapply list.Forall_impl; [exact (H x v Hx Hv)|]. intros z Hz. cbn beta in Hz |- *.
    unfold is_zero_bits. apply orb_true_iff. destruct Hz as [->| ->]; [left|right]; apply N.eqb_refl.
Qed.

(** ** The evaluators *)
Lemma cylindrical_total ov : total_evaluator vd ov (cylindrical vd).
Proof.
  intros buf cs ce x Hne Hlt Hf Hsh Hx. pose proof (Forall2_length _ _ _ Hlt) as Hlen.
  assert (chunk_in cs ce cs ce) as Hch.
  { split; [done|]. split; [done|]. split; [done|]. split; [done|]. intros i g h c d Hg Hh Hc Hd. rewrite Hg in Hc. injection Hc as ->. rewrite Hh in Hd. injection Hd as ->.
    pose proof (Forall2_lookup_lr _ _ _ _ _ _ Hlt Hg Hh). lia. }
  unfold cylindrical, boundary_evaluator. destruct x as [|r rest]; [destruct cs, ce; done|]. destruct (Z.ltb_spec r 0) as [Hr|Hr].
  - pose proof (mirror_in cs ce ov cs ce (r :: rest) Hch Hx Hr) as Hm. cbn [mirror] in Hm. rewrite (to_local_pos (ext_start ov cs)) by (by eapply in_zbox_le). cbn [mbind option_bind].
    pose proof (pos_in_shape _ _ _ _ _ _ Hch Hm) as Hpm. change (ext_shape ov cs ce) with ((fun n => n + 2 * ov)%nat <$> vsub ce cs) in Hpm. rewrite <- Hsh in Hpm. rewrite (proj2 (has_index_true _ _) Hpm).
    destruct (aread_Some vd buf _ (wf_owned_wf _ _ (api_array_wf _ _ (proj1 Hf))) Hpm) as (v & Hv & Lv). exists v. split; [done|]. split; [done|]. by eapply float_reads.
  - exists (replicate vd 0%N). rewrite replicate_length. split; [done|]. split; [done|]. apply Forall_replicate. lia.
Qed.

Context (ov : nat) (ev : evaluator) (Hev : total_evaluator vd ov ev).
Lemma filler_all gs ge cs ce : chunk_in gs ge cs ce -> forall xs b, float_array vd b -> a_shape b = ext_shape ov cs ce ->
  (forall x, x ∈ xs -> in_zbox (ext_start ov cs) (ext_end ov ce) x /\ is_boundary gs ge x = true) ->
  exists b', foldM (filler vd ev gs ge (ext_start ov cs) (ext_end ov ce)) b xs = Some b' /\ float_array vd b' /\ a_shape b' = ext_shape ov cs ce /\
    (forall y, in_zbox (ext_start ov cs) (ext_end ov ce) y -> y ∉ xs -> aread vd b' (pos_in (ext_start ov cs) y) = aread vd b (pos_in (ext_start ov cs) y)) /\
    (forall f, (forall b es ee x, ev b es ee x = Some (f x)) -> forall y, y ∈ xs -> aread vd b' (pos_in (ext_start ov cs) y) = Some (f y)).
Proof.
  intros Hch. induction xs as [|x xs IH]; intros b Hf Hsh Hxs; [exists b; split; [done|]; split; [done|]; split; [done|]; split; [done|]; intros f _ y Hy; destruct (proj1 (elem_of_nil y) Hy)|].
  destruct (Hxs x) as [Hx Hb]; [left|].   assert (Forall2 lt cs ce) as Hlt.
  { destruct Hch as (_ & L1 & L2 & L3 & Hax). apply Forall2_same_length_lookup_2; [done|]. intros i c d Hc Hd. pose proof (lookup_lt_Some _ _ _ Hc).
    destruct (lookup_lt_is_Some_2 gs i ltac:(lia)) as [g Hg]. destruct (lookup_lt_is_Some_2 ge i ltac:(lia)) as [h Hh]. destruct (Hax i g h c d Hg Hh Hc Hd). lia. }
  destruct (Hev b cs ce x) as (v & Hv & Lv & Fv); [by destruct Hch|done..|].
  pose proof (pos_in_shape _ _ _ _ _ _ Hch Hx) as Hpx.
  destruct (write_float b (pos_in (ext_start ov cs) x) v) as (b1 & Hb1 & F1 & S1 & R1 & O1); [done|by rewrite Hsh|done..|].
  assert (filler vd ev gs ge (ext_start ov cs) (ext_end ov ce) b x = Some b1) as E1.
  { unfold filler. rewrite Hb, (to_local_pos (ext_start ov cs) x) by (by eapply in_zbox_le). cbn [mbind option_bind]. rewrite Hv. exact Hb1. }
  cbn [foldM]. rewrite E1. cbn [mbind option_bind]. destruct (IH b1) as (b' & Hb' & F' & S' & R' & K'); [done|congruence|intros y Hy; apply Hxs; by right|].
  exists b'. split; [done|]. split; [done|]. split; [done|]. split.
  - intros y Hy Hn. apply not_elem_of_cons in Hn as [Hn1 Hn2]. rewrite R' by done. apply O1.
    + rewrite Hsh. by eapply pos_in_shape.
    + intros E. apply Hn1. eapply pos_in_inj; [by eapply in_zbox_le..|done].
  - intros f Hf' y Hy. destruct (decide (y ∈ xs)) as [Hin|Hin]; [by apply K'|]. apply elem_of_cons in Hy as [->|Hy]; [|done]. rewrite R' by done. rewrite R1. rewrite Hf' in Hv. by injection Hv as ->.
Qed.

(** ** One chunk *)
Lemma zind_nat v : zind v = Z.of_nat <$> vto_nat v.
Proof using. unfold zind, vto_nat. rewrite <- list_fmap_compose. apply list_fmap_ext. intros ? x _. unfold compose. lia. Qed.
Lemma zind_inside gs ge x : inside (vto_nat gs) (vto_nat ge) x <-> in_zbox (zind gs) (zind ge) x.
Proof using. unfold inside. by rewrite !zind_nat. Qed.
Lemma zind_inbox gs ge ind : inbox gs ge ind <-> in_zbox (zind gs) (zind ge) (zind ind).
Proof using.
  rewrite inbox_at, in_zbox_at. unfold zind. rewrite !fmap_length. split; intros (H1 & H2 & H3); (split; [lia|]); (split; [lia|]); intros i Hi.
  - rewrite !fmap_at by lia. specialize (H3 i ltac:(lia)). lia.
  - specialize (H3 i ltac:(lia)). rewrite !fmap_at in H3 by lia. lia.
Qed.
Lemma zind_back x gs ge : in_zbox (zind gs) (zind ge) x -> exists ind, x = zind ind.
Proof using.
  intros (H1 & H2 & H3)%in_zbox_at. exists (Z.to_N <$> x). unfold zind in *. rewrite !fmap_length in *. apply eq_at. rewrite !fmap_length. split; [done|]. intros i Hi.
  rewrite !fmap_at by (rewrite ?fmap_length; lia). specialize (H3 i Hi). rewrite !fmap_at in H3 by lia. lia.
Qed.

Definition target (start ostart : list N) (v : list nat) : list N := zip_with N.add ostart (zip_with N.sub (vof_nat v) start).
Record good_chunk (S : lstate) (gs ge start ostart : list N) (opt : bool) (c' : chunk) (cc : list nat * list nat) : Prop := {
  gc_start : c_start c' = target start ostart cc.1;
  gc_end : c_end c' = target start ostart cc.2;
  gc_ov : c_ov c' = N.of_nat ov;
  gc_null : c_null c' = true -> opt = true;
  gc_val : forall c ind, c ∈ ls_chunks S -> covers c ind -> in_zbox (ext_start ov cc.1) (ext_end ov cc.2) (zind ind) ->
    comes_back NullSuppressed (value c ind) (k_at (c_val c') (pos_in (ext_start ov cc.1) (zind ind)));
  gc_cyl : ev = cylindrical vd -> forall x, in_zbox (ext_start ov cc.1) (ext_end ov cc.2) x ->
    (~ in_zbox (zind gs) (zind ge) x -> (0 <= radial x)%Z -> k_at (c_val c') (pos_in (ext_start ov cc.1) x) = replicate vd 0%N) /\
    ((radial x < 0)%Z -> forall c ind, c ∈ ls_chunks S -> covers c ind -> zind ind = mirror x ->
       comes_back NullSuppressed (value c ind) (k_at (c_val c') (pos_in (ext_start ov cc.1) x)));
  gc_const : forall f, (forall b es ee x, ev b es ee x = Some (f x)) -> forall x, in_zbox (ext_start ov cc.1) (ext_end ov cc.2) x -> ~ in_zbox (zind gs) (zind ge) x ->
    k_at (c_val c') (pos_in (ext_start ov cc.1) x) = f x }.

(** The part of the worker that makes the buffer. *)
Lemma buffer_ok S gs ge src buf cs ce : (junk < 2 ^ 32)%N -> session vd dims junk L src S -> float_array vd buf ->
  is_hull dims (ls_chunks S) gs ge -> gap_free (ls_chunks S) gs ge ->
  Forall (fun x => x + N.of_nat ov < 2 ^ 31)%N ge -> chunk_in (vto_nat gs) (vto_nat ge) cs ce ->
  let es := ext_start ov cs in let ee := ext_end ov ce in
  let fs := zip_with (fun g e => Z.to_nat (Z.max (Z.of_nat g) e)) (vto_nat gs) es in
  let fe := zip_with (fun g e => Z.to_nat (Z.min (Z.of_nat g) e)) (vto_nat ge) ee in
  exists out b1 b2 src' xs b3, to_local es (Z.of_nat <$> fs) = Some out /\ aresize vd junk (ext_shape ov cs ce) buf = Some b1 /\
    lib_fill vd dims junk b1 (vof_nat fs) (vof_nat fe) (vof_nat out) src = Done (b2, src') /\ session vd dims junk L src' S /\
    penetrating (vto_nat gs) (vto_nat ge) es ee = Some xs /\ foldM (filler vd ev (vto_nat gs) (vto_nat ge) es ee) b2 xs = Some b3 /\
    float_array vd b3 /\ a_shape b3 = ext_shape ov cs ce /\
    (forall c ind, c ∈ ls_chunks S -> covers c ind -> in_zbox es ee (zind ind) ->
      comes_back NullSuppressed (value c ind) (default [] (aread vd b3 (pos_in es (zind ind))))) /\
    (ev = cylindrical vd -> forall x, in_zbox es ee x ->
      (~ in_zbox (zind gs) (zind ge) x -> (0 <= radial x)%Z -> default [] (aread vd b3 (pos_in es x)) = replicate vd 0%N) /\
      ((radial x < 0)%Z -> forall c ind, c ∈ ls_chunks S -> covers c ind -> zind ind = mirror x ->
        comes_back NullSuppressed (value c ind) (default [] (aread vd b3 (pos_in es x))))) /\
    (forall f, (forall b es ee x, ev b es ee x = Some (f x)) -> forall x, in_zbox es ee x -> ~ in_zbox (zind gs) (zind ge) x -> default [] (aread vd b3 (pos_in es x)) = f x).
Proof using HL Hev.
  intros Hj Hses Hbuf Hhull Hgf Hints Hch es ee fs fe.
  destruct (fill_region _ _ ov cs ce Hch) as (out & Hout & Lo & F1 & F2 & F3 & F4 & F5). fold es ee in Hout, Lo, F1, F2, F3, F4, F5. fold fs fe in Hout, Lo, F1, F2, F3, F4, F5.
  exists out.
  assert (length gs = dims /\ length ge = dims) as [Lg Lh] by (destruct Hhull as (? & ? & _); done).
  pose proof Hch as (Hne & L1 & L2 & L3 & Hax). unfold vto_nat in L1, L2. rewrite fmap_length in L1, L2.
  assert (length (ext_shape ov cs ce) = dims) as Lsh. { unfold ext_shape. rewrite fmap_length, zip_with_length. lia. }
  pose proof (Forall2_length _ _ _ F2) as Lfe. assert (length fs = dims) as Lfs. { pose proof (Forall2_length _ _ _ F1) as E. unfold vto_nat in E. rewrite fmap_length in E. lia. }
  assert (0 < dims)%nat as Hd by (destruct cs; [done|cbn in L1; lia]).
  destruct (resize_float (ext_shape ov cs ce) buf Hj) as (b1 & E1 & Hf1 & S1); [intros E; rewrite E in Lsh; cbn in Lsh; lia|done|].
  exists b1.
  assert (forall i, (i < dims)%nat -> (vto_nat ge !!! i + ov < 2 ^ 31)%nat) as Hge31.
  { intros i Hi. rewrite F1_at in Hints. specialize (Hints i ltac:(lia)). unfold vto_nat. rewrite fmap_at by lia. change (2 ^ 31)%nat with (2 ^ 31)%nat. 
    apply Nat2Z.inj_lt. rewrite Nat2Z.inj_pow. lia. }
  assert (forall i, (i < dims)%nat -> (cs !!! i < ce !!! i)%nat /\ (ce !!! i <= vto_nat ge !!! i)%nat) as Hcc.
  { intros i Hi. destruct (Hax i (vto_nat gs !!! i) (vto_nat ge !!! i) (cs !!! i) (ce !!! i)); try (apply list_lookup_lookup_total_lt; unfold vto_nat; rewrite ?fmap_length; lia). lia. }
  assert (ok_fill vd dims b1 (vof_nat fs) (vof_nat fe) (vof_nat out)) as Hok.
  { split.
    - apply Hf1.
    - unfold vof_nat. rewrite !fmap_length. lia.
    - apply nonempty_at. unfold vof_nat. rewrite !fmap_length. split; [lia|]. intros i Hi. rewrite !fmap_at by lia.
      rewrite F2_at in F2, F3. destruct F2 as [_ F2]. specialize (F2 i ltac:(lia)). destruct F3 as [L3' F3]. specialize (F3 i ltac:(lia)). specialize (Hge31 i ltac:(lia)).
      split; [lia|]. apply N.lt_trans with (2 ^ 31)%N; [|done]. assert (fe !!! i < 2 ^ 31)%nat as H31 by lia. apply inj_lt in H31. rewrite Nat2Z.inj_pow in H31. lia.
    - rewrite S1. rewrite F2_at in F4. destruct F4 as [L4 F4]. apply F2_at. rewrite !zip_with_length. unfold vof_nat. rewrite !fmap_length. split; [lia|]. intros i Hi.
      rewrite !zip_at by (rewrite ?zip_with_length, ?fmap_length; lia). cbn [fst snd]. rewrite !fmap_at by lia. specialize (F4 i ltac:(lia)). unfold vadd, vsub in F4.
      rewrite !zip_at in F4 by (rewrite ?zip_with_length; lia). lia.
    - rewrite S1. apply F1_at. intros i Hi. unfold ext_shape. rewrite fmap_at by (rewrite zip_with_length; lia). rewrite zip_at by lia.
      destruct (Hcc i ltac:(lia)). specialize (Hge31 i ltac:(lia)). assert (ce !!! i - cs !!! i + 2 * ov < 2 * 2 ^ 31)%nat as H31 by lia.
      apply inj_lt in H31. rewrite Nat2Z.inj_mul, Nat2Z.inj_pow in H31. lia. }
  destruct (fill_ok vd dims junk src S b1 _ _ _ (session_inv vd dims junk L HL src S Hses) Hok) as (b2 & src' & Hfill & _ & (Hapi2 & Hfl2) & S2 & R2 & _).
  specialize (Hfl2 Hf1). destruct (penetrating_spec _ _ ov cs ce Hch) as (xs & Hxs & Hpen). fold es ee in Hxs, Hpen.
  destruct (filler_all _ _ cs ce Hch xs b2 Hfl2) as (b3 & Hb3 & Hf3 & S3 & R3 & K3); [congruence|intros x Hx; by apply Hpen|]. fold es ee in Hb3, R3, K3.
  exists b2, src', xs, b3. split; [done|]. split; [done|]. split; [done|]. split; [by eapply ss_fill|]. split; [done|]. split; [done|]. split; [done|]. split; [done|].
  assert (forall c ind, c ∈ ls_chunks S -> covers c ind -> inside (vto_nat gs) (vto_nat ge) (zind ind)) as Hins.
  { intros c ind Hc Hcov. apply zind_inside, zind_inbox. destruct Hhull as (_ & _ & H3 & _). by eapply H3. }
  assert (forall c ind, c ∈ ls_chunks S -> covers c ind -> in_zbox es ee (zind ind) -> exists v, aread vd b2 (pos_in es (zind ind)) = Some v /\ comes_back NullSuppressed (value c ind) v) as Hval2.
  { intros c ind Hc Hcov Hx. pose proof (Hins c ind Hc Hcov) as Hin. destruct (F5 _ Hx Hin) as [J1 J2].
    assert (Z.to_nat <$> zind ind = vto_nat ind) as Ez. { unfold zind, vto_nat. rewrite <- list_fmap_compose. apply list_fmap_ext. intros ? x _. unfold compose. lia. }
    rewrite Ez in J1, J2. apply in_box_at in J1 as (J11 & J12 & J13). unfold vto_nat in J12. rewrite fmap_length in J12.
    destruct (R2 c ind) as (v & Hv & Hb); [done| |done|].
    { apply inbox_at. unfold vof_nat. rewrite !fmap_length. split; [lia|]. split; [lia|]. intros i Hi. rewrite !fmap_at by lia. specialize (J13 i ltac:(lia)).
      unfold vto_nat in J13. rewrite fmap_at in J13 by lia. lia. }
    exists v. split; [|done]. rewrite <- J2. rewrite <- Hv. f_equal. apply eq_at. unfold place, vadd, vsub, vof_nat, vto_nat. rewrite !zip_with_length, !fmap_length. split; [lia|]. intros i Hi.
    rewrite !zip_at by (rewrite ?zip_with_length, ?fmap_length; lia). rewrite !fmap_at by lia. lia. }
  split; [|split].
  - intros c ind Hc Hcov Hx. destruct (Hval2 c ind Hc Hcov Hx) as (v & Hv & Hb). rewrite R3; [by rewrite Hv|done|].
    intros Hin. apply Hpen in Hin as [_ Hin]. pose proof (Hins c ind Hc Hcov) as Hi. apply is_boundary_false in Hi; [congruence|..]; unfold zind, vto_nat; rewrite !fmap_length;
      destruct Hhull as (_ & _ & H3 & _); specialize (H3 c ind Hc Hcov); apply inbox_at in H3 as (? & ? & _); lia.
  - intros Hcyl x Hx.
    set (src0 := fun i => default [] (aread vd b2 (pos_in es (Z.of_nat <$> i)))).
    destruct (filler_fold vd 0%N (vto_nat gs) (vto_nat ge) ov cs ce src0 Hch xs b2 (fun _ => False)) as (b3' & Hb3' & _ & _ & Q2 & Q3); try done.
    + split; [by apply api_array_wf|congruence].
    + intros y Hy. by apply Hpen.
    + intros y Hy Hin. unfold rd, arr_at, src0. apply zind_inside in Hin. destruct (zind_back y gs ge Hin) as [ind ->]. apply zind_inbox in Hin.
      destruct (Hgf ind Hin) as (c & Hc & Hcov). destruct (Hval2 c ind Hc Hcov Hy) as (v & Hv & _). fold es. rewrite Hv.
      replace (Z.of_nat <$> (Z.to_nat <$> zind ind)) with (zind ind); [by rewrite Hv|]. unfold zind. rewrite <- !list_fmap_compose. apply list_fmap_ext. intros ? z _. unfold compose. lia.
    + subst ev. assert (foldM (boundary_filler vd 0%N (vto_nat gs) (vto_nat ge) es) b2 xs = Some b3) as E3 by exact Hb3. fold es in Hb3', Q2, Q3. rewrite E3 in Hb3'. injection Hb3' as <-.
      assert (length (vto_nat gs) = length x /\ length (vto_nat ge) = length x) as [G1 G2].
      { pose proof Hx as Hx'. apply in_zbox_at in Hx' as [Hx' _]. unfold es, ext_start in Hx'. unfold vto_nat. rewrite !fmap_length in *. lia. }
      split.
      * intros Hnot Hr. assert (is_boundary (vto_nat gs) (vto_nat ge) x = true) as Hb. { apply not_false_iff_true. rewrite is_boundary_false by done. by rewrite zind_inside. }
        assert (rd vd ov cs b3 x = Some (replicate vd 0%N)) as Hrd by (apply Q2; auto; right; by apply Hpen). unfold rd in Hrd. fold es in Hrd. by rewrite Hrd.
      * intros Hr c ind Hc Hcov Hm. pose proof (Hins c ind Hc Hcov) as Hin. rewrite Hm in Hin.
        assert (is_boundary (vto_nat gs) (vto_nat ge) x = true) as Hb.
        { apply not_false_iff_true. rewrite is_boundary_false by done. intros Hi. apply zind_inside, zind_back in Hi as [ind' ->]. destruct ind'; [done|]. unfold zind in Hr. rewrite fmap_cons in Hr. cbn in Hr. lia. }
        assert (in_zbox es ee (mirror x)) as Hmx by (by eapply mirror_in).
        assert (rd vd ov cs b3 x = Some (arr_at src0 (mirror x))) as Hrd by (apply Q3; auto; right; by apply Hpen). unfold rd in Hrd. fold es in Hrd. rewrite Hrd. cbn [default].
        unfold arr_at, src0. rewrite <- Hm in *.
        replace (Z.of_nat <$> (Z.to_nat <$> zind ind)) with (zind ind) by (unfold zind; rewrite <- !list_fmap_compose; apply list_fmap_ext; intros ? z _; unfold compose; lia).
        destruct (Hval2 c ind Hc Hcov Hmx) as (v & Hv & Hbk). by rewrite Hv.
  - intros f Hf x Hx Hnot. assert (length (vto_nat gs) = length x /\ length (vto_nat ge) = length x) as [G1 G2].
    { pose proof Hx as Hx'. apply in_zbox_at in Hx' as [Hx' _]. unfold es, ext_start in Hx'. unfold vto_nat. rewrite !fmap_length in *. lia. }
    rewrite (K3 f Hf); [done|]. apply Hpen. split; [done|]. apply not_false_iff_true. rewrite is_boundary_false by done. by rewrite zind_inside.
Qed.
End rb.
