(** C45: the cylindrical boundary rule in a rebuilt chunk with overlap. *)
From stdpp Require Import base list list_numbers numbers option.
From Coq Require Import ZArith Lia.
From Verif Require Import IndexSpec LoopsModel LoopsProofs NDArrayModel NDArrayProofs NDArrayOps NDArrayOps2 NDArrayProps BoundaryModel.

(** * Specification *)
(** Signed half-open boxes. *)
Fixpoint in_zbox (b e x : list Z) : Prop :=
  match b, e, x with
  | [], [], [] => True
  | b0 :: b', e0 :: e', x0 :: x' => (b0 <= x0 < e0)%Z /\ in_zbox b' e' x'
  | _, _, _ => False
  end.
(** The signed index lies in the array that extends from [gs] to [ge]. *)
Definition inside (gs ge : list nat) (x : list Z) : Prop := in_zbox (Z.of_nat <$> gs) (Z.of_nat <$> ge) x.
(** The element at the opposite radial coordinate. *)
Definition mirror (x : list Z) : list Z := match x with r :: rest => Z.abs r :: rest | [] => [] end.
Definition radial (x : list Z) : Z := List.hd 0%Z x.
(** The array as a function on its indices. *)
Definition arr_at {A} (src : list nat -> list A) (x : list Z) : list A := src (Z.to_nat <$> x).
(** Position of [x] in a buffer that starts at the signed index [es]. *)
Definition pos_in (es x : list Z) : list nat := zip_with (fun x s => Z.to_nat (x - s)) x es.
Definition ext_start (ov : nat) (cs : list nat) : list Z := (fun s => Z.of_nat s - Z.of_nat ov)%Z <$> cs.
Definition ext_end (ov : nat) (ce : list nat) : list Z := (fun e => Z.of_nat e + Z.of_nat ov)%Z <$> ce.
(** The chunk [cs, ce) is a non-empty part of the array. *)
Definition chunk_in (gs ge cs ce : list nat) : Prop :=
  cs <> [] /\ length gs = length cs /\ length ge = length cs /\ length ce = length cs /\
  forall i g h c d, gs !! i = Some g -> ge !! i = Some h -> cs !! i = Some c -> ce !! i = Some d -> (g <= c < d)%nat /\ (d <= h)%nat.
(** [fill buf s e out] copies the array elements of [s, e) into the buffer, starting at [out], and nothing else. *)
Definition copies_array {A} (vd : nat) (fill : ndarr A -> list nat -> list nat -> list nat -> option (ndarr A))
    (gs ge : list nat) (src : list nat -> list A) : Prop :=
  forall buf s e out, wf_owned vd buf -> Forall2 le gs s -> Forall2 lt s e -> Forall2 le e ge ->
    Forall2 le (vadd out (vsub e s)) (a_shape buf) -> length out = length s ->
    exists buf', fill buf s e out = Some buf' /\ wf_owned vd buf' /\ a_shape buf' = a_shape buf /\
      (forall i, in_box s e i -> aread vd buf' (vadd out (vsub i s)) = Some (src i)).

(** * Boxes *)
Lemma elem_of_zrange b e x : x ∈ zrange b e <-> (b <= x < e)%Z.
Proof.
  unfold zrange. rewrite elem_of_list_fmap. split.
  - intros (i & -> & Hi). apply elem_of_seq in Hi. lia.
  - intros H. exists (Z.to_nat (x - b)). split; [lia|]. apply elem_of_seq. lia.
Qed.
Lemma elem_of_zbox b e x : x ∈ zbox b e <-> in_zbox b e x.
Proof.
  revert e x; induction b as [|b0 b IH]; intros [|e0 e] x; simpl.
  - destruct x; rewrite elem_of_list_singleton; split; congruence || tauto.
  - split; [by intros ?%elem_of_nil|by destruct x].
  - split; [by intros ?%elem_of_nil|by destruct x].
  - rewrite elem_of_list_join. setoid_rewrite elem_of_list_fmap. split.
    + intros (l & Hx & i & -> & Hi). apply elem_of_list_fmap in Hx as (r & -> & Hr).
      apply elem_of_zrange in Hi. split; [lia|]. by apply IH.
    + destruct x as [|x0 x]; [tauto|]. intros [Hx0 Hx].
      exists (cons x0 <$> zbox b e). split; [|exists x0; split; [done|apply elem_of_zrange; lia]].
      apply elem_of_list_fmap. exists x. split; [done|]. by apply IH.
Qed.
Lemma in_zbox_lookup b e x : in_zbox b e x <-> length b = length x /\ length e = length x /\
  forall i bi ei xi, b !! i = Some bi -> e !! i = Some ei -> x !! i = Some xi -> (bi <= xi < ei)%Z.
Proof.
  revert e x; induction b as [|b0 b IH]; intros [|e0 e] [|x0 x]; cbn [in_zbox length]; try (split; [done|intros (? & ? & _); done]).
  rewrite IH. split.
  - intros [H0 (H1 & H2 & H3)]. split_and!; try lia. intros [|i] bi ei xi; cbn [lookup list_lookup]; [by intros [= <-] [= <-] [= <-]|apply H3].
  - intros (H1 & H2 & H3). split; [by apply (H3 0%nat)|]. split_and!; try lia. intros i. apply (H3 (S i)).
Qed.
Lemma in_zbox_insert_end b e x i v ei : e !! i = Some ei -> (v <= ei)%Z ->
  in_zbox b (<[i := v]> e) x <-> in_zbox b e x /\ exists xi, x !! i = Some xi /\ (xi < v)%Z.
Proof.
  intros Hi Hv. rewrite !in_zbox_lookup, insert_length. pose proof (lookup_lt_Some _ _ _ Hi) as Li. split.
  - intros (H1 & H2 & H3). destruct (lookup_lt_is_Some_2 x i) as [xi Hxi]; [lia|]. destruct (lookup_lt_is_Some_2 b i) as [bi Hbi]; [lia|].
    pose proof (H3 i bi v xi Hbi ltac:(by rewrite list_lookup_insert) Hxi). split; [|by exists xi; split; [done|lia]]. split_and!; try done.
    intros j bj ej xj Hbj Hej Hxj. destruct (decide (j = i)) as [->|Hne]; [simplify_eq; lia|]. apply (H3 j); [done| |done]. by rewrite list_lookup_insert_ne.
  - intros [(H1 & H2 & H3) (xi & Hxi & Hlt)]. split_and!; try done. intros j bj ej xj Hbj Hej Hxj.
    destruct (decide (j = i)) as [->|Hne].
    + rewrite list_lookup_insert in Hej by done. simplify_eq. specialize (H3 i _ _ _ Hbj Hi Hxi). lia.
    + rewrite list_lookup_insert_ne in Hej by done. eauto.
Qed.
Lemma in_zbox_insert_start b e x i v bi : b !! i = Some bi -> (bi <= v)%Z ->
  in_zbox (<[i := v]> b) e x <-> in_zbox b e x /\ exists xi, x !! i = Some xi /\ (v <= xi)%Z.
Proof.
  intros Hi Hv. rewrite !in_zbox_lookup, insert_length. pose proof (lookup_lt_Some _ _ _ Hi) as Li. split.
  - intros (H1 & H2 & H3). destruct (lookup_lt_is_Some_2 x i) as [xi Hxi]; [lia|]. destruct (lookup_lt_is_Some_2 e i) as [ei Hei]; [lia|].
    pose proof (H3 i v ei xi ltac:(by rewrite list_lookup_insert) Hei Hxi). split; [|by exists xi; split; [done|lia]]. split_and!; try done.
    intros j bj ej xj Hbj Hej Hxj. destruct (decide (j = i)) as [->|Hne]; [simplify_eq; lia|]. apply (H3 j); [|done|done]. by rewrite list_lookup_insert_ne.
  - intros [(H1 & H2 & H3) (xi & Hxi & Hlt)]. split_and!; try done. intros j bj ej xj Hbj Hej Hxj.
    destruct (decide (j = i)) as [->|Hne].
    + rewrite list_lookup_insert in Hbj by done. simplify_eq. specialize (H3 i _ _ _ Hi Hej Hxi). lia.
    + rewrite list_lookup_insert_ne in Hbj by done. eauto.
Qed.

Lemma is_boundary_false gs ge x : length gs = length x -> length ge = length x -> is_boundary gs ge x = false <-> inside gs ge x.
Proof.
  unfold inside. revert ge x. induction gs as [|s gs IH]; intros [|e ge] [|x0 x] L1 L2; try done.
  cbn [is_boundary]. rewrite !fmap_cons. cbn [in_zbox]. rewrite orb_false_iff, orb_false_iff, IH by (simpl in *; lia).
  rewrite Z.leb_gt, Z.ltb_ge. tauto.
Qed.
Lemma is_boundary_true gs ge x : is_boundary gs ge x = true <->
  exists i s e xi, gs !! i = Some s /\ ge !! i = Some e /\ x !! i = Some xi /\ (Z.of_nat e <= xi \/ xi < Z.of_nat s)%Z.
Proof.
  revert ge x. induction gs as [|s gs IH]; intros [|e ge] [|x0 x]; cbn [is_boundary];
    try (split; [done|intros (? & ? & ? & ? & ? & ? & ? & _); done]).
  rewrite orb_true_iff, orb_true_iff, IH, Z.leb_le, Z.ltb_lt. split.
  - intros [H|(i & ? & ? & ? & ? & ? & ? & ?)]; [exists 0%nat, s, e, x0; done|eexists (S i), _, _, _; done].
  - intros ([|i] & s' & e' & xi & ? & ? & ? & ?); simplify_eq/=; [by left|right; by exists i, s', e', xi].
Qed.

(** * The visited elements *)
Lemma ext_lookup_start ov cs i s : ext_start ov cs !! i = Some s <-> exists c, cs !! i = Some c /\ s = (Z.of_nat c - Z.of_nat ov)%Z.
Proof. unfold ext_start. rewrite list_lookup_fmap, fmap_Some. done. Qed.
Lemma ext_lookup_end ov ce i e : ext_end ov ce !! i = Some e <-> exists c, ce !! i = Some c /\ e = (Z.of_nat c + Z.of_nat ov)%Z.
Proof. unfold ext_end. rewrite list_lookup_fmap, fmap_Some. done. Qed.

Lemma penetrating_spec gs ge ov cs ce : chunk_in gs ge cs ce ->
  exists xs, penetrating gs ge (ext_start ov cs) (ext_end ov ce) = Some xs /\
    forall x, x ∈ xs <-> in_zbox (ext_start ov cs) (ext_end ov ce) x /\ is_boundary gs ge x = true.
Proof.
  intros (Hne & L1 & L2 & L3 & Hax). unfold penetrating.
  assert (forall i, (i < length cs)%nat -> exists l, slices_of_dim gs ge (ext_start ov cs) (ext_end ov ce) i = Some l /\
    forall x, x ∈ l <-> in_zbox (ext_start ov cs) (ext_end ov ce) x /\
      exists s e xi, gs !! i = Some s /\ ge !! i = Some e /\ x !! i = Some xi /\ (Z.of_nat e <= xi \/ xi < Z.of_nat s)%Z) as Hdim.
  { intros i Hi. destruct (lookup_lt_is_Some_2 gs i) as [s Hs]; [lia|]. destruct (lookup_lt_is_Some_2 ge i) as [e He]; [lia|].
    destruct (lookup_lt_is_Some_2 cs i) as [c Hc]; [lia|]. destruct (lookup_lt_is_Some_2 ce i) as [d Hd]; [lia|].
    destruct (Hax _ _ _ _ _ Hs He Hc Hd) as [Hcd Hdh].
    set (c' := (Z.of_nat c - Z.of_nat ov)%Z). set (d' := (Z.of_nat d + Z.of_nat ov)%Z).
    assert (ext_start ov cs !! i = Some c') as Hc' by (apply ext_lookup_start; eauto).
    assert (ext_end ov ce !! i = Some d') as Hd' by (apply ext_lookup_end; eauto).
    unfold slices_of_dim. rewrite Hs, He, Hc', Hd'. cbn [mbind option_bind]. eexists. split; [done|]. intros x. rewrite elem_of_app. split.
    - intros [Hl|Hr].
      + destruct (Z.ltb_spec c' (Z.of_nat s)); [|by apply elem_of_nil in Hl]. apply elem_of_zbox in Hl.
        apply (in_zbox_insert_end _ _ _ _ _ d') in Hl as [Hb (xi & Hxi & Hlt)]; [|done|lia]. split; [done|]. exists s, e, xi. split_and!; try done. lia.
      + destruct (Z.ltb_spec (Z.of_nat e) d'); [|by apply elem_of_nil in Hr]. apply elem_of_zbox in Hr.
        apply (in_zbox_insert_start _ _ _ _ _ c') in Hr as [Hb (xi & Hxi & Hlt)]; [|done|lia]. split; [done|]. exists s, e, xi. split_and!; try done. lia.
    - intros [Hb (s2 & e2 & xi & Hs2 & He2 & Hxi & Hor)]. simplify_eq. pose proof (proj2 (proj2 (proj1 (in_zbox_lookup _ _ _) Hb)) i _ _ _ Hc' Hd' Hxi) as Hxb.
      destruct Hor as [Hge|Hlt].
      + right. destruct (Z.ltb_spec (Z.of_nat e2) d'); [|lia]. apply elem_of_zbox. apply (in_zbox_insert_start _ _ _ _ _ c'); [done|lia|].
        split; [done|]. exists xi. split; [done|lia].
      + left. destruct (Z.ltb_spec c' (Z.of_nat s2)); [|lia]. apply elem_of_zbox. apply (in_zbox_insert_end _ _ _ _ _ d'); [done|lia|].
        split; [done|]. exists xi. split; [done|lia]. }
  assert (forall l, Forall (fun i => i < length cs)%nat l -> exists ls, mapM (slices_of_dim gs ge (ext_start ov cs) (ext_end ov ce)) l = Some ls /\
    forall x : list Z, x ∈ (mjoin ls : list (list Z)) <-> in_zbox (ext_start ov cs) (ext_end ov ce) x /\
      exists i s e xi, i ∈ l /\ gs !! i = Some s /\ ge !! i = Some e /\ x !! i = Some xi /\ (Z.of_nat e <= xi \/ xi < Z.of_nat s)%Z) as Hall.
  { induction 1 as [|i l Hi Hl IH].
    - exists []. split; [done|]. intros x. split; [by intros ?%elem_of_nil|]. intros (_ & i & s & e & xi & Hin & _). by apply elem_of_nil in Hin.
    - destruct (Hdim i Hi) as (l0 & Hl0 & H0). destruct IH as (ls & Hls & H1). cbn [mapM mbind option_bind]. rewrite Hl0. cbn [mbind option_bind].
      rewrite Hls. cbn [mbind option_bind]. exists (l0 :: ls). split; [done|]. intros x. change (mjoin (l0 :: ls)) with (l0 ++ mjoin ls).
      rewrite elem_of_app, H0, H1. split.
      + intros [[Hb (s & e & xi & Hr)]|[Hb (j & s & e & xi & Hj & Hr)]]; (split; [done|]); [exists i, s, e, xi|exists j, s, e, xi]; (split; [|done]); [left|by right].
      + intros [Hb (j & s & e & xi & Hj & Hr)]. apply elem_of_cons in Hj as [->|Hj]; [left|right]; (split; [done|]); [by exists s, e, xi|by exists j, s, e, xi]. }
  destruct (Hall (seq 0 (length cs))) as (ls & Hls & Hx).
  { apply list.Forall_forall. intros i Hi. apply elem_of_seq in Hi. lia. }
  assert (length (ext_start ov cs) = length cs) as -> by (unfold ext_start; by rewrite fmap_length).
  rewrite Hls. cbn [mbind option_bind]. exists (mjoin ls). split; [done|]. intros x. rewrite Hx, is_boundary_true. split; intros [Hb (i & s & e & xi & Hr)]; (split; [done|]).
  - exists i, s, e, xi. tauto.
  - exists i, s, e, xi. split; [|done]. apply elem_of_seq. destruct Hr as (Hr & _). apply lookup_lt_Some in Hr. lia.
Qed.

(** * Positions in the buffer *)
Definition ext_shape (ov : nat) (cs ce : list nat) : list nat := (fun n => n + 2 * ov)%nat <$> zip_with Nat.sub ce cs.
Lemma to_local_pos es x : Forall2 Z.le es x -> to_local es x = Some (pos_in es x).
Proof. unfold pos_in. induction 1 as [|s x0 es x H Hs IH]; [done|]. cbn [to_local zip_with]. destruct (Z.ltb_spec x0 s); [lia|]. by rewrite IH. Qed.
Lemma in_zbox_le b e x : in_zbox b e x -> Forall2 Z.le b x.
Proof. revert e x; induction b as [|b0 b IH]; intros [|e0 e] [|x0 x]; cbn; try done. intros [? ?]. constructor; [lia|eauto]. Qed.
Lemma pos_in_shape gs ge ov cs ce x : chunk_in gs ge cs ce -> in_zbox (ext_start ov cs) (ext_end ov ce) x ->
  in_shape (ext_shape ov cs ce) (pos_in (ext_start ov cs) x).
Proof.
  intros (_ & _ & _ & L & _). unfold ext_start, ext_end, ext_shape, pos_in.
  revert ce x L. induction cs as [|c cs IH]; intros [|d ce] [|x0 x] L; try done.
  rewrite !fmap_cons. cbn [zip_with in_zbox]. rewrite !fmap_cons. intros [H0 Hx]. cbn [zip_with]. apply in_shape_cons. eexists _, _. split; [done|]. split; [lia|].
  apply (IH ce x ltac:(by injection L) Hx).
Qed.
Lemma pos_in_inj es x y : Forall2 Z.le es x -> Forall2 Z.le es y -> pos_in es x = pos_in es y -> x = y.
Proof.
  unfold pos_in. intros Hx. revert y. induction Hx as [|s x0 es x H Hs IH]; intros y Hy; [by apply Forall2_nil_inv_l in Hy as ->|].
  apply Forall2_cons_inv_l in Hy as (y0 & y' & H0 & Hy & ->). cbn [zip_with]. intros [= E1 E2]. f_equal; [lia|auto].
Qed.

(** The mirrored element of an element of the chunk at negative radius lies in the chunk. *)
Lemma mirror_in gs ge ov cs ce x : chunk_in gs ge cs ce -> in_zbox (ext_start ov cs) (ext_end ov ce) x -> (radial x < 0)%Z ->
  in_zbox (ext_start ov cs) (ext_end ov ce) (mirror x).
Proof.
  intros (Hne & L1 & L2 & L3 & Hax) Hx Hr. destruct cs as [|c cs], ce as [|d ce], gs as [|g gs], ge as [|h ge]; try done.
  destruct (Hax 0%nat g h c d) as [? ?]; [done..|]. unfold ext_start, ext_end in *. rewrite !fmap_cons in *.
  destruct x as [|x0 x]; [done|]. cbn in Hx, Hr |- *. destruct Hx as [? ?]. split; [lia|done].
Qed.

(** * The boundary loop *)
Section boundary.
  Context {A} (vd : nat) (zero : A) (gs ge : list nat) (ov : nat) (cs ce : list nat) (src : list nat -> list A).
  Hypothesis Hch : chunk_in gs ge cs ce.
  Notation es := (ext_start ov cs).
  Notation ee := (ext_end ov ce).

  Definition rd (buf : ndarr A) (x : list Z) : option (list A) := aread vd buf (pos_in es x).
  Definition good (buf : ndarr A) : Prop := wf_owned vd buf /\ a_shape buf = ext_shape ov cs ce.

  Lemma filler_step buf x : good buf -> in_zbox es ee x -> is_boundary gs ge x = true ->
    exists buf', boundary_filler vd zero gs ge es buf x = Some buf' /\ good buf' /\
      (if (radial x <? 0)%Z then rd buf' x = rd buf (mirror x) else rd buf' x = Some (replicate vd zero)) /\
      (forall y, in_zbox es ee y -> y <> x -> rd buf' y = rd buf y).
  Proof.
    intros [Hwf Hsh] Hx Hb. unfold boundary_filler. rewrite Hb.
    assert (es = es) as _ by done. rewrite (to_local_pos es x) by (by eapply in_zbox_le). cbn [mbind option_bind].
    assert (x <> []) as Hne. { intros ->. destruct Hch as (Hc & _). destruct cs; [done|]. cbn in Hx. destruct ce; done. }
    pose proof (pos_in_shape _ _ _ _ _ _ Hch Hx) as Hpx.
    assert (exists v, boundary_evaluator vd zero buf es x = Some v /\ length v = vd /\
      (if (radial x <? 0)%Z then rd buf (mirror x) = Some v else v = replicate vd zero)) as (v & Hv & Lv & Hspec).
    { destruct x as [|r rest]; [done|]. cbn [boundary_evaluator radial List.hd]. destruct (Z.ltb_spec r 0) as [Hr|Hr].
      - pose proof (mirror_in _ _ _ _ _ _ Hch Hx Hr) as Hm. cbn [mirror] in *. rewrite (to_local_pos es) by (by eapply in_zbox_le). cbn [mbind option_bind].
        pose proof (pos_in_shape _ _ _ _ _ _ Hch Hm) as Hpm. rewrite <- Hsh in Hpm. rewrite (proj2 (has_index_true _ _) Hpm).
        destruct (aread_Some vd buf _ (wf_owned_wf _ _ Hwf) Hpm) as (v & Hv & Lv). exists v. split; [done|]. split; [done|]. exact Hv.
      - exists (replicate vd zero). rewrite replicate_length. done. }
    rewrite Hv. cbn [mbind option_bind]. rewrite <- Hsh in Hpx.
    destruct (awrite_spec vd buf (pos_in es x) v) as (buf' & -> & Hwf' & Hsh' & Hr & Ho); [done..|].
    exists buf'. split; [done|]. split; [split; [done|congruence]|]. split.
    - destruct (radial x <? 0)%Z; [unfold rd at 1; by rewrite Hr|unfold rd; by rewrite Hr, Hspec].
    - intros y Hy Hyx. apply Ho; [rewrite Hsh; by eapply pos_in_shape|]. intros E. apply Hyx. eapply pos_in_inj; [by eapply in_zbox_le..|done].
  Qed.

  Lemma filler_fold xs buf (P : list Z -> Prop) : good buf -> (forall x, x ∈ xs -> in_zbox es ee x /\ is_boundary gs ge x = true) ->
    (forall x, in_zbox es ee x -> inside gs ge x -> rd buf x = Some (arr_at src x)) ->
    (forall x, P x -> in_zbox es ee x -> is_boundary gs ge x = true -> (0 <= radial x)%Z -> rd buf x = Some (replicate vd zero)) ->
    (forall x, P x -> in_zbox es ee x -> (radial x < 0)%Z -> inside gs ge (mirror x) -> rd buf x = Some (arr_at src (mirror x))) ->
    exists buf', foldM (boundary_filler vd zero gs ge es) buf xs = Some buf' /\ good buf' /\
      (forall x, in_zbox es ee x -> inside gs ge x -> rd buf' x = Some (arr_at src x)) /\
      (forall x, P x \/ x ∈ xs -> in_zbox es ee x -> is_boundary gs ge x = true -> (0 <= radial x)%Z -> rd buf' x = Some (replicate vd zero)) /\
      (forall x, P x \/ x ∈ xs -> in_zbox es ee x -> (radial x < 0)%Z -> inside gs ge (mirror x) -> rd buf' x = Some (arr_at src (mirror x))).
  Proof.
    revert buf P. induction xs as [|x xs IH]; intros buf P Hg Hxs H1 H2 H3.
    - exists buf. split; [done|]. split; [done|]. split; [done|]. split; intros x [Hp|Hin%elem_of_nil]; done || auto.
    - destruct (Hxs x) as [Hx Hb]; [left|]. destruct (filler_step buf x Hg Hx Hb) as (buf1 & Hf & Hg1 & Hval & Hoth).
      cbn [foldM]. rewrite Hf. cbn [mbind option_bind].
      assert (forall y, length y = length x -> inside gs ge y -> y <> x) as Hin_ne.
      { intros y Ly Hy ->. destruct Hch as (_ & L1 & L2 & _). apply is_boundary_false in Hy; [congruence|..];
          apply in_zbox_lookup in Hx as [Hx _]; unfold ext_start in Hx; rewrite fmap_length in Hx; lia. }
      assert (forall y, in_zbox es ee y -> length y = length x) as Hlen.
      { intros y Hy. apply in_zbox_lookup in Hx as [Hx _], Hy as [Hy _]. lia. }
      destruct (IH buf1 (fun y => P y \/ y = x)) as (buf' & Hr & Hg' & R1 & R2 & R3).
      + done.
      + intros y Hy. apply Hxs. by right.
      + intros y Hy Hyin. rewrite Hoth; [auto|done|]. apply Hin_ne; auto.
      + intros y HP Hy Hyb Hyr. destruct (decide (y = x)) as [->|Hne].
        * destruct (Z.ltb_spec (radial x) 0); [lia|done].
        * rewrite Hoth by done. destruct HP as [HP|?]; [auto|done].
      + intros y HP Hy Hyr Hym. destruct (decide (y = x)) as [->|Hne].
        * destruct (Z.ltb_spec (radial x) 0); [|lia]. rewrite Hval. apply H1; [|done]. by eapply mirror_in.
        * rewrite Hoth by done. destruct HP as [HP|?]; [auto|done].
      + exists buf'. split; [done|]. split; [done|]. split; [done|]. split.
        * intros y [HP|Hin] Hy; apply R2; auto. apply elem_of_cons in Hin as [->|Hin]; auto.
        * intros y [HP|Hin] Hy; apply R3; auto. apply elem_of_cons in Hin as [->|Hin]; auto.
  Qed.
End boundary.

(** * The interior *)
Lemma fill_region gs ge ov cs ce : chunk_in gs ge cs ce ->
  let fs := zip_with (fun g e => Z.to_nat (Z.max (Z.of_nat g) e)) gs (ext_start ov cs) in
  let fe := zip_with (fun g e => Z.to_nat (Z.min (Z.of_nat g) e)) ge (ext_end ov ce) in
  exists out, to_local (ext_start ov cs) (Z.of_nat <$> fs) = Some out /\ length out = length fs /\
    Forall2 le gs fs /\ Forall2 lt fs fe /\ Forall2 le fe ge /\ Forall2 le (vadd out (vsub fe fs)) (ext_shape ov cs ce) /\
    forall x, in_zbox (ext_start ov cs) (ext_end ov ce) x -> inside gs ge x ->
      in_box fs fe (Z.to_nat <$> x) /\ vadd out (vsub (Z.to_nat <$> x) fs) = pos_in (ext_start ov cs) x.
Proof.
  intros (_ & L1 & L2 & L3 & Hax). cbv zeta. unfold inside, ext_start, ext_end, ext_shape, pos_in, vadd, vsub.
  revert gs ge ce L1 L2 L3 Hax. induction cs as [|c cs IH]; intros [|g gs] [|h ge] [|d ce] L1 L2 L3 Hax; try done.
  - exists []. split_and!; try done; try constructor; destruct x; done.
  - destruct (IH gs ge ce) as (out & I1 & I2 & I3 & I4 & I5 & I6 & I7);
      [by injection L1|by injection L2|by injection L3|intros i; apply (Hax (S i))|].
    destruct (Hax 0%nat g h c d) as [H1 H2]; [done..|]. rewrite !fmap_cons. cbn [zip_with]. rewrite !fmap_cons.
    set (f0 := Z.to_nat (Z.max (Z.of_nat g) (Z.of_nat c - Z.of_nat ov))) in *.
    exists (Z.to_nat (Z.of_nat f0 - (Z.of_nat c - Z.of_nat ov)) :: out). cbn [to_local].
    destruct (Z.ltb_spec (Z.of_nat f0) (Z.of_nat c - Z.of_nat ov)); [lia|]. rewrite I1. cbn [mbind option_bind zip_with].
    refine (conj eq_refl (conj _ (conj _ (conj _ (conj _ (conj _ _)))))).
    + cbn [length]. by rewrite I2.
    + constructor; [lia|done].
    + constructor; [lia|done].
    + constructor; [lia|done].
    + constructor; [lia|done].
    + intros [|x0 x]; cbn [in_zbox]; [done|]. intros [B0 B] [C0 C]. rewrite fmap_cons. cbn [in_box zip_with].
      destruct (I7 x B C) as [J1 J2]. split; [split; [lia|done]|]. f_equal; [lia|done].
Qed.

(** * C45 *)
(** Building a chunk with any overlap from any array never fails (in particular never reads outside the buffer), and in
    the finished buffer, whatever it held before: elements inside the array have their values, elements outside at
    non-negative radius are zero, and elements at negative radius equal the element mirrored at the axis if that
    element belongs to the array.  Missing for the full property: elements at negative radius whose mirrored element
    is itself beyond an outer boundary, see [C45_corner_reads_stale_data_refuted]. *)
Theorem C45_boundary_rule_partial {A} vd (junk zero : A) fill gs ge ov cs ce src buf :
  chunk_in gs ge cs ce -> copies_array vd fill gs ge src -> a_owns buf = true ->
  exists buf', rebuild_buffer vd junk zero fill gs ge ov buf cs ce = Some buf' /\ wf_owned vd buf' /\
    a_shape buf' = (fun n => n + 2 * ov)%nat <$> vsub ce cs /\
    forall x, in_zbox (ext_start ov cs) (ext_end ov ce) x ->
      (inside gs ge x -> aread vd buf' (pos_in (ext_start ov cs) x) = Some (arr_at src x)) /\
      (~ inside gs ge x -> (0 <= radial x)%Z -> aread vd buf' (pos_in (ext_start ov cs) x) = Some (replicate vd zero)) /\
      ((radial x < 0)%Z -> inside gs ge (mirror x) -> aread vd buf' (pos_in (ext_start ov cs) x) = Some (arr_at src (mirror x))).
Proof.
  intros Hch Hfill Hown. unfold rebuild_buffer. fold (ext_start ov cs). fold (ext_end ov ce). fold (ext_shape ov cs ce).
  destruct (fill_region gs ge ov cs ce Hch) as (out & Hout & Lo & F1 & F2 & F3 & F4 & F5).
  rewrite Hout. cbn [mbind option_bind].
  destruct (aresize vd junk (ext_shape ov cs ce) buf) as [b1|] eqn:E1; [|unfold aresize in E1; by rewrite Hown in E1].
  apply aresize_wf in E1 as [Hw1 Hs1].
  2: { destruct Hch as (Hne & _ & _ & L3 & _). unfold ext_shape. destruct cs, ce; done. }
  cbn [mbind option_bind].
  set (fs := zip_with _ gs (ext_start ov cs)) in *. set (fe := zip_with _ ge (ext_end ov ce)) in *.
  destruct (Hfill b1 fs fe out) as (b2 & Hb2 & Hw2 & Hs2 & Hr2); try done; [by rewrite Hs1|].
  rewrite Hb2. cbn [mbind option_bind].
  destruct (penetrating_spec gs ge ov cs ce Hch) as (xs & Hxs & Hpen). rewrite Hxs. cbn [mbind option_bind].
  destruct (filler_fold vd zero gs ge ov cs ce src Hch xs b2 (fun _ => False)) as (b3 & Hb3 & [Hw3 Hs3] & R1 & R2 & R3); try done.
  - split; [done|congruence].
  - intros x Hx. by apply Hpen.
  - intros x Hx Hin. destruct (F5 x Hx Hin) as [J1 J2]. unfold rd. rewrite <- J2. by apply Hr2.
  - exists b3. split; [done|]. split; [done|]. split; [done|]. intros x Hx.
    assert (length gs = length x /\ length ge = length x) as [G1 G2].
    { destruct Hch as (_ & L1 & L2 & _). apply in_zbox_lookup in Hx as [Hx _]. unfold ext_start in Hx. rewrite fmap_length in Hx. lia. }
    split; [by apply R1|]. split.
    + intros Hnot Hr. assert (is_boundary gs ge x = true) as Hb. { apply not_false_iff_true. by rewrite is_boundary_false. }
      apply R2; auto. right. by apply Hpen.
    + intros Hr Hm. assert (is_boundary gs ge x = true) as Hb.
      { apply not_false_iff_true. rewrite is_boundary_false by done. intros Hin. destruct x as [|r x]; [done|]. destruct gs, ge; try done.
        unfold inside in Hin. rewrite !fmap_cons in Hin. cbn in Hin, Hr. lia. }
      apply R3; auto. right. by apply Hpen.
Qed.
Print Assumptions C45_boundary_rule_partial.

(** For an array that starts at the axis and is at least as wide as the overlap, mirroring an element that is inside the
    array along the other directions always hits the array. *)
Theorem C45_mirrored_element_exists gs ge ov cs ce x :
  chunk_in gs ge cs ce -> gs !! 0%nat = Some 0%nat -> (forall h, ge !! 0%nat = Some h -> (ov < h)%nat) ->
  in_zbox (ext_start ov cs) (ext_end ov ce) x -> (radial x < 0)%Z ->
  inside (tail gs) (tail ge) (tail x) -> inside gs ge (mirror x).
Proof.
  intros (Hne & L1 & L2 & L3 & Hax) Hg Hh Hx Hr Hin. destruct gs as [|g gs], ge as [|h ge], cs as [|c cs], ce as [|d ce], x as [|r x]; try done.
  injection Hg as ->. specialize (Hh h eq_refl). unfold inside, mirror, ext_start, ext_end in *. rewrite !fmap_cons in *. cbn in *. destruct Hx as [? _].
  split; [lia|done].
Qed.

(** The range read used above exists: copying element by element. *)
Definition simple_fill {A} (vd : nat) (src : list nat -> list A) (buf : ndarr A) (s e out : list nat) : option (ndarr A) :=
  foldM (fun b i => awrite vd b (vadd out (vsub i s)) (src i)) buf (box_elems s e).

Lemma simple_fill_copies {A} vd (src : list nat -> list A) gs ge : (forall i, length (src i) = vd) -> copies_array vd (simple_fill vd src) gs ge src.
Proof.
  intros Hsrc buf s e out Hwf H1 H2 H3 H4 Lo. unfold simple_fill.
  rewrite (foldM_map (fun b w => awrite vd b w.1 w.2) (fun i => (vadd out (vsub i s), src i))).
  assert (forall i, in_box s e i -> Forall2 le s i) as Hsi. { intros i Hi. by apply in_box_forall2 in Hi as [? _]. }
  destruct (foldM_awrite vd ((fun i => (vadd out (vsub i s), src i)) <$> box_elems s e) buf) as (b & Hb & Hw & Hs & Hr & _).
  - done.
  - rewrite <- list_fmap_compose. apply NoDup_fmap_2_strong; [|apply box_elems_NoDup]. intros x y Hx Hy. cbn.
    apply elem_of_box_elems in Hx, Hy. apply Hsi in Hx, Hy. unfold vadd, vsub. clear -Hx Hy Lo. revert out y Lo Hy.
    induction Hx as [|s0 x0 s x H0 Hx IH]; intros [|o out] y Lo Hy; try done.
    + apply Forall2_nil_inv_l in Hy as ->. done.
    + apply Forall2_cons_inv_l in Hy as (y0 & y' & ? & Hy & ->). cbn [zip_with]. intros [= E1 E2]. f_equal; [lia|]. apply (IH out y'); [by injection Lo|done..].
  - intros w Hw. apply elem_of_list_fmap in Hw as (i & -> & Hi). cbn [fst snd]. split; [|done]. apply elem_of_box_elems, in_box_forall2 in Hi as [Hi1 Hi2].
    apply in_shape_forall2. clear -Hi1 Hi2 H4 Lo. unfold vadd, vsub in *. revert e out i Lo H4 Hi1 Hi2. generalize (a_shape buf) as sh.
    induction s as [|s0 s IH]; intros sh [|e0 e] [|o out] i Lo H4 Hi1 Hi2; try done.
    + apply Forall2_nil_inv_l in Hi1 as ->. apply Forall2_nil_inv_l in H4 as ->. constructor.
    + apply Forall2_nil_inv_l in Hi1 as ->. inversion Hi2.
    + apply Forall2_nil_inv_r in Hi2 as ->. inversion Hi1.
    + apply Forall2_cons_inv_l in Hi1 as (i0 & i' & ? & Hi1 & ->). apply Forall2_cons_1 in Hi2 as [? Hi2]. cbn [zip_with] in *.
      apply Forall2_cons_inv_l in H4 as (h0 & sh' & ? & H4 & ->). constructor; [lia|]. eapply IH; eauto.
  - exists b. split; [done|]. split; [done|]. split; [done|]. intros i Hi. apply (Hr (vadd out (vsub i s), src i)).
    apply elem_of_list_fmap. exists i. split; [done|]. by apply elem_of_box_elems.
Qed.

(** Non-vacuity, and refutation at the corners: a 2 x 1 x 1 array (r, z, t) holding 7 and 8, one chunk, overlap 1, and a
    buffer that still holds 99 from before.  The element (r, z, t) = (-1, -1, 0) mirrors (1, -1, 0), which is beyond the
    z boundary and ends up as zero; nevertheless the corner element holds the stale 99. *)
Definition ex_src (i : list nat) : list Z := match i with [r; _; _] => [Z.of_nat r + 7]%Z | _ => [0]%Z end.
Definition ex_buf : ndarr Z := anew 1 99%Z [4; 3; 3]%nat.
Definition ex_out : option (ndarr Z) :=
  rebuild_buffer 1 99%Z 0%Z (simple_fill 1 ex_src) [0; 0; 0]%nat [2; 1; 1]%nat 1 ex_buf [0; 0; 0]%nat [2; 1; 1]%nat.
Definition ex_at (x : list Z) : option (list Z) := b ← ex_out; aread 1 b (pos_in (ext_start 1 [0; 0; 0]%nat) x).
Theorem C45_corner_reads_stale_data_refuted :
  let corner := [-1; -1; 0]%Z in
  in_zbox (ext_start 1 [0; 0; 0]%nat) (ext_end 1 [2; 1; 1]%nat) corner /\
  ex_at (mirror corner) = Some [0%Z] /\ ex_at corner = Some [99%Z].
Proof. cbv zeta. split; [cbn; lia|]. split; vm_compute; reflexivity. Qed.

Example C45_nonvacuous :
  chunk_in [0; 0; 0]%nat [2; 1; 1]%nat [0; 0; 0]%nat [2; 1; 1]%nat /\ a_owns ex_buf = true /\
  ex_at [0; 0; 0]%Z = Some [7%Z] /\ ex_at [-1; 0; 0]%Z = Some [8%Z] /\ ex_at [1; 0; 1]%Z = Some [0%Z] /\ ex_at [2; 0; 0]%Z = Some [0%Z].
Proof.
  split.
  - split_and!; try done. intros [|[|[|i]]] g h c d; cbn; intros [= <-] [= <-] [= <-] [= <-]; lia.
  - split_and!; vm_compute; reflexivity.
Qed.
