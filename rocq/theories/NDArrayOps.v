From stdpp Require Import base list list_numbers numbers option.
From Verif Require Import IndexSpec LoopsModel LoopsProofs NDArrayModel NDArrayProofs.
From Coq Require Import Lia.

(** * Vector arithmetic helpers *)
Lemma vadd_length x y : length x = length y -> length (vadd x y) = length x.
Proof. intros. unfold vadd. rewrite zip_with_length. lia. Qed.
Lemma vsub_length x y : length x = length y -> length (vsub x y) = length x.
Proof. intros. unfold vsub. rewrite zip_with_length. lia. Qed.

Lemma vadd_snoc x y x0 y0 : length x = length y -> vadd (x ++ [x0]) (y ++ [y0]) = vadd x y ++ [(x0 + y0)%nat].
Proof. intros. unfold vadd. by rewrite zip_with_app. Qed.
Lemma vsub_snoc x y x0 y0 : length x = length y -> vsub (x ++ [x0]) (y ++ [y0]) = vsub x y ++ [(x0 - y0)%nat].
Proof. intros. unfold vsub. by rewrite zip_with_app. Qed.

Lemma Forall2_snoc {A B} (R : A -> B -> Prop) x y x0 y0 :
  length x = length y -> Forall2 R (x ++ [x0]) (y ++ [y0]) <-> Forall2 R x y /\ R x0 y0.
Proof.
  intros Hl. split.
  - intros H. apply Forall2_app_inv in H as [H1 H2]; [|done]. inversion H2; auto.
  - intros [H1 H2]. apply Forall2_app; [done|]. by repeat constructor.
Qed.

(** Positions [P = r * vd + c] determine [r] and [c]. *)
Lemma div_unique_block r r' c c' vd : (c < vd)%nat -> (c' < vd)%nat -> (r * vd + c = r' * vd + c')%nat -> r = r' /\ c = c'.
Proof.
  intros Hc Hc' H.
  assert (r = r') as ->; [|lia].
  destruct (Nat.lt_trichotomy r r') as [Hl|[->|Hl]]; [|done|]; exfalso.
  - assert ((r + 1) * vd <= r' * vd)%nat by (apply Nat.mul_le_mono_r; lia). lia.
  - assert ((r' + 1) * vd <= r * vd)%nat by (apply Nat.mul_le_mono_r; lia). lia.
Qed.

Lemma in_shape_snoc sh s x x0 : length x = length sh -> in_shape (sh ++ [s]) (x ++ [x0]) <-> in_shape sh x /\ (x0 < s)%nat.
Proof. intros. rewrite !in_shape_forall2, Forall2_snoc by done. done. Qed.

Lemma wf_owned_flat {A} vd (a : ndarr A) x :
  wf_owned vd a -> length x = length (a_shape a) -> flat_ind (a_strides a) (a_off a) x = (rank (a_shape a) x * vd)%nat.
Proof. intros (_ & -> & -> & _) Hl. by apply flat_ind_rank. Qed.

(** * Single-element writes *)
Lemma awrite_spec {A} vd (a : ndarr A) x v :
  wf_owned vd a -> in_shape (a_shape a) x -> length v = vd ->
  exists a', awrite vd a x v = Some a' /\ wf_owned vd a' /\ a_shape a' = a_shape a /\
    aread vd a' x = Some v /\
    forall y, in_shape (a_shape a) y -> y <> x -> aread vd a' y = aread vd a y.
Proof.
  intros Hwf Hx Hv. pose proof (wf_owned_wf _ _ Hwf) as [_ Hb].
  unfold awrite. rewrite (proj2 (has_index_true _ _) Hx), (proj2 (Nat.eqb_eq _ _) Hv). simpl.
  rewrite set_block_Some by (rewrite Hv; by apply Hb). simpl.
  eexists. split; [done|].
  set (d' := list_inserts _ _ _).
  assert (length d' = length (a_data a)) as Hl by apply inserts_length.
  split_and!.
  - destruct Hwf as (? & ? & ? & ? & ?). unfold wf_owned; simpl. rewrite Hl. auto.
  - done.
  - rewrite aread_eq by done. simpl.
    destruct (block_Some d' (flat_ind (a_strides a) (a_off a) x) vd) as [w Hw]; [rewrite Hl; by apply Hb|].
    rewrite Hw. f_equal. apply block_lookup in Hw as [Hlw Hw]. apply list_eq. intros i.
    destruct (decide (i < vd)%nat).
    + rewrite Hw by done. unfold d'. specialize (Hb _ Hx). rewrite list_lookup_inserts by lia. f_equal. lia.
    + rewrite !lookup_ge_None_2 by lia. done.
  - intros y Hy Hne. rewrite !aread_eq by done. simpl. apply block_ext; [rewrite Hl; by apply Hb|by apply Hb|].
    intros c Hc. unfold d'. specialize (Hb _ Hx).
    rewrite !(wf_owned_flat vd) in * by (auto using in_shape_length).
    destruct (decide (rank (a_shape a) y < rank (a_shape a) x)%nat).
    + rewrite list_lookup_inserts_lt; [done|].
      assert ((rank (a_shape a) y + 1) * vd <= rank (a_shape a) x * vd)%nat by (apply Nat.mul_le_mono_r; lia). lia.
    + rewrite list_lookup_inserts_ge; [done|].
      assert (rank (a_shape a) y <> rank (a_shape a) x) by (intros ?; apply Hne; by eapply rank_inj).
      assert ((rank (a_shape a) x + 1) * vd <= rank (a_shape a) y * vd)%nat by (apply Nat.mul_le_mono_r; lia). lia.
Qed.

(** * Writing whole rows *)
Section rows_write.
  Context {A : Type} (vd : nat).

  Lemma rows_write (a : ndarr A) psh s qs os0 n (f : list nat -> list A) :
    wf_owned vd a -> a_shape a = psh ++ [s] ->
    (forall q, q ∈ qs -> in_shape psh q) -> (0 < n)%nat -> (os0 + n <= s)%nat ->
    (forall q, q ∈ qs -> length (f q) = (n * vd)%nat) ->
    exists d, foldM (fun d o => set_block d o.1 o.2) (a_data a)
                ((fun q => (flat_ind (a_strides a) (a_off a) (q ++ [os0]), f q)) <$> qs) = Some d /\
      length d = length (a_data a) /\
      (forall yp y0, in_shape psh yp -> (y0 < s)%nat ->
         forall c, (c < vd)%nat ->
         d !! (flat_ind (a_strides a) (a_off a) (yp ++ [y0]) + c)%nat =
           if decide (yp ∈ qs /\ (os0 <= y0 < os0 + n)%nat) then f yp !! ((y0 - os0) * vd + c)%nat
           else a_data a !! (flat_ind (a_strides a) (a_off a) (yp ++ [y0]) + c)%nat).
  Proof.
    intros Hwf Hsh Hqs Hn Hle Hlf.
    assert (forall q q0, length q = length psh -> flat_ind (a_strides a) (a_off a) (q ++ [q0]) = ((rank psh q * s + q0) * vd)%nat) as Hflat.
    { intros q q0 Hq. rewrite (wf_owned_flat vd) by (rewrite ?Hsh, ?app_length; simpl; auto; lia).
      rewrite Hsh, rank_snoc by done. done. }
    assert (length (a_data a) = volume psh * s * vd)%nat as Hlen.
    { destruct Hwf as (_ & _ & _ & -> & _). unfold compute_volume. rewrite number_elements_volume, Hsh. f_equal.
      clear. induction psh; simpl; lia. }
    edestruct (set_blocks_spec ((fun q => (flat_ind (a_strides a) (a_off a) (q ++ [os0]), f q)) <$> qs) (a_data a))
      as (d & Hd & Hdl & Hframe & Hhit).
    { intros o Ho. apply elem_of_list_fmap in Ho as (q & -> & Hq). simpl.
      rewrite Hflat by (by apply in_shape_length, Hqs). rewrite Hlf by done.
      pose proof (rank_bound _ _ (Hqs _ Hq)) as Hr. rewrite Hlen.
      assert (rank psh q * s + os0 + n <= volume psh * s)%nat.
      { assert ((rank psh q + 1) * s <= volume psh * s)%nat by (apply Nat.mul_le_mono_r; lia). lia. }
      rewrite <- Nat.mul_add_distr_r. by apply Nat.mul_le_mono_r. }
    exists d. split_and!; auto. intros yp y0 Hyp Hy0 c Hc.
    set (P := (flat_ind (a_strides a) (a_off a) (yp ++ [y0]) + c)%nat).
    assert (P = ((rank psh yp * s + y0) * vd + c)%nat) as HP by (unfold P; by rewrite Hflat by (by apply in_shape_length)).
    assert (forall q, q ∈ qs -> covers (flat_ind (a_strides a) (a_off a) (q ++ [os0]), f q) P ->
       q = yp /\ (os0 <= y0 < os0 + n)%nat) as Hcov.
    { intros q Hq [H1 H2]. simpl in *. rewrite Hflat in H1, H2 by (by apply in_shape_length, Hqs).
      rewrite Hlf in H2 by done.
      assert (rank psh q * s + os0 <= rank psh yp * s + y0)%nat as B1.
      { apply Nat.lt_succ_r. destruct (Nat.lt_ge_cases (rank psh yp * s + y0) (S (rank psh yp * s + y0))); [|lia].
        destruct (Nat.le_gt_cases (rank psh q * s + os0) (rank psh yp * s + y0)) as [|Hgt]; [lia|exfalso].
        assert ((rank psh yp * s + y0 + 1) * vd <= (rank psh q * s + os0) * vd)%nat by (apply Nat.mul_le_mono_r; lia). lia. }
      assert (rank psh yp * s + y0 < rank psh q * s + os0 + n)%nat as B2.
      { destruct (Nat.lt_ge_cases (rank psh yp * s + y0) (rank psh q * s + os0 + n)) as [|Hge]; [done|exfalso].
        assert ((rank psh q * s + os0 + n) * vd <= (rank psh yp * s + y0) * vd)%nat by (apply Nat.mul_le_mono_r; lia).
        lia. }
      assert (rank psh q = rank psh yp) as Hr.
      { destruct (Nat.lt_trichotomy (rank psh q) (rank psh yp)) as [Hl|[Hl|Hl]]; [|done|]; exfalso.
        - assert ((rank psh q + 1) * s <= rank psh yp * s)%nat by (apply Nat.mul_le_mono_r; lia). lia.
        - assert ((rank psh yp + 1) * s <= rank psh q * s)%nat by (apply Nat.mul_le_mono_r; lia). lia. }
      split; [|lia]. eapply rank_inj; eauto. }
    destruct (decide _) as [[Hin Hrange]|Hno].
    - apply Hhit.
      + exists (flat_ind (a_strides a) (a_off a) (yp ++ [os0]), f yp). split.
        { apply elem_of_list_fmap. eauto. }
        unfold covers; simpl. rewrite Hflat by (by apply in_shape_length). rewrite Hlf by done.
        rewrite HP. assert ((y0 - os0 + 1) * vd <= n * vd)%nat by (apply Nat.mul_le_mono_r; lia).
        assert ((rank psh yp * s + y0) * vd = (rank psh yp * s + os0) * vd + (y0 - os0) * vd)%nat; [|lia].
        rewrite <- Nat.mul_add_distr_r. f_equal. lia.
      + intros o Ho Hco. apply elem_of_list_fmap in Ho as (q & -> & Hq).
        destruct (Hcov _ Hq Hco) as [-> _]. simpl. f_equal.
        rewrite Hflat by (by apply in_shape_length). rewrite HP.
        assert ((rank psh yp * s + y0) * vd = (rank psh yp * s + os0) * vd + (y0 - os0) * vd)%nat as ->;
          [|generalize ((rank psh yp * s + os0) * vd)%nat ((y0 - os0) * vd)%nat; lia].
        rewrite <- Nat.mul_add_distr_r. f_equal. lia.
    - apply Hframe. intros o Ho Hco. apply elem_of_list_fmap in Ho as (q & -> & Hq).
      destruct (Hcov _ Hq Hco) as [-> ?]. by apply Hno.
  Qed.
End rows_write.

(** Reading from an array whose data are known at all positions of an element. *)
Lemma aread_ext {A} vd (a b : ndarr A) x y :
  wf vd a -> wf vd b -> in_shape (a_shape a) x -> in_shape (a_shape b) y ->
  (forall c, (c < vd)%nat -> a_data a !! (flat_ind (a_strides a) (a_off a) x + c)%nat =
                            a_data b !! (flat_ind (a_strides b) (a_off b) y + c)%nat) ->
  aread vd a x = aread vd b y.
Proof.
  intros [_ Ha] [_ Hb] Hx Hy H. rewrite !aread_eq by done. apply block_ext; auto.
Qed.

(** * fill_from *)
Lemma has_end_true sh e : has_end sh e = true <-> Forall2 (fun x s => 1 <= x <= s)%nat e sh.
Proof.
  unfold has_end. revert e; induction sh as [|s sh IH]; intros [|e0 e]; cbn [forallb has_index fmap list_fmap].
  - split; [constructor|done].
  - split; [|by inversion 1]. by rewrite andb_false_r.
  - split; [done|by inversion 1].
  - specialize (IH e). rewrite !andb_true_iff in *. rewrite !Nat.leb_le, Nat.ltb_lt. split.
    + intros [[H1 H2] [H3 H4]]. constructor; [lia|]. apply IH. auto.
    + inversion 1 as [|? ? ? ? H1 H2]; subst. apply IH in H2 as [H2 H3]. split_and!; auto; lia.
Qed.

Lemma Forall2_lt_le_trans x y z : Forall2 lt x y -> Forall2 le y z -> Forall2 lt x z.
Proof.
  intros H1. revert z; induction H1; intros z H2; inversion H2; subst; constructor; [lia|auto].
Qed.

Lemma Forall2_lt_le_in_shape s e sh : Forall2 lt s e -> Forall2 le e sh -> in_shape sh s.
Proof.
  intros H1 H2. apply in_shape_forall2. revert sh H2; induction H1; intros sh H2; inversion H2; subst; constructor; [lia|auto].
Qed.

Lemma Forall2_lt_le_has_end s e sh : Forall2 lt s e -> Forall2 le e sh -> has_end sh e = true.
Proof.
  intros H1 H2. apply has_end_true. revert sh H2; induction H1; intros sh H2; inversion H2; subst; constructor; [lia|auto].
Qed.

Lemma vadd_vsub_lt os is ie : length os = length is -> Forall2 lt is ie -> Forall2 lt os (vadd os (vsub ie is)).
Proof.
  intros Hl H. revert os Hl; induction H as [|i e is ie Hie H IH]; intros [|o os] Hl; simpl in *; try lia; constructor; [lia|].
  apply IH. lia.
Qed.

Definition shift_ind (from to x : list nat) : list nat := vadd to (vsub x from).

Lemma in_box_shift_prefix pis pie pos p :
  length pos = length pis -> in_box pis pie p -> in_box pos (vadd pos (vsub pie pis)) (shift_ind pis pos p).
Proof.
  revert pie pos p; induction pis as [|i pis IH]; intros [|e pie] [|o pos] [|x p] Hl; simpl in *; try tauto; try lia.
  intros [H1 H2]. split; [lia|]. apply IH; [lia|done].
Qed.

Lemma shift_shift pis pie pos p : length pos = length pis -> in_box pis pie p -> shift_ind pos pis (shift_ind pis pos p) = p.
Proof.
  revert pie pos p; induction pis as [|i pis IH]; intros [|e pie] [|o pos] [|x p] Hl; simpl in *; try tauto; try lia; try done.
  intros [H1 H2]. unfold shift_ind, vadd, vsub in *. simpl. f_equal; [lia|]. eapply IH; [lia|done].
Qed.

Lemma in_box_unshift_prefix pis pie pos q :
  length pos = length pis -> length pie = length pis -> Forall2 le pis pie ->
  in_box pos (vadd pos (vsub pie pis)) q -> in_box pis pie (shift_ind pos pis q) /\ shift_ind pis pos (shift_ind pos pis q) = q.
Proof.
  revert pie pos q; induction pis as [|i pis IH]; intros [|e pie] [|o pos] [|x q] Hl1 Hl2 Hle; simpl in *; try tauto; try lia; try done.
  inversion Hle; subst. intros [Hx1 Hx2]. unfold shift_ind, vadd, vsub in *. simpl.
  destruct (IH pie pos q) as [Ha Hb]; [lia|lia|done|done|]. split; [split; [lia|done]|]. f_equal; [lia|done].
Qed.

Lemma afill_from_spec {A} vd (this other : ndarr A) is ie os :
  wf_owned vd this -> wf vd other ->
  Forall2 lt is ie -> Forall2 le ie (a_shape other) ->
  length os = length is -> Forall2 le (vadd os (vsub ie is)) (a_shape this) ->
  exists this', afill_from vd this other is ie os = Some this' /\ wf_owned vd this' /\
    a_shape this' = a_shape this /\
    forall y, in_shape (a_shape this) y ->
      aread vd this' y = if decide (in_box os (vadd os (vsub ie is)) y)
                         then aread vd other (shift_ind os is y) else aread vd this y.
Proof.
  intros Hwf Hwfo Hlt Hle Hlo Hlt'.
  pose proof (Forall2_length _ _ _ Hlt) as L1. pose proof (Forall2_length _ _ _ Hle) as L2.
  pose proof (Forall2_length _ _ _ Hlt') as L3. rewrite vadd_length in L3 by (rewrite vsub_length; lia).
  destruct Hwf as (Hne & Hwfr). pose proof (conj Hne Hwfr : wf_owned vd this) as Hwf.
  assert (is <> []) as Hisne by (intros ->; destruct (a_shape this); simpl in *; [done|lia]).
  unfold afill_from.
  rewrite (proj2 (has_index_true _ _) (Forall2_lt_le_in_shape _ _ _ Hlt Hle)).
  rewrite (Forall2_lt_le_has_end _ _ _ Hlt Hle).
  pose proof (vadd_vsub_lt os is ie Hlo Hlt) as Hos.
  rewrite (proj2 (has_index_true _ _) (Forall2_lt_le_in_shape _ _ _ Hos Hlt')).
  fold (vsub ie is). fold (vadd os (vsub ie is)).
  rewrite (Forall2_lt_le_has_end _ _ _ Hos Hlt'). cbn [andb].
  destruct (list_snoc is) as (pis & is0 & ->); [done|].
  destruct (list_snoc ie) as (pie & ie0 & ->); [intros ->; rewrite app_length in L1; simpl in L1; lia|].
  destruct (list_snoc os) as (pos & os0 & ->); [intros ->; rewrite app_length in Hlo; simpl in Hlo; lia|].
  destruct (list_snoc (a_shape this)) as (psh & s & Hsh); [done|].
  destruct (list_snoc (a_shape other)) as (osh & so & Hosh); [intros Heq; rewrite Heq, app_length in L2; simpl in L2; lia|].
  rewrite !app_length in L1, Hlo. rewrite Hsh in L3, Hlt'. rewrite Hosh in L2, Hle. rewrite !app_length in L2, L3. simpl in *.
  rewrite vsub_snoc, vadd_snoc in * by (rewrite ?vsub_length; lia).
  rewrite Forall2_snoc in Hlt by lia. destruct Hlt as [Hltp Hlt0].
  rewrite Forall2_snoc in Hle by lia. destruct Hle as [Hlep Hle0].
  rewrite Forall2_snoc in Hlt' by (rewrite vadd_length; rewrite ?vsub_length; lia). destruct Hlt' as [Hlp' Hl0'].
  rewrite !vlast_app. unfold row_chunk. rewrite Hsh, app_length. simpl.
  replace (length psh + 1 - 1)%nat with (length pis) by lia.
  rewrite chunk_loop_rows by (auto; lia). cbn [mbind option_bind].
  unfold rows. destruct (Nat.ltb_spec is0 ie0) as [_|?]; [|lia].
  set (n := (ie0 - is0)%nat) in *.
  (* the rows in the target *)
  set (qs := shift_ind pis pos <$> box_elems pis pie).
  set (src := fun q => take (n * vd) (drop (flat_ind (a_strides other) (a_off other) (shift_ind pos pis q ++ [is0])) (a_data other))).
  destruct Hwfo as [(sto & Hsto & Hlsto) Hbo]. rewrite Hosh, app_length in Hlsto. simpl in Hlsto.
  assert (forall p x0, in_box pis pie p -> (x0 < so)%nat ->
    flat_ind (a_strides other) (a_off other) (p ++ [x0]) + vd <= length (a_data other))%nat as Hbo'.
  { intros p x0 Hp Hx0. apply Hbo. rewrite Hosh. apply in_shape_snoc.
    - apply in_box_length in Hp. lia.
    - split; [|done]. apply in_shape_forall2. apply in_box_forall2 in Hp as [_ Hp].
      by eapply Forall2_lt_le_trans. }
  assert (forall p, in_box pis pie p ->
    flat_ind (a_strides other) (a_off other) (p ++ [is0]) + n * vd <= length (a_data other))%nat as Hbrow.
  { intros p Hp. pose proof (in_box_length _ _ _ Hp) as [Hl _].
    specialize (Hbo' p (is0 + n - 1)%nat Hp). rewrite Hsto, !flat_ind_snoc in * by lia.
    assert ((is0 + n - 1) * vd + vd = is0 * vd + n * vd)%nat.
    { replace (is0 * vd + n * vd)%nat with ((is0 + n) * vd)%nat by lia.
      replace (is0 + n)%nat with (S (is0 + n - 1))%nat at 2 by lia. simpl. lia. }
    specialize (Hbo' ltac:(lia)). lia. }
  rewrite (foldM_ext_in _ (fun d c => set_block d (flat_ind (a_strides this) (a_off this) (shift_ind (pis ++ [is0]) (pos ++ [os0]) c.1))
     (src (shift_ind pis pos (removelast c.1))))).
  2:{ intros d c Hc. apply elem_of_list_fmap in Hc as (p & -> & Hp%elem_of_box_elems). cbn [fst].
      unfold copy_n. rewrite removelast_last. unfold src. rewrite (shift_shift _ pie) by (auto; lia).
      unfold block. destruct (Nat.leb_spec (flat_ind (a_strides other) (a_off other) (p ++ [is0]) + n * vd) (length (a_data other))) as [_|Hbad].
      - reflexivity.
      - specialize (Hbrow p Hp). lia. }
  rewrite (foldM_map (fun d o => set_block d o.1 o.2) (fun c : list nat * list nat => (flat_ind (a_strides this) (a_off this) (shift_ind (pis ++ [is0]) (pos ++ [os0]) c.1), src (shift_ind pis pos (removelast c.1))))).
  assert (((fun c : list nat * list nat => (flat_ind (a_strides this) (a_off this) (shift_ind (pis ++ [is0]) (pos ++ [os0]) c.1), src (shift_ind pis pos (removelast c.1))))
      <$> ((fun p => (p ++ [is0], (S <$> p) ++ [ie0])) <$> box_elems pis pie))
    = ((fun q => (flat_ind (a_strides this) (a_off this) (q ++ [os0]), src q)) <$> qs)) as ->.
  { unfold qs. rewrite <- !list_fmap_compose. apply list_fmap_ext. intros ? p Hp%elem_of_list_lookup_2%elem_of_box_elems. cbn.
    rewrite removelast_last. f_equal. f_equal. unfold shift_ind.
    pose proof (in_box_length _ _ _ Hp). rewrite vsub_snoc, vadd_snoc by (rewrite ?vsub_length; lia). f_equal. f_equal. lia. }
  assert (forall q, q ∈ qs <-> in_box pos (vadd pos (vsub pie pis)) q) as Hqs.
  { intros q. unfold qs. rewrite elem_of_list_fmap. split.
    - intros (p & -> & Hp%elem_of_box_elems). apply in_box_shift_prefix; [lia|done].
    - intros Hq. destruct (in_box_unshift_prefix pis pie pos q) as [Hp Heq]; [lia|lia| |done|].
      { eapply Forall2_impl; [exact Hltp|]. simpl; lia. }
      exists (shift_ind pos pis q). split; [done|]. by apply elem_of_box_elems. }
  assert (forall q, q ∈ qs -> in_shape psh q) as Hqsh.
  { intros q Hq%Hqs. apply in_shape_forall2. apply in_box_forall2 in Hq as [_ Hq].
    by eapply Forall2_lt_le_trans. }
  destruct (rows_write vd this psh s qs os0 n src) as (d & Hd & Hdl & Hval); auto; try lia.
  { intros q Hq. unfold src. rewrite take_length, drop_length.
    apply Hqs in Hq. destruct (in_box_unshift_prefix pis pie pos q) as [Hp _]; [lia|lia| |done|].
    { eapply Forall2_impl; [exact Hltp|]. simpl; lia. }
    specialize (Hbrow _ Hp). lia. }
  rewrite Hd. simpl. eexists. split; [done|].
  assert (wf_owned vd (NDArr (psh ++ [s]) (a_strides this) (a_off this) d (a_owns this))) as Hwf'.
  { destruct Hwfr as (? & ? & ? & ?). unfold wf_owned; simpl. rewrite Hdl, <- Hsh. auto. }
  split_and!; auto.
  intros y Hy.
  destruct (list_snoc y) as (yp & y0 & ->).
  { intros ->. apply in_shape_length in Hy. rewrite app_length in Hy. simpl in Hy. lia. }
  pose proof (in_shape_length _ _ Hy) as Hly. rewrite !app_length in Hly. simpl in Hly.
  pose proof Hy as Hy'. rewrite in_shape_snoc in Hy' by lia. destruct Hy' as [Hyp Hy0].
  specialize (Hval yp y0 Hyp Hy0).
  assert (in_box (pos ++ [os0]) (vadd pos (vsub pie pis) ++ [(os0 + n)%nat]) (yp ++ [y0]) <->
          yp ∈ qs /\ (os0 <= y0 < os0 + n)%nat) as Hiff.
  { rewrite in_box_snoc, Hqs by (rewrite ?vadd_length; rewrite ?vsub_length; lia). done. }
  destruct (decide (in_box _ _ _)) as [Hbox|Hbox].
  - pose proof (proj1 Hiff Hbox) as [Hq Hr].
    pose proof (proj1 (Hqs _) Hq) as Hqb.
    destruct (in_box_unshift_prefix pis pie pos yp) as [Hp Heq]; [lia|lia| |done|].
    { eapply Forall2_impl; [exact Hltp|]. simpl; lia. }
    assert (shift_ind (pos ++ [os0]) (pis ++ [is0]) (yp ++ [y0]) = shift_ind pos pis yp ++ [(is0 + (y0 - os0))%nat]) as Hsi.
    { unfold shift_ind. rewrite vsub_snoc, vadd_snoc by (rewrite ?vsub_length; lia). done. }
    rewrite Hsi.
    assert (in_shape (a_shape other) (shift_ind pos pis yp ++ [(is0 + (y0 - os0))%nat])) as Hin.
    { rewrite Hosh. pose proof (in_box_length _ _ _ Hp). apply in_shape_snoc; [lia|]. split; [|lia].
      apply in_shape_forall2. apply in_box_forall2 in Hp as [_ Hp'].
      by eapply Forall2_lt_le_trans. }
    apply aread_ext.
    + by apply wf_owned_wf.
    + split; [exists sto; split; [done|rewrite Hosh, app_length; simpl; lia]|done].
    + done.
    + done.
    + intros c Hc. cbn [a_data a_strides a_off]. rewrite Hval by done. rewrite decide_True by done.
      unfold src. rewrite lookup_take, lookup_drop.
      * f_equal. rewrite Hsto, !flat_ind_snoc by (apply in_box_length in Hp; lia). lia.
      * assert ((y0 - os0 + 1) * vd <= n * vd)%nat by (apply Nat.mul_le_mono_r; lia). lia.
  - apply aread_ext.
    + by apply wf_owned_wf.
    + by apply wf_owned_wf.
    + done.
    + by rewrite Hsh.
    + intros c Hc. cbn [a_data a_strides a_off]. rewrite Hval by done. rewrite decide_False by tauto. done.
Qed.
