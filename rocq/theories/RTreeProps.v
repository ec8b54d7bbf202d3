(** The spatial index: C18-C23, C51.  The specification: the index is a list of items (a box and
    a payload); operations act on that list and lookups answer from it. *)
From stdpp Require Import base list list_numbers numbers option.
From Coq Require Import NArith.
From Verif Require Import NDArrayModel NullSupModel PoolModel PoolProofs BBoxModel BBoxProps RTreeModel RTreeBoxes RTreeInv RTreeInsert RTreeSearch RTreeOps RTreeRebuild.

Section spec.
Context {P : Type} (dims : nat).
(** Lower corner (included), upper corner (excluded), payload. *)
Definition box : Type := list N * list N.
Definition item : Type := box * P.
Definition box_ok (b : box) : Prop := proper b.1 b.2 /\ length b.1 = dims.
Definition coord_ok (c : list N) : Prop := coords c /\ length c = dims.
Definition at_point (x : item) (c : list N) : Prop := inbox x.1.1 x.1.2 c.
(** Overlap: on every axis each box starts before the other one ends (for non-empty boxes: a
    common index, C17). *)
Definition overlapping (a b : box) : Prop :=
  Forall (fun x : (N * N) * (N * N) => x.1.1 < x.2.2 /\ x.2.1 < x.1.2)%N (zip (zip a.1 a.2) (zip b.1 b.2)).
Definition within (a b : box) : Prop :=
  (forall i x y, a.1 !! i = Some x -> b.1 !! i = Some y -> (y <= x)%N) /\
  (forall i x y, a.2 !! i = Some x -> b.2 !! i = Some y -> (x <= y)%N).

(** What a user does with an index. *)
Inductive op :=
  | Insert (b : box) (p : P)
  | Update (c : list N) (b : box)      (* UpdateBoundingBox *)
  | Clear
  | Rebuild                            (* RebuildSTR *)
  | Lookup (c : list N).               (* Search(coords), which moves the last-accessed entry *)

(** Effect on the items; the second component collects the boxes handed to the index since it
    was last empty or rebuilt. *)
Inductive spec_step : list item * list box -> op -> list item * list box -> Prop :=
  | spec_insert A H b p : spec_step (A, H) (Insert b p) (A ++ [(b, p)], H ++ [b])
  | spec_update A H c b i x : A !! i = Some x -> at_point x c -> spec_step (A, H) (Update c b) (<[i := (b, x.2)]> A, H ++ [b])
  | spec_update_none A H c b : (forall x, x ∈ A -> ~ at_point x c) -> spec_step (A, H) (Update c b) (A, H)
  | spec_clear A H : spec_step (A, H) Clear ([], [])
  | spec_rebuild A H A' : A' ≡ₚ A -> spec_step (A, H) Rebuild (A', A'.*1)
  | spec_lookup A H c : spec_step (A, H) (Lookup c) (A, H).
Inductive spec_run : list item * list box -> list op -> list item * list box -> Prop :=
  | spec_done S : spec_run S [] S
  | spec_next S1 o S2 ops S3 : spec_step S1 o S2 -> spec_run S2 ops S3 -> spec_run S1 (o :: ops) S3.

(** Preconditions: well-formed arguments; no lookup, update or rebuild of an empty index (the
    code dereferences an invalid root, RStarTree.hxx:562-571, 1070-1089, or fails an assertion). *)
Definition op_ok (n : nat) (o : op) : Prop :=
  match o with
  | Insert b _ => box_ok b
  | Update c b => (0 < n)%nat /\ coord_ok c /\ box_ok b
  | Clear => True
  | Rebuild => (0 < n)%nat
  | Lookup c => (0 < n)%nat /\ coord_ok c
  end.
Definition size_after (n : nat) (o : op) : nat := match o with Insert _ _ => S n | Clear => 0%nat | _ => n end.
Fixpoint history_ok (n : nat) (ops : list op) : Prop :=
  match ops with [] => True | o :: ops' => op_ok n o /\ history_ok (size_after n o) ops' end.
End spec.
Arguments box : clear implicits.

Section props.
Context {P : Type} (pd : P) (dims : nat) (L : lib).
Implicit Types t : rtree P.
Local Notation item := (item (P := P)).
Local Notation op := (op (P := P)).

(** The calls on the model. *)
Definition step (o : op) t : option (rtree P) :=
  match o with
  | Insert b p => snd <$> insert_element pd dims L t p b.1 b.2
  | Update c b => update_bounding_box dims t c b.1 b.2
  | Clear => rt_clear pd dims t
  | Rebuild => rebuild_str pd dims L t
  | Lookup c => snd <$> search_point t c
  end.
Fixpoint steps (ops : list op) t : option (rtree P) :=
  match ops with [] => Some t | o :: ops' => t' ← step o t; steps ops' t' end.
(** A new index with [init] preallocated slots, then the calls [ops]. *)
Definition run (init : nat) (ops : list op) : option (rtree P) := t ← rt_new pd dims init; steps ops t.

(** Search(coords): found iff some item contains the coordinate, and then one of those. *)
Definition point_answer t (A : list item) (c : list N) (r : option P) : Prop :=
  match r with
  | Some p => exists b, (b, p) ∈ A /\ at_point (b, p) c
  | None => forall x, x ∈ A -> ~ at_point x c
  end.
Definition lookup t (c : list N) : option (option P) :=
  '(r, t') ← search_point t c; match r with None => Some None | Some s => p ← payload_at t' s; Some (Some p) end.
Definition answers_points t (A : list item) : Prop := forall c, coord_ok dims c -> A <> [] -> exists r, lookup t c = Some r /\ point_answer t A c r.
(** Search(start, end): the payloads of the overlapping items, each as often as it is stored. *)
Definition answers_ranges t (A : list item) : Prop := forall q : box, box_ok dims q ->
  exists ps, search_range t q.1 q.2 = Some ps /\ ps ≡ₚ (filter (fun x : item => overlapping q x.1) A).*2.

(** * Proofs *)
Definition ent (x : item) : entry P := Entry (mk_bbox x.1.1 x.1.2) x.2.
Definition allB (H : list box) (B : bbox) : Prop := okbox dims B /\ forall b, b ∈ H -> cover B (mk_bbox b.1 b.2).
Definition sim (m : nat) t (A : list item) (H : list box) : Prop :=
  Forall (fun x => box_ok dims x.1) A /\ Forall (box_ok dims) H /\ (forall x, x ∈ A -> x.1 ∈ H) /\ exists ae, good dims m (allB H) t ae (ent <$> A).

Lemma sim_weaken t A H : sim 2 t A H -> sim 1 t A H.
Proof.
  intros (H1 & H2 & H3 & ae & Hst & Hes & Hla). split_and!; auto. exists ae. split_and!; auto. destruct Hst as [Hst|(an & r & Hne & Hrt & Hf & Hocc)]; [by left|].
  right. exists an, r. split_and!; auto. intros s n Hs Hn. destruct (Hocc s n Hs Hn) as (O1 & O2 & O3 & O4). split_and!; auto; intros; lia.
Qed.
Lemma ent_contains x c : box_ok dims x.1 -> coord_ok dims c -> bbox_contains (en_box (ent x)) c = true <-> at_point x c.
Proof. intros [H1 H2] [H3 H4]. apply C17_contains_iff_in_extent; auto. lia. Qed.
Lemma fmap_ent_nil (A : list item) : ent <$> A <> [] <-> A <> [].
Proof. by destruct A. Qed.
Lemma fmap_ent_perm es (A : list item) : es ≡ₚ ent <$> A -> Forall (fun x => box_ok dims x.1) A -> exists A', A' ≡ₚ A /\ es = ent <$> A'.
Proof. intros Hp _. apply Permutation_map_inv in Hp as (A' & -> & Hp). by exists A'. Qed.

Lemma step_sim (Hd : (0 < dims)%nat) (HL : lib_ok L) m o t A H : (m = 2%nat /\ o <> Rebuild) \/ m = 1%nat -> sim m t A H -> op_ok dims (length A) o ->
  exists t' A' H', step o t = Some t' /\ spec_step (A, H) o (A', H') /\ length A' = size_after (length A) o /\ sim m t' A' H'.
Proof.
  intros Hm (HA & HH & Hin & ae & Hg) Hok. assert (m <= 2)%nat as Hm2 by (destruct Hm as [[-> _]| ->]; lia).
  destruct o as [b p|c b| | |c]; simpl in Hok |- *.
  - destruct Hok as [Hp Hl].
    destruct (insert_element_good pd dims L HL m Hm2 (allB H) (allB (H ++ [b])) t ae (ent <$> A) p b.1 b.2 Hg Hp Hl) as (s & t' & -> & _ & Hg').
    { intros B [HB HB']. split_and!; auto; [split; [done|]|]; intros; apply HB', elem_of_app; [by left|]. right. by left. }
    exists t', (A ++ [(b, p)]), (H ++ [b]). split_and!; [done|constructor|rewrite app_length; simpl; lia|].
    split_and!; [apply Forall_app; split; [done|]; apply list.Forall_singleton; by split|apply Forall_app; split; [done|]; apply list.Forall_singleton; by split| |].
    { intros x Hx. apply elem_of_app in Hx as [Hx|Hx]; apply elem_of_app; [left; auto|]. apply elem_of_list_singleton in Hx as ->. right. by left. }
    exists (ae ++ [s]). rewrite fmap_app. exact Hg'.
  - destruct Hok as (Hne & Hc & [Hp Hl]).
    destruct (update_bounding_box_good dims m Hm2 (allB H) (allB (H ++ [b])) t ae (ent <$> A) c b.1 b.2 Hg) as [[-> Hno]|(t' & i & en & -> & Hen & Hcn & Hg')]; auto.
    { apply fmap_ent_nil. by destruct A; [simpl in Hne; lia|]. }
    { intros B [HB HB']. split; [split; [done|]|]; intros; apply HB', elem_of_app; [by left|]. right. by left. }
    + exists t, A, H. split_and!; auto.
      * constructor. intros x Hx Hat. specialize (Hno (ent x)). rewrite (proj2 (ent_contains x c ltac:(rewrite list.Forall_forall in HA; by apply HA) Hc)) in Hno by done.
        discriminate Hno. apply elem_of_list_fmap. eauto.
      * split_and!; auto. by exists ae.
    + rewrite list_lookup_fmap in Hen. destruct (A !! i) as [x|] eqn:Hx; [|done]. injection Hen as <-.
      assert (box_ok dims x.1) as Hxok by (eapply Forall_lookup in HA; eauto). apply ent_contains in Hcn; auto.
      exists t', (<[i := (b, x.2)]> A), (H ++ [b]). split_and!; [done|by constructor|by rewrite insert_length|].
      split_and!; [by apply Forall_insert|apply Forall_app; split; [done|]; apply list.Forall_singleton; by split| |].
      { intros y Hy. apply elem_of_app. apply elem_of_list_lookup in Hy as [j Hj]. apply list_lookup_insert_Some in Hj as [(-> & <- & _)|[_ Hj]].
        - right. by left.
        - left. apply Hin. by eapply elem_of_list_lookup_2. }
      exists ae. rewrite list_fmap_insert. exact Hg'.
  - destruct (rt_clear_good pd dims m (allB H) (allB []) t ae _ Hg) as (t' & -> & Hg'). exists t', [], []. split_and!; [done|constructor|done|].
    split_and!; [constructor|constructor| |by exists []]. intros x Hx. by apply elem_of_nil in Hx.
  - destruct Hm as [[_ ?]| ->]; [done|].
    destruct (rebuild_str_good pd dims L HL (allB A.*1) 1 (allB H) t ae (ent <$> A)) as (t' & ae' & es' & -> & Hp & Hg' & _); auto.
    { apply fmap_ent_nil. by destruct A; [simpl in Hok; lia|]. }
    { intros B [HB HB']. split; [done|]. intros en Hen. apply elem_of_list_fmap in Hen as (x & -> & Hx). apply (HB' x.1). apply elem_of_list_fmap. eauto. }
    apply fmap_ent_perm in Hp as (A' & HpA & ->); [|done]. exists t', A', A'.*1. split_and!; [done|by constructor|by rewrite HpA|].
    split_and!; [by rewrite HpA|apply Forall_fmap; by rewrite HpA| |].
    { intros x Hx. apply elem_of_list_fmap. eauto. }
    exists ae'. destruct Hg' as (G1 & G2 & G3). split_and!; auto. destruct G1 as [G1|(an & r & Hne & Hrt & Hf & Hocc)]; [by left|]. right. exists an, r. split_and!; auto.
    destruct Hf as [F1 F2 F3 F4 F5 F6]. split; auto. intros B [HB HB']. apply F6. split; [done|]. intros b Hb. apply HB'. by rewrite HpA.
  - destruct Hok as (Hne & [Hc1 Hc2]). destruct (search_point_good dims m (allB H) t ae (ent <$> A) c Hg) as (r & t' & -> & Hg' & _); auto.
    { apply fmap_ent_nil. by destruct A; [simpl in Hne; lia|]. }
    exists t', A, H. split_and!; [done|constructor|done|]. split_and!; auto. by exists ae.
Qed.

Lemma steps_sim (Hd : (0 < dims)%nat) (HL : lib_ok L) m ops : (m = 2%nat /\ Rebuild ∉ ops) \/ m = 1%nat -> forall t A H, sim m t A H -> history_ok dims (length A) ops ->
  exists t' A' H', steps ops t = Some t' /\ spec_run (A, H) ops (A', H') /\ sim m t' A' H'.
Proof.
  intros Hm. induction ops as [|o ops IH]; intros t A H Hs Hok.
  - exists t, A, H. split_and!; [done|constructor|done].
  - destruct Hok as [Ho Hok]. destruct (step_sim Hd HL m o t A H) as (t1 & A1 & H1 & Hrun & Hsp & Hlen & Hs1); auto.
    { destruct Hm as [[-> Hni]| ->]; [left|by right]. split; [done|]. intros ->. apply Hni. by left. }
    rewrite <- Hlen in Hok. destruct (IH ltac:(destruct Hm as [[-> Hni]| ->]; [left; split; [done|]; intros ?; apply Hni; by right|by right]) t1 A1 H1 Hs1 Hok) as (t2 & A2 & H2 & Hrun2 & Hsp2 & Hs2).
    exists t2, A2, H2. split_and!; auto; [|by econstructor]. cbn [steps]. by rewrite Hrun.
Qed.
Lemma run_sim (Hd : (0 < dims)%nat) (HL : lib_ok L) m init ops : (0 < init)%nat -> (m = 2%nat /\ Rebuild ∉ ops) \/ m = 1%nat -> history_ok dims 0 ops ->
  exists t A H, run init ops = Some t /\ spec_run ([], []) ops (A, H) /\ sim m t A H.
Proof.
  intros Hi Hm Hok. unfold run. destruct (rt_new_good pd dims m (allB []) init Hi) as (t0 & -> & Hg). cbn [mbind option_bind].
  destruct (steps_sim Hd HL m ops Hm t0 [] []) as (t & A & H & Hrun & Hsp & Hs); auto; [|eauto 10].
  split_and!; [constructor|constructor| |by exists []]. intros x Hx. by apply elem_of_nil in Hx.
Qed.

Lemma sim_points m t A H : sim m t A H -> answers_points t A.
Proof.
  intros (HA & HH & Hin & ae & Hg) c [Hc1 Hc2] Hne.
  destruct (search_point_good dims m (allB H) t ae (ent <$> A) c Hg) as (r & t' & Hrun & _ & _ & _ & _ & Hres); auto. { by apply fmap_ent_nil. }
  unfold lookup. rewrite Hrun. cbn [mbind option_bind]. destruct r as [s|].
  - destruct Hres as (i & en & Hi & Hei & Hcn & ->). cbn [mbind option_bind]. eexists. split; [done|]. simpl.
    rewrite list_lookup_fmap in Hei. destruct (A !! i) as [x|] eqn:Hx; [|done]. injection Hei as <-. exists x.1. rewrite <- surjective_pairing.
    split; [by eapply elem_of_list_lookup_2|]. eapply ent_contains; [|by split|done]. by eapply Forall_lookup in HA; eauto.
  - eexists. split; [done|]. simpl. intros x Hx Hat. specialize (Hres (ent x)). rewrite (proj2 (ent_contains x c ltac:(rewrite list.Forall_forall in HA; by apply HA) (conj Hc1 Hc2))) in Hres by done.
    discriminate Hres. apply elem_of_list_fmap. eauto.
Qed.
Lemma overlaps_overlapping (a b : box) : bbox_overlaps (mk_bbox a.1 a.2) (mk_bbox b.1 b.2) = true <-> overlapping a b.
Proof.
  destruct a as [s1 e1], b as [s2 e2]. unfold bbox_overlaps, overlapping, mk_bbox. cbn [bb_start bb_end fst snd].
  revert e1 s2 e2. induction s1 as [|x s1 IH]; intros e1 s2 e2; [split; [constructor|done]|].
  destruct e1 as [|y e1], s2 as [|z s2], e2 as [|w e2]; try (split; [constructor|done]).
  cbn [overlaps_loop zip zip_with]. rewrite list.Forall_cons. cbn [fst snd]. destruct (N.leb_spec w x); [split; [done|lia]|]. destruct (N.leb_spec y z); [split; [done|lia]|].
  rewrite IH. split; [intros; split; [lia|done]|tauto].
Qed.
Lemma sim_ranges m t A H : sim m t A H -> answers_ranges t A.
Proof.
  intros (HA & HH & Hin & ae & Hg) q _. destruct (search_range_good dims m (allB H) t ae (ent <$> A) q.1 q.2 Hg) as (ps & -> & Hp). exists ps. split; [done|]. rewrite Hp.
  clear. induction A as [|x A IH]; [done|]. rewrite fmap_cons, !filter_cons.
  pose proof (overlaps_overlapping q x.1) as Hx. change (en_box (ent x)) with (mk_bbox x.1.1 x.1.2).
  destruct (decide (bbox_overlaps (mk_bbox q.1 q.2) (mk_bbox x.1.1 x.1.2) = true)) as [H1|H1]; destruct (decide (overlapping q x.1)) as [H2|H2]; try tauto.
  rewrite !fmap_cons. by rewrite IH.
Qed.
Lemma sim_all m t A H : sim m t A H -> get_all_entries t = Some A.*2.
Proof.
  intros (HA & HH & Hin & ae & Hg). rewrite (get_all_entries_good _ _ _ _ _ _ Hg). f_equal. rewrite <- list_fmap_compose. done.
Qed.

(** * C18 *)
Theorem C18_point_lookup init ops :
  (0 < dims)%nat -> lib_ok L -> (0 < init)%nat -> history_ok dims 0 ops ->
  exists t A H, run init ops = Some t /\ spec_run ([], []) ops (A, H) /\
    forall c, coord_ok dims c -> A <> [] ->
      exists r, lookup t c = Some r /\
        match r with
        | Some p => exists b, (b, p) ∈ A /\ inbox b.1 b.2 c
        | None => forall b p, (b, p) ∈ A -> ~ inbox b.1 b.2 c
        end.
Proof.
  intros Hd HL Hi Hok. destruct (run_sim Hd HL 1 init ops Hi ltac:(by right) Hok) as (t & A & H & Hrun & Hsp & Hs). exists t, A, H. split_and!; auto.
  intros c Hc Hne. destruct (sim_points _ _ _ _ Hs c Hc Hne) as (r & Hr & Hans). exists r. split; [done|]. destruct r as [p|]; [done|]. intros b p Hin. exact (Hans (b, p) Hin).
Qed.
(** With boxes that do not share a coordinate the answer is the item at that coordinate. *)
Theorem C18_unique_when_disjoint init ops :
  (0 < dims)%nat -> lib_ok L -> (0 < init)%nat -> history_ok dims 0 ops ->
  exists t A H, run init ops = Some t /\ spec_run ([], []) ops (A, H) /\
    forall c b p, coord_ok dims c -> (b, p) ∈ A -> inbox b.1 b.2 c ->
      (forall b' p', (b', p') ∈ A -> inbox b'.1 b'.2 c -> p' = p) -> lookup t c = Some (Some p).
Proof.
  intros Hd HL Hi Hok. destruct (C18_point_lookup init ops Hd HL Hi Hok) as (t & A & H & Hrun & Hsp & Hans). exists t, A, H. split_and!; auto.
  intros c b p Hc Hin Hat Huniq. destruct (Hans c Hc) as (r & Hr & Hres). { intros ->. by apply elem_of_nil in Hin. } rewrite Hr. destruct r as [p'|].
  - destruct Hres as (b' & Hin' & Hat'). by rewrite (Huniq b' p').
  - by destruct (Hres b p Hin).
Qed.

(** * C19 *)
Theorem C19_range_query init ops :
  (0 < dims)%nat -> lib_ok L -> (0 < init)%nat -> history_ok dims 0 ops ->
  exists t A H, run init ops = Some t /\ spec_run ([], []) ops (A, H) /\
    forall q, box_ok dims q -> exists ps, search_range t q.1 q.2 = Some ps /\ ps ≡ₚ (filter (fun x : item => overlapping q x.1) A).*2.
Proof.
  intros Hd HL Hi Hok. destruct (run_sim Hd HL 1 init ops Hi ltac:(by right) Hok) as (t & A & H & Hrun & Hsp & Hs). exists t, A, H. split_and!; auto.
  by eapply sim_ranges.
Qed.

(** * C20 *)
Theorem C20_all_entries init ops :
  (0 < dims)%nat -> lib_ok L -> (0 < init)%nat -> history_ok dims 0 ops ->
  exists t A H, run init ops = Some t /\ spec_run ([], []) ops (A, H) /\ get_all_entries t = Some A.*2.
Proof.
  intros Hd HL Hi Hok. destruct (run_sim Hd HL 1 init ops Hi ltac:(by right) Hok) as (t & A & H & Hrun & Hsp & Hs). exists t, A, H. split_and!; auto. by eapply sim_all.
Qed.
(** For insertions and lookups only: exactly the inserted payloads, in insertion order. *)
Definition inserted (ops : list op) : list item := omap (fun o => match o with Insert b p => Some (b, p) | _ => None end) ops.
Lemma spec_inserted ops : Forall (fun o => match o with Insert _ _ | Lookup _ => True | _ => False end) ops -> forall A H A' H',
  spec_run (A, H) ops (A', H') -> A' = A ++ inserted ops /\ H' = H ++ (inserted ops).*1.
Proof.
  induction 1 as [|o ops Ho Hops IH]; intros A H A' H' Hr; inversion Hr as [|S1 o' S2 ops' S3 Hs Hr']; subst.
  - by rewrite !app_nil_r.
  - destruct S2 as [A1 H1]. apply IH in Hr' as [-> ->]. destruct o as [b p|c b| | |c]; try done; inversion Hs; subst; unfold inserted; cbn [omap list_omap].
    + rewrite <- !app_assoc. done.
    + done.
Qed.
Theorem C20_insertion_order init ops :
  (0 < dims)%nat -> lib_ok L -> (0 < init)%nat -> history_ok dims 0 ops ->
  Forall (fun o => match o with Insert _ _ | Lookup _ => True | _ => False end) ops ->
  exists t, run init ops = Some t /\ get_all_entries t = Some (inserted ops).*2.
Proof.
  intros Hd HL Hi Hok Hins. destruct (C20_all_entries init ops Hd HL Hi Hok) as (t & A & H & Hrun & Hsp & Hall).
  destruct (spec_inserted ops Hins _ _ _ _ Hsp) as [-> _]. by exists t.
Qed.

Lemma sim_bbox m t A H : sim m t A H -> A <> [] -> exists b : box, get_bounding_box dims t = Some (mk_bbox b.1 b.2) /\ box_ok dims b /\
  (forall x, x ∈ A -> within x.1 b) /\ forall b', box_ok dims b' -> (forall h, h ∈ H -> within h b') -> within b b'.
Proof.
  intros (HA & HH & Hin & ae & Hg) Hne. destruct (get_bounding_box_good _ _ _ _ _ _ Hg) as (b & -> & (Hb1 & Hb2 & Hb3) & Hcov & Hleast). { by apply fmap_ent_nil. }
  exists (bb_start b, bb_end b). cbn [fst snd]. split_and!; [by rewrite <- Hb1|by split| |].
  - intros x Hx. destruct (Hcov (ent x)) as [H1 H2]; [apply elem_of_list_fmap; eauto|]. split; intros i u v Hu Hv; [eapply H1|eapply H2]; eauto.
  - intros b' [Hp Hl] Hb'. destruct (Hleast (mk_bbox b'.1 b'.2)) as [H1 H2].
    + split; [by apply okbox_mk|]. intros h Hh. destruct (Hb' h Hh) as [W1 W2]. split; intros i u v Hu Hv; [eapply W1|eapply W2]; eauto.
    + split; intros i u v Hu Hv; [eapply H1|eapply H2]; eauto.
Qed.
(** The reported box contains every item and lies within every box that contains everything
    stored since the index was last empty or rebuilt. *)
Theorem C20_bounding_box init ops :
  (0 < dims)%nat -> lib_ok L -> (0 < init)%nat -> history_ok dims 0 ops ->
  exists t A H, run init ops = Some t /\ spec_run ([], []) ops (A, H) /\
    (A <> [] -> exists b : box, get_bounding_box dims t = Some (mk_bbox b.1 b.2) /\ box_ok dims b /\
      (forall x, x ∈ A -> within x.1 b) /\ forall b', box_ok dims b' -> (forall h, h ∈ H -> within h b') -> within b b').
Proof.
  intros Hd HL Hi Hok. destruct (run_sim Hd HL 1 init ops Hi ltac:(by right) Hok) as (t & A & H & Hrun & Hsp & Hs). exists t, A, H. split_and!; auto. by eapply sim_bbox.
Qed.
(** For insertions and lookups only the box is the hull of the inserted boxes. *)
Theorem C20_bounding_box_is_hull init ops :
  (0 < dims)%nat -> lib_ok L -> (0 < init)%nat -> history_ok dims 0 ops -> inserted ops <> [] ->
  Forall (fun o => match o with Insert _ _ | Lookup _ => True | _ => False end) ops ->
  exists t (b : box), run init ops = Some t /\ get_bounding_box dims t = Some (mk_bbox b.1 b.2) /\ box_ok dims b /\
    (forall x, x ∈ inserted ops -> within x.1 b) /\ forall b', box_ok dims b' -> (forall x, x ∈ inserted ops -> within x.1 b') -> within b b'.
Proof.
  intros Hd HL Hi Hok Hne Hins. destruct (C20_bounding_box init ops Hd HL Hi Hok) as (t & A & H & Hrun & Hsp & Hall).
  destruct (spec_inserted ops Hins _ _ _ _ Hsp) as [-> ->]. simpl in Hall. destruct (Hall Hne) as (b & H1 & H2 & H3 & H4). exists t, b. split_and!; auto.
  intros b' Hb' Hx. apply H4; [done|]. intros h Hh. apply elem_of_list_fmap in Hh as (x & -> & Hx'). auto.
Qed.

(** * C21 *)
(** [s] is a node [d] levels below [r], following children. *)
Inductive below t (r : nat) : nat -> nat -> Prop :=
  | below_root : below t r r 0
  | below_child s d n c : below t r s d -> get_node t s = Some n -> (0 < n_level n)%nat -> c ∈ n_children n -> below t r c (S d).
Definition well_shaped (m : nat) t (A : list item) : Prop :=
  match t_root t with
  | None => A = []
  | Some r => exists nr, get_node t r = Some nr /\ forall s d, below t r s d -> exists n, get_node t s = Some n /\
      (* same depth of all leaves *)      (n_level n + d)%nat = n_level nr /\
      (* at most MAXN children *)         (1 <= length (n_children n) <= 10)%nat /\
      (* at least [m], two for the root *)((0 < d)%nat -> (m <= length (n_children n))%nat) /\ (d = 0%nat -> (0 < n_level n)%nat -> (2 <= length (n_children n))%nat) /\
      (* boxes *)                         (exists b : box, n_box n = mk_bbox b.1 b.2 /\ box_ok dims b /\
        forall c, c ∈ n_children n -> exists b' : box, get_bbox t c (n_level n) = Some (mk_bbox b'.1 b'.2) /\ within b' b)
  end.
Lemma sim_shape m t A H : sim m t A H -> well_shaped m t A.
Proof.
  intros (HA & HH & Hin & ae & ([(Hroot & _ & ->)|(an & r & Hne & Hrt & Hf & Hocc)] & Hes & Hla)); unfold well_shaped.
  - rewrite Hroot. apply Forall2_nil_inv_l in Hes. by destruct A.
  - destruct Hrt as (Hroot & Hr & Hmax). rewrite Hroot. destruct (f_node _ _ _ _ _ _ _ Hf r Hr) as [nr Hnr]. exists nr. split; [done|].
    assert (forall s d, below t r s d -> s ∈ an /\ exists n, get_node t s = Some n /\ (n_level n + d)%nat = n_level nr) as Hlev.
    { induction 1 as [|s d n c Hb [Hs (n' & Hn' & Hl)] Hn Hlv Hc].
      - split; [done|]. exists nr. split; [done|lia].
      - rewrite Hn in Hn'. injection Hn' as <-. destruct (flat_child dims _ _ _ _ _ _ Hf s n c Hs Hn Hc) as [[? _]|[Hca (mc & Hmc & Hlm)]]; [lia|].
        split; [done|]. exists mc. split; [done|lia]. }
    intros s d Hb. destruct (Hlev s d Hb) as [Hs (n & Hn & Hl)]. exists n. destruct (Hocc s n Hs Hn) as (O1 & O2 & O3 & O4). specialize (O2 (fun x : none s => x)).
    split_and!; auto; try lia.
    + intros Hd. apply O3. intros ->. rewrite Hnr in Hn. injection Hn as <-. lia.
    + intros -> Hlv. inversion Hb; subst. rewrite Hnr in Hn. injection Hn as <-. auto.
    + destruct (f_cov _ _ _ _ _ _ _ Hf s n Hs (fun x : none s => x) Hn) as [(Hb1 & Hb2 & Hb3) Hcov]. exists (bb_start (n_box n), bb_end (n_box n)). split_and!; [done|by split|].
      intros c Hc. destruct (Hcov c Hc) as (bc & Hbc & W1 & W2).
      assert (okbox dims bc) as (Hc1 & _ & _).
      { eapply (flat_id_okbox dims _ _ _ _ _ _ Hf (n_level n) c bc); [|intros _ Hx; exact Hx|done]. eapply (kid_in_ids dims); eauto. }
      exists (bb_start bc, bb_end bc). cbn [fst snd]. rewrite <- Hc1. split; [done|]. split; intros i u v Hu Hv; [eapply W1|eapply W2]; eauto.
Qed.
(** Without a bulk rebuild every node but the root has between 2 and 10 children. *)
Theorem C21_occupancy_and_balance init ops :
  (0 < dims)%nat -> lib_ok L -> (0 < init)%nat -> history_ok dims 0 ops -> Rebuild ∉ ops ->
  exists t A H, run init ops = Some t /\ spec_run ([], []) ops (A, H) /\ well_shaped 2 t A.
Proof.
  intros Hd HL Hi Hok Hnr. destruct (run_sim Hd HL 2 init ops Hi ltac:(by left) Hok) as (t & A & H & Hrun & Hsp & Hs). exists t, A, H. split_and!; auto. by eapply sim_shape.
Qed.
(** With bulk rebuilds: between 1 and 10. *)
Theorem C21_shape_with_rebuild init ops :
  (0 < dims)%nat -> lib_ok L -> (0 < init)%nat -> history_ok dims 0 ops ->
  exists t A H, run init ops = Some t /\ spec_run ([], []) ops (A, H) /\ well_shaped 1 t A.
Proof.
  intros Hd HL Hi Hok. destruct (run_sim Hd HL 1 init ops Hi ltac:(by right) Hok) as (t & A & H & Hrun & Hsp & Hs). exists t, A, H. split_and!; auto. by eapply sim_shape.
Qed.

(** * C22 *)
Theorem C22_update init ops :
  (0 < dims)%nat -> lib_ok L -> (0 < init)%nat -> history_ok dims 0 ops ->
  exists t A H, run init ops = Some t /\ spec_run ([], []) ops (A, H) /\
    forall c b, coord_ok dims c -> box_ok dims b -> A <> [] ->
      exists t' A', update_bounding_box dims t c b.1 b.2 = Some t' /\
        ((A' = A /\ forall x, x ∈ A -> ~ at_point x c) \/ (exists i x, A !! i = Some x /\ at_point x c /\ A' = <[i := (b, x.2)]> A)) /\
        get_all_entries t' = Some A'.*2 /\ answers_points t' A' /\ answers_ranges t' A'.
Proof.
  intros Hd HL Hi Hok. destruct (run_sim Hd HL 1 init ops Hi ltac:(by right) Hok) as (t & A & H & Hrun & Hsp & Hs). exists t, A, H. split_and!; auto.
  intros c b Hc Hb Hne. destruct (step_sim Hd HL 1 (Update c b) t A H) as (t' & A' & H' & Hu & Hst & _ & Hs'); [by right|done| |].
  { simpl. split_and!; auto. destruct A; [done|simpl; lia]. }
  exists t', A'. split_and!; [exact Hu| |by eapply sim_all|by eapply sim_points|by eapply sim_ranges].
  inversion Hst; subst; [right; eauto|by left].
Qed.

(** * C23 *)
Theorem C23_rebuild init ops :
  (0 < dims)%nat -> lib_ok L -> (0 < init)%nat -> history_ok dims 0 ops ->
  exists t A H, run init ops = Some t /\ spec_run ([], []) ops (A, H) /\
    (A <> [] -> exists t' A', rebuild_str pd dims L t = Some t' /\ A' ≡ₚ A /\ get_all_entries t' = Some A'.*2 /\
       answers_points t' A /\ answers_ranges t' A).
Proof.
  intros Hd HL Hi Hok. destruct (run_sim Hd HL 1 init ops Hi ltac:(by right) Hok) as (t & A & H & Hrun & Hsp & Hs). exists t, A, H. split_and!; auto.
  intros Hne. destruct (step_sim Hd HL 1 Rebuild t A H) as (t' & A' & H' & Hu & Hst & _ & Hs'); [by right|done| |].
  { simpl. destruct A; [done|simpl; lia]. }
  inversion Hst as [| | | |? ? ? Hp|]; subst. exists t', A'. split_and!; [exact Hu|done|by eapply sim_all| |].
  - intros c Hc _. destruct (sim_points _ _ _ _ Hs' c Hc) as (r & Hr & Hans). { intros ->. by apply Permutation_nil in Hp. }
    exists r. split; [done|]. destruct r as [p|]; simpl in *; [by setoid_rewrite <- Hp|by setoid_rewrite <- Hp].
  - intros q Hq. destruct (sim_ranges _ _ _ _ Hs' q Hq) as (ps & Hps & Hperm). exists ps. split; [done|]. by rewrite Hperm, Hp.
Qed.

(** * C51 *)
Lemma search_range_ext t t' fuel s q : t_nodes t' = t_nodes t -> t_entries t' = t_entries t -> search_range_node fuel t' s q = search_range_node fuel t s q.
Proof.
  intros E1 E2. revert s. induction fuel as [|fuel IH]; intros s; [done|]. cbn [search_range_node]. unfold get_node, get_entry. rewrite E1, E2.
  destruct (pool_get (t_nodes t) s) as [n'|]; [|done]. cbn [mbind option_bind]. destruct (n_level n' =? 0)%nat; [done|].
  assert (forall l, mapM (fun ch => m ← pool_get (t_nodes t) ch; if bbox_overlaps q (n_box m) then search_range_node fuel t' ch q else Some []) l =
                    mapM (fun ch => m ← pool_get (t_nodes t) ch; if bbox_overlaps q (n_box m) then search_range_node fuel t ch q else Some []) l) as ->; [|done].
  intros l. apply mapM_ext. intros ch. destruct (pool_get (t_nodes t) ch) as [n''|]; [|done]. cbn [mbind option_bind]. by destruct (bbox_overlaps _ _).
Qed.
(** Any further lookups leave the answer at a coordinate unchanged, provided at most one stored
    payload lies there. *)
Theorem C51_lookups_repeatable_partial init ops cs :
  (0 < dims)%nat -> lib_ok L -> (0 < init)%nat -> history_ok dims 0 ops -> Forall (coord_ok dims) cs ->
  exists t A H, run init ops = Some t /\ spec_run ([], []) ops (A, H) /\
    (A <> [] -> exists t', steps (Lookup <$> cs) t = Some t' /\
      (forall q, search_range t' q.1 q.2 = search_range t q.1 q.2) /\ get_all_entries t' = get_all_entries t /\ get_bounding_box dims t' = get_bounding_box dims t /\
      forall c, coord_ok dims c -> (forall b p b' p', (b, p) ∈ A -> (b', p') ∈ A -> inbox b.1 b.2 c -> inbox b'.1 b'.2 c -> p = p') ->
        lookup t' c = lookup t c).
Proof.
  intros Hd HL Hi Hok Hcs. destruct (run_sim Hd HL 1 init ops Hi ltac:(by right) Hok) as (t & A & H & Hrun & Hsp & Hs). exists t, A, H. split_and!; auto.
  intros Hne. assert (exists t', steps (Lookup <$> cs) t = Some t' /\ sim 1 t' A H /\ t_nodes t' = t_nodes t /\ t_entries t' = t_entries t /\ t_root t' = t_root t) as (t' & Hst & Hs' & E1 & E2 & E3).
  { clear Hrun Hsp. revert t Hs. induction Hcs as [|c cs [Hc1 Hc2] Hcs IH]; intros t Hs; [by exists t|].
    destruct Hs as (HA & HH & Hin & ae & Hg). destruct (search_point_good dims 1 (allB H) t ae (ent <$> A) c Hg) as (r & t1 & Hrun & Hg1 & E1 & E2 & E3 & _); auto. { by apply fmap_ent_nil. }
    destruct (IH t1) as (t2 & Hst & Hs2 & F1 & F2 & F3). { split_and!; auto. by exists ae. }
    exists t2. split_and!; try congruence. rewrite fmap_cons. cbn [steps step]. rewrite Hrun. cbn [fmap option_fmap option_map snd mbind option_bind]. done. }
  exists t'. split_and!; auto.
  - intros q. unfold search_range. rewrite E3. destruct (t_root t) as [r|]; [|done]. unfold get_node. rewrite E1.
    destruct (pool_get (t_nodes t) r) as [n|]; [|done]. cbn [mbind option_bind]. by apply search_range_ext.
  - unfold get_all_entries. by rewrite E2.
  - unfold get_bounding_box, get_node. by rewrite E3, E1.
  - intros c Hc Huniq. destruct (sim_points _ _ _ _ Hs c Hc Hne) as (r & -> & Hr). destruct (sim_points _ _ _ _ Hs' c Hc Hne) as (r' & -> & Hr'). f_equal.
    destruct r as [p|], r' as [p'|]; simpl in Hr, Hr'; [|destruct Hr as (b & H1 & H2); by destruct (Hr' _ H1)|destruct Hr' as (b & H1 & H2); by destruct (Hr _ H1)|done].
    destruct Hr as (b & H1 & H2), Hr' as (b' & H3 & H4). f_equal. by eapply Huniq.
Qed.
End props.

Print Assumptions C18_point_lookup.
Print Assumptions C18_unique_when_disjoint.
Print Assumptions C19_range_query.
Print Assumptions C20_all_entries.
Print Assumptions C20_insertion_order.
Print Assumptions C20_bounding_box.
Print Assumptions C20_bounding_box_is_hull.
Print Assumptions C21_occupancy_and_balance.
Print Assumptions C21_shape_with_rebuild.
Print Assumptions C22_update.
Print Assumptions C23_rebuild.
Print Assumptions C51_lookups_repeatable_partial.

(** * A concrete library, and instances of the hypotheses *)
Fixpoint ins_sort1 {A} (lt : A -> A -> bool) (x : A) (l : list A) : list A :=
  match l with [] => [x] | y :: l' => if lt x y then x :: y :: l' else y :: ins_sort1 lt x l' end.
Definition ins_sort {A} (lt : A -> A -> bool) (l : list A) : list A := foldr (ins_sort1 lt) [] l.
Lemma ins_sort1_perm {A} (lt : A -> A -> bool) x l : ins_sort1 lt x l ≡ₚ x :: l.
Proof. induction l as [|y l IH]; [done|]. simpl. destruct (lt x y); [done|]. rewrite IH. apply perm_swap. Qed.
Lemma ins_sort_perm {A} (lt : A -> A -> bool) l : ins_sort lt l ≡ₚ l.
Proof. induction l as [|x l IH]; [done|]. simpl. by rewrite ins_sort1_perm, IH. Qed.
(** [slab n 2] and [slab n 3] here: the least k with k^2 >= n, k^3 >= n^2. *)
Fixpoint least (fuel : nat) (p : nat -> bool) (k : nat) : nat := match fuel with O => k | S f => if p k then k else least f p (S k) end.
Definition slab0 (n d : nat) : nat := least n (fun k => n ^ (d - 1) <=? k ^ d)%nat 1.
Lemma least_ge fuel p k : (k <= least fuel p k)%nat.
Proof. revert k. induction fuel as [|f IH]; intros k; simpl; [lia|]. destruct (p k); [lia|]. specialize (IH (S k)). lia. Qed.
Definition lib0 : lib := Lib (fun A lt l => ins_sort lt l) (fun A k lt l => ins_sort lt l) (fun b c => foldl N.add 0%N (bb_start b)) slab0.
Lemma lib0_ok : lib_ok lib0.
Proof.
  split; simpl.
  - intros. apply ins_sort_perm.
  - intros. apply ins_sort_perm.
  - intros. apply (least_ge n _ 1).
  - intros n Hn. unfold slab0. destruct n; [lia|]. done.
Qed.

(** 40 insertions of cells of a 2-dimensional grid, a lookup, an update and a rebuild. *)
Definition grid_ops : list (op (P := nat)) :=
  ((fun k => let x := (N.of_nat (k / 7) * 3)%N in let y := (N.of_nat (k mod 7) * 5)%N in Insert ([x; y], [x + 3; y + 5])%N k) <$> seq 0 40)
  ++ [Lookup [4; 11]%N; Update [4; 11]%N ([3; 10], [6; 14])%N].
(** Deciding the preconditions. *)
Definition box_okb (d : nat) (b : box) : bool :=
  (length b.1 =? d)%nat && (length b.2 =? d)%nat && forallb (fun x => (x.1 <=? x.2)%N && (x.2 <? 2 ^ 64)%N) (zip b.1 b.2).
Lemma box_okb_ok d b : box_okb d b = true -> box_ok d b.
Proof.
  unfold box_okb. rewrite !andb_true_iff, !Nat.eqb_eq. intros [[H1 H2] H3]. split; [|done]. split; [lia|]. intros i x y Hx Hy.
  assert ((x, y) ∈ zip b.1 b.2) as Hin. { eapply elem_of_list_lookup_2. apply lookup_zip_with_Some. eauto. }
  rewrite forallb_forall in H3. apply elem_of_list_In in Hin. apply H3 in Hin. simpl in Hin. apply andb_true_iff in Hin as [?%N.leb_le ?%N.ltb_lt]. lia.
Qed.
Definition coord_okb (d : nat) (c : list N) : bool := forallb (fun x => x <? 2 ^ 64)%N c && (length c =? d)%nat.
Lemma coord_okb_ok d c : coord_okb d c = true -> coord_ok d c.
Proof.
  unfold coord_okb. rewrite andb_true_iff, Nat.eqb_eq, forallb_forall. intros [H1 H2]. split; [|done]. apply list.Forall_forall. intros x Hx%elem_of_list_In. by apply N.ltb_lt, H1.
Qed.
Definition op_okb {P} (d n : nat) (o : op (P := P)) : bool :=
  match o with
  | Insert b _ => box_okb d b
  | Update c b => (0 <? n)%nat && coord_okb d c && box_okb d b
  | Clear => true
  | Rebuild => (0 <? n)%nat
  | Lookup c => (0 <? n)%nat && coord_okb d c
  end.
Fixpoint history_okb {P} (d n : nat) (ops : list (op (P := P))) : bool :=
  match ops with [] => true | o :: ops' => op_okb d n o && history_okb d (size_after n o) ops' end.
Lemma history_okb_ok {P} d n (ops : list (op (P := P))) : history_okb d n ops = true -> history_ok d n ops.
Proof.
  revert n. induction ops as [|o ops IH]; intros n; simpl; [done|]. rewrite andb_true_iff. intros [H1 H2]. split; [|auto].
  destruct o as [b p|c b| | |c]; simpl in *; rewrite ?andb_true_iff, ?Nat.ltb_lt in H1; try done.
  - by apply box_okb_ok.
  - destruct H1 as [[? ?] ?]. split_and!; auto; [by apply coord_okb_ok|by apply box_okb_ok].
  - destruct H1. split; [done|by apply coord_okb_ok].
Qed.
Lemma grid_ops_ok : history_ok 2 0 grid_ops /\ Rebuild ∉ grid_ops.
Proof.
  split.
  - apply history_okb_ok. vm_compute. reflexivity.
  - intros Hin. apply elem_of_app in Hin as [Hin|Hin].
    + apply elem_of_list_fmap in Hin as (k & Hk & _). discriminate.
    + repeat (apply elem_of_cons in Hin as [Hin|Hin]; [discriminate|]). by apply elem_of_nil in Hin.
Qed.
Example ex_grid_lookup : (t ← run 0%nat 2 lib0 4 grid_ops; lookup t [7; 12]%N) = Some (Some 16%nat).
Proof. vm_compute. reflexivity. Qed.
Example ex_grid_updated : (t ← run 0%nat 2 lib0 4 grid_ops; a ← lookup t [4; 13]%N; b ← lookup t [4; 14]%N; Some (a, b)) = Some (Some 9%nat, None).
Proof. vm_compute. reflexivity. Qed.
Example ex_grid_range : (t ← run 0%nat 2 lib0 4 grid_ops; ps ← search_range t [2; 4]%N [4; 6]%N; Some (ins_sort Nat.ltb ps)) = Some [0; 1; 7; 8]%nat.
Proof. vm_compute. reflexivity. Qed.
(** The tree of this example has an inner root. *)
Example ex_grid_height : (t ← run 0%nat 2 lib0 4 grid_ops; r ← t_root t; n ← get_node t r; Some (n_level n)) = Some 1%nat.
Proof. vm_compute. reflexivity. Qed.
Example ex_grid_rebuild : (t ← run 0%nat 2 lib0 4 (grid_ops ++ [Rebuild]); ps ← get_all_entries t; a ← lookup t [4; 13]%N; Some (ins_sort Nat.ltb ps, a)) = Some (seq 0 40, Some 9%nat).
Proof. vm_compute. reflexivity. Qed.

(** With overlapping boxes the last-accessed shortcut is visible: the same coordinate is answered
    differently after another lookup. *)
Definition clash : list (op (P := nat)) := [Insert ([0], [10])%N 1%nat; Insert ([5], [20])%N 2%nat].
Theorem C51_lookup_repeatable_refuted :
  history_ok 1 0 clash /\ lib_ok lib0 /\
  exists t t' c, run 0%nat 1 lib0 4 clash = Some t /\ steps 0%nat 1 lib0 [Lookup [15]%N] t = Some t' /\
    coord_ok 1 c /\ lookup t c = Some (Some 1%nat) /\ lookup t' c = Some (Some 2%nat).
Proof.
  split; [|split; [apply lib0_ok|]].
  - apply history_okb_ok. vm_compute. reflexivity.
  - destruct (run 0%nat 1 lib0 4 clash) as [t|] eqn:Hr; [|vm_compute in Hr; discriminate]. vm_compute in Hr. injection Hr as <-.
    eexists _, _, [7]%N. split; [reflexivity|]. split; [vm_compute; reflexivity|]. split; [by apply coord_okb_ok|]. split; vm_compute; reflexivity.
Qed.
Print Assumptions C51_lookup_repeatable_refuted.
