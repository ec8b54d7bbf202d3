(** Proofs about merging and parallel re-chunking. *)
From stdpp Require Import base list list_numbers numbers option gmap countable sets.
From Coq Require Import NArith ZArith Lia.
From Verif Require Import IndexSpec LoopsModel LoopsProofs NDArrayModel NDArrayProofs NDArrayProps StreamerModel StreamerProps NullSupModel CodecModel
  BBoxModel BBoxProps DownsampleModel DownsampleProps
  RTreeModel RTreeInsert RTreeRebuild RTreeProps ChunkMetaModel ChunkMetaProps ChunkCacheModel ChunkCacheSpec ChunkCacheProofs ChunkCacheProofs2 ChunkCacheProofs3 ChunkCacheProps
  LibraryModel LibrarySpec LibraryProofs LibraryProofs2 LibraryProofs3 LibraryProofs4 LibraryProofs5 LibraryProofs6 LibraryProofs7 LibraryProps LibraryFiles LibraryFilesProps
  BoundaryModel BoundaryProps RebuildModel RebuildSpec RebuildProofs RebuildProofs2 RebuildProofs3 RebuildProofs4 PartitionModel PartitionProps ParallelModel ParallelSpec.
From Verif Require Import IndexSpec LibrarySpec.

Lemma compatible_app C1 C2 C : compatible C1 C -> compatible C2 C -> compatible (C1 ++ C2) C.
Proof. intros H1 H2 c c2 [Hc|Hc]%elem_of_app Hc2; [by apply H1|by apply H2]. Qed.
Lemma Forall_choose {A B} (P : A -> B -> Prop) (l : list A) : (forall x, x ∈ l -> exists y, P x y) -> exists ys, Forall2 P l ys.
Proof.
  induction l as [|x l IH]; intros H; [exists []; constructor|]. destruct (H x ltac:(left)) as (y & Hy). destruct IH as (ys & Hys); [intros z Hz; apply H; by right|].
  exists (y :: ys). by constructor.
Qed.

Section par.
Context (vd dims : nat) (junk : N) (L : lib) (HL : lib_ok L).
Notation session := (session vd dims junk L).
Notation holds_array := (holds_array vd dims junk L).

(** ** Merging *)
Lemma merge_fold ds Ss : Forall2 holds_array ds Ss -> forall l S, session l S -> ls_reopened S = false ->
  Forall (compatible (ls_chunks S)) (ls_chunks <$> Ss) -> ForallOrdPairs compatible (ls_chunks <$> Ss) ->
  (ls_handed S + N.of_nat (length (mjoin (ls_chunks <$> Ss))) <= 2 ^ 32)%N ->
  exists l' S', rfold (fun l d => '(l1, _) ← lib_import dims L d true l; Done l1) l ds = Done l' /\ session l' S' /\
    ls_chunks S' = ls_chunks S ++ mjoin (ls_chunks <$> Ss).
Proof using HL.
  induction 1 as [|d S2 ds Ss (l2 & ord & Hl2 & Hord & Hc) _ IH]; intros l S Hl Hre Hco Hop Hn.
  - exists l, S. cbn. rewrite app_nil_r. done.
  - rewrite list.fmap_cons in *. apply list.Forall_cons in Hco as [Hco0 Hco]. inversion Hop as [|? ? Hop0 Hop1]; subst. cbn [mjoin list_join] in *. rewrite app_length, Nat2N.inj_add in Hn.
    destruct (close_ok vd dims l2 S2 ord Hord (session_inv vd dims junk L HL _ _ Hl2)) as (d' & Hc' & Hcl). rewrite Hc in Hc'. injection Hc' as <-.
    assert (ok_import S S2 l d) as Hok.
    { split.
      - intros c c2 H1 H2. by apply (Hco0 c c2).
      - intros c c2 H1 H2. by apply (Hco0 c c2).
      - eapply (C55_import_needs_names vd dims junk L l S l2 S2 ord d HL Hl Hl2 Hord Hc). intros c c2 H1 H2. by apply (Hco0 c c2).
      - split; [done|lia]. }
    destruct (import_lib_ok vd dims L HL l S d S2 true (session_inv vd dims junk L HL _ _ Hl) Hcl Hok) as (l1 & d1 & Ei & _ & _).
    pose proof (ss_import vd dims junk L _ _ _ _ _ _ _ _ _ Hl Hl2 Hord Hc Hok Ei) as Hl1.
    assert (Forall (compatible (ls_chunks (imported S S2))) (ls_chunks <$> Ss)) as Hco1.
    { apply list.Forall_forall. intros C HC. apply compatible_app; [by apply (proj1 (list.Forall_forall _ _) Hco)|by apply (proj1 (list.Forall_forall _ _) Hop0)]. }
    assert (ls_handed (imported S S2) + N.of_nat (length (mjoin (ls_chunks <$> Ss))) <= 2 ^ 32)%N as Hn1 by (unfold imported; cbn [ls_handed]; rewrite <- N.add_assoc; exact Hn).
    destruct (IH l1 (imported S S2) Hl1 Hre Hco1 Hop1 Hn1) as (l' & S' & E & Hs & HC).
    exists l', S'. cbn [rfold]. rewrite Ei. cbn [mbind res_bind]. split; [exact E|]. split; [done|]. cbn [imported ls_chunks] in HC. by rewrite HC, <- app_assoc.
Qed.

Lemma merge_ok ds Ss ord : (0 < dims)%nat -> Forall2 holds_array ds Ss -> ForallOrdPairs compatible (ls_chunks <$> Ss) ->
  (N.of_nat (length (mjoin (ls_chunks <$> Ss))) <= 2 ^ 32)%N -> (forall k, ord k ≡ₚ k) ->
  exists d l S, merge_dirs vd dims junk L ord ds = Done d /\ session l S /\ lib_close vd dims ord l = Done d /\ ls_chunks S = mjoin (ls_chunks <$> Ss).
Proof using HL.
  intros Hd Hds Hop Hn Hord. destruct (open_new vd dims junk L HL 0 (rebuild_cs dims) (rebuild_cs_ok dims Hd)) as (l0 & E0 & _).
  pose proof (ss_new vd dims junk L _ _ _ (rebuild_cs_ok dims Hd) E0) as Hl0.
  destruct (merge_fold ds Ss Hds l0 _ Hl0) as (l & S & E & Hl & HC); cbn [ls_reopened ls_chunks ls_handed]; [done| |done|lia|].
  { apply list.Forall_forall. intros C _ c c2 Hc. destruct (proj1 (elem_of_nil c) Hc). }
  destruct (close_ok vd dims l S ord Hord (session_inv vd dims junk L HL _ _ Hl)) as (d & Ec & _).
  exists d, l, S. refine (conj _ (conj Hl (conj Ec HC))). unfold merge_dirs. rewrite E0. cbn [mbind res_bind]. rewrite E. cbn [mbind res_bind]. exact Ec.
Qed.
End par.

(** ** The chunks of all partitions are the chunks of the whole *)
Lemma disjoint_mjoin {A} (box : A -> list nat * list nat) (f : A -> list (list nat * list nat)) (l : list A) :
  disjoint_boxes (box <$> l) -> (forall p, p ∈ l -> disjoint_boxes (f p)) ->
  (forall p c x, p ∈ l -> c ∈ f p -> in_box c.1 c.2 x -> in_box (box p).1 (box p).2 x) -> disjoint_boxes (mjoin (f <$> l)).
Proof.
  induction l as [|p l IH]; intros Hd Hf Hs; [by intros ????? [=]|]. rewrite list.fmap_cons. cbn [mjoin list_join]. apply disjoint_boxes_app.
  - apply Hf. left.
  - apply IH; [|intros q Hq; apply Hf; by right|intros q c x Hq; apply Hs; by right]. intros k k' c c' x Hk Hk' Hx Hx'.
    specialize (Hd (S k) (S k') c c' x Hk Hk' Hx Hx'). lia.
  - intros c c' x Hc (l' & Hc' & Hl')%elem_of_list_join Hx Hx'. apply elem_of_list_fmap in Hl' as (q & -> & Hq).
    apply elem_of_list_lookup in Hq as [k Hk]. pose proof (Hs p c x ltac:(left) Hc Hx) as Hp.
    assert (in_box (box q).1 (box q).2 x) as Hq. { apply (Hs q c' x); [right; by eapply elem_of_list_lookup_2|done|done]. }
    assert ((box <$> p :: l) !! S k = Some (box q)) as Hk2. { rewrite list_lookup_fmap. change ((p :: l) !! S k) with (l !! k). by rewrite Hk. }
    specialize (Hd 0%nat (S k) (box p) (box q) x eq_refl Hk2 Hp Hq). lia.
Qed.
Lemma disjoint_nodup l : disjoint_boxes l -> (forall c, c ∈ l -> exists x, in_box c.1 c.2 x) -> NoDup l.
Proof.
  intros Hd Hn. apply NoDup_alt. intros i j c Hi Hj. destruct (Hn c) as (x & Hx); [by eapply elem_of_list_lookup_2|]. symmetry. by eapply (Hd i j c c x).
Qed.
Lemma loop_fuel_le a b : Forall2 le a b -> (loop_fuel a <= loop_fuel b)%nat.
Proof. unfold loop_fuel. induction 1; simpl; lia. Qed.
Lemma in_box_lower a b : Forall2 lt a b -> in_box a b a.
Proof. induction 1; simpl; auto. Qed.

Lemma parts_perm b e cs ps : length b = length e -> length cs = length e -> Forall2 (fun p c => exists m, (1 <= m)%nat /\ p = (m * c)%nat) ps cs -> Forall (fun c => 0 < c)%nat cs ->
  mjoin ((fun p => box_chunks (loop_fuel p.2) p.1 p.2 cs) <$> box_chunks (loop_fuel e) b e ps) ≡ₚ box_chunks (loop_fuel e) b e cs.
Proof.
  intros Lb Lc Hps Hcs. assert (Forall (fun c => 0 < c)%nat ps) as Hps0.
  { clear -Hps Hcs. induction Hps as [|p c ps cs (m & Hm & ->) Hpm IH]; [constructor|]. apply list.Forall_cons in Hcs as [? ?]. constructor; [nia|auto]. }
  pose proof (Forall2_length _ _ _ Hps) as Lp.
  assert (forall p, p ∈ box_chunks (loop_fuel e) b e ps -> box_chunks (loop_fuel p.2) p.1 p.2 cs = box_chunks (loop_fuel e) p.1 p.2 cs) as Hfu.
  { intros p Hp. apply box_chunks_sizes in Hp as (_ & _ & _ & _ & _ & H); [|done]. apply box_chunks_fuel; [done|done|]. by apply loop_fuel_le. }
  assert (forall f b e ps, Forall (fun c => 0 < c)%nat ps -> forall c, c ∈ box_chunks f b e ps -> exists x, in_box c.1 c.2 x) as Hne.
  { intros f b' e' ps' Hp c Hc. apply box_chunks_sizes in Hc as (_ & _ & H & _); [|done]. exists c.1. by apply in_box_lower. }
  apply NoDup_Permutation.
  - apply disjoint_nodup.
    + apply (disjoint_mjoin (fun p => p)).
      * rewrite list_fmap_id. by apply box_chunks_disjoint.
      * intros p _. by apply box_chunks_disjoint.
      * intros p c x _ Hc Hx. exact (box_chunks_sound _ _ _ _ _ _ Hcs Hc Hx).
    + intros c (l & Hc & Hl)%elem_of_list_join. apply elem_of_list_fmap in Hl as (p & -> & _). exact (Hne _ _ _ _ Hcs c Hc).
  - apply disjoint_nodup; [by apply box_chunks_disjoint|]. exact (Hne _ _ _ _ Hcs).
  - intros c. rewrite (chunks_nested (loop_fuel e) b e cs ps c Lb Hps Hcs (le_n _)), elem_of_list_join. split.
    + intros (l & Hc & Hl). apply elem_of_list_fmap in Hl as (p & -> & Hp). exists p. split; [done|]. by rewrite <- Hfu.
    + intros (p & Hp & Hc). exists (box_chunks (loop_fuel p.2) p.1 p.2 cs). split; [by rewrite Hfu|]. apply elem_of_list_fmap. by exists p.
Qed.

Lemma FOP_lookup {A} (R : A -> A -> Prop) (l : list A) : (forall i j x y, (i < j)%nat -> l !! i = Some x -> l !! j = Some y -> R x y) -> ForallOrdPairs R l.
Proof.
  induction l as [|x l IH]; intros H; constructor.
  - apply list.Forall_forall. intros y (j & Hj)%elem_of_list_lookup. apply (H 0%nat (S j)); [lia|done|done].
  - apply IH. intros i j a b Hij Hi Hj. apply (H (S i) (S j)); [lia|done|done].
Qed.
Lemma mapR_ok {A B} (f : A -> res B) (P : A -> B -> Prop) l : (forall x, x ∈ l -> exists y, f x = Done y /\ P x y) -> exists ys, mapR f l = Done ys /\ Forall2 P l ys.
Proof.
  induction l as [|x l IH]; intros H; [exists []; split; [done|constructor]|]. destruct (H x ltac:(left)) as (y & Hy & Py). destruct IH as (ys & Hys & Pys); [intros z Hz; apply H; by right|].
  exists (y :: ys). cbn [mapR]. rewrite Hy. cbn [mbind res_bind]. rewrite Hys. cbn [mbind res_bind]. split; [done|by constructor].
Qed.

Section rechunk.
Context (vd dims : nat) (junk : N) (L : lib) (HL : lib_ok L) (ev : evaluator).
Notation session := (session vd dims junk L).

(** ** One partition *)
Lemma part_ok S ge pre post req ov uuids ps n p : ok_rechunk vd dims S ge pre post req ov uuids -> Forall (fun c => 0 < c)%nat ps ->
  p ∈ box_chunks (loop_fuel (vto_nat (zip_with N.sub ge post))) (vto_nat pre) (vto_nat (zip_with N.sub ge post)) ps ->
  (N.of_nat n < chunk_count pre (zip_with N.sub ge post) req)%N -> (chunk_count (vof_nat p.1) (vof_nat p.2) req <= chunk_count pre (zip_with N.sub ge post) req)%N ->
  ok_rebuild vd dims S (replicate dims 0%N) ge (vof_nat p.1) (vof_nat p.2) (zip_with N.sub (vof_nat p.1) pre) req ov (uuids n) /\
  vwsub (vof_nat p.1) pre = zip_with N.sub (vof_nat p.1) pre /\
  (length p.1 = dims /\ length p.2 = dims /\ forall i, (i < dims)%nat -> (pre !!! i <= N.of_nat (p.1 !!! i))%N /\ (p.1 !!! i < p.2 !!! i)%nat /\ (N.of_nat (p.2 !!! i) <= ge !!! i - post !!! i)%N).
Proof using.
  intros [(Lz & Lg & Hh) [Hne Hgf] (Lp & Lpo & Hpad) Hcnt Hints [Lr Hreq] Hvol Hids Hnames] Hps Hp Hn Hcc. rewrite F1_at in Hints.
  apply box_chunks_sizes in Hp as (A1 & A2 & A3 & _ & A5 & A6); [|done]. unfold vto_nat in *. rewrite fmap_length in A1, A2. rewrite Lp in A1, A2.
  rewrite F2_at in A3, A5, A6. destruct A3 as [_ A3], A5 as [_ A5], A6 as [_ A6]. rewrite fmap_length in A6.
  assert (length (zip_with N.sub ge post) = dims) as Le by (rewrite zip_with_length; lia).
  assert (forall i, (i < dims)%nat -> (pre !!! i <= N.of_nat (p.1 !!! i))%N /\ (p.1 !!! i < p.2 !!! i)%nat /\ (N.of_nat (p.2 !!! i) <= ge !!! i - post !!! i)%N /\ (pre !!! i + post !!! i < ge !!! i)%N /\ (ge !!! i + N.of_nat ov < 2 ^ 31)%N) as Hat.
  { intros i Hi. specialize (A3 i ltac:(lia)). specialize (A5 i ltac:(lia)). specialize (A6 i ltac:(lia)). rewrite fmap_at in A5, A6 by lia. rewrite zip_at in A6 by lia. specialize (Hpad i Hi).
    specialize (Hints i ltac:(lia)). split_and!; [lia|lia|lia|lia|exact Hints]. }
  assert (forall i, (i < dims)%nat -> vof_nat p.1 !!! i = N.of_nat (p.1 !!! i)) as E1 by (intros i Hi; unfold vof_nat; by rewrite fmap_at by lia).
  assert (forall i, (i < dims)%nat -> vof_nat p.2 !!! i = N.of_nat (p.2 !!! i)) as E2 by (intros i Hi; unfold vof_nat; by rewrite fmap_at by lia).
  assert (length (vof_nat p.1) = dims /\ length (vof_nat p.2) = dims) as [L1 L2] by (unfold vof_nat; rewrite !fmap_length; done).
  split; [|split].
  - split; try done.
    + split_and!; apply F2_at; rewrite ?replicate_length; (split; [lia|]); intros i Hi.
      * rewrite lookup_total_replicate_2 by lia. lia.
      * rewrite E1, E2 by lia. destruct (Hat i ltac:(lia)) as (? & ? & ? & _). lia.
      * rewrite E2 by lia. destruct (Hat i ltac:(lia)) as (? & ? & ? & ? & _). lia.
    + by apply F1_at.
    + apply F2_at. rewrite !zip_with_length. split; [lia|]. intros i Hi. rewrite !zip_at by lia. cbn [fst snd]. rewrite E1, E2 by lia. destruct (Hat i ltac:(lia)) as (? & ? & ? & ? & ?). lia.
    + lia.
    + split.
      * intros i Hi. destruct (Hnames n i Hn ltac:(lia)) as (N1 & N2 & N3 & _). done.
      * intros i j Hi Hj E. destruct (Hnames n i Hn ltac:(lia)) as (_ & _ & _ & N4). by apply (N4 n j Hn ltac:(lia)) in E as [_ E].
  - apply vwsub_le.
    + apply F2_at. split; [lia|]. intros i Hi. rewrite E1 by lia. apply Hat. lia.
    + apply F1_at. intros i Hi. rewrite E1 by lia. destruct (Hat i ltac:(lia)) as (? & ? & ? & ? & ?). change W with (2 ^ 64)%N. lia.
  - split; [done|]. split; [done|]. intros i Hi. destruct (Hat i Hi) as (? & ? & ? & _). done.
Qed.

(** ** One job *)
Lemma job_fold S rs req ov uuids ord jobs job (Q : nat -> dir -> lstate -> Prop) (parts : list (list nat * list nat)) :
  (forall n p l, parts !! n = Some p -> session l S -> exists l' d T,
     rebuild_partial vd dims junk L ev (vof_nat p.1) (vof_nat p.2) (vwsub (vof_nat p.1) rs) req (Dir None ∅) ov true (uuids n) (ord n) l = Done (l', d) /\ session l' S /\ Q n d T) ->
  forall rest k l D, (forall i p, rest !! i = Some p -> parts !! (k + i)%nat = Some p) -> session l S ->
  exists l' D', rfold (rechunk_part vd dims junk L ev rs req ov uuids ord jobs job) (l, D) (imap (fun i p => ((k + i)%nat, p)) rest) = Done (l', D') /\ session l' S /\
    (forall n, (n < k)%nat -> D' !! n = D !! n) /\
    forall i, (i < length rest)%nat -> if ((k + i) mod jobs =? job)%nat then exists d T, D' !! (k + i)%nat = Some d /\ Q (k + i)%nat d T else D' !! (k + i)%nat = D !! (k + i)%nat.
Proof using.
  intros Hpart. induction rest as [|p rest IH]; intros k l D Hr Hl.
  - exists l, D. split; [done|]. split; [done|]. split; [done|]. intros i Hi. cbn in Hi. lia.
  - assert (exists l1 D1, rechunk_part vd dims junk L ev rs req ov uuids ord jobs job (l, D) ((k + 0)%nat, p) = Done (l1, D1) /\ session l1 S /\ (forall n, n <> k -> D1 !! n = D !! n) /\
        if (k mod jobs =? job)%nat then exists d T, D1 !! k = Some d /\ Q k d T else D1 !! k = D !! k) as (l1 & D1 & E1 & Hl1 & Ho & Hk).
    { unfold rechunk_part. destruct p as [s e]. rewrite Nat.add_0_r. destruct (k mod jobs =? job)%nat eqn:Ej.
      - destruct (Hpart k (s, e) l) as (l1 & d & T & E & Hl1 & HQ); [rewrite <- (Nat.add_0_r k); by apply Hr|done|]. cbn [fst snd] in E. rewrite E. cbn [mbind res_bind]. clear E Hpart.
        exists l1, (<[k := d]> D). split; [done|]. split; [done|]. split; [intros n Hn; by rewrite lookup_insert_ne|]. exists d, T. by rewrite lookup_insert.
      - exists l, D. split; [done|]. split; [done|]. split; [done|]. done. }
    destruct (IH (Datatypes.S k) l1 D1) as (l' & D' & E & Hl' & Hlt & Hge).
    { intros i q Hq. replace (Datatypes.S k + i)%nat with (k + Datatypes.S i)%nat by lia. by apply Hr. }
    { done. }
    exists l', D'. split; [|split; [done|split]].
    + cbn [imap rfold]. rewrite E1. cbn [mbind res_bind]. rewrite <- E. f_equal. apply imap_ext. intros i x _. cbn. f_equal. lia.
    + intros n Hn. rewrite Hlt by lia. apply Ho. lia.
    + intros [|i] Hi.
      * rewrite Nat.add_0_r. destruct (k mod jobs =? job)%nat; [destruct Hk as (d & T & Hk & HQ); exists d, T; rewrite Hlt by lia; done|rewrite Hlt by lia; done].
      * specialize (Hge i ltac:(cbn in Hi; lia)). replace (k + Datatypes.S i)%nat with (Datatypes.S k + i)%nat by lia.
        destruct ((Datatypes.S k + i) mod jobs =? job)%nat; [done|]. rewrite Hge. apply Ho. lia.
Qed.
End rechunk.
