(** Proofs about StorageModel: saving is recording the stored portions. *)
From stdpp Require Import base list list_numbers numbers option gmap countable sets.
From Coq Require Import NArith ZArith Lia.
From Verif Require Import IndexSpec LoopsModel LoopsProofs NDArrayModel NDArrayProofs NDArrayOps NDArrayProps StreamerModel StreamerProps CodecModel
  BBoxModel BBoxProps DownsampleModel DownsampleProps RTreeModel RTreeInsert ChunkMetaModel ChunkCacheModel ChunkCacheSpec LibraryModel LibrarySpec LibraryProofs6
  RebuildModel RebuildSpec RebuildProofs RebuildProofs4 RecordModel RecordSpec RecordProofs2 RecordProofs3 StorageModel StorageSpec StorageProofs StorageProofs2.
From Verif Require Import IndexSpec LibrarySpec.

Lemma region_ok_at s sh d : length sh = length s -> length d = length s -> (forall i, (i < length s)%nat -> (0 < d !!! i /\ s !!! i + d !!! i < W /\ 0 < s !!! i + N.of_nat (sh !!! i) < W)%N) -> region_ok s sh d.
Proof.
  revert sh d. induction s as [|a s IH]; intros [|n sh] [|b d]; try discriminate 1; try discriminate 2; [done|]. intros H1 H2 H. cbn [region_ok]. split; [exact (H 0%nat ltac:(cbn [length]; lia))|].
  apply IH; [cbn [length] in H1; lia|cbn [length] in H2; lia|]. intros i Hi. exact (H (Datatypes.S i) ltac:(cbn [length]; lia)).
Qed.
Lemma on_grid_at s sh d k : length sh = length s -> length d = length s -> on_grid s sh d k <-> length k = length s /\ forall i, (i < length s)%nat -> (s !!! i <= k !!! i * d !!! i < s !!! i + N.of_nat (sh !!! i))%N.
Proof.
  revert sh d k. induction s as [|a s IH]; intros [|n sh] [|b d] k; try discriminate 1; try discriminate 2.
  - intros _ _. destruct k; cbn [on_grid length]; [split; [intros _; split; [done|intros i Hi; lia]|done]|split; [done|intros [? _]; lia]].
  - intros H1 H2. destruct k as [|x k]; cbn [on_grid]; [split; [done|intros [H _]; discriminate H]|]. cbn [length] in H1, H2. rewrite IH by lia. split.
    + intros [H [Hl Hi]]. split; [cbn [length]; lia|]. intros [|i] Hlt; [exact H|]. exact (Hi i ltac:(cbn [length] in Hlt; lia)).
    + intros [Hl Hi]. cbn [length] in Hl. split; [exact (Hi 0%nat ltac:(cbn [length]; lia))|]. split; [lia|]. intros i Hlt. exact (Hi (Datatypes.S i) ltac:(cbn [length]; lia)).
Qed.
Lemma rfold_skip {S B} (f : S -> B -> res S) (P : B -> bool) l : (forall s x, P x = false -> f s x = Done s) -> forall s, rfold f s l = rfold f s (base.filter (fun x => P x) l).
Proof.
  intros Hf. induction l as [|x l IH]; intros s; [done|]. rewrite filter_cons. destruct (decide (P x)) as [Hp|Hp]; cbn [rfold].
  - destruct (f s x); [|done..]. cbn [mbind res_bind]. apply IH.
  - rewrite Hf; [|by destruct (P x)]. cbn [mbind res_bind]. apply IH.
Qed.
Lemma rfold_map {S B C} (f : S -> B -> res S) (g : C -> B) l : forall s, rfold f s (g <$> l) = rfold (fun s c => f s (g c)) s l.
Proof. induction l as [|x l IH]; intros s; [done|]. rewrite list.fmap_cons. cbn [rfold]. destruct (f s (g x)); [|done..]. cbn [mbind res_bind]. apply IH. Qed.

Section saving.
Context (vd dims : nat) (junk : N) (L : lib) (HL : lib_ok L) (ct cl : nat) (dstart dshape ds : list N) (chunks : list (list Z * list Z)) (E : nat -> list Z -> list N)
  (cut : nat -> nat -> list nat -> bool) (uuids : nat -> nat -> nat -> bytes) (T : nat) (Hok : ok_save vd dims ct cl dstart dshape ds chunks E uuids T).
Notation ps := (part_start dstart).
Notation pn := (part_shape dstart dshape).
Notation meets := (part_meets dstart dshape).
Notation pst c := (pstart c dstart).

Definition numbered : list (nat * (list Z * list Z)) := imap (fun j c => (j, c)) chunks.
Definition kept : list (nat * (list Z * list Z)) := base.filter (fun p : nat * (list Z * list Z) => meets p.2) numbered.
Definition kat (i : nat) : nat * (list Z * list Z) := default (0%nat, ([], [])) (kept !! i).
Definition k_regions : list (list N) := (fun p : nat * (list Z * list Z) => ps p.2) <$> kept.
Definition k_shapes (i : nat) : list nat := pn (kat i).2.
Definition buf0 : ndarr N := anew vd junk (replicate dims 1%nat).
Definition canon (t j : nat) (c : list Z * list Z) : ndarr N := default buf0 (collect vd junk (pst c) (vof_nat (pn c)) c (E t) (cut t j) buf0).
Definition k_field (t i : nat) : ndarr N := canon t (kat i).1 (kat i).2.
Definition k_names (t i k : nat) : bytes := uuids t (kat i).1 k.

Lemma numbered_at j c : (j, c) ∈ numbered <-> chunks !! j = Some c.
Proof using. unfold numbered. rewrite elem_of_lookup_imap. split; [intros (i & y & Heq & Hi); by injection Heq as -> ->|intros H; by exists j, c]. Qed.
Lemma numbered_NoDup : NoDup numbered.*1.
Proof using. unfold numbered. rewrite fmap_imap. unfold compose. cbn [fst]. replace (imap (λ (n : nat) (_ : list Z * list Z), n) chunks) with (seq 0 (length chunks)); [apply NoDup_seq|]. apply list_eq. intros i. rewrite list_lookup_imap. destruct (chunks !! i) as [c|] eqn:Ei; cbn [fmap option_fmap option_map]; [apply lookup_seq; split; [done|]; by eapply lookup_lt_Some|]. apply lookup_seq_ge. by apply lookup_ge_None. Qed.
Lemma kept_at i j c : kept !! i = Some (j, c) -> kat i = (j, c) /\ chunks !! j = Some c /\ meets c = true.
Proof using. intros H. split; [unfold kat; by rewrite H|]. apply elem_of_list_lookup_2, elem_of_list_filter in H as [H1 H2]. cbn [snd] in H1. split; [by apply numbered_at|by apply Is_true_true in H1]. Qed.
Lemma kept_has j c : chunks !! j = Some c -> meets c = true -> exists i, kept !! i = Some (j, c).
Proof using. intros H1 H2. apply elem_of_list_lookup, elem_of_list_filter. split; [cbn [snd]; by apply Is_true_true|by apply numbered_at]. Qed.
Lemma kept_inj i i' j c c' : kept !! i = Some (j, c) -> kept !! i' = Some (j, c') -> i = i'.
Proof using.
  intros H1 H2. destruct (kept_at _ _ _ H1) as (_ & A & _). destruct (kept_at _ _ _ H2) as (_ & B & _). assert (c' = c) as -> by congruence.
  eapply NoDup_lookup; [|exact H1|exact H2]. apply NoDup_filter. eapply NoDup_fmap_1. exact numbered_NoDup.
Qed.
Lemma sv_lens : length dstart = length ds /\ length dshape = length ds /\ Forall2 (fun s m => s + m < 2 ^ 64)%N dstart dshape /\ Forall (fun m => 0 < m)%N dshape.
Proof using Hok.
  destruct Hok as [(_ & H1 & H2) _ [HF HG] _ _ _ _ _ _ _]. split; [done|]. split; [done|]. split; [done|]. apply F1_at. intros i Hi. apply F2_at in HF as [_ HF]. apply HF. lia.
Qed.
Lemma k_chunk c j : chunks !! j = Some c -> sim_chunk (length ds) c.
Proof using Hok. intros Hj. apply (sv_chunks _ _ _ _ _ _ _ _ _ _ _ Hok). by eapply elem_of_list_lookup_2. Qed.
Lemma sampled_at k i : length k = length ds -> (i < length ds)%nat -> sampled dstart ds k !!! i = (dstart !!! i + k !!! i * ds !!! i)%N.
Proof using Hok. destruct sv_lens as (L1 & _). intros Lk Hi. unfold sampled, times. rewrite zip_at by (rewrite ?zip_with_length; lia). by rewrite zip_at by lia. Qed.
Lemma sampled_length k : length k = length ds -> length (sampled dstart ds k) = length ds.
Proof using Hok. destruct sv_lens as (L1 & _). intros Lk. unfold sampled, times. rewrite !zip_with_length. lia. Qed.
Lemma grid_iff j c k : chunks !! j = Some c -> meets c = true -> on_grid (ps c) (pn c) ds k <-> length k = length ds /\ domain dstart dshape (sampled dstart ds k) /\ cell_in c (sampled dstart ds k).
Proof using Hok.
  intros Hj Hm. destruct sv_lens as (L1 & L2 & HD & HP). pose proof (k_chunk c j Hj) as Hc. destruct (part_lengths _ c Hc dstart dshape L1 L2) as (P1 & P2 & P3). pose proof (pstart_length _ c Hc dstart dshape L1 L2) as LP.
  rewrite on_grid_at by lia. rewrite P1. rewrite (and_comm (domain _ _ _)), <- (portion_cells _ c Hc dstart dshape L1 L2 HD HP _ Hm). rewrite domain_at by (unfold vof_nat; rewrite fmap_length; lia). rewrite LP.
  assert (length k = length ds -> forall i, (i < length ds)%nat -> (ps c !!! i <= k !!! i * ds !!! i < ps c !!! i + N.of_nat (pn c !!! i))%N <->
    (pst c !!! i <= sampled dstart ds k !!! i < pst c !!! i + vof_nat (pn c) !!! i)%N) as Hi.
  { intros Lk i Hi. rewrite sampled_at by done. unfold vof_nat. rewrite fmap_at by lia. unfold pstart. rewrite zip_at by lia. lia. }
  split.
  - intros [Lk H]. split; [done|]. split; [by apply sampled_length|]. intros i Hlt. apply (Hi Lk i Hlt), H, Hlt.
  - intros (Lk & _ & H). split; [done|]. intros i Hlt. apply (Hi Lk i Hlt), H, Hlt.
Qed.
Lemma canon_ok (Hjunk : (junk < 2 ^ 32)%N) t j c fb : chunks !! j = Some c -> meets c = true -> float_array vd fb ->
  exists f, collect vd junk (pst c) (vof_nat (pn c)) c (E t) (cut t j) fb = Some f /\ float_array vd f /\ a_shape f = 1%nat :: pn c /\
    (forall x, in_shape (pn c) x -> aread vd f (0%nat :: x) = Some (if cut t j (0%nat :: x) then replicate vd 0%N else E t (centre (at_cell c dstart x)))).
Proof using Hok.
  intros Hj Hm Hf. destruct sv_lens as (L1 & L2 & HD & HP). pose proof (k_chunk c j Hj) as Hc. 
  exact (collect_ok _ c Hc dstart dshape L1 L2 HD HP vd junk (E t) (sv_field _ _ _ _ _ _ _ _ _ _ _ Hok t) Hjunk Hm (cut t j) fb Hf).
Qed.
Lemma buf0_ok (Hjunk : (junk < 2 ^ 32)%N) : float_array vd buf0.
Proof using Hok. apply RebuildProofs4.anew_float; [done|]. destruct (sv_dims _ _ _ _ _ _ _ _ _ _ _ Hok) as [-> _]. discriminate. Qed.
Lemma canon_is (Hjunk : (junk < 2 ^ 32)%N) t j c : chunks !! j = Some c -> meets c = true -> float_array vd (canon t j c) /\ a_shape (canon t j c) = 1%nat :: pn c /\
    (forall x, in_shape (pn c) x -> aread vd (canon t j c) (0%nat :: x) = Some (if cut t j (0%nat :: x) then replicate vd 0%N else E t (centre (at_cell c dstart x)))).
Proof using Hok. intros Hj Hm. destruct (canon_ok Hjunk t j c buf0 Hj Hm (buf0_ok Hjunk)) as (f & Ef & H). unfold canon. rewrite Ef. exact H. Qed.

Lemma region_lookup i rs : k_regions !! i = Some rs -> exists j c, kept !! i = Some (j, c) /\ kat i = (j, c) /\ chunks !! j = Some c /\ meets c = true /\ rs = ps c.
Proof using. unfold k_regions. rewrite list_lookup_fmap. destruct (kept !! i) as [[j c]|] eqn:Ek; [|done]. cbn [fmap option_fmap option_map snd]. intros [= <-]. exists j, c. destruct (kept_at i j c Ek) as (A & B & D). done. Qed.
Lemma part_cells_is c : meets c = true -> part_cells cl dstart dshape ds c = region_cells cl ds (ps c) (pn c).
Proof using. intros H. unfold part_cells. by rewrite H. Qed.
Lemma total_is : total_cells cl ds k_regions k_shapes = foldr N.add 0%N (part_cells cl dstart dshape ds <$> chunks).
Proof using.
  unfold total_cells. assert (imap (λ j rs, region_cells cl ds rs (k_shapes j)) k_regions = (fun p => part_cells cl dstart dshape ds p.2) <$> kept) as ->.
  { apply list_eq. intros i. rewrite list_lookup_imap. rewrite list_lookup_fmap. unfold k_regions. rewrite list_lookup_fmap. destruct (kept !! i) as [[j c]|] eqn:Ek; [|done].
    cbn [fmap option_fmap option_map snd]. destruct (kept_at i j c Ek) as (A & _ & D). f_equal. unfold k_shapes. rewrite A. cbn [snd]. by rewrite part_cells_is. }
  transitivity (foldr N.add 0%N ((λ p : nat * (list Z * list Z), part_cells cl dstart dshape ds p.2) <$> numbered)).
  - unfold kept. induction numbered as [|p l IH]; [done|]. rewrite filter_cons. destruct (decide (meets p.2)) as [Hd|Hd]; rewrite ?list.fmap_cons; cbn [foldr]; rewrite IH; [done|].
    unfold part_cells at 2. destruct (meets p.2); [by destruct Hd|]. lia.
  - f_equal. unfold numbered. rewrite fmap_imap. apply list_eq. intros i. rewrite list_lookup_imap, list_lookup_fmap. by destruct (chunks !! i).
Qed.
Lemma k_ok (Hjunk : (junk < 2 ^ 32)%N) : ok_record vd dims ct cl ds k_regions k_shapes k_field k_names T.
Proof using Hok.
  destruct sv_lens as (L1 & L2 & HD & HP). pose proof Hok as [(Hdims & _ & _) Hsz [HF _] _ Hap _ Hst Hv Hid Hnm]. split.
  - done.
  - done.
  - intros i rs Hi. destruct (region_lookup i rs Hi) as (j & c & _ & Hk & Hj & Hm & ->). unfold k_shapes. rewrite Hk. cbn [snd]. pose proof (k_chunk c j Hj) as Hc. destruct (part_lengths _ c Hc dstart dshape L1 L2) as (P1 & P2 & P3).
    apply region_ok_at; [lia|lia|]. intros a Ha. destruct (part_at _ c Hc dstart dshape L1 L2 a ltac:(lia)) as (E1 & E2 & E3). apply (meets_at _ c Hc dstart dshape L1 L2 HD HP) with (i := a) in Hm; [|lia]. 
    destruct (small_at _ c Hc a ltac:(lia)). destruct (dom_at _ dstart dshape L1 L2 HD HP a ltac:(lia)). apply F2_at in HF as [_ HF]. specialize (HF a ltac:(lia)). rewrite E3, E2, E1. rewrite WE in *. lia.
  - intros t i Ht Hi. unfold k_regions in Hi. rewrite fmap_length in Hi. destruct (lookup_lt_is_Some_2 _ _ Hi) as [[j c] Hk]. destruct (kept_at i j c Hk) as (A & B & D). destruct (canon_is Hjunk t j c B D) as (H1 & H2 & _).
    unfold k_field, k_shapes. rewrite A. done.
  - intros i i' rs rs' k Hi Hi' Hg Hg'. destruct (region_lookup i rs Hi) as (j & c & K & Hk & Hj & Hm & ->). destruct (region_lookup i' rs' Hi') as (j' & c' & K' & Hk' & Hj' & Hm' & ->).
    unfold k_shapes in Hg, Hg'. rewrite Hk in Hg. rewrite Hk' in Hg'. cbn [snd] in Hg, Hg'. apply (grid_iff j c k Hj Hm) in Hg as (_ & _ & Hg). apply (grid_iff j' c' k Hj' Hm') in Hg' as (_ & _ & Hg').
    assert (j = j') as <- by exact (Hap _ _ _ _ _ Hj Hj' Hg Hg'). exact (kept_inj _ _ _ _ _ K K').
  - done.
  - done.
  - by rewrite total_is.
  - intros t i rs k Ht Hi Hk. destruct (region_lookup i rs Hi) as (j & c & K & Hka & Hj & Hm & ->). unfold k_shapes in Hk. rewrite Hka in Hk. cbn [snd] in Hk. rewrite <- part_cells_is in Hk by done.
    destruct (Hnm t j c k Ht Hj Hk) as (N1 & N2 & N3 & N4). unfold k_names. rewrite Hka. cbn [fst]. split; [done|]. split; [done|]. split; [done|].
    intros t' i' rs' k' Ht' Hi' Hk' Heq. destruct (region_lookup i' rs' Hi') as (j' & c' & K' & Hka' & Hj' & Hm' & ->). unfold k_shapes in Hk'. rewrite Hka' in Hk'. cbn [snd] in Hk'. rewrite <- part_cells_is in Hk' by done.
    rewrite Hka' in Heq. cbn [fst] in Heq. destruct (N4 t' j' c' k' Ht' Hj' Hk' Heq) as (-> & -> & ->). split; [done|]. split; [|done]. exact (kept_inj _ _ _ _ _ K K').
Qed.

(** ** The callbacks do what RecordModel does with the canonical buffers *)
Definition portion_of (c : list Z * list Z) : option (list N * list N) := if meets c then Some (pst c, vof_nat (pn c)) else None.
Lemma portions_ok : mapM (storage_portion dstart dshape) chunks = Some (portion_of <$> chunks).
Proof using Hok.
  destruct sv_lens as (L1 & L2 & HD & HP). apply mapM_Some. apply Forall2_fmap_r. apply Forall2_same_length_lookup_2; [done|]. intros i c c' Hc Hc'. assert (c' = c) as -> by congruence.
  exact (StorageProofs2.portion_ok _ c (k_chunk c i Hc) dstart dshape L1 L2 HD HP).
Qed.
Lemma record_region_ext t f f' uu rs st : a_shape f = a_shape f' -> (forall x, in_shape (a_shape f) x -> aread vd f x = aread vd f' x) ->
  record_region vd dims junk L ct cl ds t f uu rs st = record_region vd dims junk L ct cl ds t f' uu rs st.
Proof using. intros H1 H2. unfold record_region. destruct st as [[pr bu] l]. by rewrite (downsample_ext vd junk f f' _ _ pr H1 H2). Qed.
Definition save_fn (t : nat) (st : ndarr N * (ndarr N * ndarr N * clib)) (p : nat * (list Z * list Z)) := save_chunk vd dims junk L ct cl dstart ds t (E t) (cut t p.1) (uuids t p.1) p.2 (portion_of p.2) st.
Lemma step_sim (Hjunk : (junk < 2 ^ 32)%N) t fb st st' : float_array vd fb -> record_step vd dims junk L ct cl ds k_regions k_field k_names st t = Done st' ->
  exists fb', save_step vd dims junk L ct cl dstart ds chunks (portion_of <$> chunks) E cut uuids (fb, st) t = Done (fb', st') /\ float_array vd fb'.
Proof using Hok.
  intros Hfb Hr. unfold save_step.
  assert (imap (λ (j : nat) (c : (list Z * list Z) * option (list N * list N)), (j, c)) (zip chunks (portion_of <$> chunks)) = (fun p : nat * (list Z * list Z) => (p.1, (p.2, portion_of p.2))) <$> numbered) as ->.
  { apply list_eq. intros i. unfold numbered. rewrite list_lookup_imap, list_lookup_fmap, list_lookup_imap, lookup_zip_with, list_lookup_fmap. by destruct (chunks !! i). }
  rewrite rfold_map. rewrite (rfold_skip _ (fun p => meets p.2)).
  2:{ intros [f0 s0] [j c] Hm. cbn [snd fst] in *. unfold save_chunk, portion_of. by rewrite Hm. }
  change (exists fb', rfold (save_fn t) (fb, st) kept = Done (fb', st') /\ float_array vd fb').
  assert (imap (fun (j : nat) (r : list N) => (j, r)) k_regions = imap (fun i p => (i, ps p.2)) kept) as Hreg.
  { apply list_eq. intros i. unfold k_regions. rewrite !list_lookup_imap, list_lookup_fmap. by destruct (kept !! i). }
  unfold record_step in Hr. rewrite Hreg in Hr. clear Hreg.
  assert (forall l i0, (forall i p, l !! i = Some p -> kept !! (i0 + i)%nat = Some p) -> forall fb st st', float_array vd fb ->
    rfold (λ (st : ndarr N * ndarr N * clib) (jr : nat * list N), record_region vd dims junk L ct cl ds t (k_field t jr.1) (k_names t jr.1) jr.2 st) st (imap (λ i (p : nat * (list Z * list Z)), ((i0 + i)%nat, ps p.2)) l) = Done st' ->
    exists fb', rfold (save_fn t) (fb, st) l = Done (fb', st') /\ float_array vd fb') as Hsim.
  { induction l as [|[j c] l IH]; intros i0 Hl fb0 st0 st1 Hfb0 Hrun.
    - cbn [imap rfold] in Hrun. injection Hrun as ->. exists fb0. done.
    - rewrite imap_cons in Hrun. cbn [rfold] in Hrun |- *. pose proof (Hl 0%nat _ eq_refl) as Hk. destruct (kept_at _ _ _ Hk) as (A & B & D). cbn [fst snd] in Hrun |- *.
      destruct (canon_ok Hjunk t j c fb0 B D Hfb0) as (f & Ef & Hff & Hsf & Hvf). destruct (canon_is Hjunk t j c B D) as (_ & Hsc & Hvc).
      replace (save_fn t (fb0, st0) (j, c)) with (r ← record_region vd dims junk L ct cl ds t f (uuids t j) (vwsub (pst c) dstart) st0; Done (f, r)) by (unfold save_fn, save_chunk, portion_of; cbn [fst snd]; rewrite D; cbn [fst snd]; rewrite Ef; done).
      destruct sv_lens as (L1 & L2 & HD & HP). rewrite (rel_ok _ c (k_chunk c j B) dstart dshape L1 L2 HD HP D).
      replace (k_field t (i0 + 0)) with (canon t j c) in Hrun by (unfold k_field; by rewrite A). replace (k_names t (i0 + 0)) with (uuids t j) in Hrun by (unfold k_names; by rewrite A).
      rewrite (record_region_ext t f (canon t j c)); [|congruence|].
      2:{ intros x Hx. rewrite Hsf in Hx. apply in_shape_cons in Hx as (a & y & -> & Ha & Hy). assert (a = 0%nat) as -> by lia. by rewrite Hvf, Hvc. }
      destruct (record_region vd dims junk L ct cl ds t (canon t j c) (uuids t j) (ps c) st0) as [st2|e|] eqn:Er; [|discriminate Hrun..]. cbn [mbind res_bind] in Hrun |- *.
      apply (IH (Datatypes.S i0)); [|done|].
      + intros i p Hi. rewrite <- (Hl (Datatypes.S i) p Hi). f_equal. lia.
      + rewrite <- Hrun. f_equal. apply imap_ext. intros i p _. unfold compose. f_equal. lia. }
  destruct (Hsim kept 0%nat (fun i p H => H) fb st st' Hfb) as (fb' & Hrun & Hfb'); [exact Hr|]. exists fb'. split; [exact Hrun|exact Hfb'].
Qed.
Lemma steps_sim (Hjunk : (junk < 2 ^ 32)%N) ts fb st st' : float_array vd fb -> rfold (record_step vd dims junk L ct cl ds k_regions k_field k_names) st ts = Done st' ->
  exists fb', rfold (save_step vd dims junk L ct cl dstart ds chunks (portion_of <$> chunks) E cut uuids) (fb, st) ts = Done (fb', st').
Proof using Hok.
  revert fb st. induction ts as [|t ts IH]; intros fb st Hfb Hr; cbn [rfold] in Hr |- *; [injection Hr as ->; by exists fb|].
  destruct (record_step vd dims junk L ct cl ds k_regions k_field k_names st t) as [st1|e|] eqn:Es; [|discriminate Hr..]. cbn [mbind res_bind] in Hr.
  destruct (step_sim Hjunk t fb st st1 Hfb Es) as (fb1 & -> & Hfb1). cbn [mbind res_bind]. exact (IH fb1 st1 Hfb1 Hr).
Qed.
Lemma save_is (Hjunk : (junk < 2 ^ 32)%N) l : record vd dims junk L ct cl ds k_regions k_field k_names T = Done l -> save_field vd dims junk L ct cl dstart dshape ds chunks E cut uuids T = Done l.
Proof using Hok.
  unfold record, save_field. destruct (lib_open vd dims junk L 0 (rebuild_cs dims) (Dir None ∅)) as [l0|e|]; [|discriminate 1..]. cbn [mbind res_bind]. rewrite portions_ok. cbn [of_opt mbind res_bind].
  destruct (rfold (record_step vd dims junk L ct cl ds k_regions k_field k_names) (anew vd junk (replicate dims 1%nat), anew vd junk (replicate dims 1%nat), l0) (seq 0 T)) as [[[p b] l1]|e|] eqn:Er; [|discriminate 1..].
  cbn [mbind res_bind]. intros [= <-]. destruct (steps_sim Hjunk _ buf0 _ _ (buf0_ok Hjunk) Er) as (fb' & Es). unfold buf0 in Es. rewrite Es. done.
Qed.

(** ** The samples *)
Lemma sample_value (Hjunk : (junk < 2 ^ 32)%N) t i j c k : kept !! i = Some (j, c) -> on_grid (ps c) (pn c) ds k ->
  aread vd (k_field t i) (0%nat :: at_pos (ps c) (times k ds)) = Some (stored_value vd dstart E cut t j c (sampled dstart ds k)).
Proof using Hok.
  intros Hk Hg. destruct (kept_at i j c Hk) as (A & B & D). destruct sv_lens as (L1 & L2 & HD & HP). pose proof (k_chunk c j B) as Hc. destruct (part_lengths _ c Hc dstart dshape L1 L2) as (P1 & P2 & P3). pose proof (pstart_length _ c Hc dstart dshape L1 L2) as LP.
  destruct (canon_is Hjunk t j c B D) as (_ & _ & Hv). unfold k_field. rewrite A. cbn [fst snd].
  pose proof Hg as Hg'. apply (grid_iff j c k B D) in Hg' as (Lk & Hdom & Hcell). assert (domain (pst c) (vof_nat (pn c)) (sampled dstart ds k)) as Hp by (apply (portion_cells _ c Hc dstart dshape L1 L2 HD HP _ D); done).
  destruct (at_cell_back _ c Hc dstart dshape L1 L2 _ Hp) as [Hin Hback]. pose proof (sampled_length k Lk) as Ls.
  assert (at_pos (ps c) (times k ds) = vto_nat (zip_with N.sub (sampled dstart ds k) (pst c))) as ->.
  { unfold at_pos. f_equal. apply eq_at. unfold times. rewrite !zip_with_length. split; [lia|]. intros a Ha. rewrite !zip_at by (rewrite ?zip_with_length; lia). rewrite sampled_at by lia. unfold pstart. rewrite zip_at by lia. lia. }
  rewrite Hv by exact Hin. rewrite Hback. unfold stored_value. done.
Qed.
Lemma save_ok (Hjunk : (junk < 2 ^ 32)%N) : exists l S, save_field vd dims junk L ct cl dstart dshape ds chunks E cut uuids T = Done l /\ session vd dims junk L l S /\
  saved vd ct cl dstart dshape ds chunks E cut T (ls_chunks S).
Proof using Hok HL.
  destruct (record_ok vd dims junk L HL ct cl ds k_regions k_shapes k_field k_names T (k_ok Hjunk) Hjunk) as (l & S & Er & Hl & [R1 R2 R3] & _). exists l, S. split; [exact (save_is Hjunk l Er)|]. split; [exact Hl|]. clear Er Hl. split.
  - intros t j c k Ht Hj Lk Hd Hc. assert (meets c = true) as Hm. { destruct sv_lens as (L1 & L2 & HD & HP). apply (meets_iff _ c (k_chunk c j Hj) dstart dshape L1 L2 HD HP). eauto. }
    destruct (kept_has j c Hj Hm) as (i & Hi). destruct (kept_at i j c Hi) as (A & _). assert (on_grid (ps c) (pn c) ds k) as Hg by (apply (grid_iff j c k Hj Hm); done).
    destruct (R1 t i (ps c) k Ht) as (ch & Hch & Hcov & Hv); [unfold k_regions; rewrite list_lookup_fmap, Hi; done|unfold k_shapes; rewrite A; exact Hg|].
    exists ch. split; [done|]. split; [done|]. rewrite (sample_value Hjunk t i j c k Hi Hg) in Hv. by injection Hv.
  - intros ch ind Hch Hcov. destruct (R2 ch ind Hch Hcov) as (t & i & rs & k & -> & Ht & Hi & Hg). destruct (region_lookup i rs Hi) as (j & c & _ & A & Hj & Hm & ->). unfold k_shapes in Hg. rewrite A in Hg. cbn [snd] in Hg.
    apply (grid_iff j c k Hj Hm) in Hg as (Lk & Hd & Hc). exists t, j, c, k. done.
  - exact R3.
Qed.
End saving.
