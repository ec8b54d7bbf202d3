(** C58: the field in the storage domain is collected from the simulation chunks without loss. *)
From stdpp Require Import base list list_numbers numbers option gmap countable sets.
From Coq Require Import NArith ZArith Lia.
From Verif Require Import IndexSpec LoopsModel LoopsProofs NDArrayModel NDArrayProofs NDArrayOps NDArrayProps StreamerModel StreamerProps CodecModel
  BBoxModel BBoxProps DownsampleModel DownsampleProps RTreeModel RTreeInsert RTreeProps ChunkMetaModel ChunkCacheModel ChunkCacheSpec LibraryModel LibrarySpec LibraryProofs6 LibraryProps
  RebuildModel RebuildSpec RebuildProofs RebuildProofs4 ParallelSpec RecordModel RecordSpec RecordProofs2 RecordProofs3 RecordProps StorageModel StorageSpec StorageProofs StorageProofs2 StorageProofs3.
From Verif Require Import IndexSpec LibrarySpec.
Local Opaque lib_open lib_swap_axes lib_move lib_close lib_get record save_field.

(** * The box operations *)
(** contains is membership in the box. *)
Theorem C58_contains s sh x : length sh = length s -> length x = length s -> Forall2 (fun a n => a + n < 2 ^ 64)%N s sh -> Forall (fun a => a < 2 ^ 64)%N x ->
  chunk_contains s sh x = true <-> domain s sh x.
Proof. intros H1 H2 H3 H4. rewrite contains_at by done. rewrite domain_at by done. tauto. Qed.
(** overlaps says whether two boxes that are not empty have a common index. *)
Theorem C58_overlaps sa na sb nb : length na = length sa -> length sb = length sa -> length nb = length sa ->
  Forall2 (fun a n => 0 < n /\ a + n < 2 ^ 64)%N sa na -> Forall2 (fun a n => 0 < n /\ a + n < 2 ^ 64)%N sb nb ->
  chunk_overlaps sa na sb nb = true <-> exists x, domain sa na x /\ domain sb nb x.
Proof.
  intros H1 H2 H3 HA HB. rewrite overlaps_at; [|done..| |].
  2,3: eapply Forall2_impl; [first [exact HA|exact HB]|]; intros a n [_ H]; exact H.
  apply F2_at in HA as [_ HA]. apply F2_at in HB as [_ HB]. split.
  - intros Ho. exists (zip_with N.max sa sb). rewrite !domain_at by lia. rewrite zip_with_length.
    split; (split; [lia|]); intros i Hi; rewrite zip_at by lia; specialize (Ho i ltac:(lia)); destruct (HA i ltac:(lia)); destruct (HB i ltac:(lia)); lia.
  - intros (x & [_ Hx]%domain_at & [_ Hy]%domain_at) i Hi; [|lia..]. specialize (Hx i Hi). specialize (Hy i ltac:(lia)). lia.
Qed.
(** An empty box may overlap another one. *)
Theorem C58_overlaps_empty_refuted : exists sa na sb nb, Forall2 (fun a n => a + n < 2 ^ 64)%N sa na /\ Forall2 (fun a n => a + n < 2 ^ 64)%N sb nb /\
  chunk_overlaps sa na sb nb = true /\ forall x, ~ domain sa na x.
Proof.
  exists [2]%N, [0]%N, [1]%N, [3]%N. split; [by repeat constructor|]. split; [by repeat constructor|]. split; [done|]. intros x [Lx Hx]%domain_at; [|done]. specialize (Hx 0%nat ltac:(cbn; lia)). cbn in Hx. lia.
Qed.
(** get_chunk_overlap is the intersection of two boxes that overlap. *)
Theorem C58_chunk_overlap sa na sb nb x : length na = length sa -> length sb = length sa -> length nb = length sa ->
  Forall2 (fun a n => a + n < 2 ^ 64)%N sa na -> Forall2 (fun a n => a + n < 2 ^ 64)%N sb nb -> chunk_overlaps sa na sb nb = true ->
  domain (chunk_overlap sa na sb nb).1 (chunk_overlap sa na sb nb).2 x <-> domain sa na x /\ domain sb nb x.
Proof.
  intros H1 H2 H3 HA HB Ho. pose proof (proj1 (overlaps_at sa na sb nb H1 H2 H3 HA HB) Ho) as Ho'. clear Ho. rename Ho' into Ho. rewrite overlap_spec by done. cbn [fst snd]. rewrite !domain_at by (rewrite ?zip_with_length; lia). rewrite !zip_with_length.
  split.
  - intros [Lx Hx]. split; (split; [lia|]); intros i Hi; specialize (Hx i ltac:(lia)); specialize (Ho i ltac:(lia)); rewrite !zip_at in Hx by (rewrite ?zip_with_length; lia); lia.
  - intros [[Lx Hx] [_ Hy]]. split; [lia|]. intros i Hi. specialize (Hx i ltac:(lia)). specialize (Hy i ltac:(lia)). specialize (Ho i ltac:(lia)). rewrite !zip_at by (rewrite ?zip_with_length; lia). lia.
Qed.
(** Without an overlap its result is no box. *)
Theorem C58_chunk_overlap_apart_refuted : exists sa na sb nb x, Forall2 (fun a n => 0 < n /\ a + n < 2 ^ 64)%N sa na /\ Forall2 (fun a n => 0 < n /\ a + n < 2 ^ 64)%N sb nb /\
  domain (chunk_overlap sa na sb nb).1 (chunk_overlap sa na sb nb).2 x /\ ~ domain sa na x /\ ~ domain sb nb x.
Proof.
  exists [5]%N, [1]%N, [1]%N, [2]%N, [9]%N. split; [by repeat constructor|]. split; [by repeat constructor|]. split; [vm_compute; split; by repeat constructor|].
  split; intros [_ Hx]%domain_at; [|done| |done]; specialize (Hx 0%nat ltac:(cbn; lia)); cbn in Hx; lia.
Qed.

(** * The stored portion of a simulation chunk: its cells in the domain. *)
Theorem C58_portion n c dstart dshape : sim_chunk n c -> length dstart = n -> length dshape = n -> Forall2 (fun s m => s + m < 2 ^ 64)%N dstart dshape -> Forall (fun m => 0 < m)%N dshape ->
  exists o, storage_portion dstart dshape c = Some o /\ forall x, (exists s sh, o = Some (s, sh) /\ domain s sh x) <-> cell_in c x /\ domain dstart dshape x.
Proof.
  intros Hc L1 L2 HD HP. exists (if part_meets dstart dshape c then Some (pstart c dstart, vof_nat (part_shape dstart dshape c)) else None). split; [exact (StorageProofs2.portion_ok n c Hc dstart dshape L1 L2 HD HP)|].
  intros x. destruct (part_meets dstart dshape c) eqn:Em.
  - rewrite <- (portion_cells n c Hc dstart dshape L1 L2 HD HP x Em). split; [intros (s & sh & Heq & Hd); injection Heq as <- <-; done|intros Hd; eauto].
  - split; [intros (s & sh & Heq & _); discriminate Heq|]. intros Hx. exfalso. assert (part_meets dstart dshape c = true) as Ht by (apply (meets_iff n c Hc dstart dshape L1 L2 HD HP); eauto). rewrite Ht in Em. discriminate Em.
Qed.
(** If every cell belongs to exactly one simulation chunk, then every cell of the storage domain lies in the stored portion of exactly one. *)
Theorem C58_portions_tile n chunks dstart dshape x : (forall c, c ∈ chunks -> sim_chunk n c) -> length dstart = n -> length dshape = n ->
  Forall2 (fun s m => s + m < 2 ^ 64)%N dstart dshape -> Forall (fun m => 0 < m)%N dshape -> domain dstart dshape x ->
  (exists j c, chunks !! j = Some c /\ cell_in c x /\ forall j' c', chunks !! j' = Some c' -> cell_in c' x -> j' = j) ->
  exists portions, mapM (storage_portion dstart dshape) chunks = Some portions /\
    exists j s sh, portions !! j = Some (Some (s, sh)) /\ domain s sh x /\ forall j' s' sh', portions !! j' = Some (Some (s', sh')) -> domain s' sh' x -> j' = j.
Proof.
  intros Hc L1 L2 HD HP Hx (j & c & Hj & Hin & Huniq).
  assert (exists portions, mapM (storage_portion dstart dshape) chunks = Some portions) as (portions & Hm).
  { destruct (mapM (storage_portion dstart dshape) chunks) as [p|] eqn:Em; [by exists p|]. apply mapM_None_1 in Em. apply Exists_exists in Em as (c' & Hc' & Hn). destruct (C58_portion n c' dstart dshape (Hc c' Hc') L1 L2 HD HP) as (o & Ho & _). congruence. }
  exists portions. split; [done|]. apply mapM_Some in Hm.
  assert (forall j' o, portions !! j' = Some o -> exists c', chunks !! j' = Some c' /\ storage_portion dstart dshape c' = Some o) as Hback. { intros j' o Ho. destruct (Forall2_lookup_r _ _ _ _ _ Hm Ho) as (c' & H1 & H2). eauto. }
  destruct (Forall2_lookup_l _ _ _ _ _ Hm Hj) as (o & Ho & Hso). destruct (C58_portion n c dstart dshape (Hc c ltac:(by eapply elem_of_list_lookup_2)) L1 L2 HD HP) as (o' & Ho' & Hiff). assert (o' = o) as -> by congruence.
  destruct (proj2 (Hiff x) (conj Hin Hx)) as (s & sh & -> & Hd). exists j, s, sh. split; [done|]. split; [done|]. intros j' s' sh' Hj' Hd'. destruct (Hback j' _ Hj') as (c' & Hcj & Hsc).
  destruct (C58_portion n c' dstart dshape (Hc c' ltac:(by eapply elem_of_list_lookup_2)) L1 L2 HD HP) as (o2 & Ho2 & Hiff2). assert (o2 = Some (s', sh')) as -> by congruence.
  apply (Huniq j' c' Hcj). apply Hiff2. eauto.
Qed.
(** The field buffer of a chunk: the field at the centre of every stored cell, or zero where it is truncated; whatever the buffer held before. *)
Theorem C58_field_buffer vd junk n c dstart dshape s sh E cut buf : (junk < 2 ^ 32)%N -> sim_chunk n c -> length dstart = n -> length dshape = n ->
  Forall2 (fun s m => s + m < 2 ^ 64)%N dstart dshape -> Forall (fun m => 0 < m)%N dshape -> (forall p, length (E p) = vd /\ Forall (fun b => b < 2 ^ 32)%N (E p)) -> float_array vd buf ->
  storage_portion dstart dshape c = Some (Some (s, sh)) ->
  exists b, collect vd junk s sh c E cut buf = Some b /\ float_array vd b /\ a_shape b = 1%nat :: vto_nat sh /\
    forall x, domain s sh x -> let ind := 0%nat :: vto_nat (zip_with N.sub x s) in
      in_shape (a_shape b) ind /\ aread vd b ind = Some (if cut ind then replicate vd 0%N else E (centre x)).
Proof.
  intros Hj Hc L1 L2 HD HP HE Hb Hp. rewrite (StorageProofs2.portion_ok n c Hc dstart dshape L1 L2 HD HP) in Hp. destruct (part_meets dstart dshape c) eqn:Em; [|discriminate Hp]. injection Hp as <- <-.
  destruct (collect_ok n c Hc dstart dshape L1 L2 HD HP vd junk E HE Hj Em cut buf Hb) as (b & Eb & Hfb & Hsb & Hv). exists b. split; [done|]. split; [done|]. split; [by rewrite vto_of|].
  intros x Hx. cbv zeta. destruct (at_cell_back n c Hc dstart dshape L1 L2 x Hx) as [Hin Hback]. split; [rewrite Hsb; apply in_shape_cons; eexists _, _; split; [done|]; split; [lia|exact Hin]|]. rewrite Hv by exact Hin. by rewrite Hback.
Qed.

(** * The array *)
Section props.
Context (vd dims : nat) (junk : N) (L : lib).
Notation session := (session vd dims junk L).

(** Saving [T] steps gives an array that holds, for every step, the field in every [ds]-th cell of the storage domain, as far as these cells belong to the
    simulation chunks of this process, and nothing else. *)
Theorem C58_save ct cl dstart dshape ds chunks E cut uuids T : lib_ok L -> (junk < 2 ^ 32)%N -> ok_save vd dims ct cl dstart dshape ds chunks E uuids T ->
  exists l S, save_field vd dims junk L ct cl dstart dshape ds chunks E cut uuids T = Done l /\ session l S /\ saved vd ct cl dstart dshape ds chunks E cut T (ls_chunks S).
Proof using. intros HL Hj Hok. exact (save_ok vd dims junk L HL ct cl dstart dshape ds chunks E cut uuids T Hok Hj). Qed.
(** ... which is read back at its position. *)
Theorem C58_saved_element ct cl dstart dshape ds chunks E cut uuids T t j c k : lib_ok L -> (junk < 2 ^ 32)%N -> ok_save vd dims ct cl dstart dshape ds chunks E uuids T ->
  (t < T)%nat -> chunks !! j = Some c -> length k = length ds -> domain dstart dshape (sampled dstart ds k) -> cell_in c (sampled dstart ds k) ->
  exists l v l2, save_field vd dims junk L ct cl dstart dshape ds chunks E cut uuids T = Done l /\ lib_get vd dims junk (N.of_nat t :: k) l = Done (v, l2) /\
    comes_back NullSuppressed (stored_value vd dstart E cut t j c (sampled dstart ds k)) v.
Proof using.
  intros HL Hj Hok Ht Hc Lk Hd Hin. destruct (C58_save ct cl dstart dshape ds chunks E cut uuids T HL Hj Hok) as (l & S & El & Hl & [R1 _ R3]).
  destruct (R1 t j c k Ht Hc Lk Hd Hin) as (ch & Hch & Hcov & Hv). destruct (R3 ch Hch) as (_ & Hnn & _).
  destruct (C27_element_access vd dims junk L l S ch _ HL Hl Hch Hcov) as (v & l2 & Hg & _ & Hcb); [rewrite Hnn; intros Hf; discriminate Hf|].
  exists l, v, l2. rewrite Hv in Hcb. exact (conj El (conj Hg Hcb)).
Qed.
End props.

(** * The whole job of one process, for the cylindrical geometry: the directory it leaves holds the field with indices (r, z, t). *)
Record saved_swapped (vd : nat) (dstart dshape ds : list N) (chunks : list (list Z * list Z)) (E : nat -> list Z -> list N) (cut : nat -> nat -> list nat -> bool) (T : nat) (C : list chunk) : Prop := {
  sw_sample : forall t j c z r, (t < T)%nat -> chunks !! j = Some c -> domain dstart dshape (sampled dstart ds [z; r]) -> cell_in c (sampled dstart ds [z; r]) ->
    exists ch, ch ∈ C /\ covers ch [r; z; N.of_nat t] /\ comes_back NullSuppressed (stored_value vd dstart E cut t j c (sampled dstart ds [z; r])) (value ch [r; z; N.of_nat t]);
  sw_only : forall ch ind, ch ∈ C -> covers ch ind -> exists t j c z r, ind = [r; z; N.of_nat t] /\ (t < T)%nat /\ chunks !! j = Some c /\
    domain dstart dshape (sampled dstart ds [z; r]) /\ cell_in c (sampled dstart ds [z; r]);
  sw_form : forall ch, ch ∈ C -> c_ov ch = 0%N /\ c_null ch = false }.

Theorem C58_job vd junk L ct cl dstart dshape ds chunks E cut uuids T ord : lib_ok L -> (junk < 2 ^ 32)%N -> ok_save vd 3 ct cl dstart dshape ds chunks E uuids T ->
  (N.of_nat (Nat.min ct T * cl) < 2 ^ 32)%N -> (forall k, ord k ≡ₚ k) ->
  exists d S, save_job vd 3 junk L ct cl dstart dshape ds chunks E cut uuids T ord = Done d /\ holds_array vd 3 junk L d S /\ saved_swapped vd dstart dshape ds chunks E cut T (ls_chunks S) /\
    (forall ch, ch ∈ ls_chunks S -> exists t j c k, (t < T)%nat /\ chunks !! j = Some c /\ (N.of_nat k < part_cells cl dstart dshape ds c)%N /\ c_file ch = uuids t j k) /\
    (N.of_nat (length (ls_chunks S)) <= foldr N.add 0 (part_cells cl dstart dshape ds <$> chunks) * N.of_nat (epochs ct T))%N.
Proof.
  intros HL Hj Hok Hcnt Hord. pose proof (sv_dims _ _ _ _ _ _ _ _ _ _ _ Hok) as (Hd & Ld & _). assert (length ds = 2%nat) as Lds by lia.
  set (R := k_regions dstart dshape chunks). set (SH := k_shapes dstart dshape chunks). set (F := k_field vd 3 junk dstart dshape chunks E cut). set (U := k_names dstart dshape chunks uuids).
  pose proof (k_ok vd 3 junk ct cl dstart dshape ds chunks E cut uuids T Hok Hj) as Hrec. change (ok_record vd 3 ct cl ds R SH F U T) in Hrec.
  destruct (C57_job vd junk L ct cl ds R SH F U T ord HL Hj Hrec Hcnt Hord) as (d & S & Ed & Hd' & [W1 W2 W3] & HN & Hnum). exists d, S. split; [|split; [exact Hd'|]].
  - unfold record_job in Ed. unfold save_job. destruct (record vd 3 junk L ct cl ds R F U T) as [l|e|] eqn:Er; [|discriminate Ed..].
    rewrite (save_is vd 3 junk L ct cl dstart dshape ds chunks E cut uuids T Hok Hj l Er). exact Ed.
  - clear Ed Hd'. split; [split|split].
    + intros t j c z r Ht Hcj Hdom Hin. destruct (sv_lens vd 3 ct cl dstart dshape ds chunks E uuids T Hok) as (L1 & L2 & HD & HP). pose proof (k_chunk vd 3 ct cl dstart dshape ds chunks E uuids T Hok c j Hcj) as Hc.
      assert (part_meets dstart dshape c = true) as Hm by (apply (meets_iff _ c Hc dstart dshape L1 L2 HD HP); eauto).
      destruct (kept_has dstart dshape chunks j c Hcj Hm) as (i & Hi). destruct (kept_at dstart dshape chunks i j c Hi) as (A & _).
      assert (on_grid (part_start dstart c) (part_shape dstart dshape c) ds [z; r]) as Hg by (apply (grid_iff vd 3 ct cl dstart dshape ds chunks E uuids T Hok j c [z; r] Hcj Hm); done).
      destruct (W1 t i (part_start dstart c) z r Ht) as (ch & s & Hch & Hcov & Hs & Hcb); [unfold R, k_regions; rewrite list_lookup_fmap, Hi; done|unfold SH, k_shapes; rewrite A; exact Hg|].
      unfold F in Hs. rewrite (sample_value vd 3 junk ct cl dstart dshape ds chunks E cut uuids T Hok Hj t i j c [z; r] Hi Hg) in Hs. injection Hs as <-. exists ch. done.
    + intros ch ind Hch Hcov. destruct (W2 ch ind Hch Hcov) as (t & i & rs & z & r & -> & Ht & Hi & Hg). destruct (region_lookup dstart dshape chunks i rs Hi) as (j & c & _ & A & Hcj & Hm & ->).
      unfold SH, k_shapes in Hg. rewrite A in Hg. cbn [snd] in Hg. apply (grid_iff vd 3 ct cl dstart dshape ds chunks E uuids T Hok j c [z; r] Hcj Hm) in Hg as (_ & Hdom & Hin). exists t, j, c, z, r. done.
    + exact W3.
    + intros ch Hch. destruct (HN ch Hch) as (t & i & rs & k & Ht & Hi & Hk & Hf). destruct (region_lookup dstart dshape chunks i rs Hi) as (j & c & _ & A & Hcj & Hm & ->). unfold SH, k_shapes in Hk. rewrite A in Hk. cbn [snd] in Hk.
      rewrite <- (part_cells_is cl dstart dshape ds c Hm) in Hk. unfold U, k_names in Hf. rewrite A in Hf. exists t, j, c, k. done.
    + rewrite <- (total_is cl dstart dshape ds chunks). exact Hnum.
Qed.
Print Assumptions C58_contains.
Print Assumptions C58_overlaps.
Print Assumptions C58_chunk_overlap.
Print Assumptions C58_portion.
Print Assumptions C58_portions_tile.
Print Assumptions C58_field_buffer.
Print Assumptions C58_save.
Print Assumptions C58_saved_element.
Print Assumptions C58_job.

(** * The hypotheses are met *)
(** A storage domain of 2 x 3 cells at (1, 1) in a grid of 4 x 4 cells, which is cut into two simulation chunks: r = 0, 1 and r = 2, 3; every second cell. *)
Definition st_chunks : list (list Z * list Z) := [([1; 1], [7; 3]); ([1; 5], [7; 7])]%Z.
Definition st_E (t : nat) (p : list Z) : list N := [Z.to_N ((100 * Z.of_nat t + 10 * default 0 (p !! 0%nat) + default 0 (p !! 1%nat)) mod 1000)]%Z.
Definition st_names (t j k : nat) : bytes := [N.of_nat t; N.of_nat j; N.of_nat k].
Example C58_hypotheses_nonvacuous : ok_save 1 3 2 2 [1; 1]%N [2; 3]%N [2; 2]%N st_chunks st_E st_names 3 /\ (N.of_nat (Nat.min 2 3 * 2) < 2 ^ 32)%N /\
  domain [1; 1]%N [2; 3]%N (sampled [1; 1]%N [2; 2]%N [0; 1]%N) /\ cell_in ([1; 5], [7; 7])%Z (sampled [1; 1]%N [2; 2]%N [0; 1]%N) /\
  (part_cells 2 [1; 1]%N [2; 3]%N [2; 2]%N <$> st_chunks) = [1; 1]%N.
Proof.
  assert (forall j c, st_chunks !! j = Some c -> (j = 0%nat /\ c = ([1; 1], [7; 3])%Z) \/ (j = 1%nat /\ c = ([1; 5], [7; 7])%Z)) as Hreg.
  { intros [|[|j]] c Hj; cbn in Hj; [injection Hj as <-; auto|injection Hj as <-; auto|discriminate Hj]. }
  assert (forall c, c ∈ st_chunks -> sim_chunk 2 c) as Hsc.
  { intros c (j & Hj)%elem_of_list_lookup. destruct (Hreg j c Hj) as [[_ ->]|[_ ->]]; (split; [done|]); (split; [done|]); (split; [by repeat constructor|]); split; repeat constructor; try done; match goal with |- Z.Odd ?z => exists (z / 2)%Z; done end. }
  split; [|split; [done|]; split; [|split; [|done]]].
  - split.
    + done.
    + lia.
    + split; by repeat constructor.
    + exact Hsc.
    + intros j j' c c' x Hj Hj' [Hx Hy] [Hx' Hy']. destruct (Hreg j c Hj) as [[-> ->]|[-> ->]], (Hreg j' c' Hj') as [[-> ->]|[-> ->]]; try done; exfalso; cbn [fst snd] in *;
      (destruct x as [|x0 [|x1 [|? ?]]]; unfold centre in *; rewrite ?list.fmap_cons, ?list.fmap_nil in *; repeat match goal with H : Forall2 _ _ _ |- _ => inversion_clear H end; lia).
    + intros t p. split; [done|]. constructor; [|done]. unfold st_E. pose proof (Z.mod_pos_bound (100 * Z.of_nat t + 10 * default 0%Z (p !! 0%nat) + default 0%Z (p !! 1%nat)) 1000 ltac:(lia)). lia.
    + done.
    + vm_compute. done.
    + vm_compute. done.
    + intros t j c k Ht Hj Hk. assert (N.of_nat k < 1)%N as Hk2. { destruct (Hreg j c Hj) as [[-> ->]|[-> ->]]; (eapply N.lt_le_trans; [exact Hk|vm_compute; done]). }
      assert (j < 2)%nat as Hj2 by (destruct (Hreg j c Hj) as [[-> _]|[-> _]]; lia). split; [done|]. split; [done|]. split; [repeat constructor; lia|].
      intros t' j' c' k' _ _ _ Heq. unfold st_names in Heq. injection Heq as E1 E2 E3. lia.
  - apply domain_at; [done|]. split; [done|]. intros [|[|i]] Hi; [vm_compute; done|vm_compute; done|cbn in Hi; lia].
  - split; vm_compute; repeat constructor; done.
Qed.
(** The portions of these chunks, and the buffer of the second one. *)
Example ex_portions : storage_portion [1; 1]%N [2; 3]%N <$> st_chunks = [Some (Some ([1; 1], [2; 1])); Some (Some ([1; 2], [2; 2]))]%N.
Proof. vm_compute. reflexivity. Qed.
Example ex_buffer : a_data <$> collect 1 0%N [1; 2]%N [2; 2]%N ([1; 5], [7; 7])%Z (st_E 0) (fun ind => bool_decide (ind = [0; 1; 0]%nat)) (anew 1 7%N [1; 1; 1]%nat) = Some [35; 37; 0; 57]%N.
Proof. vm_compute. reflexivity. Qed.
(** No axis besides the time: three steps of a chunk that is one cell (the sizes of the other axes in the chunks on disk make more too big to compute). *)
Example ex_save :
  match save_field 1 1 0%N lib0 2 4 [] [] [] [([], [])] (fun t p => [100 + N.of_nat t]%N) (fun t _ _ => bool_decide (t = 1%nat)) (fun t j k => [N.of_nat t; N.of_nat j]) 3 with
  | Done l => (fun ind => match lib_get 1 1 0%N [ind] l with Done (v, _) => Some v | _ => None end) <$> [0; 1; 2; 3]%N
  | _ => []
  end = [Some [100%N]; Some [0%N]; Some [102%N]; None].
Proof. vm_compute. reflexivity. Qed.
