(** C57: what the simulation recorded is what the array contains. *)
From stdpp Require Import base list list_numbers numbers option gmap countable sets.
From Coq Require Import NArith ZArith Lia.
From Verif Require Import IndexSpec LoopsModel LoopsProofs NDArrayModel NDArrayProofs NDArrayProps StreamerModel StreamerProps NullSupModel CodecModel
  BBoxModel BBoxProps DownsampleModel DownsampleProps
  RTreeModel RTreeInsert RTreeRebuild RTreeProps ChunkMetaModel ChunkMetaProps ChunkCacheModel ChunkCacheSpec ChunkCacheProofs ChunkCacheProofs2 ChunkCacheProofs3 ChunkCacheProps
  LibraryModel LibrarySpec LibraryProofs LibraryProofs2 LibraryProofs3 LibraryProofs4 LibraryProofs5 LibraryProofs6 LibraryProofs7 LibraryProps LibrarySwap LibrarySwapProps LibraryFiles LibraryFilesProps
  BoundaryModel BoundaryProps RebuildModel RebuildSpec RebuildProofs RebuildProofs2 RebuildProofs3 RebuildProofs4 PartitionModel PartitionProps ParallelSpec.
From Verif Require Import RecordModel RecordSpec RecordProofs RecordProofs2 RecordProofs3 IndexSpec LibrarySpec.
Local Opaque lib_open lib_swap_axes lib_move lib_close lib_get record.

Section props.
Context (vd dims : nat) (junk : N) (L : lib).
Notation session := (session vd dims junk L).

(** * Recording [T] steps gives an array that holds the samples of all regions in all steps, at their time and downsampled position, and nothing else,
    in chunks of at most the requested size. *)
Theorem C57_record ct cl ds regions shape field uuids T : lib_ok L -> (junk < 2 ^ 32)%N -> ok_record vd dims ct cl ds regions shape field uuids T ->
  exists l S, record vd dims junk L ct cl ds regions field uuids T = Done l /\ session l S /\ recorded vd ct cl ds regions shape field T (ls_chunks S).
Proof using. intros HL Hj Hok. destruct (record_ok vd dims junk L HL ct cl ds regions shape field uuids T Hok Hj) as (l & S & E & Hl & Hr & _). exists l, S. exact (conj E (conj Hl Hr)). Qed.
(** ... and every sample is read. *)
Theorem C57_recorded_element ct cl ds regions shape field uuids T t j rs k : lib_ok L -> (junk < 2 ^ 32)%N -> ok_record vd dims ct cl ds regions shape field uuids T ->
  (t < T)%nat -> regions !! j = Some rs -> on_grid rs (shape j) ds k ->
  exists l v l2 s, record vd dims junk L ct cl ds regions field uuids T = Done l /\ lib_get vd dims junk (N.of_nat t :: k) l = Done (v, l2) /\
    aread vd (field t j) (0%nat :: at_pos rs (times k ds)) = Some s /\ comes_back NullSuppressed s v.
Proof using.
  intros HL Hj Hok Ht Hr Hk. destruct (C57_record ct cl ds regions shape field uuids T HL Hj Hok) as (l & S & E & Hl & [R1 _ R3]).
  destruct (R1 t j rs k Ht Hr Hk) as (c & Hc & Hcov & Hv). destruct (R3 c Hc) as (_ & Hnn & _).
  destruct (C27_element_access vd dims junk L l S c _ HL Hl Hc Hcov) as (v & l2 & Hg & _ & Hcb); [rewrite Hnn; intros Hf; discriminate Hf|].
  exists l, v, l2, (value c (N.of_nat t :: k)). exact (conj E (conj Hg (conj Hv Hcb))).
Qed.
End props.

(** * The whole job: recording (t, z, r), exchanging t and r, moving to the output directory, closing.  The chunks [C] hold the samples
    with the time as last index. *)
Record recorded_swapped (vd ct cl : nat) (ds : list N) (regions : list (list N)) (shape : nat -> list nat) (field : nat -> nat -> ndarr N) (T : nat) (C : list chunk) : Prop := {
  rw_sample : forall t j rs z r, (t < T)%nat -> regions !! j = Some rs -> on_grid rs (shape j) ds [z; r] ->
    exists c s, c ∈ C /\ covers c [r; z; N.of_nat t] /\ aread vd (field t j) (0%nat :: at_pos rs (times [z; r] ds)) = Some s /\ comes_back NullSuppressed s (value c [r; z; N.of_nat t]);
  rw_only : forall c ind, c ∈ C -> covers c ind -> exists t j rs z r, ind = [r; z; N.of_nat t] /\ (t < T)%nat /\ regions !! j = Some rs /\ on_grid rs (shape j) ds [z; r];
  rw_form : forall c, c ∈ C -> c_ov c = 0%N /\ c_null c = false }.

Section job.
Context (vd : nat) (junk : N) (L : lib).
Notation session := (session vd 3 junk L).

(** There are at most as many chunks as identifiers that were handed out. *)
Lemma handed_bound l S : ls_reopened S = false -> lrep vd 3 l S -> (N.of_nat (length (ls_chunks S)) <= ls_handed S)%N.
Proof.
  intros Hre (M & sz & H & Hl). rewrite <- (lrep_len _ _ _ _ _ _ _ Hl). destruct Hl. rewrite <- (fmap_length cm_id). apply nodup_bound; [done|].
  apply Forall_fmap. exact (lr_fresh Hre).
Qed.
Lemma swap3 {A} (x y r : A) : exchange 0 2 [x; y; r] = [r; y; x].
Proof. done. Qed.
Theorem C57_job ct cl ds regions shape field uuids T ord : lib_ok L -> (junk < 2 ^ 32)%N -> ok_record vd 3 ct cl ds regions shape field uuids T ->
  (N.of_nat (Nat.min ct T * cl) < 2 ^ 32)%N -> (forall k, ord k ≡ₚ k) ->
  exists d S, record_job vd 3 junk L ct cl ds regions field uuids T ord = Done d /\ holds_array vd 3 junk L d S /\ recorded_swapped vd ct cl ds regions shape field T (ls_chunks S) /\
    (forall c, c ∈ ls_chunks S -> exists t j rs k, (t < T)%nat /\ regions !! j = Some rs /\ (N.of_nat k < region_cells cl ds rs (shape j))%N /\ c_file c = uuids t j k) /\
    (N.of_nat (length (ls_chunks S)) <= total_cells cl ds regions shape * N.of_nat (epochs ct T))%N.
Proof using.
  intros HL Hj Hok Hcnt Hord. destruct (record_ok vd 3 junk L HL ct cl ds regions shape field uuids T Hok Hj) as (l & S & E & Hl & [R1 R2 R3] & Hre & Hh & Hcs & Hsh).
  pose proof (rc_dims _ _ _ _ _ _ _ _ _ _ Hok) as Hd. assert (length ds = 2%nat) as Lds by lia.
  assert (ok_swap vd 3 S 0 2) as Hsw.
  { split; [lia|..].
    - intros c Hc Hn. destruct (R3 c Hc) as (-> & _). done.
    - intros c Hc. destruct (Hsh c Hc) as (n & sh & -> & Hn & Lsh & Hf & _). rewrite Lds in Lsh. destruct sh as [|a [|b [|? ?]]]; try discriminate Lsh. rewrite swap3, Hcs.
      apply list.Forall_cons in Hf as [Ha Hf]. apply list.Forall_cons in Hf as [Hb _]. cbn beta in Ha, Hb. destruct (rc_volume _ _ _ _ _ _ _ _ _ _ Hok) as [V1 V2]. rewrite Lds in V1, V2. cbn [Nat.pow] in V1, V2. pose proof (rc_steps _ _ _ _ _ _ _ _ _ _ Hok) as HT.
      assert (a * b <= cl * (cl * 1))%nat as Hab by nia. assert (N.of_nat cl < 2 ^ 32)%N as Hcl. { destruct (rc_sizes _ _ _ _ _ _ _ _ _ _ Hok) as [_ Hcl]. nia. }
      split; [|split].
      + repeat constructor; lia.
      + cbn [volume foldr]. assert (b * (a * (n * 1)) <= Nat.min ct T * (cl * (cl * 1)))%nat by nia. nia.
      + intros _. change (rebuild_cs 3) with [1%nat; N.to_nat INFTY; N.to_nat INFTY]. generalize (N.to_nat INFTY). intros q. cbn [zip_with volume foldr].
        assert (Nat.min 1 b * (Nat.min q a * (Nat.min q n * 1)) <= 1 * (cl * (Nat.min ct T * 1)))%nat; [repeat apply Nat.mul_le_mono; lia|]. lia. }
  destruct (C54_swap_axes vd 3 junk L l S 0 2 HL Hl Hsw) as (l1 & S1 & E1 & Hl1 & _ & _ & _ & HF).
  destruct (move_ok vd 3 l1 S1 ord Hord (session_inv vd 3 junk L HL _ _ Hl1)) as (l2 & E2 & _). pose proof (ss_move vd 3 junk L _ _ _ _ _ Hl1 Hord E2) as Hl2.
  destruct (close_ok vd 3 l2 S1 ord Hord (session_inv vd 3 junk L HL _ _ Hl2)) as (d & E3 & _).
  exists d, S1. split.
  { unfold record_job. rewrite E. cbn [mbind res_bind]. rewrite E1. cbn [mbind res_bind]. rewrite E2. cbn [mbind res_bind]. exact E3. }
  split. { exists l2, ord. exact (conj Hl2 (conj Hord E3)). }
  assert (N.of_nat (length (ls_chunks S1)) <= total_cells cl ds regions shape * N.of_nat (epochs ct T))%N as Hnum.
  { rewrite <- (Forall2_length _ _ _ HF), <- Hh. exact (handed_bound l S Hre (session_inv vd 3 junk L HL _ _ Hl)). }
  clear E E1 E2 E3 Hl Hl1 Hl2 Hcs Hre Hh.
  assert (forall c', c' ∈ ls_chunks S1 -> exists c, c ∈ ls_chunks S /\ c_ov c' = c_ov c /\ c_null c' = c_null c /\ c_file c' = c_file c /\ forall ind, covers c' ind <-> covers c (exchange 0 2 ind)) as Hback.
  { intros c' (n & Hn)%elem_of_list_lookup. destruct (Forall2_lookup_r _ _ _ _ _ HF Hn) as (c & Hc & (_ & _ & Eo & En & Ef & _ & _ & Hcc & _)). exists c. split; [by eapply elem_of_list_lookup_2|done]. }
  split; [split|split; [|exact Hnum]].
  - intros t j rs z r Ht Hr Hk. destruct (R1 t j rs [z; r] Ht Hr Hk) as (c & Hc & Hcov & Hv). apply elem_of_list_lookup in Hc as (n & Hn). destruct (Forall2_lookup_l _ _ _ _ _ HF Hn) as (c' & Hc' & (_ & _ & _ & _ & _ & _ & _ & Hcc & Hvv)).
    assert (covers c' [r; z; N.of_nat t]) as Hcov' by (apply Hcc; rewrite swap3; done). exists c', (value c [N.of_nat t; z; r]). split; [by eapply elem_of_list_lookup_2|]. split; [done|]. split; [done|]. by apply (Hvv _ Hcov').
  - intros c' ind Hc' Hcov'. destruct (Hback c' Hc') as (c & Hc & _ & _ & _ & Hcc). apply Hcc in Hcov'. destruct (R2 c _ Hc Hcov') as (t & j & rs & k & Ek & Ht & Hr & Hk).
    assert (length k = 2%nat) as Lk. { apply (region_at vd 3 ct cl ds regions shape field uuids T Hok j rs Hr) in Hk. destruct (region_at vd 3 ct cl ds regions shape field uuids T Hok j rs Hr) as (_ & _ & _ & _ & L4 & _). apply inbox_at in Hk as (K & _). lia. }
    destruct k as [|z [|r [|? ?]]]; try discriminate Lk.
    assert (length ind = 3%nat) as Li. { apply (f_equal length) in Ek. by rewrite exchange_length in Ek. }
    destruct ind as [|i0 [|i1 [|i2 [|? ?]]]]; try discriminate Li. rewrite swap3 in Ek. injection Ek as -> -> ->. exists t, j, rs, z, r. done.
  - intros c' Hc'. destruct (Hback c' Hc') as (c & Hc & -> & -> & _). destruct (R3 c Hc) as (? & ? & _). done.
  - intros c' Hc'. destruct (Hback c' Hc') as (c & Hc & _ & _ & -> & _). destruct (Hsh c Hc) as (_ & _ & _ & _ & _ & _ & Hf). exact Hf.
Qed.
End job.

(** Opening the directory a job left: every sample is read at [r; z; t]. *)
Theorem C57_job_element vd junk L ct cl ds regions shape field uuids T ord size cs t j rs z r : lib_ok L -> (junk < 2 ^ 32)%N -> ok_record vd 3 ct cl ds regions shape field uuids T ->
  (N.of_nat (Nat.min ct T * cl) < 2 ^ 32)%N -> (forall k, ord k ≡ₚ k) -> acceptable_chunk 3 cs ->
  (t < T)%nat -> regions !! j = Some rs -> on_grid rs (shape j) ds [z; r] ->
  exists d l v l2 s, record_job vd 3 junk L ct cl ds regions field uuids T ord = Done d /\ lib_open vd 3 junk L size cs d = Done l /\ lib_get vd 3 junk [r; z; N.of_nat t] l = Done (v, l2) /\
    aread vd (field t j) (0%nat :: at_pos rs (times [z; r] ds)) = Some s /\ comes_back NullSuppressed s v.
Proof.
  intros HL Hj Hok Hcnt Hord Hcs Ht Hr Hk. destruct (C57_job vd junk L ct cl ds regions shape field uuids T ord HL Hj Hok Hcnt Hord) as (d & S & E & (l0 & ord0 & Hl0 & Hord0 & Ec) & [W1 _ W3] & _ & _).
  destruct (C53_closed_array_opens vd 3 junk L l0 S ord0 d size cs HL Hl0 Hord0 Hcs Ec) as (l & El & Hl).
  destruct (W1 t j rs z r Ht Hr Hk) as (c & s & Hc & Hcov & Hs & Hcb). destruct (W3 c Hc) as [_ Hnn].
  destruct (C27_element_access vd 3 junk L l (reopened S cs) c _ HL Hl Hc Hcov) as (v & l2 & Hg & _ & Hv); [rewrite Hnn; intros Hf; discriminate Hf|].
  exists d, l, v, l2, s. refine (conj E (conj El (conj Hg (conj Hs _)))). eapply comes_back_trans; [exact Hcb|exact Hv].
Qed.
Print Assumptions C57_record.
Print Assumptions C57_recorded_element.
Print Assumptions C57_job.
Print Assumptions C57_job_element.

(** * The hypotheses are met *)
(** Two regions next to each other, [2 x 3] samples at (0, 1) and [1 x 3] at (2, 1), every second sample of the second axis, three steps, two in a chunk. *)
Definition rec_ds : list N := [1; 2]%N.
Definition rec_regions : list (list N) := [[0; 1]; [2; 1]]%N.
Definition rec_shape (j : nat) : list nat := match j with 0%nat => [2; 3]%nat | _ => [1; 3]%nat end.
Definition rec_field (t j : nat) : ndarr N := anew 1 (N.of_nat (10 * t + j)) (1%nat :: rec_shape j).
Definition rec_names (t j k : nat) : bytes := [N.of_nat t; N.of_nat j; N.of_nat k].
Example C57_hypotheses_nonvacuous : ok_record 1 3 2 2 rec_ds rec_regions rec_shape rec_field rec_names 3 /\ (N.of_nat (Nat.min 2 3 * 2) < 2 ^ 32)%N /\
  on_grid [2; 1]%N (rec_shape 1) rec_ds [2; 1]%N.
Proof.
  assert (forall j rs, rec_regions !! j = Some rs -> (j = 0%nat /\ rs = [0; 1]%N) \/ (j = 1%nat /\ rs = [2; 1]%N)) as Hreg.
  { intros [|[|j]] rs Hj; cbn in Hj; [injection Hj as <-; auto|injection Hj as <-; auto|discriminate Hj]. }
  split; [|split; [done|cbn; lia]]. split.
  - done.
  - lia.
  - intros j rs Hj. destruct (Hreg j rs Hj) as [[-> ->]|[-> ->]]; cbn [rec_shape region_ok rec_ds]; unfold W; lia.
  - intros t j Ht Hj. split; [|done]. apply RebuildProofs4.anew_float; [|done]. cbn [rec_regions length] in Hj. lia.
  - intros j j' rs rs' [|k0 [|k1 [|? ?]]] Hj Hj'; destruct (Hreg j rs Hj) as [[-> ->]|[-> ->]], (Hreg j' rs' Hj') as [[-> ->]|[-> ->]]; cbn [rec_shape on_grid rec_ds]; try done; lia.
  - done.
  - vm_compute. done.
  - vm_compute. done.
  - intros t j rs k Ht Hj Hk. assert (N.of_nat k < 2)%N as Hk2. { destruct (Hreg j rs Hj) as [[-> ->]|[-> ->]]; (eapply N.lt_le_trans; [exact Hk|vm_compute; done]). }
    assert (j < 2)%nat as Hj2 by (destruct (Hreg j rs Hj) as [[-> _]|[-> _]]; lia). split; [done|]. split; [done|]. split; [repeat constructor; lia|].
    intros t' j' rs' k' _ _ _ E. unfold rec_names in E. injection E as E1 E2 E3. lia.
Qed.

(** * A computed example: one axis (the time) only, one sample per step; five steps, two in a chunk. *)
Example ex_record :
  let field := fun (t j : nat) => anew 1 (N.of_nat (50 + t)) [1%nat] in
  match record 1 1 0%N lib0 2 4 [] [[]] field (fun t j k => [N.of_nat t]) 5 with
  | Done l => (fun ind => match lib_get 1 1 0%N [ind] l with Done (v, _) => Some v | _ => None end) <$> [0; 1; 2; 3; 4; 5]%N
  | _ => []
  end = [Some [50%N]; Some [51%N]; Some [52%N]; Some [53%N]; Some [54%N]; None].
Proof. vm_compute. reflexivity. Qed.
