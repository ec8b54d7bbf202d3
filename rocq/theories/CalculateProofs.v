(** Proofs about the whole calculation (C60): the storage domain, the jobs, the merged array. *)
From stdpp Require Import base list list_numbers numbers option gmap countable sets.
From Coq Require Import NArith ZArith Lia.
From Verif Require Import IndexSpec LoopsModel LoopsProofs NDArrayModel NDArrayProofs NDArrayOps NDArrayProps StreamerModel StreamerProps CodecModel
  BBoxModel BBoxProps DownsampleModel DownsampleProps RTreeModel RTreeInsert RTreeProps ChunkMetaModel ChunkMetaProps ChunkCacheModel ChunkCacheSpec
  LibraryModel LibrarySpec LibraryProofs LibraryProofs2 LibraryProofs5 LibraryProofs6 LibraryProofs7 LibraryProps
  BoundaryModel BoundaryProps RebuildModel RebuildSpec RebuildProofs RebuildProofs3 RebuildProofs4 PartitionModel PartitionProps ParallelModel ParallelSpec ParallelProofs ParallelProofs2 ParallelProps
  RecordModel RecordSpec StorageModel StorageSpec StorageProofs StorageProps CalculateModel CalculateSpec.
From Verif Require Import IndexSpec LibrarySpec.
Local Opaque lib_open lib_swap_axes lib_move lib_close lib_get save_job merge_dirs rechunk_mpi.

(** ** One axis *)
Lemma samples_alt n d : (0 < n)%N -> (0 < d)%N -> samples n d = ((n - 1) / d + 1)%N.
Proof. intros Hn Hd. unfold samples. replace (n + d - 1)%N with (n - 1 + 1 * d)%N by lia. by rewrite N.div_add by lia. Qed.
Lemma samples_iff n d k : (0 < n)%N -> (0 < d)%N -> (k * d < n)%N <-> (k < samples n d)%N.
Proof.
  intros Hn Hd. rewrite samples_alt by done. pose proof (N.div_mod (n - 1) d ltac:(lia)) as E. pose proof (N.mod_lt (n - 1) d ltac:(lia)) as M. set (q := ((n - 1) / d)%N) in *. set (w := ((n - 1) mod d)%N) in *. clearbody q w. split; intros H.
  - destruct (N.lt_ge_cases k (q + 1)) as [|Hk]; [done|]. assert ((q + 1) * d <= k * d)%N by (apply N.mul_le_mono_r; lia). lia.
  - assert (k * d <= q * d)%N by (apply N.mul_le_mono_r; lia). lia.
Qed.
Lemma samples_add n d b a : (0 < n)%N -> (0 < d)%N -> samples (b * d + n + a * d) d = (b + samples n d + a)%N.
Proof. intros Hn Hd. rewrite !samples_alt by lia. replace (b * d + n + a * d - 1)%N with (n - 1 + (b + a) * d)%N by lia. rewrite N.div_add by lia. lia. Qed.
Lemma samples_le n d : (0 < n)%N -> (0 < d)%N -> (0 < samples n d <= n)%N.
Proof. intros Hn Hd. rewrite samples_alt by done. assert ((n - 1) / d <= n - 1)%N by (apply N.div_le_upper_bound; nia). revert H. generalize ((n - 1) / d)%N. intros q H. lia. Qed.

Lemma axis c s n d ov : (0 < n)%N -> (0 < d)%N -> (s + n <= c)%N -> (c + d < 2 ^ 31)%N ->
  let b := room_before s d ov in let a := room_behind c s n d ov in
  padding_pre s d ov = b /\ padding_post c (wadd s n) d ov = a /\ padded_start s b d = (s - b * d)%N /\ padded_shape n b a d = (b * d + n + a * d)%N /\
  (b * d <= s)%N /\ (s + n + a * d <= c)%N /\ (b <= ov)%N /\ (a <= ov)%N /\ wmul b d = (b * d)%N /\ wmul a d = (a * d)%N /\ wadd (wadd s n) (a * d) = (s + n + a * d)%N /\
  get_downsampled_shape [0%N] [n] [d] = [samples n d] /\ get_downsampled_shape [0%N] [(b * d + n + a * d)%N] [d] = [(samples n d + b + a)%N] /\
  wadd (wadd (samples n d) b) a = (samples n d + b + a)%N.
Proof.
  intros Hn Hd Hc H31 b a. assert (2 ^ 31 < W)%N as HW by done.
  destruct (C37_padding_survives_downsampling c s n d ov Hd Hn Hc) as (P1 & P2 & P3 & P4 & _ & P6 & _ & (k & Hk & Hk2)); [lia|].
  assert (wadd s n = s + n)%N as Esn by (unfold wadd; apply N.mod_small; lia).
  assert (padding_pre s d ov = b) as Eb by done. assert (padding_post c (s + n) d ov = a) as Ea. { unfold padding_post, a, room_behind. rewrite wsub_le by lia. done. }
  rewrite Eb, ?Ea in *.
  assert (b * d <= s)%N as B1 by lia. assert (s + n + a * d <= c)%N as A1 by lia. pose proof (samples_le n d Hn Hd) as Hsn. assert (b <= b * d)%N by nia. assert (a <= a * d)%N by nia.
  assert (get_downsampled_shape [0%N] [n] [d] = [samples n d]) as G.
  { unfold get_downsampled_shape, ds_shape, ds_first, ds_last, vwadd, vwsub, vwdiv. cbn [zip_with fmap list_fmap].
      assert (forall y, y < W -> wadd 0 y = y)%N as Hz by (intros y Hy; unfold wadd; rewrite N.mod_small; lia).
      rewrite !Hz by lia. rewrite !(wsub_le d), !(wsub_le n) by lia.
      replace ((d - 1) / d)%N with 0%N by (symmetry; apply N.div_small; lia). rewrite samples_alt in * by done.
      unfold wadd. rewrite N.mod_small by lia. rewrite N.max_0_r. f_equal. rewrite wsub_le; lia. }
  rewrite G in Hk. injection Hk as <-. rewrite Esn. rewrite P2 in Hk2.
  assert (forall x, x < W -> x mod W = x)%N as Hm by (intros; by apply N.mod_small). unfold wmul, wadd.
  split_and!; try done; try lia; try (rewrite ?Hm; lia).
  rewrite (Hm (samples n d + b)%N) by lia. apply Hm. lia.
Qed.

(** ** Chunks that fill a box *)
Lemma hull_of_box dims C s e : length s = dims -> length e = dims -> (forall i, (i < dims)%nat -> (s !!! i < e !!! i)%N) ->
  (forall c, c ∈ C -> length (c_start c) = dims /\ length (c_end c) = dims /\ forall i, (i < dims)%nat -> (c_start c !!! i < c_end c !!! i)%N) ->
  (forall ind, (exists c, c ∈ C /\ covers c ind) <-> inbox s e ind) -> is_hull dims C s e.
Proof.
  intros Ls Le Hse HC Hbox. split; [done|]. split; [done|]. split; [intros c ind Hc Hi; apply Hbox; eauto|].
  assert (forall c, c ∈ C -> forall i, (i < dims)%nat -> (s !!! i <= c_start c !!! i)%N /\ (c_end c !!! i <= e !!! i)%N) as Hin.
  { intros c Hc i Hi. destruct (HC c Hc) as (L1 & L2 & Hlt).
    assert (inbox s e (c_start c)) as (_ & _ & I1)%inbox_at. { apply Hbox. exists c. split; [done|]. apply inbox_at. split; [done|]. split; [lia|]. intros j Hj. specialize (Hlt j ltac:(lia)). lia. }
    assert (inbox s e ((fun x => x - 1)%N <$> c_end c)) as (_ & _ & I2)%inbox_at.
    { apply Hbox. exists c. split; [done|]. apply inbox_at. rewrite fmap_length. split; [lia|]. split; [lia|]. intros j Hj. rewrite fmap_at by lia. specialize (Hlt j ltac:(lia)). lia. }
    specialize (I1 i ltac:(lia)). specialize (I2 i ltac:(lia)). rewrite fmap_at in I2 by lia. specialize (Hlt i Hi). lia. }
  split; intros i x Hx; pose proof (lookup_lt_Some _ _ _ Hx) as Hi.
  - destruct (proj2 (Hbox s)) as (c & Hc & (_ & _ & Hcov)%inbox_at). { apply inbox_at. split; [done|]. split; [lia|]. intros j Hj. specialize (Hse j ltac:(lia)). lia. }
    destruct (HC c Hc) as (L1 & L2 & _). exists c. split; [done|]. apply list_lookup_total_correct in Hx. rewrite list_lookup_lookup_total_lt by lia. f_equal. rewrite <- Hx. specialize (Hcov i ltac:(lia)). destruct (Hin c Hc i ltac:(lia)). lia.
  - destruct (proj2 (Hbox ((fun x => x - 1)%N <$> e))) as (c & Hc & (_ & _ & Hcov)%inbox_at). { apply inbox_at. rewrite fmap_length. split; [lia|]. split; [lia|]. intros j Hj. rewrite fmap_at by lia. specialize (Hse j ltac:(lia)). lia. }
    destruct (HC c Hc) as (L1 & L2 & _). exists c. split; [done|]. apply list_lookup_total_correct in Hx. rewrite list_lookup_lookup_total_lt by lia. f_equal. rewrite <- Hx. specialize (Hcov i ltac:(lia)). rewrite fmap_at in Hcov by lia. destruct (Hin c Hc i ltac:(lia)). specialize (Hse i ltac:(lia)). lia.
Qed.
(** The chunks of an array are boxes that are not empty. *)
Lemma chunk_boxes vd dims junk L l S c : lib_ok L -> session vd dims junk L l S -> c ∈ ls_chunks S ->
  length (c_start c) = dims /\ length (c_end c) = dims /\ forall i, (i < dims)%nat -> (c_start c !!! i < c_end c !!! i)%N.
Proof.
  intros HL Hl (i & Hi)%elem_of_list_lookup. destruct (session_inv vd dims junk L HL _ _ Hl) as (M & sz & H & Hr). destruct (lrep_get _ _ _ _ _ _ _ i c Hr Hi) as (m & _ & Hm & _).
  destruct (mr_at dims m c Hm) as (A & B & _ & D). split; [done|]. split; [done|]. intros k Hk. by destruct (D k Hk).
Qed.
Lemma sum_le x l : x ∈ l -> (x <= foldr N.add 0 l)%N.
Proof. induction 1; cbn [foldr]; lia. Qed.
Lemma mjoin_bound {A} (ls : list (list A)) (bs : list N) : Forall2 (fun l b => N.of_nat (length l) <= b)%N ls bs -> (N.of_nat (length (mjoin ls)) <= foldr N.add 0 bs)%N.
Proof. induction 1 as [|x y l k Hxy _ IH]; [done|]. change (mjoin (x :: l)) with (x ++ mjoin l). rewrite app_length. cbn [foldr]. lia. Qed.

Section calc.
Context (vd : nat) (cz cr sz sr nz nr : N) (d : N) (ov : nat).
Context (csize : N) (ct cl jobs : nat) (chunks : nat -> list (list Z * list Z)) (E : nat -> list Z -> list N)
    (names : nat -> nat -> nat -> nat -> bytes) (T : nat) (uuids2 : nat -> nat -> bytes).
Context (Hok : ok_calculate vd cz cr sz sr nz nr d ov csize ct cl jobs chunks E names T uuids2).
Notation bz := (bz sz d ov). Notation br := (br sr d ov). Notation az := (az cz sz nz d ov). Notation ar := (ar cr sr nr d ov).
Notation ws := (wide_start sz sr d ov). Notation wn := (wide_shape cz cr sz sr nz nr d ov). Notation wo := (wide_out cz cr sz sr nz nr d ov T).

Lemma axis_z : let b := bz in let a := az in
  padding_pre sz d (N.of_nat ov) = b /\ padding_post cz (wadd sz nz) d (N.of_nat ov) = a /\ padded_start sz b d = (sz - b * d)%N /\ padded_shape nz b a d = (b * d + nz + a * d)%N /\
  (b * d <= sz)%N /\ (sz + nz + a * d <= cz)%N /\ (b <= N.of_nat ov)%N /\ (a <= N.of_nat ov)%N /\ wmul b d = (b * d)%N /\ wmul a d = (a * d)%N /\ wadd (wadd sz nz) (a * d) = (sz + nz + a * d)%N /\
  get_downsampled_shape [0%N] [nz] [d] = [samples nz d] /\ get_downsampled_shape [0%N] [(b * d + nz + a * d)%N] [d] = [(samples nz d + b + a)%N] /\
  wadd (wadd (samples nz d) b) a = (samples nz d + b + a)%N.
Proof using Hok. destruct Hok. apply axis; lia. Qed.
Lemma axis_r : let b := br in let a := ar in
  padding_pre sr d (N.of_nat ov) = b /\ padding_post cr (wadd sr nr) d (N.of_nat ov) = a /\ padded_start sr b d = (sr - b * d)%N /\ padded_shape nr b a d = (b * d + nr + a * d)%N /\
  (b * d <= sr)%N /\ (sr + nr + a * d <= cr)%N /\ (b <= N.of_nat ov)%N /\ (a <= N.of_nat ov)%N /\ wmul b d = (b * d)%N /\ wmul a d = (a * d)%N /\ wadd (wadd sr nr) (a * d) = (sr + nr + a * d)%N /\
  get_downsampled_shape [0%N] [nr] [d] = [samples nr d] /\ get_downsampled_shape [0%N] [(b * d + nr + a * d)%N] [d] = [(samples nr d + b + a)%N] /\
  wadd (wadd (samples nr d) b) a = (samples nr d + b + a)%N.
Proof using Hok. destruct Hok. apply axis; lia. Qed.

Lemma calc_is : let pre := calc_pre [sz; sr] d (N.of_nat ov) in let post := calc_post [cz; cr] [sz; sr] [nz; nr] d (N.of_nat ov) in
  pre = [bz; br] /\ post = [az; ar] /\ calc_padded_start [sz; sr] pre d = ws /\ calc_padded_shape [nz; nr] pre post d = wn /\
  calc_asserts [cz; cr] [sz; sr] [nz; nr] pre post d (calc_padded_shape [nz; nr] pre post d) = true.
Proof using Hok.
  destruct axis_z as (Z1 & Z2 & Z3 & Z4 & Z5 & Z6 & _ & _ & Z9 & Z10 & Z11 & Z12 & Z13 & Z14). destruct axis_r as (R1 & R2 & R3 & R4 & R5 & R6 & _ & _ & R9 & R10 & R11 & R12 & R13 & R14).
  cbv zeta. assert (calc_pre [sz; sr] d (N.of_nat ov) = [bz; br]) as -> by (unfold calc_pre; rewrite !list.fmap_cons, list.fmap_nil, Z1, R1; done).
  assert (calc_post [cz; cr] [sz; sr] [nz; nr] d (N.of_nat ov) = [az; ar]) as -> by (unfold calc_post, vwadd; cbn [zip_with]; rewrite Z2, R2; done).
  assert (calc_padded_shape [nz; nr] [bz; br] [az; ar] d = wn) as -> by (unfold calc_padded_shape; cbn [zip_with fst snd]; rewrite Z4, R4; done).
  split; [done|]. split; [done|]. split; [unfold calc_padded_start; cbn [zip_with]; rewrite Z3, R3; done|]. split; [done|].
  unfold calc_asserts. cbn [length replicate]. rewrite !andb_true_iff. split; [split|].
  - unfold vge, vwmul. cbn [zip_with zip forallb fst snd]. rewrite Z9, R9. rewrite (proj2 (N.leb_le _ _) Z5), (proj2 (N.leb_le _ _) R5). done.
  - unfold vge, vwmul, vwadd. cbn [zip_with zip forallb fst snd]. rewrite Z10, R10, Z11, R11. rewrite (proj2 (N.leb_le _ _) Z6), (proj2 (N.leb_le _ _) R6). done.
  - apply bool_decide_eq_true. unfold wide_shape.
    assert (forall a b, get_downsampled_shape [0; 0]%N [a; b] [d; d] = get_downsampled_shape [0]%N [a] [d] ++ get_downsampled_shape [0]%N [b] [d]) as Happ by reflexivity.
    rewrite !Happ, Z12, Z13, R12, R13. unfold vwadd. cbn [app zip_with]. rewrite Z14, R14. done.
Qed.
Lemma pow2 n : (n ^ 2 = n * n)%nat. Proof. cbn [Nat.pow]. lia. Qed.
Lemma saves m : (m < jobs)%nat -> ok_save vd 3 ct cl ws wn [d; d] (chunks m) E (names m) T.
Proof using Hok.
  intros Hm. destruct axis_z as (_ & _ & _ & _ & Z5 & Z6 & _). destruct axis_r as (_ & _ & _ & _ & R5 & R6 & _). destruct Hok. destruct ca_domain as (D1 & D2 & D3 & D4 & D5). assert (2 ^ 31 < 2 ^ 64)%N as HW by done.
  split.
  - done.
  - done.
  - unfold wide_start, wide_shape. split; repeat constructor; lia.
  - intros c Hc. by apply (ca_chunks m).
  - intros j j' c c' x Hj Hj' Hx Hx'. by destruct (ca_apart m m j j' c c' x Hm Hm Hj Hj' Hx Hx').
  - exact ca_field.
  - lia.
  - cbn [length]. rewrite pow2. tauto.
  - etrans; [|exact ca_ids]. apply sum_le. apply elem_of_list_fmap. exists m. split; [done|]. apply elem_of_seq. lia.
  - intros t j c k Ht Hj Hk. destruct (ca_names m t j c k Hm Ht Hj Hk) as (A & B & D & F). split; [done|]. split; [done|]. split; [done|]. intros t' j' c' k' Ht' Hj' Hk' Heq. destruct (F m t' j' c' k' Hm Ht' Hj' Hk' Heq) as (_ & ? & ? & ?). done.
Qed.

(** An index is in the box of the merged array iff it is a sample in the wide domain. *)
Lemma wide_iff z r : domain ws wn (sampled ws [d; d] [z; r]) <-> (z < bz + samples nz d + az /\ r < br + samples nr d + ar)%N.
Proof using Hok.
  destruct Hok. destruct ca_domain as (D1 & D2 & D3 & D4 & D5).
  rewrite <- (samples_add nz d bz az), <- (samples_add nr d br ar) by done. rewrite <- !samples_iff by lia.
  unfold domain, sampled, times, wide_start, wide_shape. cbn [zip_with]. split.
  - intros [_ H]. inversion_clear H. inversion_clear H1. lia.
  - intros [H1 H2]. split; repeat constructor; lia.
Qed.
Lemma wide_covered x : domain ws wn x -> exists m j c, (m < jobs)%nat /\ chunks m !! j = Some c /\ cell_in c x.
Proof using Hok.
  destruct axis_z as (_ & _ & _ & _ & Z5 & Z6 & _). destruct axis_r as (_ & _ & _ & _ & R5 & R6 & _). intros Hx. destruct Hok. apply ca_cover. destruct Hx as [H1 H2]. unfold wide_start, wide_shape in *. cbn [zip_with] in *.
  destruct x as [|x0 [|x1 [|? ?]]]; try (by inversion H1; subst; match goal with H : Forall2 _ [_] _ |- _ => inversion H; subst end; try match goal with H : Forall2 _ [] _ |- _ => inversion H end).
  repeat match goal with H : Forall2 _ _ _ |- _ => inversion_clear H end. split; cbn [zip_with]; repeat constructor; lia.
Qed.
End calc.
