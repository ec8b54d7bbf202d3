(** Proofs about recording: one cell, one region, one step, all steps. *)
From stdpp Require Import base list list_numbers numbers option gmap countable sets.
From Coq Require Import NArith ZArith Lia.
From Verif Require Import IndexSpec LoopsModel LoopsProofs NDArrayModel NDArrayProofs NDArrayProps StreamerModel StreamerProps NullSupModel CodecModel
  BBoxModel BBoxProps DownsampleModel DownsampleProps
  RTreeModel RTreeInsert RTreeRebuild RTreeProps ChunkMetaModel ChunkMetaProps ChunkCacheModel ChunkCacheSpec ChunkCacheProofs ChunkCacheProofs2 ChunkCacheProofs3 ChunkCacheProps
  LibraryModel LibrarySpec LibraryProofs LibraryProofs2 LibraryProofs3 LibraryProofs4 LibraryProofs5 LibraryProofs6 LibraryProofs7 LibraryProps LibraryFiles LibraryFilesProps
  BoundaryModel BoundaryProps RebuildModel RebuildSpec RebuildProofs RebuildProofs2 RebuildProofs3 RebuildProofs4 PartitionModel PartitionProps.
From Verif Require Import RecordModel RecordSpec RecordProofs RecordProofs2 IndexSpec LibrarySpec.
Local Opaque lib_open darr_register lib_append.

(** How many chunks are new in step [t] if there are [n] cells. *)
Definition fresh (ct t : nat) (n : N) : N := if (t mod ct =? 0)%nat then n else 0%N.
Lemma fresh_add ct t n m : fresh ct t (n + m) = (fresh ct t n + fresh ct t m)%N.
Proof. unfold fresh. by destruct (_ =? _)%nat. Qed.
Lemma epochs_step ct t : (0 < ct)%nat -> epochs ct (t + 1) = (epochs ct t + if (t mod ct =? 0)%nat then 1 else 0)%nat.
Proof.
  intros Hct. unfold epochs. replace (t + 1 + ct - 1)%nat with (t + 1 * ct)%nat by lia. rewrite Nat.div_add by lia.
  pose proof (Nat.div_mod t ct ltac:(lia)) as E. pose proof (Nat.mod_upper_bound t ct ltac:(lia)) as B. set (q := (t / ct)%nat) in *. set (r := (t mod ct)%nat) in *. clearbody q r. subst t.
  destruct (Nat.eqb_spec r 0) as [->|Hr].
  - replace (ct * q + 0 + ct - 1)%nat with ((ct - 1) + q * ct)%nat by lia. rewrite Nat.div_add by lia. rewrite Nat.div_small by lia. lia.
  - replace (ct * q + r + ct - 1)%nat with ((r - 1) + (q + 1) * ct)%nat by lia. rewrite Nat.div_add by lia. rewrite Nat.div_small by lia. lia.
Qed.
Lemma epochs_mono ct t T : (0 < ct)%nat -> (t <= T)%nat -> (epochs ct t <= epochs ct T)%nat.
Proof. intros Hct H. unfold epochs. apply Nat.div_le_mono; lia. Qed.

Section record.
Context (vd dims : nat) (junk : N) (L : lib) (HL : lib_ok L) (ct cl : nat) (ds : list N).
Context (regions : list (list N)) (shape : nat -> list nat) (field : nat -> nat -> ndarr N) (uuids : nat -> nat -> nat -> bytes) (T : nat).
Context (Hok : ok_record vd dims ct cl ds regions shape field uuids T).
Notation session := (session vd dims junk L).
Notation c_valid := (c_valid dims cl ds regions shape).
Notation cell_at := (cell_at dims cl ds regions shape).
Notation cells := (cells dims cl ds shape).
Notation c_lo := (c_lo dims cl ds regions shape).
Notation c_hi := (c_hi dims cl ds regions shape).
Notation samp := (samp vd dims cl ds regions shape field).
Notation c_name := (c_name uuids).
Notation psh := (psh ds shape).
Notation inv := (inv ct (rebuild_cs dims) c_valid c_lo c_hi samp c_name).

Lemma store_cell_ok (Hjunk : (junk < 2 ^ 32)%N) t i rs c p buf l S dn : (t < T)%nat -> cell_at i = Some (rs, c) -> dn i = false -> inv dn t S -> session l S ->
  float_array vd p -> a_shape p = 1%nat :: psh i.1 rs ->
  (forall k, on_grid rs (shape i.1) ds k -> aread vd p (0%nat :: at_pos (ds_first rs ds) k) = aread vd (field t i.1) (0%nat :: at_pos rs (times k ds))) ->
  float_array vd buf -> (fresh ct t 1 + ls_handed S <= 2 ^ 32)%N ->
  exists b l' S', store_cell vd dims junk L ct t p (N.of_nat t :: ds_first rs ds) (buf, l) (uuids t i.1 i.2, c) = Done (b, l') /\ float_array vd b /\ session l' S' /\
    inv (fun x => if decide (x = i) then true else dn x) t S' /\ ls_handed S' = (ls_handed S + fresh ct t 1)%N.
Proof using HL Hok.
  intros Ht Hi Hdn Hinv Hl Hp Hsp Hval Hbuf Hids. destruct (cell_at_Some _ _ _ _ _ _ _ _ Hi) as [Hj Hc].
  destruct (region_at _ _ _ _ _ _ _ _ _ _ Hok _ _ Hj) as (Hreg & _ & _ & _ & L4 & L5 & Hlt & Hg). destruct (cell_sizes _ _ _ _ _ _ _ _ _ _ Hok _ _ _ _ Hj Hc) as (cs & ce & -> & Lc & Le & Hsz).
  pose proof (rc_dims _ _ _ _ _ _ _ _ _ _ Hok) as Hd. pose proof (rc_steps _ _ _ _ _ _ _ _ _ _ Hok) as HT.
  destruct (resize_float vd junk (1%nat :: zip_with Nat.sub ce cs) buf Hjunk ltac:(discriminate) Hbuf) as (b1 & E1 & Hb1 & Hs1).
  destruct (C06_fill_from_changes_exactly_block vd b1 p (0%nat :: cs) (1%nat :: ce) (replicate dims 0%nat)) as (b2 & E2 & Ha2 & Hs2 & Hr2 & _).
  { apply Hb1. } { apply Hp. }
  { constructor; [lia|]. apply F2_at. split; [lia|]. intros x Hx. by apply Hsz; lia. }
  { rewrite Hsp. constructor; [lia|]. apply F2_at. split; [lia|]. intros x Hx. specialize (Hsz x ltac:(lia)). lia. }
  { rewrite replicate_length. cbn [length]. lia. }
  { rewrite Hs1. unfold vadd, vsub. destruct dims as [|d']; [lia|]. cbn [replicate zip_with]. constructor; [lia|]. apply F2_at. rewrite !zip_with_length, replicate_length. split; [lia|]. intros x Hx.
    rewrite !zip_at by (rewrite ?replicate_length, ?zip_with_length; lia). rewrite lookup_total_replicate_2 by lia. lia. }
  assert (forall x, length x = dims -> vadd (replicate dims 0%nat) x = x) as Hv0.
  { intros x Lx. unfold vadd. apply eq_at. rewrite zip_with_length, replicate_length. split; [lia|]. intros y Hy. rewrite zip_at by (rewrite ?replicate_length; lia). rewrite lookup_total_replicate_2 by lia. lia. }
  assert (length (c_lo i) = (dims - 1)%nat /\ length (c_hi i) = (dims - 1)%nat /\ forall x, (x < dims - 1)%nat -> c_lo i !!! x = (ds_first rs ds !!! x + N.of_nat (cs !!! x))%N /\ c_hi i !!! x = (ds_first rs ds !!! x + N.of_nat (ce !!! x))%N) as (Llo & Lhi & Hlh).
  { unfold RecordProofs2.c_lo, RecordProofs2.c_hi. rewrite Hi. cbn [fst snd tail]. unfold vof_nat. rewrite !zip_with_length, !fmap_length. split; [lia|]. split; [lia|].
    intros x Hx. rewrite !zip_at by (rewrite ?fmap_length; lia). rewrite !fmap_at by lia. done. }
  assert (a_shape b2 = 1%nat :: vto_nat (zip_with N.sub (c_hi i) (c_lo i))) as Hsb.
  { rewrite Hs2, Hs1. f_equal. unfold vto_nat. apply eq_at. rewrite fmap_length, !zip_with_length. split; [lia|]. intros x Hx. rewrite fmap_at by (rewrite zip_with_length; lia). rewrite !zip_at by lia.
    destruct (Hlh x ltac:(lia)) as [-> ->]. specialize (Hsz x ltac:(lia)). lia. }
  assert (float_array vd b2) as Hb2.
  { split; [done|]. apply (data_from_reads _ vd); [done|]. intros y v Hy Hyv. rewrite Hs2, Hs1 in Hy. pose proof Hy as Hy'. apply in_shape_forall2, F2_at in Hy' as [Ly Hy']. cbn [length] in Ly. rewrite zip_with_length in Ly.
    destruct y as [|y0 y]; [cbn [length] in Ly; lia|]. cbn [length] in *.
    assert (in_box (0%nat :: cs) (1%nat :: ce) (0%nat :: zip_with Nat.add cs y)) as Hin.
    { apply in_box_at. cbn [length]. rewrite zip_with_length. split; [lia|]. split; [lia|]. intros [|x] Hx; [cbn; lia|]. rewrite !at_S. rewrite zip_at by lia. specialize (Hy' (Datatypes.S x)). rewrite !at_S in Hy'.
      rewrite zip_with_length in Hy'. specialize (Hy' ltac:(lia)). rewrite zip_at in Hy' by lia. lia. }
    specialize (Hr2 _ Hin). specialize (Hy' 0%nat ltac:(lia)). cbn in Hy'. assert (y0 = 0%nat) as -> by lia.
    rewrite Hv0 in Hr2 by (unfold vsub; rewrite zip_with_length; cbn [length]; rewrite zip_with_length; lia).
    replace (vsub (0%nat :: zip_with Nat.add cs y) (0%nat :: cs)) with (0%nat :: y) in Hr2.
    - rewrite Hyv in Hr2. symmetry in Hr2. exact (float_reads vd p _ v Hp Hr2).
    - unfold vsub. cbn [zip_with]. f_equal. apply eq_at. rewrite !zip_with_length. split; [lia|]. intros x Hx. rewrite !zip_at by (rewrite ?zip_with_length; lia). lia. }
  assert (vwadd (N.of_nat t :: ds_first rs ds) (vof_nat (0%nat :: cs)) = N.of_nat t :: c_lo i) as Est.
  { unfold vwadd, vof_nat. rewrite list.fmap_cons. cbn [zip_with]. f_equal; [rewrite wadd_small; lia|]. apply eq_at. rewrite zip_with_length, fmap_length. split; [lia|]. intros x Hx. rewrite zip_at by (rewrite ?fmap_length; lia). rewrite fmap_at by lia.
    destruct (Hlh x ltac:(lia)) as [-> _]. apply wadd_small. specialize (Hsz x ltac:(lia)). specialize (Hlt x ltac:(lia)). change W with (2 ^ 64)%N. lia. }
  assert (forall k, inbox (c_lo i) (c_hi i) k -> aread vd b2 (0%nat :: vto_nat (zip_with N.sub k (c_lo i))) = Some (samp t i k)) as Hrd.
  { intros k Hk. pose proof (cell_grid _ _ _ _ _ _ _ _ _ _ Hok _ _ _ _ Hi Hk) as Hgr. pose proof Hk as Hk2. apply (cell_inbox _ _ _ _ _ _ _ _ _ _ Hok _ _ _ _ Hi) in Hk2 as [Hk0 Hk2]. cbn [fst snd] in Hk2.
    specialize (Hr2 _ Hk2). apply inbox_at in Hk as (K1 & K2 & K3). rewrite (Hval k Hgr) in Hr2. 
    rewrite Hv0 in Hr2 by (unfold vsub, at_pos, vto_nat; rewrite zip_with_length; cbn [length]; rewrite fmap_length, zip_with_length; lia).
    replace (vsub (0%nat :: at_pos (ds_first rs ds) k) (0%nat :: cs)) with (0%nat :: vto_nat (zip_with N.sub k (c_lo i))) in Hr2.
    - unfold RecordProofs2.samp. rewrite Hi. rewrite <- Hr2. destruct (aread_Some vd b2 (0%nat :: vto_nat (zip_with N.sub k (c_lo i)))) as (v & Hv & _).
      + by apply wf_owned_wf, api_array_wf.
      + rewrite Hsb. apply in_shape_forall2. constructor; [lia|]. apply F2_at. unfold vto_nat. rewrite !fmap_length, !zip_with_length. split; [lia|]. intros x Hx. rewrite !fmap_at by (rewrite zip_with_length; lia). rewrite !zip_at by lia. specialize (K3 x ltac:(lia)). lia.
      + by rewrite Hv.
    - unfold vsub, at_pos, vto_nat. cbn [zip_with]. f_equal. apply eq_at. rewrite fmap_length, !zip_with_length, fmap_length, zip_with_length. split; [lia|]. intros x Hx.
      rewrite fmap_at by (rewrite zip_with_length; lia). rewrite !zip_at by (rewrite ?fmap_length, ?zip_with_length; lia). rewrite fmap_at by (rewrite zip_with_length; lia). rewrite zip_at by lia. destruct (Hlh x ltac:(lia)) as [-> _]. lia. }
  destruct (cell_step vd dims junk L HL ct T (rebuild_cs dims) c_valid c_lo c_hi samp c_name (cells_are_ok _ _ _ _ _ _ _ _ _ _ Hok) t i b2 l S dn Ht ltac:(by exists (rs, (0%nat :: cs, 1%nat :: ce))) Hdn Hinv Hl Hb2 Hsb Hrd) as (l' & S' & El & Hl' & Hinv' & Hh).
  { intros Hm. unfold fresh in Hids. rewrite Hm in Hids. cbn in Hids. lia. }
  exists b2, l', S'. split; [|split; [done|split; [done|split; [done|]]]].
  - unfold store_cell. cbn [zip_with]. change (1 - 0)%nat with 1%nat. rewrite E1. cbn [of_opt mbind res_bind]. rewrite E2. cbn [of_opt mbind res_bind]. rewrite Est. unfold RecordProofs2.c_name in El. rewrite El. done.
  - rewrite Hh. unfold fresh. done.
Qed.

Lemma cells_fold (Hjunk : (junk < 2 ^ 32)%N) t j rs p buf l S dn : (t < T)%nat -> regions !! j = Some rs -> (forall n, dn (j, n) = false) -> inv dn t S -> session l S ->
  float_array vd p -> a_shape p = 1%nat :: psh j rs ->
  (forall k, on_grid rs (shape j) ds k -> aread vd p (0%nat :: at_pos (ds_first rs ds) k) = aread vd (field t j) (0%nat :: at_pos rs (times k ds))) ->
  float_array vd buf -> (fresh ct t (region_cells cl ds rs (shape j)) + ls_handed S <= 2 ^ 32)%N ->
  exists b l' S', rfold (store_cell vd dims junk L ct t p (N.of_nat t :: ds_first rs ds)) (buf, l) (imap (fun k c => (uuids t j k, c)) (cells j rs)) = Done (b, l') /\
    float_array vd b /\ session l' S' /\ inv (fun x => if decide (x.1 = j) then true else dn x) t S' /\ ls_handed S' = (ls_handed S + fresh ct t (region_cells cl ds rs (shape j)))%N.
Proof using HL Hok.
  intros Ht Hj Hdn Hinv Hl Hp Hsp Hval Hbuf Hids. set (cl_ := cells j rs). pose proof (cells_len _ _ _ _ _ _ _ _ _ _ Hok _ _ Hj) as Hlen. fold cl_ in Hlen.
  assert (forall n, (n <= length cl_)%nat -> exists b l' S', rfold (store_cell vd dims junk L ct t p (N.of_nat t :: ds_first rs ds)) (buf, l) (take n (imap (fun k c => (uuids t j k, c)) cl_)) = Done (b, l') /\
    float_array vd b /\ session l' S' /\ inv (fun x => if decide (x.1 = j /\ (x.2 < n)%nat) then true else dn x) t S' /\ ls_handed S' = (ls_handed S + fresh ct t (N.of_nat n))%N) as H.
  { induction n as [|n IH]; intros Hn.
    - exists buf, l, S. split; [done|]. split; [done|]. split; [done|]. split; [|unfold fresh; destruct (_ =? _)%nat; lia]. eapply inv_ext; [|exact Hinv]. intros x _. rewrite decide_False by lia. done.
    - destruct IH as (b & l1 & S1 & E1 & Hb & Hl1 & Hi1 & Hh1); [lia|]. destruct (lookup_lt_is_Some_2 cl_ n ltac:(lia)) as [c Hc].
      assert (imap (fun k c => (uuids t j k, c)) cl_ !! n = Some (uuids t j n, c)) as Hc'. { rewrite list_lookup_imap, Hc. done. }
      rewrite (take_S_r _ _ _ Hc'). rewrite rfold_app, E1. cbn [mbind res_bind rfold].
      assert (cell_at (j, n) = Some (rs, c)) as Hca. { unfold RecordProofs2.cell_at. cbn [fst snd]. rewrite Hj. cbn [mbind option_bind]. unfold cl_ in Hc. rewrite Hc. done. }
      destruct (store_cell_ok Hjunk t (j, n) rs c p b l1 S1 (fun x => if decide (x.1 = j /\ (x.2 < n)%nat) then true else dn x) Ht Hca) as (b2 & l2 & S2 & E2 & Hb2 & Hl2 & Hi2 & Hh2); [|exact Hi1|exact Hl1|exact Hp|exact Hsp|exact Hval|exact Hb| |].
      + cbn [fst snd]. rewrite decide_False by lia. apply Hdn.
      + rewrite Hh1. assert (fresh ct t (N.of_nat n + 1) <= fresh ct t (region_cells cl ds rs (shape j)))%N as Hle by (unfold fresh; destruct (_ =? _)%nat; lia). rewrite fresh_add in Hle. lia.
      + cbn [fst snd] in E2. rewrite E2. cbn [mbind res_bind]. exists b2, l2, S2. split; [done|]. split; [done|]. split; [done|]. split.
        * eapply inv_ext; [|exact Hi2]. intros [x1 x2] _. cbn [fst snd]. destruct (decide ((x1, x2) = (j, n))) as [[= -> ->]|Hne]; [rewrite decide_True by lia; done|].
          destruct (decide (x1 = j /\ (x2 < n)%nat)) as [Hy|Hy]; [by rewrite decide_True by lia|]. rewrite decide_False; [done|]. intros [-> Hx]. apply Hy. split; [done|]. assert (x2 <> n) by congruence. lia.
        * rewrite Hh2, Hh1. replace (N.of_nat (Datatypes.S n)) with (N.of_nat n + 1)%N by lia. rewrite fresh_add. lia. }
  destruct (H (length cl_) (le_n _)) as (b & l' & S' & E & Hb & Hl' & Hi & Hh). rewrite take_ge in E by (rewrite imap_length; done). exists b, l', S'. split; [exact E|]. split; [done|]. split; [done|]. split; [|by rewrite Hh, Hlen].
  eapply inv_ext; [|exact Hi]. intros [x1 x2] [[rs' c'] Hv]. cbn [fst snd]. destruct (decide (x1 = j)) as [->|Hne].
  - rewrite decide_True; [done|]. split; [done|]. apply cell_at_Some in Hv as [Hv1 Hv2]. cbn [fst snd] in Hv1, Hv2. rewrite Hj in Hv1. injection Hv1 as <-. by eapply lookup_lt_Some.
  - rewrite decide_False; [done|]. tauto.
Qed.

Lemma region_ok_ (Hjunk : (junk < 2 ^ 32)%N) t j rs proc buf l S dn : (t < T)%nat -> regions !! j = Some rs -> (forall n, dn (j, n) = false) -> inv dn t S -> session l S ->
  float_array vd proc -> float_array vd buf -> (fresh ct t (region_cells cl ds rs (shape j)) + ls_handed S <= 2 ^ 32)%N ->
  exists p b l' S', record_region vd dims junk L ct cl ds t (field t j) (uuids t j) rs (proc, buf, l) = Done (p, b, l') /\
    float_array vd p /\ float_array vd b /\ session l' S' /\ inv (fun x => if decide (x.1 = j) then true else dn x) t S' /\ ls_handed S' = (ls_handed S + fresh ct t (region_cells cl ds rs (shape j)))%N.
Proof using HL Hok.
  intros Ht Hj Hdn Hinv Hl Hp Hb Hids. destruct (region_at _ _ _ _ _ _ _ _ _ _ Hok _ _ Hj) as (Hreg & _ & _ & _ & L4 & L5 & Hlt & Hg). pose proof (rc_dims _ _ _ _ _ _ _ _ _ _ Hok) as Hd.
  destruct (rc_fields _ _ _ _ _ _ _ _ _ _ Hok t j Ht ltac:(by eapply lookup_lt_Some)) as [Hf Hsf]. pose proof (rc_steps _ _ _ _ _ _ _ _ _ _ Hok) as HT.
  destruct (downsample_region vd junk (field t j) proc t rs (shape j) ds ltac:(lia) Hreg Hf Hsf Hp) as (p & Ep & Hpf & Hps & Hpv).
  unfold record_region. rewrite Ep. cbn [of_opt mbind res_bind]. rewrite Hps.
  destruct (cells_fold Hjunk t j rs p buf l S dn Ht Hj Hdn Hinv Hl Hpf Hps Hpv Hb Hids) as (b' & l' & S' & E & Hb' & Hl' & Hi' & Hh').
  assert (chunk_loop (loop_fuel (1%nat :: psh j rs)) (replicate dims 0%nat) (1%nat :: psh j rs) (replicate dims cl) = Some (cells j rs)) as Ec.
  { apply chunk_loop_spec; [rewrite replicate_length; cbn [length]; lia|rewrite replicate_length; cbn [length]; lia|by eapply cl_pos|done]. }
  fold (psh j rs). destruct (Nat.eqb_spec (volume (1%nat :: psh j rs)) 0) as [Hv|Hv].
  - assert (cells j rs = []) as En. { unfold RecordProofs2.cells. apply no_cells; [rewrite replicate_length; cbn [length]; lia|by eapply cl_pos|done]. }
    rewrite En in E. cbn [imap rfold] in E. injection E as <- <-. exists p, buf, l, S'. split; [done|]. split; [done|]. split; [done|]. done.
  - rewrite Ec. cbn [of_opt mbind res_bind]. rewrite E. cbn [mbind res_bind]. exists p, b', l', S'. done.
Qed.

(** The cells of the first [n] regions. *)
Definition cells_before (n : nat) : N := foldr N.add 0%N (imap (fun j rs => region_cells cl ds rs (shape j)) (take n regions)).
Lemma sum_app (a b : list N) : foldr N.add 0%N (a ++ b) = (foldr N.add 0 a + foldr N.add 0 b)%N.
Proof. induction a as [|x a IH]; cbn [app foldr]; [lia|]. rewrite IH. lia. Qed.
Lemma cells_before_S n rs : regions !! n = Some rs -> cells_before (Datatypes.S n) = (cells_before n + region_cells cl ds rs (shape n))%N.
Proof using.
  intros Hn. unfold cells_before. rewrite (take_S_r _ _ _ Hn), imap_app, sum_app. cbn [imap foldr]. rewrite take_length, Nat.min_l by (apply lookup_lt_Some in Hn; lia). rewrite N.add_0_r. unfold compose. by rewrite Nat.add_0_r.
Qed.
Lemma cells_before_mono n m : (n <= m <= length regions)%nat -> (cells_before n <= cells_before m)%N.
Proof using.
  intros [H1 H2]. induction m as [|m IH]; [assert (n = 0)%nat as -> by lia; done|]. destruct (decide (n = Datatypes.S m)) as [->|]; [done|]. destruct (lookup_lt_is_Some_2 regions m ltac:(lia)) as [rs Hm].
  rewrite (cells_before_S _ _ Hm). specialize (IH ltac:(lia) ltac:(lia)). lia.
Qed.

Lemma step_ok (Hjunk : (junk < 2 ^ 32)%N) t proc buf l S : (t < T)%nat -> inv (fun _ => false) t S -> session l S ->
  float_array vd proc -> float_array vd buf -> (fresh ct t (total_cells cl ds regions shape) + ls_handed S <= 2 ^ 32)%N ->
  exists p b l' S', record_step vd dims junk L ct cl ds regions field uuids (proc, buf, l) t = Done (p, b, l') /\
    float_array vd p /\ float_array vd b /\ session l' S' /\ inv (fun _ => false) (t + 1) S' /\ ls_handed S' = (ls_handed S + fresh ct t (total_cells cl ds regions shape))%N.
Proof using HL Hok.
  intros Ht Hinv Hl Hp Hb Hids.
  assert (total_cells cl ds regions shape = cells_before (length regions)) as Etot by (unfold total_cells, cells_before; by rewrite take_ge by lia).
  assert (forall n, (n <= length regions)%nat -> exists p b l' S', rfold (fun st jr => record_region vd dims junk L ct cl ds t (field t jr.1) (uuids t jr.1) jr.2 st) (proc, buf, l) (take n (imap (fun j r => (j, r)) regions)) = Done (p, b, l') /\
    float_array vd p /\ float_array vd b /\ session l' S' /\ inv (fun x => if decide (x.1 < n)%nat then true else false) t S' /\ ls_handed S' = (ls_handed S + fresh ct t (cells_before n))%N) as H.
  { induction n as [|n IH]; intros Hn.
    - exists proc, buf, l, S. split; [done|]. split; [done|]. split; [done|]. split; [done|]. split; [exact Hinv|]. unfold cells_before. rewrite take_0. cbn [imap foldr]. unfold fresh. destruct (_ =? _)%nat; lia.
    - destruct IH as (p & b & l1 & S1 & E1 & Hp1 & Hb1 & Hl1 & Hi1 & Hh1); [lia|]. destruct (lookup_lt_is_Some_2 regions n ltac:(lia)) as [rs Hr].
      assert (imap (fun j r => (j, r)) regions !! n = Some (n, rs)) as Hr'. { rewrite list_lookup_imap, Hr. done. }
      rewrite (take_S_r _ _ _ Hr'). rewrite rfold_app, E1. cbn [mbind res_bind rfold fst snd].
      pose proof (cells_before_S n rs Hr) as Es. pose proof (cells_before_mono (Datatypes.S n) (length regions) ltac:(lia)) as Hm.
      destruct (region_ok_ Hjunk t n rs p b l1 S1 (fun x => if decide (x.1 < n)%nat then true else false) Ht Hr) as (p2 & b2 & l2 & S2 & E2 & Hp2 & Hb2 & Hl2 & Hi2 & Hh2); [|exact Hi1|exact Hl1|exact Hp1|exact Hb1| |].
      + intros k. cbn [fst]. rewrite decide_False by lia. done.
      + rewrite Hh1. rewrite Etot in Hids. assert (fresh ct t (cells_before (Datatypes.S n)) <= fresh ct t (cells_before (length regions)))%N as Hle by (unfold fresh; destruct (_ =? _)%nat; lia). rewrite Es, fresh_add in Hle. lia.
      + rewrite E2. cbn [mbind res_bind]. exists p2, b2, l2, S2. split; [done|]. split; [done|]. split; [done|]. split; [done|]. split.
        * eapply inv_ext; [|exact Hi2]. intros [x1 x2] _. cbn [fst]. destruct (decide (x1 = n)) as [->|Hne]; [by rewrite decide_True by lia|]. destruct (decide (x1 < n)%nat); [by rewrite decide_True by lia|by rewrite decide_False by lia].
        * rewrite Hh2, Hh1, Es, fresh_add. lia. }
  destruct (H (length regions) (le_n _)) as (p & b & l' & S' & E & Hp' & Hb' & Hl' & Hi & Hh). rewrite take_ge in E by (rewrite imap_length; done). exists p, b, l', S'. split; [exact E|]. split; [done|]. split; [done|]. split; [done|]. split; [|by rewrite Hh, Etot].
  eapply inv_next; [|exact Hi]. intros [x1 x2] [[rs' c'] Hv]. cbn [fst]. apply cell_at_Some in Hv as [Hv1 _]. cbn [fst snd] in Hv1. apply lookup_lt_Some in Hv1. by rewrite decide_True.
Qed.

Lemma steps_ok (Hjunk : (junk < 2 ^ 32)%N) proc buf l S : inv (fun _ => false) 0 S -> session l S -> ls_handed S = 0%N -> float_array vd proc -> float_array vd buf ->
  forall n, (n <= T)%nat -> exists p b l' S', rfold (record_step vd dims junk L ct cl ds regions field uuids) (proc, buf, l) (seq 0 n) = Done (p, b, l') /\
    float_array vd p /\ float_array vd b /\ session l' S' /\ inv (fun _ => false) n S' /\ ls_handed S' = (total_cells cl ds regions shape * N.of_nat (epochs ct n))%N.
Proof using HL Hok.
  intros Hinv Hl Hh0 Hp Hb. destruct (rc_sizes _ _ _ _ _ _ _ _ _ _ Hok) as [Hct _]. induction n as [|n IH]; intros Hn.
  - exists proc, buf, l, S. split; [done|]. split; [done|]. split; [done|]. split; [done|]. split; [done|]. assert (epochs ct 0 = 0)%nat as -> by (unfold epochs; apply Nat.div_small; lia). lia.
  - destruct IH as (p & b & l1 & S1 & E1 & Hp1 & Hb1 & Hl1 & Hi1 & Hh1); [lia|]. rewrite seq_S, rfold_app, E1. cbn [mbind res_bind rfold plus].
    pose proof (epochs_step ct n Hct) as Ee. pose proof (epochs_mono ct (n + 1) T Hct ltac:(lia)) as Hm. pose proof (rc_ids _ _ _ _ _ _ _ _ _ _ Hok) as Hids.
    assert (ls_handed S1 + fresh ct n (total_cells cl ds regions shape) = total_cells cl ds regions shape * N.of_nat (epochs ct (n + 1)))%N as Eh.
    { rewrite Hh1, Ee. unfold fresh. destruct (_ =? _)%nat; lia. }
    destruct (step_ok Hjunk n p b l1 S1 ltac:(lia) Hi1 Hl1 Hp1 Hb1) as (p2 & b2 & l2 & S2 & E2 & Hp2 & Hb2 & Hl2 & Hi2 & Hh2); [nia|].
    rewrite E2. cbn [mbind res_bind]. exists p2, b2, l2, S2. split; [done|]. split; [done|]. split; [done|]. split; [done|]. replace (Datatypes.S n) with (n + 1)%nat by lia. split; [done|]. rewrite Hh2. exact Eh.
Qed.

Lemma recorded_of S : inv (fun _ => false) T S -> recorded vd ct cl ds regions shape field T (ls_chunks S).
Proof using Hok.
  intros Hinv. pose proof (cells_are_ok _ _ _ _ _ _ _ _ _ _ Hok) as Hce. pose proof (rc_dims _ _ _ _ _ _ _ _ _ _ Hok) as Hd. split.
  - intros t j rs k Ht Hj Hk. destruct (grid_cell _ _ _ _ _ _ _ _ _ _ Hok j rs k Hj Hk) as (n & Hv & Hin). pose proof (epoch_of vd dims ct T (rebuild_cs dims) c_valid c_lo c_hi c_name t Hce) as He.
    destruct (iv_complete _ _ _ _ _ _ _ _ _ _ Hinv (t / ct * ct)%nat (Nat.min ((t / ct + 1) * ct) T) (j, n)) as (c & Hc & Hrep).
    { split; [done|]. exists (t / ct)%nat. split; [done|]. split; [done|]. lia. }
    exists c. split; [done|]. split.
    + apply (covers_cell _ _ _ _ _ _ _ _ _ _ _ Hrep). split; [lia|done].
    + rewrite (rp_val _ _ _ _ _ _ _ _ _ Hrep t k ltac:(lia) Hin). destruct Hv as [[rs' c'] Hv]. unfold RecordProofs2.samp. rewrite Hv. cbn [fst]. apply cell_at_Some in Hv as [Hv1 _]. cbn [fst] in Hv1. rewrite Hj in Hv1. injection Hv1 as <-.
      destruct (rc_fields _ _ _ _ _ _ _ _ _ _ Hok t j Ht ltac:(by eapply lookup_lt_Some)) as [[Hfa _] Hsf]. destruct (aread_Some vd (field t j) (0%nat :: at_pos rs (times k ds))) as (v & Ev & _).
      * by apply wf_owned_wf, api_array_wf.
      * rewrite Hsf. destruct (region_at _ _ _ _ _ _ _ _ _ _ Hok _ _ Hj) as (_ & Lr & Ld & _ & L4 & L5 & _ & Hg). apply (on_grid_placed rs (shape j) ds k) in Hk as [_ Hk]; [| lia|].
        -- apply in_shape_forall2. apply in_shape_forall2 in Hk. constructor; [lia|done].
        -- apply Hg, inbox_at in Hk as (K1 & _). lia.
      * by rewrite Ev.
  - intros c ind Hc Hcov. destruct (iv_sound _ _ _ _ _ _ _ _ _ _ Hinv c Hc) as (t0 & t1 & i & [[[rs c'] Hv] (e & E0 & E1 & Hlt)] & Hrep). pose proof Hcov as Hcov'. unfold covers in Hcov'. rewrite (rp_start _ _ _ _ _ _ _ _ _ Hrep), (rp_end _ _ _ _ _ _ _ _ _ Hrep) in Hcov'.
    destruct ind as [|t k]; [apply inbox_at in Hcov' as (A & _); discriminate A|]. pose proof (proj1 (covers_cell _ _ _ _ _ _ _ _ _ _ _ Hrep) Hcov) as [Ht Hk].
    exists (N.to_nat t), i.1, rs, k. split; [f_equal; lia|]. split; [lia|]. split; [by apply cell_at_Some in Hv as [? _]|]. by eapply cell_grid.
  - intros c Hc. destruct (iv_sound _ _ _ _ _ _ _ _ _ _ Hinv c Hc) as (t0 & t1 & i & [[[rs c'] Hv] (e & E0 & E1 & Hlt)] & Hrep). split; [apply (rp_ov _ _ _ _ _ _ _ _ _ Hrep)|]. split; [apply (rp_null _ _ _ _ _ _ _ _ _ Hrep)|].
    rewrite (rp_start _ _ _ _ _ _ _ _ _ Hrep), (rp_end _ _ _ _ _ _ _ _ _ Hrep). destruct (cell_at_Some _ _ _ _ _ _ _ _ Hv) as [Hj Hc2].
    destruct (region_at _ _ _ _ _ _ _ _ _ _ Hok _ _ Hj) as (Hreg & _ & _ & _ & L4 & L5 & Hlt2 & Hg). destruct (cell_sizes _ _ _ _ _ _ _ _ _ _ Hok _ _ _ _ Hj Hc2) as (cs & ce & -> & Lc & Le & Hsz).
    change (zip (?a :: ?l) (?b :: ?m)) with ((a, b) :: zip l m). constructor; [cbn [fst snd]; nia|]. unfold RecordProofs2.c_lo, RecordProofs2.c_hi. rewrite Hv. cbn [fst snd tail]. apply F2_at. unfold vof_nat. rewrite replicate_length, !zip_with_length, !fmap_length. split; [lia|]. intros x Hx.
    rewrite lookup_total_replicate_2 by lia. rewrite zip_at by (rewrite zip_with_length, fmap_length; lia). cbn [fst snd]. rewrite !zip_at by (rewrite ?fmap_length; lia). rewrite !fmap_at by lia. specialize (Hsz x ltac:(lia)). lia.
Qed.

Lemma recorded_shapes S : inv (fun _ => false) T S -> forall c, c ∈ ls_chunks S -> exists n sh, k_shape (LibrarySpec.c_val c) = n :: sh /\ (n <= Nat.min ct T)%nat /\ length sh = length ds /\ Forall (fun x => x <= cl)%nat sh /\
  exists t j rs k, (t < T)%nat /\ regions !! j = Some rs /\ (N.of_nat k < region_cells cl ds rs (shape j))%N /\ c_file c = uuids t j k.
Proof using Hok.
  intros Hinv c Hc. destruct (iv_sound _ _ _ _ _ _ _ _ _ _ Hinv c Hc) as (t0 & t1 & i & [[[rs c'] Hv] (e & E0 & E1 & Hlt)] & Hrep). rewrite (rp_shape _ _ _ _ _ _ _ _ _ Hrep).
  destruct (cell_at_Some _ _ _ _ _ _ _ _ Hv) as [Hj Hc2]. pose proof (rc_dims _ _ _ _ _ _ _ _ _ _ Hok) as Hd.
  destruct (region_at _ _ _ _ _ _ _ _ _ _ Hok _ _ Hj) as (Hreg & _ & _ & _ & L4 & L5 & Hlt2 & Hg). destruct (cell_sizes _ _ _ _ _ _ _ _ _ _ Hok _ _ _ _ Hj Hc2) as (cs & ce & -> & Lc & Le & Hsz).
  unfold RecordProofs2.c_lo, RecordProofs2.c_hi. rewrite Hv. cbn [fst snd tail]. eexists _, _. split; [reflexivity|]. split; [nia|]. unfold vto_nat, vof_nat. rewrite fmap_length, !zip_with_length, !fmap_length. split; [lia|]. split.
  2:{ exists t0, i.1, rs, i.2. split; [lia|]. split; [done|]. split; [rewrite <- (cells_len _ _ _ _ _ _ _ _ _ _ Hok) by done; apply lookup_lt_Some in Hc2; lia|]. apply (rp_file _ _ _ _ _ _ _ _ _ Hrep). }
  apply F1_at. rewrite fmap_length, !zip_with_length, !fmap_length. intros x Hx. rewrite fmap_at by (rewrite !zip_with_length, !fmap_length; lia). rewrite !zip_at by (rewrite ?zip_with_length, ?fmap_length; lia). rewrite !fmap_at by lia. specialize (Hsz x ltac:(lia)). lia.
Qed.

Lemma record_ok (Hjunk : (junk < 2 ^ 32)%N) : exists l S, record vd dims junk L ct cl ds regions field uuids T = Done l /\ session l S /\ recorded vd ct cl ds regions shape field T (ls_chunks S) /\
  ls_reopened S = false /\ ls_handed S = (total_cells cl ds regions shape * N.of_nat (epochs ct T))%N /\ ls_cs S = rebuild_cs dims /\
  forall c, c ∈ ls_chunks S -> exists n sh, k_shape (LibrarySpec.c_val c) = n :: sh /\ (n <= Nat.min ct T)%nat /\ length sh = length ds /\ Forall (fun x => x <= cl)%nat sh /\
  exists t j rs k, (t < T)%nat /\ regions !! j = Some rs /\ (N.of_nat k < region_cells cl ds rs (shape j))%N /\ c_file c = uuids t j k.
Proof using HL Hok.
  pose proof (rc_dims _ _ _ _ _ _ _ _ _ _ Hok) as Hd. assert (0 < dims)%nat as Hd0 by lia.
  destruct (open_new vd dims junk L HL 0 (rebuild_cs dims) (rebuild_cs_ok dims Hd0)) as (l0 & E0 & _). pose proof (ss_new vd dims junk L _ _ _ (rebuild_cs_ok dims Hd0) E0) as Hl0.
  assert (float_array vd (anew vd junk (replicate dims 1%nat))) as Hbuf. { apply RebuildProofs4.anew_float; [done|]. destruct dims; [lia|discriminate]. }
  assert (inv (fun _ => false) 0 (LState [] 0 false (rebuild_cs dims))) as Hi0.
  { split; cbn [ls_chunks ls_reopened ls_cs]; [intros c Hc; destruct (proj1 (elem_of_nil c) Hc)|intros t0 t1 i [_ (e & -> & -> & Hlt)]; lia|done|done]. }
  destruct (steps_ok Hjunk (anew vd junk (replicate dims 1%nat)) (anew vd junk (replicate dims 1%nat)) l0 _ Hi0 Hl0 eq_refl Hbuf Hbuf T (le_n _))
    as (p & b & l & S & E & _ & _ & Hl & Hi & Hh).
  exists l, S. split; [|split; [done|split; [by apply recorded_of|split; [exact (iv_fresh _ _ _ _ _ _ _ _ _ _ Hi)|split; [exact Hh|split; [exact (iv_cs _ _ _ _ _ _ _ _ _ _ Hi)|exact (recorded_shapes S Hi)]]]]]].
  unfold record. rewrite E0. cbn [mbind res_bind]. rewrite E. done.
Qed.
End record.
