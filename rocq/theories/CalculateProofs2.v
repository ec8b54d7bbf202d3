(** Proofs about the whole calculation (C60): the merged array and the result. *)
From stdpp Require Import base list list_numbers numbers option gmap countable sets.
From Coq Require Import NArith ZArith Lia.
From Verif Require Import IndexSpec LoopsModel LoopsProofs NDArrayModel NDArrayProofs NDArrayOps NDArrayProps StreamerModel StreamerProps CodecModel
  BBoxModel BBoxProps DownsampleModel DownsampleProps RTreeModel RTreeInsert RTreeProps ChunkMetaModel ChunkMetaProps ChunkCacheModel ChunkCacheSpec
  LibraryModel LibrarySpec LibraryProofs LibraryProofs2 LibraryProofs5 LibraryProofs6 LibraryProofs7 LibraryProps
  BoundaryModel BoundaryProps RebuildModel RebuildSpec RebuildProofs RebuildProofs3 RebuildProofs4 PartitionModel PartitionProps ParallelModel ParallelSpec ParallelProofs ParallelProofs2 ParallelProps
  RecordModel RecordSpec StorageModel StorageSpec StorageProofs StorageProps CalculateModel CalculateSpec CalculateProofs.
From Verif Require Import IndexSpec LibrarySpec.
Local Opaque lib_open lib_swap_axes lib_move lib_close lib_get save_job merge_dirs rechunk_mpi.

Lemma list2 {A} (a b c d : A) : a = c -> b = d -> [a; b] = [c; d].
Proof. by intros -> ->. Qed.
Lemma le_times x d : (0 < d)%N -> (x <= x * d)%N.
Proof. nia. Qed.
Section calc.
Context (vd : nat) (junk : N) (L : lib) (HL : lib_ok L).
Context (cz cr sz sr nz nr : N) (d : N) (ov : nat).
Context (csize : N) (ct cl jobs : nat) (chunks : nat -> list (list Z * list Z)) (E : nat -> list Z -> list N)
    (names : nat -> nat -> nat -> nat -> bytes) (T : nat) (uuids2 : nat -> nat -> bytes).
Context (Hok : ok_calculate vd cz cr sz sr nz nr d ov csize ct cl jobs chunks E names T uuids2).
Context (cut : nat -> nat -> nat -> list nat -> bool) (ord : nat -> list N -> list N) (ordm : list N -> list N).
Context (Hord : forall m k, ord m k ≡ₚ k) (Hordm : forall k, ordm k ≡ₚ k).
Notation bz := (bz sz d ov). Notation br := (br sr d ov). Notation az := (az cz sz nz d ov). Notation ar := (ar cr sr nr d ov).
Notation ws := (wide_start sz sr d ov). Notation wn := (wide_shape cz cr sz sr nz nr d ov). Notation wo := (wide_out cz cr sz sr nz nr d ov T).
Notation jobf := (fun m => save_job vd 3 junk L ct cl ws wn [d; d] (chunks m) E (cut m) (names m) T (ord m)).

(** What the job of process [m] leaves. *)
Definition job_done (m : nat) (dd : dir) (S : lstate) : Prop := (m < jobs)%nat /\ holds_array vd 3 junk L dd S /\ saved_swapped vd ws wn [d; d] (chunks m) E (cut m) T (ls_chunks S) /\
  (forall ch, ch ∈ ls_chunks S -> exists t j c k, (t < T)%nat /\ chunks m !! j = Some c /\ (N.of_nat k < part_cells cl ws wn [d; d] c)%N /\ c_file ch = names m t j k) /\
  (N.of_nat (length (ls_chunks S)) <= foldr N.add 0 (part_cells cl ws wn [d; d] <$> chunks m) * N.of_nat (epochs ct T))%N.
Lemma jobs_done (Hjunk : (junk < 2 ^ 32)%N) : exists ds Ss, mapR jobf (seq 0 jobs) = Done ds /\ length ds = jobs /\ length Ss = jobs /\ forall m dd S, ds !! m = Some dd -> Ss !! m = Some S -> job_done m dd S.
Proof using Hok HL Hord.
  destruct (mapR_ok jobf (fun m dd => exists S, job_done m dd S) (seq 0 jobs)) as (ds & Eds & HF).
  { intros m Hm%elem_of_seq. assert (m < jobs)%nat as Hmj by lia. pose proof (saves vd cz cr sz sr nz nr d ov csize ct cl jobs chunks E names T uuids2 Hok m Hmj) as Hs.
    destruct (C58_job vd junk L ct cl ws wn [d; d] (chunks m) E (cut m) (names m) T (ord m) HL Hjunk Hs) as (dd & S & Ed & H1 & H2 & H3 & H4).
    - destruct (ca_volume _ _ _ _ _ _ _ _ _ _ _ _ _ _ _ _ _ _ Hok) as (_ & _ & H). exact H.
    - apply Hord.
    - exists dd. split; [exact Ed|]. exists S. exact (conj Hmj (conj H1 (conj H2 (conj H3 H4)))). }
  assert (length ds = jobs) as Lds. { apply Forall2_length in HF. rewrite seq_length in HF. done. }
  assert (exists Ss, Forall2 (fun p S => job_done p.1 p.2 S) (zip (seq 0 jobs) ds) Ss) as (Ss & HSs).
  { apply Forall_choose. intros [m dd] Hmd. apply elem_of_list_lookup in Hmd as (i & Hi). apply lookup_zip_with_Some in Hi as (m' & dd' & [= -> ->] & Hm & Hdd). exact (Forall2_lookup_lr _ _ _ _ _ _ HF Hm Hdd). }
  exists ds, Ss. split; [exact Eds|]. split; [done|]. split. { apply Forall2_length in HSs. rewrite zip_with_length, seq_length in HSs. lia. }
  intros m dd S Hd HS. destruct (Forall2_lookup_r _ _ _ _ _ HSs HS) as ([m' dd'] & Hz & Hj). apply lookup_zip_with_Some in Hz as (m2 & dd2 & [= -> ->] & Hm & Hdd). apply lookup_seq in Hm as [-> _].
  rewrite Hd in Hdd. injection Hdd as <-. exact Hj.
Qed.

(** The merged array: its chunks fill the wide box, and hold the field. *)
Definition merged_done (S : lstate) : Prop :=
  (forall ind, (exists c, c ∈ ls_chunks S /\ covers c ind) <-> inbox [0; 0; 0]%N wo ind) /\
  (forall z r (t : nat) v, (t < T)%nat -> domain ws wn (sampled ws [d; d] [z; r]) -> kept_field vd sz sr d ov jobs chunks E cut t (sampled ws [d; d] [z; r]) v ->
    exists c, c ∈ ls_chunks S /\ covers c [r; z; N.of_nat t] /\ comes_back NullSuppressed v (value c [r; z; N.of_nat t])).
Lemma merged (Hjunk : (junk < 2 ^ 32)%N) : exists ds dm S, mapR jobf (seq 0 jobs) = Done ds /\ merge_dirs vd 3 junk L ordm ds = Done dm /\ holds_array vd 3 junk L dm S /\ merged_done S.
Proof using Hok HL Hord Hordm.
  destruct (jobs_done Hjunk) as (ds & Ss & Eds & Lds & LSs & HJ).
  assert (forall m S, Ss !! m = Some S -> exists dd, ds !! m = Some dd /\ job_done m dd S) as HS.
  { intros m S Hm. destruct (lookup_lt_is_Some_2 ds m) as [dd Hdd]; [apply lookup_lt_Some in Hm; lia|]. eauto. }
  assert (Forall2 (holds_array vd 3 junk L) ds Ss) as Hholds. { apply Forall2_same_length_lookup. split; [lia|]. intros i x y Hx Hy. by destruct (HJ i x y Hx Hy) as (_ & ? & _). }
  assert (ForallOrdPairs compatible (ls_chunks <$> Ss)) as Hcomp.
  { apply FOP_lookup. intros i j C C' Hij HC HC'. rewrite list_lookup_fmap in HC, HC'. destruct (Ss !! i) as [S|] eqn:Ei; [|discriminate HC]. destruct (Ss !! j) as [S'|] eqn:Ej; [|discriminate HC'].
    injection HC as <-. injection HC' as <-. destruct (HS i S Ei) as (dd & _ & Hi & _ & [_ W2 _] & HN & _). destruct (HS j S' Ej) as (dd' & _ & Hj & _ & [_ W2' _] & HN' & _).
    intros c c2 Hc Hc2. split.
    - intros ind Hin Hin'. destruct (W2 c ind Hc Hin) as (t & k & q & z & r & -> & _ & Hq & _ & Hcell). destruct (W2' c2 _ Hc2 Hin') as (t' & k' & q' & z' & r' & Heq & _ & Hq' & _ & Hcell').
      injection Heq as -> -> _. destruct (ca_apart _ _ _ _ _ _ _ _ _ _ _ _ _ _ _ _ _ _ Hok i j k k' q q' _ Hi Hj Hq Hq' Hcell Hcell'). lia.
    - intros Hf. exfalso. destruct (HN c Hc) as (t & k & q & n & Ht & Hq & Hn & Ef). destruct (HN' c2 Hc2) as (t' & k' & q' & n' & Ht' & Hq' & Hn' & Ef').
      destruct (ca_names _ _ _ _ _ _ _ _ _ _ _ _ _ _ _ _ _ _ Hok i t k q n Hi Ht Hq Hn) as (_ & _ & _ & Hinj). destruct (Hinj j t' k' q' n' Hj Ht' Hq' Hn'); [congruence|]. lia. }
  assert (N.of_nat (length (mjoin (ls_chunks <$> Ss))) <= 2 ^ 32)%N as Hcount.
  { etrans; [|exact (ca_ids _ _ _ _ _ _ _ _ _ _ _ _ _ _ _ _ _ _ Hok)]. apply mjoin_bound. apply Forall2_same_length_lookup. rewrite !fmap_length, seq_length. split; [lia|].
    intros i C b HC Hb. rewrite list_lookup_fmap in HC. rewrite list_lookup_fmap in Hb. destruct (Ss !! i) as [S|] eqn:Ei; [|discriminate HC]. injection HC as <-. destruct (HS i S Ei) as (dd & _ & Hi & _ & _ & _ & Hn).
    rewrite lookup_seq_lt in Hb by done. injection Hb as <-. cbn [Nat.add]. exact Hn. }
  destruct (merge_ok vd 3 junk L HL ds Ss ordm ltac:(lia) Hholds Hcomp Hcount Hordm) as (dm & l & S & Em & Hl & Ec & EC).
  exists ds, dm, S. split; [exact Eds|]. split; [exact Em|]. split; [exists l, ordm; exact (conj Hl (conj Hordm Ec))|]. clear Em Ec Eds.
  assert (forall c, c ∈ ls_chunks S <-> exists m S', Ss !! m = Some S' /\ c ∈ ls_chunks S') as Hin.
  { intros c. rewrite EC, elem_mjoin. split.
    - intros (i & y & Hi & Hc). rewrite list_lookup_fmap in Hi. destruct (Ss !! i) as [S'|] eqn:Ei; [|discriminate Hi]. injection Hi as <-. eauto.
    - intros (m & S' & Hm & Hc). exists m, (ls_chunks S'). rewrite list_lookup_fmap, Hm. done. }
  assert (forall z r (t : nat) v, (t < T)%nat -> domain ws wn (sampled ws [d; d] [z; r]) -> kept_field vd sz sr d ov jobs chunks E cut t (sampled ws [d; d] [z; r]) v ->
    exists c, c ∈ ls_chunks S /\ covers c [r; z; N.of_nat t] /\ comes_back NullSuppressed v (value c [r; z; N.of_nat t])) as Hval.
  { intros z r t v Ht Hdom (m & j & q & Hm & Hq & Hcell & ->). destruct (lookup_lt_is_Some_2 Ss m) as [S' HS']; [lia|]. destruct (HS m S' HS') as (dd & _ & _ & _ & [W1 _ _] & _ & _).
    destruct (W1 t j q z r Ht Hq Hdom Hcell) as (ch & Hch & Hcov & Hv). exists ch. split; [apply Hin; eauto|]. split; [done|exact Hv]. }
  split; [|exact Hval].
  intros ind. split.
  - intros (c & Hc & Hcov). apply Hin in Hc as (m & S' & HS' & Hc). destruct (HS m S' HS') as (dd & _ & _ & _ & [_ W2 _] & _ & _). destruct (W2 c ind Hc Hcov) as (t & j & q & z & r & -> & Ht & _ & Hdom & _).
    apply (wide_iff vd cz cr sz sr nz nr d ov csize ct cl jobs chunks E names T uuids2 Hok) in Hdom as [H1 H2]. unfold wide_out. apply inbox_at. split; [done|]. split; [done|].
    intros [|[|[|i]]] Hi; cbn [length] in Hi; [exact (conj (N.le_0_l _) H2)|exact (conj (N.le_0_l _) H1)| |lia]. change ((0 <= N.of_nat t < N.of_nat T)%N). lia.
  - intros (L1 & _ & Hi)%inbox_at. cbn [length] in L1. destruct ind as [|r [|z [|t [|? ?]]]]; try discriminate L1. pose proof (Hi 0%nat ltac:(cbn; lia)) as H0. pose proof (Hi 1%nat ltac:(cbn; lia)) as H1. pose proof (Hi 2%nat ltac:(cbn; lia)) as H2.
    change ((0 <= r < br + samples nr d + ar)%N) in H0. change ((0 <= z < bz + samples nz d + az)%N) in H1. change ((0 <= t < N.of_nat T)%N) in H2.
    assert (domain ws wn (sampled ws [d; d] [z; r])) as Hdom. { apply (wide_iff vd cz cr sz sr nz nr d ov csize ct cl jobs chunks E names T uuids2 Hok). split; [exact (proj2 H1)|exact (proj2 H0)]. }
    destruct (wide_covered vd cz cr sz sr nz nr d ov csize ct cl jobs chunks E names T uuids2 Hok _ Hdom) as (m & j & q & Hm & Hq & Hcell).
    destruct (Hval z r (N.to_nat t) (stored_value vd ws E (cut m) (N.to_nat t) j q (sampled ws [d; d] [z; r])) ltac:(lia) Hdom) as (c & Hc & Hcov & _); [exists m, j, q; done|]. exists c. split; [done|]. rewrite N2Nat.id in Hcov. done.
Qed.

(** The merged array can be re-chunked. *)
Notation pre := [br; bz; 0%N]. Notation post := [ar; az; 0%N]. Notation req := (replicate 3 csize).
Lemma wo_minus : zip_with N.sub wo post = [br + samples nr d; bz + samples nz d; N.of_nat T]%N.
Proof using. unfold wide_out. cbn [zip_with]. repeat f_equal; lia. Qed.
Lemma count2 : chunk_count pre (zip_with N.sub wo post) req = foldr N.mul 1%N ((fun n => samples n csize) <$> out_shape nz nr d T).
Proof using.
  rewrite wo_minus. unfold chunk_count, out_shape, samples. cbn [zip_with replicate fmap list_fmap foldr].
  assert (forall a b, a + b - a = b)%N as Hab by lia. rewrite !Hab, N.sub_0_r. done.
Qed.
Lemma rechunkable S l : session vd 3 junk L l S -> merged_done S -> ok_rechunk vd 3 S wo pre post req ov uuids2.
Proof using Hok HL.
  intros Hl [Hbox Hval]. pose proof (axis_z vd cz cr sz sr nz nr d ov csize ct cl jobs chunks E names T uuids2 Hok) as (_ & _ & _ & _ & Z5 & Z6 & _). pose proof (axis_r vd cz cr sz sr nz nr d ov csize ct cl jobs chunks E names T uuids2 Hok) as (_ & _ & _ & _ & R5 & R6 & _).
  destruct Hok. destruct ca_domain as (D1 & D2 & D3 & D4 & D5). destruct ca_volume2 as [V1 V2].
  pose proof (samples_le nz d D1 D3) as S1. pose proof (samples_le nr d D2 D3) as S2.
  pose proof (le_times bz d D3). pose proof (le_times br d D3). pose proof (le_times az d D3). pose proof (le_times ar d D3).
  assert (forall i, (i < 3)%nat -> ([0; 0; 0]%N !!! i < wo !!! i)%N) as Hlt.
  { intros [|[|[|i]]] Hi; [change (0 < br + samples nr d + ar)%N; lia|change (0 < bz + samples nz d + az)%N; lia|change (0 < N.of_nat T)%N; lia|lia]. }
  assert (is_hull 3 (ls_chunks S) [0; 0; 0]%N wo) as Hh.
  { apply hull_of_box; [done|done|exact Hlt| |exact Hbox]. intros c Hc. exact (chunk_boxes vd 3 junk L l S c HL Hl Hc). }
  split; rewrite ?count2.
  - exact Hh.
  - split; [|intros ind Hi; by apply Hbox]. intros Hn. destruct (proj2 (Hbox [0; 0; 0]%N)) as (c & Hc & _); [|rewrite Hn in Hc; by apply elem_of_nil in Hc].
    apply inbox_at. split; [done|]. split; [done|]. intros i Hi. split; [done|]. by apply Hlt.
  - split; [done|]. split; [done|]. intros [|[|[|i]]] Hi; [change (br + ar < br + samples nr d + ar)%N; lia|change (bz + az < bz + samples nz d + az)%N; lia|change (0 + 0 < N.of_nat T)%N; lia|lia].
  - unfold count, wide_out in *. cbn [replicate zip_with foldr] in *. rewrite !N.sub_0_r. exact ca_count.
  - unfold wide_out. repeat constructor; lia.
  - split; [done|]. assert (csize < 2 ^ 32)%N. { destruct (N.lt_ge_cases csize (2 ^ 32)) as [|Hge]; [done|]. assert (csize <= csize + 2 * N.of_nat ov)%N by lia. assert (csize + 2 * N.of_nat ov <= (csize + 2 * N.of_nat ov) ^ 3)%N by (rewrite <- (N.pow_1_r (csize + 2 * N.of_nat ov)) at 1; apply N.pow_le_mono_r; lia). nia. }
    assert (2 ^ 32 < 2 ^ 64)%N by done. cbn [replicate]. repeat constructor; lia.
  - cbn [replicate fmap list_fmap volume foldr]. rewrite !N.pow_succ_r in V2 || idtac. replace (N.of_nat ((N.to_nat csize + 2 * ov) * ((N.to_nat csize + 2 * ov) * ((N.to_nat csize + 2 * ov) * 1)))) with ((csize + 2 * N.of_nat ov) ^ 3)%N; [exact V2|].
    change 3%N with (N.succ (N.succ (N.succ 0))). rewrite !N.pow_succ_r by lia. rewrite N.pow_0_r. lia.
  - exact ca_ids2.
  - exact ca_names2.
Qed.

(** From the array with the padding to the result. *)
Lemma shifted3 a b c x y w : shifted [a; b; c]%N [0; 0; 0]%N [x; y; w]%Z = [x - Z.of_N a; y - Z.of_N b; w - Z.of_N c]%Z.
Proof using. unfold shifted. cbn [zip_with]. repeat f_equal; lia. Qed.
Lemma result S C : merged_done S -> rebuilt S pre (zip_with N.sub wo post) (replicate 3 0%N) req ov C -> cylinder_rule vd S (replicate 3 0%N) wo pre (replicate 3 0%N) C ->
  calculated vd cz cr sz sr nz nr d ov csize jobs chunks E cut T C.
Proof using Hok.
  intros [Hbox Hval] [Rb Rf Rv] Hcyl. change (replicate 3 0%N) with [0; 0; 0]%N in *. rewrite wo_minus in *.
  pose proof (axis_z vd cz cr sz sr nz nr d ov csize ct cl jobs chunks E names T uuids2 Hok) as (_ & _ & _ & _ & Z5 & Z6 & _). pose proof (axis_r vd cz cr sz sr nz nr d ov csize ct cl jobs chunks E names T uuids2 Hok) as (_ & _ & _ & _ & R5 & R6 & _).
  assert (0 < d)%N as Hd by (destruct Hok; lia).
  assert (forall z r x, (0 <= z)%Z -> (0 <= r)%Z -> zind x = [Z.of_N sz + (z - Z.of_N bz) * Z.of_N d; Z.of_N sr + (r - Z.of_N br) * Z.of_N d]%Z -> x = sampled ws [d; d] [Z.to_N z; Z.to_N r]) as Hx.
  { intros z r x Hz Hr Hzi. destruct x as [|x0 [|x1 [|? ?]]]; try discriminate Hzi. unfold zind in Hzi. rewrite !list.fmap_cons, list.fmap_nil in Hzi. injection Hzi as E0 E1. unfold sampled, times, wide_start. cbn [zip_with].
    assert (x0 = sz - bz * d + Z.to_N z * d)%N as -> by nia. assert (x1 = sr - br * d + Z.to_N r * d)%N as -> by nia. done. }
  assert (forall z r x, domain ws wn x -> zind x = [Z.of_N sz + (z - Z.of_N bz) * Z.of_N d; Z.of_N sr + (r - Z.of_N br) * Z.of_N d]%Z -> (0 <= z)%Z /\ (0 <= r)%Z) as Hpos.
  { intros z r x Hdom Hzi. destruct x as [|x0 [|x1 [|? ?]]]; try discriminate Hzi. unfold zind in Hzi. rewrite !list.fmap_cons, list.fmap_nil in Hzi. injection Hzi as E0 E1. destruct Hdom as [Hle _]. unfold wide_start in Hle. inversion_clear Hle. inversion_clear H0. split; nia. }
  split.
  - intros ind. rewrite Rb. assert (zip_with N.add [0; 0; 0]%N (zip_with N.sub [br + samples nr d; bz + samples nz d; N.of_nat T]%N pre) = out_shape nz nr d T) as -> by (unfold out_shape; cbn [zip_with]; repeat f_equal; lia). done.
  - intros c Hc. destruct (Rf c Hc) as [Ho Hs]. split; [done|]. apply F2_at in Hs as [Ls Hs]. apply F1_at. intros i Hi. specialize (Hs i Hi). rewrite lookup_total_replicate_2 in Hs; [exact Hs|]. rewrite replicate_length in Ls. lia.
  - intros c r z t x v Hc Hre Ht Hdom Hzi Hkept.
    destruct (Hpos (z + Z.of_N bz)%Z (r + Z.of_N br)%Z x Hdom) as [Pz Pr]; [rewrite Hzi; repeat f_equal; lia|].
    assert (x = sampled ws [d; d] [Z.to_N (z + Z.of_N bz); Z.to_N (r + Z.of_N br)]) as Ex by (apply Hx; [done|done|rewrite Hzi; repeat f_equal; lia]).
    rewrite Ex in Hdom, Hkept. destruct (Hval _ _ t v Ht Hdom Hkept) as (c0 & Hc0 & Hcov & Hcb).
    specialize (Rv c0 c _ Hc0 Hcov Hc). unfold zind in Rv. rewrite !list.fmap_cons, list.fmap_nil, shifted3 in Rv.
    replace (Z.of_N (Z.to_N (r + Z.of_N br)) - Z.of_N br)%Z with r in Rv by lia. replace (Z.of_N (Z.to_N (z + Z.of_N bz)) - Z.of_N bz)%Z with z in Rv by lia. replace (Z.of_N (N.of_nat t) - Z.of_N 0)%Z with (Z.of_nat t) in Rv by lia.
    eapply comes_back_trans; [exact Hcb|]. by apply Rv.
  - intros c r z t Hc Hre Hr Hout. destruct (Hcyl c [r + Z.of_N br; z + Z.of_N bz; t]%Z Hc eq_refl) as [H1 _].
    { rewrite shifted3. replace (r + Z.of_N br - Z.of_N br)%Z with r by lia. replace (z + Z.of_N bz - Z.of_N bz)%Z with z by lia. replace (t - Z.of_N 0)%Z with t by lia. done. }
    rewrite shifted3 in H1. replace (r + Z.of_N br - Z.of_N br)%Z with r in H1 by lia. replace (z + Z.of_N bz - Z.of_N bz)%Z with z in H1 by lia. replace (t - Z.of_N 0)%Z with t in H1 by lia. apply H1.
    + intros Hin. apply Hout. unfold zind, wide_out in Hin. rewrite !list.fmap_cons, list.fmap_nil in Hin. cbn [in_zbox] in Hin. lia.
    + cbn [radial List.hd]. lia.
  - intros c r z t x v Hc Hre Ht Hr Hdom Hzi Hkept. destruct (Hcyl c [r + Z.of_N br; z + Z.of_N bz; Z.of_nat t]%Z Hc eq_refl) as [_ H2].
    { rewrite shifted3. replace (r + Z.of_N br - Z.of_N br)%Z with r by lia. replace (z + Z.of_N bz - Z.of_N bz)%Z with z by lia. replace (Z.of_nat t - Z.of_N 0)%Z with (Z.of_nat t) by lia. done. }
    rewrite shifted3 in H2. replace (r + Z.of_N br - Z.of_N br)%Z with r in H2 by lia. replace (z + Z.of_N bz - Z.of_N bz)%Z with z in H2 by lia. replace (Z.of_nat t - Z.of_N 0)%Z with (Z.of_nat t) in H2 by lia.
    destruct (Hpos (z + Z.of_N bz)%Z (- Z.of_N br - r)%Z x Hdom) as [Pz Pr]; [rewrite Hzi; apply list2; lia|].
    assert (x = sampled ws [d; d] [Z.to_N (z + Z.of_N bz); Z.to_N (- Z.of_N br - r)]) as Ex by (apply Hx; [done|done|rewrite Hzi; apply list2; lia]).
    rewrite Ex in Hdom, Hkept. destruct (Hval _ _ t v Ht Hdom Hkept) as (c0 & Hc0 & Hcov & Hcb).
    eapply comes_back_trans; [exact Hcb|]. apply (H2 ltac:(cbn [radial List.hd]; lia) c0 _ Hc0 Hcov). unfold zind. rewrite !list.fmap_cons, list.fmap_nil. cbn [mirror]. f_equal; [lia|]. f_equal; [lia|]. f_equal. lia.
Qed.
End calc.
