(** Proofs about merging and parallel re-chunking, part 3: the result of rechunk_mpi. *)
From stdpp Require Import base list list_numbers numbers option gmap countable sets.
From Coq Require Import NArith ZArith Lia.
From Verif Require Import IndexSpec LoopsModel LoopsProofs NDArrayModel NDArrayProofs NDArrayProps StreamerModel StreamerProps NullSupModel CodecModel
  BBoxModel BBoxProps DownsampleModel DownsampleProps
  RTreeModel RTreeInsert RTreeRebuild RTreeProps ChunkMetaModel ChunkMetaProps ChunkCacheModel ChunkCacheSpec ChunkCacheProofs ChunkCacheProofs2 ChunkCacheProofs3 ChunkCacheProps
  LibraryModel LibrarySpec LibraryProofs LibraryProofs2 LibraryProofs3 LibraryProofs4 LibraryProofs5 LibraryProofs6 LibraryProofs7 LibraryProps LibraryFiles LibraryFilesProps
  BoundaryModel BoundaryProps RebuildModel RebuildSpec RebuildProofs RebuildProofs2 RebuildProofs3 RebuildProofs4 PartitionModel PartitionProps ParallelModel ParallelSpec ParallelProofs ParallelProofs2.
From Verif Require Import IndexSpec LibrarySpec.

(** ** Counting *)
Lemma part_counts (pre e req : list N) ps dims : length pre = dims -> length e = dims -> length req = dims -> Forall (fun r => 0 < r)%N req ->
  Forall2 (fun p c => exists m, (1 <= m)%nat /\ p = (m * c)%nat) ps (vto_nat req) ->
  let parts := box_chunks (loop_fuel (vto_nat e)) (vto_nat pre) (vto_nat e) ps in
  (forall n q, parts !! n = Some q -> (N.of_nat n < chunk_count pre e req)%N /\ (chunk_count (vof_nat q.1) (vof_nat q.2) req <= chunk_count pre e req)%N) /\
  forall (Cs : list (list chunk)), Forall2 (fun q C => N.of_nat (length C) = chunk_count (vof_nat q.1) (vof_nat q.2) req) parts Cs -> N.of_nat (length (mjoin Cs)) = chunk_count pre e req.
Proof.
  intros Lp Le Lr Hreq0 Hmul parts.
  assert (Forall (fun c => 0 < c)%nat (vto_nat req)) as Hrpos. { unfold vto_nat. apply Forall_fmap. eapply list.Forall_impl; [exact Hreq0|]. intros r Hr. cbn beta in Hr. unfold compose. lia. }
  assert (Forall (fun c => 0 < c)%nat ps) as Hppos.
  { clear -Hmul Hrpos. induction Hmul as [|a c ps cs (m & Hm & ->) Hpm IH]; [constructor|]. apply list.Forall_cons in Hrpos as [? ?]. constructor; [nia|auto]. }
  set (f := fun p : list nat * list nat => box_chunks (loop_fuel p.2) p.1 p.2 (vto_nat req)).
  assert (Permutation (mjoin (f <$> parts)) (box_chunks (loop_fuel (vto_nat e)) (vto_nat pre) (vto_nat e) (vto_nat req))) as Hperm.
  { apply parts_perm; [unfold vto_nat; rewrite !fmap_length; lia|unfold vto_nat; rewrite !fmap_length; lia|done|done]. }
  assert (N.of_nat (length (mjoin (f <$> parts))) = chunk_count pre e req) as Hlen.
  { rewrite <- (chunks_len (loop_fuel (vto_nat e)) pre e req) by (try exact Hreq0; try exact (le_n _); lia). by rewrite Hperm. }
  assert (forall q, q ∈ parts -> N.of_nat (length (f q)) = chunk_count (vof_nat q.1) (vof_nat q.2) req /\ (1 <= length (f q))%nat) as Hf.
  { intros q Hq. pose proof (box_chunks_sizes _ _ _ _ _ Hppos Hq) as (A1 & A2 & A3 & _). unfold vto_nat in A1, A2. rewrite fmap_length in A1, A2. split.
    - rewrite <- (chunks_len (loop_fuel (vto_nat (vof_nat q.2)))); [|unfold vof_nat; rewrite !fmap_length; lia|unfold vof_nat; rewrite !fmap_length; lia|exact Hreq0|lia]. by rewrite !vto_of.
    - destruct (box_chunks_cover (loop_fuel q.2) q.1 q.2 (vto_nat req) q.1) as (x & Hx & _); [exact Hrpos|unfold vto_nat; rewrite fmap_length; lia|lia|by apply in_box_lower|].
      unfold f. destruct (box_chunks (loop_fuel q.2) q.1 q.2 (vto_nat req)); [by apply elem_of_nil in Hx|cbn [length]; lia]. }
  split.
  - intros n q Hq. pose proof (lookup_lt_Some _ _ _ Hq) as Hn. pose proof (elem_of_list_lookup_2 _ _ _ Hq) as Hqp. rewrite <- Hlen. split.
    + assert (forall l, (forall q, q ∈ l -> (1 <= length (f q))%nat) -> (length l <= length (mjoin (f <$> l)))%nat) as Hle.
      { clear. clearbody f. induction l as [|a l IH]; intros H; [cbn; lia|]. rewrite list.fmap_cons. cbn [mjoin list_join length]. rewrite app_length.
        etransitivity; [|apply Nat.add_le_mono; [apply (H a); left|apply IH; intros q Hq; apply H; by right]]. lia. }
      specialize (Hle parts (fun q Hq => proj2 (Hf q Hq))). lia.
    + rewrite <- (proj1 (Hf q Hqp)). pose proof (mjoin_len f q parts Hqp). lia.
  - intros Cs HC. rewrite <- Hlen. f_equal. clear Hlen Hperm. clearbody parts. induction HC as [|q C ps' Cs' HqC HC IH]; [done|]. rewrite list.fmap_cons. cbn [mjoin list_join]. rewrite !app_length.
    f_equal; [|apply IH; intros q' Hq'; apply Hf; by right]. destruct (Hf q ltac:(left)) as [Hq _]. lia.
Qed.

(** ** Picking the directory of a partition *)
Lemma pick {X} (Q : dir -> X -> Prop) n j (l : list nat) (Ds : list (gmap nat dir)) :
  Forall2 (fun job D => if (j =? job)%nat then exists d T, D !! n = Some d /\ Q d T else D !! n = None) l Ds -> j ∈ l ->
  exists d T, foldr (fun D r => match D !! n with Some d => Some d | None => r end) None Ds = Some d /\ Q d T.
Proof.
  induction 1 as [|job D l Ds H HF IH]; intros Hj; [destruct (proj1 (elem_of_nil j) Hj)|]. cbn [foldr]. destruct (Nat.eqb_spec j job) as [<-|Hne].
  - destruct H as (d & T & Hd & HQ). exists d, T. by rewrite Hd.
  - rewrite H. apply IH. apply elem_of_cons in Hj as [->|Hj]; [done|exact Hj].
Qed.
Lemma by_number {A B} (R : nat -> A -> B -> Prop) (ps : list A) (ys : list B) :
  Forall2 (fun n y => exists p, ps !! n = Some p /\ R n p y) (seq 0 (length ps)) ys -> length ys = length ps /\ forall n p y, ps !! n = Some p -> ys !! n = Some y -> R n p y.
Proof.
  intros H. pose proof (Forall2_length _ _ _ H) as Hl. rewrite seq_length in Hl. split; [done|]. intros n p y Hp Hy.
  assert (seq 0 (length ps) !! n = Some (0 + n)%nat) as Hs by (apply lookup_seq; split; [done|by eapply lookup_lt_Some]).
  destruct (Forall2_lookup_lr _ _ _ _ _ _ H Hs Hy) as (p' & Hp' & HR). cbn [Nat.add] in *. rewrite Hp in Hp'. injection Hp' as <-. exact HR.
Qed.

Local Opaque lib_open lib_close lib_geometry rebuild_partial lib_import merge_dirs rechunk_one_job.
Section all.
Context (vd dims : nat) (junk : N) (L : lib) (HL : lib_ok L) (ev : evaluator).
Notation session := (session vd dims junk L).

Lemma rechunk_ok d S ge pre post req ov uuids ord ordm size cs ps p jobs : (0 < dims)%nat -> (0 < jobs)%nat -> total_evaluator vd ov ev -> (junk < 2 ^ 32)%N -> holds_array vd dims junk L d S ->
  ok_rechunk vd dims S ge pre post req ov uuids -> (forall n k, ord n k ≡ₚ k) -> (forall k, ordm k ≡ₚ k) -> acceptable_chunk dims cs ->
  ps (vto_nat (zip_with N.sub (zip_with N.sub ge pre) post)) = Some p -> Forall2 (fun p c => exists m, (1 <= m)%nat /\ p = (m * c)%nat) p (vto_nat req) ->
  exists dout l' S', rechunk_mpi vd dims junk L ev size cs ps pre post req ov uuids ord ordm jobs d = Done dout /\ session l' S' /\ lib_close vd dims ordm l' = Done dout /\
    rebuilt S pre (zip_with N.sub ge post) (replicate dims 0%N) req ov (ls_chunks S') /\
    N.of_nat (length (ls_chunks S')) = chunk_count pre (zip_with N.sub ge post) req /\
    (ev = cylindrical vd -> cylinder_rule vd S (replicate dims 0%N) ge pre (replicate dims 0%N) (ls_chunks S')).
Proof using HL.
  intros Hdim Hjobs Hev Hj Hd Hok Hord Hordm Hcs Hps Hmul. set (e := zip_with N.sub ge post) in *. set (parts := box_chunks (loop_fuel (vto_nat e)) (vto_nat pre) (vto_nat e) p).
  destruct (mapR_ok (rechunk_one_job vd dims junk L ev size cs ps pre post req ov uuids ord d jobs) 
    (fun job r => r.1 = length parts /\ forall n, (n < length parts)%nat -> if (n mod jobs =? job)%nat then exists d' T, r.2 !! n = Some d' /\ part_result vd dims junk L ev S ge pre req ov uuids ord parts n d' T else r.2 !! n = None)
    (seq 0 jobs)) as (rs & Ers & Hrs).
  { intros job _. destruct (one_job_ok vd dims junk L HL ev d S ge pre post req ov uuids ord size cs ps p jobs job Hev Hj Hd Hok Hord Hcs Hps Hmul) as (D & ED & HD). exists (length parts, D). split; [exact ED|]. split; [reflexivity|exact HD]. }
  assert (head rs.*1 = Some (length parts)) as Eh.
  { destruct jobs as [|jobs]; [lia|]. cbn [seq] in Hrs. apply Forall2_cons_inv_l in Hrs as (r & rs' & (Hr & _) & _ & ->). by rewrite list.fmap_cons, Hr. }
  destruct (Forall_choose (fun n (y : dir * lstate) => foldr (fun D r => match D !! n with Some d => Some d | None => r end) None rs.*2 = Some y.1 /\ part_result vd dims junk L ev S ge pre req ov uuids ord parts n y.1 y.2)
    (seq 0 (length parts))) as (ys & Hys).
  { intros n Hn. apply elem_of_seq in Hn. destruct (pick (fun d T => part_result vd dims junk L ev S ge pre req ov uuids ord parts n d T) n (n mod jobs) (seq 0 jobs) rs.*2) as (d' & T & E1 & E2).
    - apply Forall2_fmap_r. eapply Forall2_impl; [exact Hrs|]. intros job r [_ Hr]. apply Hr. lia.
    - apply elem_of_seq. split; [lia|]. apply Nat.mod_upper_bound. lia.
    - exists (d', T). done. }
  assert (mapM (fun n => foldr (fun D r => match D !! n with Some d => Some d | None => r end) None rs.*2) (seq 0 (length parts)) = Some ys.*1) as EM.
  { apply mapM_Some. apply Forall2_fmap_r. eapply Forall2_impl; [exact Hys|]. by intros n y [H _]. }
  assert (Forall2 (holds_array vd dims junk L) ys.*1 ys.*2) as Hholds.
  { apply Forall2_fmap. apply Forall2_same_length_lookup_2; [done|]. intros n y y' Hy Hy'. rewrite Hy in Hy'. injection Hy' as <-.
    destruct (Forall2_lookup_r _ _ _ _ _ Hys Hy) as (n' & _ & _ & Hr & _). exact Hr. }
  destruct (by_number (fun n q (y : dir * lstate) => part_rebuilt S pre req ov q (ls_chunks y.2) /\ N.of_nat (length (ls_chunks y.2)) = chunk_count (vof_nat q.1) (vof_nat q.2) req /\
    (ev = cylindrical vd -> cylinder_rule vd S (replicate dims 0%N) ge (vof_nat q.1) (zip_with N.sub (vof_nat q.1) pre) (ls_chunks y.2)) /\
    (forall c, c ∈ ls_chunks y.2 -> c_file c = [] \/ exists j, (N.of_nat j < chunk_count (vof_nat q.1) (vof_nat q.2) req)%N /\ c_file c = uuids n j)) parts ys) as [Ly Hn].
  { eapply Forall2_impl; [exact Hys|]. intros n y [_ [_ Hp]]. exact Hp. }
  assert (forall (R : list nat * list nat -> list chunk -> Prop), (forall n q y, parts !! n = Some q -> ys !! n = Some y -> R q (ls_chunks y.2)) -> Forall2 R parts (ls_chunks <$> ys.*2)) as HR.
  { intros R H. rewrite <- list_fmap_compose. apply Forall2_fmap_r. apply Forall2_same_length_lookup_2; [done|]. intros n q y Hq Hy. exact (H n q y Hq Hy). }
  assert (Forall2 (part_rebuilt S pre req ov) parts (ls_chunks <$> ys.*2)) as HP by (apply HR; intros n q y Hq Hy; apply (Hn n q y Hq Hy)).
  pose proof Hok as [Hhull [Hne Hgf] (Lp & Lpo & Hpad) Hcnt Hints [Lr Hreq] Hvol Hids Hnames]. destruct Hhull as (Lz & Lg & Hh & _).
  assert (length e = dims) as Le by (unfold e; rewrite zip_with_length; lia).
  assert (Forall (fun r => 0 < r)%N req) as Hreq0 by (eapply list.Forall_impl; [exact Hreq|]; cbn beta; intros; lia).
  destruct (part_counts pre e req p dims Lp Le Lr Hreq0 Hmul) as [Hsz Hlen]. fold parts in Hsz, Hlen.
  assert (Forall (fun c => 0 < c)%nat p) as Hppos.
  { assert (Forall (fun c => 0 < c)%nat (vto_nat req)) as Hrpos. { unfold vto_nat. apply Forall_fmap. eapply list.Forall_impl; [exact Hreq0|]. intros r Hr. cbn beta in Hr. unfold compose. lia. }
    clear -Hmul Hrpos. induction Hmul as [|a c ps cs (m & Hm & ->) Hpm IH]; [constructor|]. apply list.Forall_cons in Hrpos as [? ?]. constructor; [nia|auto]. }
  assert (length p = dims) as Lps. { apply Forall2_length in Hmul. unfold vto_nat in Hmul. rewrite fmap_length in Hmul. lia. }
  assert (Forall (inside_region dims pre e) parts) as Hin.
  { apply list.Forall_forall. intros q Hq. apply elem_of_list_lookup in Hq as [n Hq]. destruct (Hsz n q Hq) as [H1 H2].
    destruct (part_ok vd dims S ge pre post req ov uuids p n q Hok Hppos (elem_of_list_lookup_2 _ _ _ Hq) H1 H2) as (_ & _ & Q1 & Q2 & Q3). split; [done|]. split; [done|]. intros i Hi. destruct (Q3 i Hi) as (? & ? & ?).
    unfold e. rewrite zip_at by lia. done. }
  assert (tiles parts (vto_nat pre) (vto_nat e)) as Htile by (apply box_chunks_tiles; [done|unfold vto_nat; rewrite fmap_length; lia|lia]).
  assert (disjoint_boxes parts) as Hdis by (by apply box_chunks_disjoint).
  assert (N.of_nat (length (mjoin (ls_chunks <$> ys.*2))) = chunk_count pre e req) as Htot by (apply Hlen; apply HR; intros n q y Hq Hy; apply (Hn n q y Hq Hy)).
  assert (ForallOrdPairs compatible (ls_chunks <$> ys.*2)) as Hcomp.
  { rewrite <- list_fmap_compose. apply FOP_lookup. intros i j T T' Hij Hi Hj'. pose proof Hi as Hi0. pose proof Hj' as Hj0. rewrite list_lookup_fmap in Hi, Hj'.
    destruct (ys !! i) as [y|] eqn:Ey; [|discriminate Hi]. destruct (ys !! j) as [y'|] eqn:Ey'; [|discriminate Hj']. injection Hi as <-. injection Hj' as <-. unfold compose in *.
    pose proof (lookup_lt_Some _ _ _ Ey) as Li. pose proof (lookup_lt_Some _ _ _ Ey') as Lj. destruct (lookup_lt_is_Some_2 parts i ltac:(lia)) as [q Hq]. destruct (lookup_lt_is_Some_2 parts j ltac:(lia)) as [q' Hq'].
    intros c c' Hc Hc'. split.
    - eapply (parts_apart dims S pre e req ov parts (ls_chunks <$> ys.*2) i j); [done|done|done|done|exact HP| | | |exact Hc|exact Hc'].
      + rewrite !list_lookup_fmap, Ey. done.
      + rewrite !list_lookup_fmap, Ey'. done.
      + lia.
    - intros Ef. destruct (Hn i q y Hq Ey) as (_ & _ & _ & F1). destruct (Hn j q' y' Hq' Ey') as (_ & _ & _ & F2). destruct (F1 c Hc) as [?|(k & Hk & E1)]; [done|]. destruct (F2 c' Hc') as [E2|(k' & Hk' & E2)]; [by rewrite Ef, E2|].
      destruct (Hsz i q Hq) as [S1 S2]. destruct (Hsz j q' Hq') as [S3 S4]. destruct (Hnames i k S1 (N.lt_le_trans _ _ _ Hk S2)) as (_ & _ & _ & Hinj). rewrite E1, E2 in Ef. destruct (Hinj j k' S3 (N.lt_le_trans _ _ _ Hk' S4) Ef) as [Eij _]. lia. }
  destruct (merge_ok vd dims junk L HL ys.*1 ys.*2 ordm Hdim Hholds Hcomp) as (dout & l' & S' & Em & Hl' & Hc' & HS'); [rewrite Htot; exact Hids|exact Hordm|].
  exists dout, l', S'. split; [|split; [exact Hl'|split; [exact Hc'|]]].
  - unfold rechunk_mpi. rewrite Ers. cbn [mbind res_bind]. rewrite Eh. cbn [of_opt mbind res_bind]. rewrite EM. cbn [of_opt mbind res_bind]. exact Em.
  - rewrite HS'. split; [|split].
    + eapply parts_rebuilt; [exact Lp|exact Le| | |exact Htile|exact Hin|exact HP].
      * intros i Hi. specialize (Hpad i Hi). unfold e. rewrite zip_at by lia. lia.
      * intros c ind Hc Hcov. specialize (Hh c ind Hc Hcov). apply inbox_at in Hh as (Hh & _). rewrite replicate_length in Hh. lia.
    + exact Htot.
    + intros Hcyl. eapply parts_cylinder; [exact Lp|exact Hin|]. apply HR. intros n q y Hq Hy. destruct (Hn n q y Hq Hy) as (_ & _ & H & _). exact (H Hcyl).
Qed.
End all.
