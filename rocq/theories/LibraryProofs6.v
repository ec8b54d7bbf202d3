(** Proofs about the distributed array, part 6: reading a range into a buffer and looping over a range. *)
From stdpp Require Import base list list_numbers numbers option gmap countable sets.
From Coq Require Import NArith Lia.
From Verif Require Import IndexSpec LoopsProofs NDArrayModel NDArrayProofs NDArrayOps NDArrayOps2 NDArrayOps3 NDArrayProps StreamerModel StreamerProps
  BBoxModel BBoxProps DownsampleModel DownsampleProps
  RTreeModel RTreeInsert RTreeRebuild RTreeProps ChunkMetaModel ChunkMetaProps ChunkCacheModel ChunkCacheSpec ChunkCacheProofs ChunkCacheProofs2 ChunkCacheProofs3 ChunkCacheProps
  LibraryModel LibrarySpec LibraryProofs LibraryProofs2 LibraryProofs3 LibraryProofs4 LibraryProofs5.
From Verif Require Import IndexSpec.

(** ** Vectors by component *)
Section at_.
Context {A B C : Type} `{!Inhabited A} `{!Inhabited B} `{!Inhabited C}.
Lemma zip_at (f : A -> B -> C) l k i : (i < length l)%nat -> (i < length k)%nat -> zip_with f l k !!! i = f (l !!! i) (k !!! i).
Proof.
  intros Hl Hk. destruct (lookup_lt_is_Some_2 l i Hl) as [x Hx]. destruct (lookup_lt_is_Some_2 k i Hk) as [y Hy].
  rewrite (list_lookup_total_correct l i x Hx), (list_lookup_total_correct k i y Hy). apply list_lookup_total_correct. rewrite lookup_zip_with, Hx. cbn. by rewrite Hy.
Qed.
Lemma F2_at (P : A -> B -> Prop) l k : Forall2 P l k <-> length l = length k /\ forall i, (i < length k)%nat -> P (l !!! i) (k !!! i).
Proof.
  split.
  - intros H. split; [by eapply Forall2_length|]. intros i Hi. pose proof (Forall2_length _ _ _ H).
    eapply Forall2_lookup_lr; [exact H|apply list_lookup_lookup_total_lt; lia|apply list_lookup_lookup_total_lt; lia].
  - intros [Hl H]. apply Forall2_same_length_lookup_2; [done|]. intros i x y Hx Hy. pose proof (lookup_lt_Some _ _ _ Hy).
    rewrite <- (list_lookup_total_correct l i x Hx), <- (list_lookup_total_correct k i y Hy). by apply H.
Qed.
Lemma F1_at (P : A -> Prop) l : Forall P l <-> forall i, (i < length l)%nat -> P (l !!! i).
Proof.
  rewrite Forall_lookup. split.
  - intros H i Hi. eapply H. by apply list_lookup_lookup_total_lt.
  - intros H i x Hx. rewrite <- (list_lookup_total_correct l i x Hx). apply H. by eapply lookup_lt_Some.
Qed.
Lemma eq_at (l k : list A) : l = k <-> length l = length k /\ forall i, (i < length k)%nat -> l !!! i = k !!! i.
Proof.
  split; [by intros ->|]. intros [Hl H]. apply list_eq_same_length with (length k); [done|done|]. intros i x y Hi Hx Hy.
  rewrite <- (list_lookup_total_correct l i x Hx), <- (list_lookup_total_correct k i y Hy). auto.
Qed.
Lemma fmap_at (f : A -> B) l i : (i < length l)%nat -> (f <$> l) !!! i = f (l !!! i).
Proof. intros H. apply list_lookup_total_correct. rewrite list_lookup_fmap, (list_lookup_lookup_total_lt l i H). done. Qed.
End at_.
Lemma inbox_at s e x : inbox s e x <-> length x = length s /\ length e = length s /\ forall i, (i < length s)%nat -> (s !!! i <= x !!! i < e !!! i)%N.
Proof.
  unfold inbox. split; intros (H1 & H2 & H3); split_and!; auto.
  - intros i Hi. eapply H3; apply list_lookup_lookup_total_lt; lia.
  - intros i a b c Ha Hb Hc. pose proof (lookup_lt_Some _ _ _ Ha).
    rewrite <- (list_lookup_total_correct _ _ _ Ha), <- (list_lookup_total_correct _ _ _ Hb), <- (list_lookup_total_correct _ _ _ Hc). auto.
Qed.
Lemma nonempty_at s e : nonempty s e <-> length e = length s /\ forall i, (i < length s)%nat -> (s !!! i < e !!! i < 2 ^ 64)%N.
Proof.
  unfold nonempty. split; intros (H1 & H2); split; auto.
  - intros i Hi. apply (H2 i); apply list_lookup_lookup_total_lt; lia.
  - intros i a b Ha Hb. pose proof (lookup_lt_Some _ _ _ Ha). rewrite <- (list_lookup_total_correct _ _ _ Ha), <- (list_lookup_total_correct _ _ _ Hb). auto.
Qed.
Lemma in_box_at b e x : in_box b e x <-> length b = length e /\ length x = length e /\ forall i, (i < length e)%nat -> (b !!! i <= x !!! i < e !!! i)%nat.
Proof.
  rewrite in_box_forall2, !F2_at. split.
  - intros [[H1 H2] [H3 H4]]. split_and!; [lia|done|]. intros i Hi. split; [apply H2; lia|by apply H4].
  - intros (H1 & H2 & H3). split_and!; [lia| |done|]; intros i Hi; apply H3; lia.
Qed.

Section fill.
Context (vd dims : nat) (junk : N) (L : lib) (HL : lib_ok L).
Local Notation lrep := (lrep vd dims).
Local Notation lrep_ := (lrep_ vd dims).

(** What is known of a chunk along every axis. *)
Lemma mr_at m c : meta_rep dims m c -> length (c_start c) = dims /\ length (c_end c) = dims /\ length (k_shape (c_val c)) = dims /\
  forall i, (i < dims)%nat -> (c_start c !!! i < c_end c !!! i)%N /\ (c_end c !!! i + c_ov c < 2 ^ 64)%N /\
    N.of_nat (k_shape (c_val c) !!! i) = (c_end c !!! i - c_start c !!! i + 2 * c_ov c)%N /\ (N.of_nat (k_shape (c_val c) !!! i) < 2 ^ 64)%N.
Proof using.
  intros Hr. pose proof (mr_end_len _ _ _ Hr) as He. pose proof (mr_shape_len _ _ _ Hr) as Hk. pose proof (mr_dims _ _ _ Hr) as Hs. split_and!; auto.
  intros i Hi. destruct (proj1 (nonempty_at _ _) (mr_box _ _ _ Hr)) as [_ Hb]. specialize (Hb i ltac:(lia)).
  pose proof (proj1 (F1_at _ _) (mr_fits _ _ _ Hr) i ltac:(lia)) as Hf. pose proof (proj1 (F1_at _ _) (mr_small _ _ _ Hr) i ltac:(lia)) as Hsm.
  destruct (proj1 (F2_at _ _ _) (mr_shape _ _ _ Hr)) as [_ Hsh]. specialize (Hsh i). rewrite zip_with_length in Hsh. specialize (Hsh ltac:(lia)).
  rewrite zip_at in Hsh by lia. cbn [fst snd] in Hsh. split_and!; try lia; done.
Qed.
Lemma off_eq m c : meta_rep dims m c -> cm_off m = (fun s => wsub s (c_ov c)) <$> c_start c.
Proof using. intros Hr. destruct (coherent_of _ _ (mr_of _ _ _ Hr)) as [_ E]. rewrite E at 1. cbn [cm_off mk_meta]. by rewrite (mr_ov _ _ _ Hr), (mr_start _ _ _ Hr). Qed.
(** Chunk-local positions, also of the end of the box. *)
Lemma local_vec m c v : meta_rep dims m c -> length v = dims -> (forall i, (i < dims)%nat -> (c_start c !!! i <= v !!! i <= c_end c !!! i)%N) ->
  vto_nat (local_ind m v) = position c v.
Proof using.
  intros Hr Hl Hb. destruct (mr_at m c Hr) as (H1 & H2 & H3 & H4). unfold local_ind, vto_nat, position, vwsub. rewrite (off_eq m c Hr).
  apply eq_at. rewrite fmap_length, !zip_with_length, fmap_length. split; [lia|]. intros i Hi. rewrite fmap_at by (rewrite zip_with_length, fmap_length; lia).
  rewrite !zip_at by (rewrite ?fmap_length; lia). rewrite fmap_at by lia. specialize (Hb i ltac:(lia)). specialize (H4 i ltac:(lia)).
  rewrite local_axis; unfold W; lia.
Qed.
Lemma position_at c v i : (i < length v)%nat -> (i < length (c_start c))%nat -> position c v !!! i = N.to_nat (v !!! i + c_ov c - c_start c !!! i).
Proof using. intros. unfold position. by rewrite zip_at. Qed.

Lemma out_at is os v i : (i < length v)%nat -> (i < length is)%nat -> (i < length os)%nat -> place is os v !!! i = N.to_nat (v !!! i - is !!! i + os !!! i).
Proof using. intros. unfold place. rewrite zip_at by (rewrite ?zip_with_length; lia). by rewrite zip_at. Qed.
Lemma out_len is os v : length v = dims -> length is = dims -> length os = dims -> length (place is os v) = dims.
Proof using. intros. unfold place. rewrite !zip_with_length. lia. Qed.

Lemma of_at buf is ie os : ok_fill vd dims buf is ie os -> length is = dims /\ length ie = dims /\ length os = dims /\ length (a_shape buf) = dims /\
  forall i, (i < dims)%nat -> (is !!! i < ie !!! i < 2 ^ 64)%N /\ (ie !!! i - is !!! i + os !!! i <= N.of_nat (a_shape buf !!! i))%N /\ (N.of_nat (a_shape buf !!! i) < 2 ^ 64)%N.
Proof using.
  intros [Ha [H1 H2] Hr Hro Hs]. apply nonempty_at in Hr as [H3 H4]. apply F2_at in Hro as [H5 H6]. rewrite !zip_with_length in H5. rewrite !zip_with_length in H6.
  split_and!; auto; try lia. intros i Hi. specialize (H4 i ltac:(lia)). specialize (H6 i ltac:(lia)). rewrite zip_at in H6 by (rewrite ?zip_with_length; lia).
  rewrite zip_at in H6 by lia. cbn [fst snd] in H6. pose proof (proj1 (F1_at _ _) Hs i ltac:(lia)). cbn beta in *. split_and!; try lia.
Qed.
Lemma out_eq buf is ie os v : ok_fill vd dims buf is ie os -> length v = dims -> (forall i, (i < dims)%nat -> (is !!! i <= v !!! i <= ie !!! i)%N) ->
  vto_nat (vwadd (vwsub v is) os) = place is os v.
Proof using.
  intros Hok Hl Hb. destruct (of_at _ _ _ _ Hok) as (H1 & H2 & H3 & H4 & H5). unfold vto_nat, vwadd, vwsub, place. apply eq_at.
  rewrite fmap_length, !zip_with_length. split; [lia|]. intros i Hi. rewrite fmap_at by (rewrite !zip_with_length; lia). rewrite !zip_at by (rewrite ?zip_with_length; lia).
  specialize (Hb i ltac:(lia)). specialize (H5 i ltac:(lia)). rewrite wsub_small by lia. rewrite wadd_small by lia. done.
Qed.

Definition overlaps_range (c : chunk) (is ie : list N) : Prop := forall i, (i < dims)%nat -> (c_start c !!! i < ie !!! i)%N /\ (is !!! i < c_end c !!! i)%N.
Definition clo (c : chunk) (is : list N) := zip_with N.max is (c_start c).
Definition chi (c : chunk) (ie : list N) := zip_with N.min ie (c_end c).

Lemma out_box buf is ie os m c y : ok_fill vd dims buf is ie os -> meta_rep dims m c ->
  in_box (place is os (clo c is)) (place is os (chi c ie)) y -> exists ind, inbox is ie ind /\ covers c ind /\ y = place is os ind /\ overlaps_range c is ie.
Proof using.
  intros Hok Hr Hy. destruct (of_at _ _ _ _ Hok) as (H1 & H2 & H3 & H4 & H5). destruct (mr_at m c Hr) as (R1 & R2 & R3 & R4).
  assert (length (clo c is) = dims) as Ll by (unfold clo; rewrite zip_with_length; lia). assert (length (chi c ie) = dims) as Lh by (unfold chi; rewrite zip_with_length; lia).
  apply in_box_at in Hy as (Y1 & Y2 & Y3). rewrite out_len in * by done.
  assert (forall i, (i < dims)%nat -> (N.max (is !!! i) (c_start c !!! i) - is !!! i + os !!! i <= N.of_nat (y !!! i) < N.min (ie !!! i) (c_end c !!! i) - is !!! i + os !!! i)%N) as Hy.
  { intros i Hi. specialize (Y3 i Hi). rewrite !out_at in Y3 by lia. unfold clo, chi in Y3. rewrite !zip_at in Y3 by lia. lia. }
  exists (zip_with (fun (n : nat) x => N.of_nat n - x.2 + x.1)%N y (zip is os)). split_and!.
  - apply inbox_at. rewrite !zip_with_length. split_and!; try lia. intros i Hi. rewrite zip_at by (rewrite ?zip_with_length; lia). rewrite zip_at by lia. cbn [fst snd].
    specialize (Hy i ltac:(lia)). specialize (H5 i ltac:(lia)). specialize (R4 i ltac:(lia)). lia.
  - apply inbox_at. rewrite !zip_with_length. split_and!; try lia. intros i Hi. rewrite zip_at by (rewrite ?zip_with_length; lia). rewrite zip_at by lia. cbn [fst snd].
    specialize (Hy i ltac:(lia)). specialize (H5 i ltac:(lia)). specialize (R4 i ltac:(lia)). lia.
  - apply eq_at. rewrite out_len; [|rewrite !zip_with_length; lia|done|done]. split; [lia|]. intros i Hi. rewrite out_at by (rewrite ?zip_with_length; lia).
    rewrite zip_at by (rewrite ?zip_with_length; lia). rewrite zip_at by lia. cbn [fst snd]. specialize (Hy i ltac:(lia)). specialize (H5 i ltac:(lia)). lia.
  - intros i Hi. specialize (Hy i ltac:(lia)). specialize (H5 i ltac:(lia)). specialize (R4 i ltac:(lia)). lia.
Qed.
Lemma out_in_box buf is ie os m c ind : ok_fill vd dims buf is ie os -> meta_rep dims m c -> inbox is ie ind -> covers c ind ->
  in_box (place is os (clo c is)) (place is os (chi c ie)) (place is os ind).
Proof using.
  intros Hok Hr Hi1 Hi2. destruct (of_at _ _ _ _ Hok) as (H1 & H2 & H3 & H4 & H5). destruct (mr_at m c Hr) as (R1 & R2 & R3 & R4).
  apply inbox_at in Hi1 as (I1 & I2 & I3). apply inbox_at in Hi2 as (J1 & J2 & J3). unfold clo, chi.
  apply in_box_at. rewrite !out_len by (rewrite ?zip_with_length; lia). split_and!; try lia. intros i Hi. rewrite !out_at by (rewrite ?zip_with_length; lia). rewrite !zip_at by lia.
  specialize (I3 i ltac:(lia)). specialize (J3 i ltac:(lia)). specialize (H5 i Hi). lia.
Qed.
Lemma out_inj buf is ie os ind ind' : ok_fill vd dims buf is ie os -> inbox is ie ind -> inbox is ie ind' -> place is os ind = place is os ind' -> ind = ind'.
Proof using.
  intros Hok Hi1 Hi2 E. destruct (of_at _ _ _ _ Hok) as (H1 & H2 & H3 & H4 & H5).
  apply inbox_at in Hi1 as (I1 & I2 & I3). apply inbox_at in Hi2 as (J1 & J2 & J3). apply eq_at. split; [lia|]. intros i Hi.
  assert (place is os ind !!! i = place is os ind' !!! i) as E' by (by rewrite E). rewrite !out_at in E' by lia. specialize (I3 i ltac:(lia)). specialize (J3 i ltac:(lia)). lia.
Qed.

Lemma float_reads a x v : float_array vd a -> aread vd a x = Some v -> Forall (fun b => b < 2 ^ 32)%N v.
Proof using.
  intros [Ha Hd] Hv. unfold aread in Hv. destruct (has_index (a_shape a) x); [|done]. apply block_lookup in Hv as [Hl Hv].
  apply Forall_lookup. intros i y Hy. pose proof (lookup_lt_Some _ _ _ Hy) as Hi. rewrite Hv in Hy by lia. by eapply Forall_lookup_1 in Hd.
Qed.
Lemma null_values cs sz s (A : sstate) k m c : sinv vd dims cs sz s A -> A !! k = Some (m, c) -> cm_type m = all_null -> null_chunk vd m c.
Proof using.
  intros (l & _ & _ & _ & [_ Hl]) Hk Hty. destruct (Hl k m c Hk) as (Hid & _ & _ & He & Hdk).
  destruct (decide (k ∈ l.*1)) as [Hin|Hn].
  - apply elem_of_list_fmap in Hin as ([k' e] & -> & Hin). destruct (He e Hin) as (_ & _ & Hst). destruct (ce_st e).
    + destruct Hst as [[(T & _)|Hn] _]; [by rewrite Hty in T|done].
    + destruct Hst as [[[T _]|Hn] _]; [by rewrite Hty in T|done].
    + destruct Hst as (_ & T & _). by rewrite Hty in T.
  - destruct (Hdk Hn) as [(T & _)|Hnc]; [by rewrite Hty in T|done].
Qed.

Lemma fill_chunk_ok cs sz s (A : sstate) buf b is ie os m c : (0 < dims)%nat -> (forall k, acceptable_chunk dims (sz k)) -> sinv vd dims cs sz s A ->
  ok_fill vd dims buf is ie os -> api_array vd b -> a_shape b = a_shape buf -> meta_rep dims m c -> A !! cm_id m = Some (m, c_val c) -> overlaps_range c is ie ->
  exists b' s', fill_chunk vd dims junk is ie os (b, s) m = Done (b', s') /\ sinv vd dims cs sz s' A /\ (api_array vd b' /\ (float_array vd b -> float_array vd b')) /\ a_shape b' = a_shape buf /\
    (forall ind, inbox is ie ind -> covers c ind -> exists v, aread vd b' (place is os ind) = Some v /\ comes_back NullSuppressed (value c ind) v) /\
    (forall y, in_shape (a_shape buf) y -> (forall ind, inbox is ie ind -> covers c ind -> y <> place is os ind) -> aread vd b' y = aread vd b y).
Proof using.
  intros Hd Hacc Hs Hok Hab Hsh Hr HA Hov. pose proof (api_array_wf _ _ Hab) as Hwf. destruct (of_at _ _ _ _ Hok) as (H1 & H2 & H3 & H4 & H5). destruct (mr_at m c Hr) as (R1 & R2 & R3 & R4).
  assert (length (clo c is) = dims) as Ll by (unfold clo; rewrite zip_with_length; lia). assert (length (chi c ie) = dims) as Lh by (unfold chi; rewrite zip_with_length; lia).
  assert (overlap_lo m is = clo c is) as Elo by (unfold overlap_lo, clo; by rewrite (mr_start _ _ _ Hr)).
  assert (overlap_hi m ie = chi c ie) as Ehi by (unfold overlap_hi, chi; by rewrite (mr_end _ _ _ Hr)).
  assert (forall i, (i < dims)%nat -> clo c is !!! i = N.max (is !!! i) (c_start c !!! i)) as Alo by (intros i Hi; unfold clo; apply zip_at; lia).
  assert (forall i, (i < dims)%nat -> chi c ie !!! i = N.min (ie !!! i) (c_end c !!! i)) as Ahi by (intros i Hi; unfold chi; apply zip_at; lia).
  assert (vto_nat (vwadd (vwsub (clo c is) is) os) = place is os (clo c is)) as Eol.
  { eapply out_eq; [done|done|]. intros i Hi. rewrite Alo by done. specialize (Hov i Hi). specialize (H5 i Hi). specialize (R4 i Hi). lia. }
  assert (vto_nat (vwadd (vwsub (chi c ie) is) os) = place is os (chi c ie)) as Eoh.
  { eapply out_eq; [done|done|]. intros i Hi. rewrite Ahi by done. specialize (Hov i Hi). specialize (H5 i Hi). specialize (R4 i Hi). lia. }
  assert (Forall2 lt (place is os (clo c is)) (place is os (chi c ie))) as Hlt.
  { apply F2_at. rewrite !out_len by done. split; [done|]. intros i Hi. rewrite !out_at by lia. rewrite Alo, Ahi by done. specialize (Hov i Hi). specialize (H5 i Hi). specialize (R4 i Hi). lia. }
  assert (Forall2 le (place is os (chi c ie)) (a_shape b)) as Hle.
  { rewrite Hsh. apply F2_at. rewrite out_len by done. split; [done|]. intros i Hi. rewrite !out_at by lia. rewrite Ahi by lia. specialize (H5 i ltac:(lia)). lia. }
  assert (forall ind, inbox is ie ind -> covers c ind -> in_shape (a_shape b) (place is os ind)) as Hins.
  { intros ind Hi1 Hi2. pose proof (out_in_box _ _ _ _ _ _ _ Hok Hr Hi1 Hi2) as Hb. apply in_box_forall2 in Hb as [_ Hb]. apply in_shape_forall2. by eapply Forall2_lt_le_trans. }
  unfold fill_chunk. rewrite Elo, Ehi. cbn [fst snd]. rewrite Eol, Eoh.
  destruct (N.eqb_spec (cm_type m) all_null) as [Hty|Hty].
  - destruct (null_values _ _ _ _ _ _ _ Hs HA Hty) as (_ & _ & _ & Hnv).
    destruct (afill_spec vd b _ _ 0%N Hwf Hlt Hle) as (b' & Hf & Hwf' & Hsh' & Hrd). rewrite Hf. cbn [of_opt mbind res_bind].
    assert (api_array vd b') as Hab' by (exact (api_fill vd b b' _ _ _ Hab Hlt Hle Hf)).
    exists b', s. split; [done|]. split; [done|]. split.
    { split; [done|]. intros Hfb. split; [done|]. apply (data_from_reads _ vd); [done|]. intros x v Hx Hv. rewrite Hrd in Hv by (by rewrite <- Hsh').
      destruct (decide _) as [Hb|Hb]; [injection Hv as <-; by apply Forall_replicate|]. eapply float_reads; eauto. }
    split; [congruence|]. split.
    + intros ind Hi1 Hi2. rewrite Hrd by auto. rewrite decide_True by (by eapply out_in_box). eexists. split; [reflexivity|].
      destruct (local_pos dims m c ind Hr Hi2) as [_ Hin]. destruct (Hnv _ Hin) as [N1 N2]. right. split; [done|]. split; [exact N1|]. unfold value. by rewrite N2.
    + intros y Hy Hno. rewrite Hrd by (by rewrite Hsh). rewrite decide_False; [done|]. intros Hb. destruct (out_box _ _ _ _ _ _ _ Hok Hr Hb) as (ind & I1 & I2 & -> & _).
      by apply (Hno ind).
  - assert (cm_type m = specified) as Hsp. { rewrite (mr_type _ _ _ Hr) in *. by destruct (c_null c). }
    rewrite Hsp. cbn [N.eqb specified].
    destruct (retrieve_ok vd dims junk cs sz Hacc Hd s A m (c_val c) Hs HA) as (d & s' & Hret & Hs' & _ & Hfd & Hdsh & Hv); [by left|].
    rewrite Hret. cbn [mbind res_bind].
    rewrite (local_vec m c (clo c is)); [|done|done|].
    2:{ intros i Hi. rewrite Alo by done. specialize (Hov i Hi). specialize (H5 i Hi). specialize (R4 i Hi). lia. }
    rewrite (local_vec m c (chi c ie)); [|done|done|].
    2:{ intros i Hi. rewrite Ahi by done. specialize (Hov i Hi). specialize (H5 i Hi). specialize (R4 i Hi). lia. }
    assert (length (position c (clo c is)) = dims) as Lpl by (unfold position; rewrite zip_with_length; lia).
    assert (length (position c (chi c ie)) = dims) as Lph by (unfold position; rewrite zip_with_length; lia).
    assert (vadd (place is os (clo c is)) (vsub (position c (chi c ie)) (position c (clo c is))) = place is os (chi c ie)) as Eadd.
    { unfold vadd, vsub. apply eq_at. rewrite !zip_with_length, !out_len by done. split; [lia|]. intros i Hi.
      rewrite zip_at by (rewrite ?zip_with_length, ?out_len; lia). rewrite zip_at by lia. rewrite !position_at by lia. rewrite !out_at by lia. rewrite Alo, Ahi by lia.
      specialize (Hov i ltac:(lia)). specialize (H5 i ltac:(lia)). specialize (R4 i ltac:(lia)). lia. }
    destruct (afill_from_spec vd b d (position c (clo c is)) (position c (chi c ie)) (place is os (clo c is))) as (b' & Hf & Hwf' & Hsh' & Hrd).
    { done. }
    { apply wf_owned_wf, api_array_wf, Hfd. }
    { apply F2_at. split; [lia|]. intros i Hi. rewrite !position_at by lia. rewrite Alo, Ahi by lia. specialize (Hov i ltac:(lia)). specialize (H5 i ltac:(lia)). specialize (R4 i ltac:(lia)). lia. }
    { rewrite Hdsh. apply F2_at. split; [lia|]. intros i Hi. rewrite !position_at by lia. rewrite Ahi by lia. specialize (R4 i ltac:(lia)). specialize (Hov i ltac:(lia)). specialize (H5 i ltac:(lia)). lia. }
    { rewrite out_len by done. lia. }
    { by rewrite Eadd. }
    rewrite Hf. cbn [of_opt mbind res_bind]. rewrite Eadd in Hrd.
    assert (api_array vd b') as Hab'.
    { refine (api_fill_from vd b d b' _ _ _ Hab (proj1 Hfd) _ _ _ _ Hf).
      - apply F2_at. split; [lia|]. intros i Hi. rewrite !position_at by lia. rewrite Alo, Ahi by lia. specialize (Hov i ltac:(lia)). specialize (H5 i ltac:(lia)). specialize (R4 i ltac:(lia)). lia.
      - rewrite Hdsh. apply F2_at. split; [lia|]. intros i Hi. rewrite !position_at by lia. rewrite Ahi by lia. specialize (R4 i ltac:(lia)). specialize (Hov i ltac:(lia)). specialize (H5 i ltac:(lia)). lia.
      - rewrite out_len by done. lia.
      - by rewrite Eadd. }
    exists b', s'. split; [done|]. split; [done|]. split.
    { split; [done|]. intros Hfb. split; [done|]. apply (data_from_reads _ vd); [done|]. intros x v Hx Hv2. rewrite Hrd in Hv2 by (by rewrite <- Hsh').
      destruct (decide _) as [Hb|Hb]; [exact (float_reads _ _ _ Hfd Hv2)|exact (float_reads _ _ _ Hfb Hv2)]. }
    split; [congruence|]. split.
    + intros ind Hi1 Hi2. rewrite Hrd by auto. rewrite decide_True by (by eapply out_in_box).
      assert (shift_ind (place is os (clo c is)) (position c (clo c is)) (place is os ind) = position c ind) as Esh.
      { apply inbox_at in Hi1 as (I1 & I2 & I3). apply inbox_at in Hi2 as (J1 & J2 & J3). unfold shift_ind, vadd, vsub.
        assert (length (position c ind) = dims) as Lpi by (unfold position; rewrite zip_with_length; lia).
        apply eq_at. rewrite !zip_with_length, !out_len by lia. split; [lia|]. intros i Hi.
        rewrite zip_at by (rewrite ?zip_with_length, ?out_len; lia). rewrite zip_at by (rewrite ?out_len; lia). rewrite !position_at by lia. rewrite !out_at by lia. rewrite Alo by lia.
        specialize (I3 i ltac:(lia)). specialize (J3 i ltac:(lia)). specialize (H5 i ltac:(lia)). specialize (R4 i ltac:(lia)). lia. }
      rewrite Esh. destruct (local_pos dims m c ind Hr Hi2) as [_ Hin]. exact (Hv _ Hin).
    + intros y Hy Hno. rewrite Hrd by (by rewrite Hsh). rewrite decide_False; [done|]. intros Hb. destruct (out_box _ _ _ _ _ _ _ Hok Hr Hb) as (ind & I1 & I2 & -> & _).
      by apply (Hno ind).
Qed.
End fill.
