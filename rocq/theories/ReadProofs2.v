(** Proofs about reading a Green's function: the program with its index and cache computes what it computes with the functions for which they stand. *)
From stdpp Require Import base sets list list_numbers numbers option gmap.
From Coq Require Import Reals Lra Lia NArith ZArith.
From Flocq Require Import IEEE754.Binary IEEE754.Bits.
From Verif Require Import IndexSpec LoopsProofs NDArrayModel NDArrayProofs NDArrayOps NDArrayProps CodecModel StreamerModel StreamerProps KernelModel KernelProps InterpModel InterpProps
  BBoxModel BBoxProps RTreeModel RTreeInsert RTreeProps ChunkMetaModel ChunkMetaProps ChunkCacheModel ChunkCacheSpec ChunkCacheProofs2 ChunkCacheProofs3 LibraryModel LibrarySpec LibraryProofs LibraryProofs2
  LibraryProofs4 LibraryProofs6 LibraryProofs7 RebuildSpec SignalModel SignalProps FillModel FillSpec ReadModel ReadSpec ReadProofs IndexSpec LibrarySpec.
Local Open Scope R_scope.

Section sim.
Context (junk : N) (start interval : R * R * R) (L : lib) (HL : lib_ok L).
Context (S : lstate) (M : list chunk_meta) (sz : N -> list nat) (H : list box).
Local Notation inv l := (lrep_ 2 3 l S M sz H).
Definition okl (l : clib) : Prop := inv l /\ session 2 3 junk L l S.

(** As [pure], but the search fails where the program may not search. *)
Definition bogus : chunk_meta := mk_meta specified [] 0 [0; 0; 0]%N [0; 0; 0]%N 0.
Definition may_search (ind : list N) : Prop := M <> [] /\ Forall (fun x => x < 2 ^ 64)%N ind.
Global Instance may_search_dec ind : Decision (may_search ind).
Proof. unfold may_search. apply _. Qed.
Definition checked (l0 : clib) : green :=
  Green start interval (fun ind => if decide (may_search ind) then g_chunk (pure junk start interval l0 M) ind else Some bogus) (g_data (pure junk start interval l0 M)).

Context (K : kernel) (U : Z -> Z -> Z -> Prop) (g : Z -> Z -> Z -> nat -> R) (Hg : has_samples S U g) (Hg2 : forall r z t i, (2 <= i)%nat -> g r z t i = 0) (Hov : has_overlap S K).
Context (HK : K = linear \/ K = keys) (l0 : clib) (Hl0 : inv l0).

Lemma support_pos : (0 < k_support K)%nat.
Proof using HK. clear -HK. destruct HK as [E|E]; rewrite E; simpl; lia. Qed.

Lemma find_sim l i1 i2 i3 r : okl l -> g_chunk (checked l0) [i1; i2; i3] = r -> (forall m, r = Some m -> (k_support K <= N.to_nat (cm_overlap m))%nat) ->
  exists l', lib_find [i1; i2; i3] l = Done (r, l') /\ okl l'.
Proof using HK Hl0.
  intros [Hl Hs] Hr Hk. cbn [g_chunk checked] in Hr. destruct (decide _) as [[Hne Hsm]|_].
  2:{ subst r. specialize (Hk _ eq_refl). pose proof support_pos. cbn [bogus cm_overlap mk_meta] in Hk. simpl in Hk. lia. }
  assert (ls_chunks S <> []) as HneS. { intros E. pose proof (lrep_len _ _ _ _ _ _ _ Hl) as Hml. rewrite E in Hml. destruct M; [done|]. simpl in Hml. lia. }
  destruct r as [m|].
  - destruct (pure_found junk start interval S M sz H _ _ _ _ Hl Hr) as (i & c & Hm & Hc & _ & Hcov). destruct (lib_find_some 2 3 _ _ _ _ _ _ _ _ Hl Hc Hcov) as (m' & t' & Hm' & _ & Hf & Hl').
    assert (m' = m) as -> by congruence. exists (with_tree l t'). split; [done|]. split; [done|]. exact (ss_find 2 3 junk L _ _ [i1; i2; i3] _ _ Hs HneS eq_refl Hsm Hf).
  - pose proof (proj2 (pure_none junk start interval S M sz H l0 l _ Hl) Hr) as Hno.
    destruct (lib_find_none 2 3 _ _ _ _ _ [i1; i2; i3] Hl HneS eq_refl Hsm Hno) as (t' & Hf & Hl'). exists (with_tree l t'). split; [done|]. split; [done|]. exact (ss_find 2 3 junk L _ _ [i1; i2; i3] _ _ Hs HneS eq_refl Hsm Hf).
Qed.

Lemma retrieve_sim l m : okl l -> m ∈ M -> cm_type m = specified ->
  exists d l', lib_retrieve 2 3 junk m l = Done (d, l') /\ okl l' /\ g_data (checked l0) m = Some (real_array d).
Proof using Hg Hl0.
  intros [Hl Hs] Hm Hty. pose proof Hm as Hin. apply elem_of_list_lookup in Hm as (i & Hm). destruct (lrep_get_m _ _ _ _ _ _ _ _ _ Hl Hm) as (c & Hc & Hr & _).
  assert (c_null c = false) as Hn. { pose proof (mr_type _ _ _ Hr) as Ht. rewrite Hty in Ht. destruct (c_null c); [discriminate Ht|done]. }
  destruct (retrieved junk start interval S M sz H U g Hg l l0 i m c Hl Hl0 Hm Hc Hn) as (d & s & data0 & s1 & s2 & s3 & n1 & n2 & n3 & Hret & Hl' & Hd & _ & _ & _ & _ & _ & _ & Heq).
  exists d, (with_store l s). split; [done|]. split; [split; [done|]|].
  - eapply ss_retrieve; [exact Hs|exact (lrep_all _ _ _ _ _ _ _ Hl)|exact Hin|exact Hty|exact Hret].
  - cbn [checked g_data]. by rewrite Hd, Heq.
Qed.

Lemma loop_sim ignore fr fz ft ts n source weight fuel cur pos signal signal' l : okl l ->
  accumulate_loop (checked l0) K ignore fr fz ft ts n source weight fuel cur pos signal = Some signal' ->
  exists l', accumulate_loop_on junk K ignore fr fz ft ts n source weight fuel cur pos signal l = Done (signal', l') /\ okl l'.
Proof using HK Hg Hl0.
  revert cur pos signal l. induction fuel as [|fuel IH]; intros cur pos signal l Hl.
  - cbn [accumulate_loop accumulate_loop_on]. destruct (n <=? cur)%nat; [|discriminate]. intros [= ->]. by exists l.
  - cbn [accumulate_loop accumulate_loop_on]. destruct (n <=? cur)%nat; [intros [= ->]; by exists l|]. cbv zeta.
    destruct (to_size fr) as [ir|]; cbn [of_opt mbind res_bind option_bind]; [|discriminate]. destruct (to_size fz) as [iz|]; cbn [of_opt mbind res_bind option_bind]; [|discriminate].
    destruct (to_size (ft + INR cur * ts)) as [it|]; cbn [of_opt mbind res_bind option_bind]; [|discriminate].
    destruct (g_chunk (checked l0) [N.of_nat ir; N.of_nat iz; N.of_nat it]) as [m|] eqn:Hf.
    + destruct (N.to_nat (cm_overlap m) <? k_support K)%nat eqn:Hk; [discriminate|]. apply Nat.ltb_ge in Hk. intros Hrun.
      destruct (find_sim l _ _ _ (Some m) Hl Hf) as (l1 & Hf1 & Hl1); [by intros ? [= <-]|]. rewrite Hf1. cbn [mbind res_bind].
      rewrite (proj2 (Nat.ltb_ge _ _) Hk). revert Hrun. destruct (cm_end m !! 2%nat) as [end_t|]; cbn [of_opt mbind res_bind option_bind]; [|discriminate].
      destruct (Req_EM_T ts 0); [discriminate|]. destruct (to_size ((INR (N.to_nat end_t) - (ft + INR cur * ts)) / ts)) as [c|]; cbn [of_opt mbind res_bind option_bind]; [|discriminate].
      set (req := Nat.min (c + 1) (n - cur)). destruct (Rle_dec _ _); [|discriminate].
      destruct (cm_type m =? specified)%N eqn:Hty.
      * apply N.eqb_eq in Hty. assert (m ∈ M) as Hm.
        { cbn [checked g_chunk] in Hf. destruct (decide _); [apply List.find_some in Hf as [Hm _]; by apply elem_of_list_In|]. injection Hf as <-. pose proof support_pos. cbn [bogus cm_overlap mk_meta] in Hk. simpl in Hk. lia. }
        destruct (retrieve_sim l1 m Hl1 Hm Hty) as (d & l2 & Hret & Hl2 & Hd). rewrite Hret. cbn [mbind res_bind].
        assert (chunk_samples (checked l0) K m fr fz (ft + INR cur * ts) ts req = chunk_samples (given d) K m fr fz (ft + INR cur * ts) ts req) as ->.
        { unfold chunk_samples. by rewrite Hd. }
        destruct (chunk_samples (given d) K m fr fz (ft + INR cur * ts) ts req) as [buf|]; cbn [of_opt mbind res_bind option_bind]; [|discriminate].
        destruct (foldM _ _ _) as [[signal1 pos1]|]; cbn [of_opt mbind res_bind option_bind]; [|discriminate]. by apply IH.
      * cbn [mbind res_bind option_bind]. by apply IH.
    + intros Hrun. destruct (find_sim l _ _ _ None Hl Hf) as (l1 & Hf1 & Hl1); [done|]. rewrite Hf1. cbn [mbind res_bind].
      destruct ignore; [|discriminate]. injection Hrun as ->. by exists l1.
Qed.
Lemma inner_sim ignore rz ts tsamp n source pos weight signal signal' l : okl l ->
  accumulate_inner_product (checked l0) K ignore rz ts tsamp n source pos weight signal = Some signal' ->
  exists l', accumulate_inner_product_on junk start interval K ignore rz ts tsamp n source pos weight signal l = Done (signal', l') /\ okl l'.
Proof using HK Hg Hl0.
  intros Hl. unfold accumulate_inner_product, accumulate_inner_product_on. cbn [g_start g_interval checked]. destruct start as [[r0 z0] t0], interval as [[dr dz] dt].
  destruct (Req_EM_T dr 0); [discriminate|]. destruct (Req_EM_T dz 0); [discriminate|]. destruct (Req_EM_T dt 0); [discriminate|].
  intros Hr. eapply loop_sim; eauto.
Qed.

Lemma rfold_sim {B} (f : list R -> B -> option (list R)) (h : list R * clib -> B -> res (list R * clib)) xs signal signal' l :
  (forall s x s' l, okl l -> f s x = Some s' -> exists l', h (s, l) x = Done (s', l') /\ okl l') -> okl l ->
  foldM f signal xs = Some signal' -> exists l', rfold h (signal, l) xs = Done (signal', l') /\ okl l'.
Proof using.
  intros Hf. revert signal l. induction xs as [|x xs IH]; intros signal l Hl; cbn [foldM rfold].
  - intros [= ->]. by exists l.
  - destruct (f signal x) as [s1|] eqn:E; cbn [mbind option_bind]; [|discriminate]. destruct (Hf _ _ _ _ Hl E) as (l1 & -> & Hl1). cbn [mbind res_bind]. by apply IH.
Qed.
Lemma break_sim {B} (f : list R -> B -> option (list R + list R)) (h : list R * clib -> B -> res (list R * clib + list R * clib)) xs signal signal' l :
  (forall s x r l, okl l -> f s x = Some r -> exists l', h (s, l) x = Done (match r with inl s' => inl (s', l') | inr s' => inr (s', l') end) /\ okl l') -> okl l ->
  loop_break f signal xs = Some signal' -> exists l', rloop_break h (signal, l) xs = Done (signal', l') /\ okl l'.
Proof using.
  intros Hf. revert signal l. induction xs as [|x xs IH]; intros signal l Hl; cbn [loop_break rloop_break].
  - intros [= ->]. by exists l.
  - destruct (f signal x) as [r|] eqn:E; cbn [mbind option_bind]; [|discriminate]. destruct (Hf _ _ _ _ Hl E) as (l1 & -> & Hl1). cbn [mbind res_bind].
    destruct r as [s1|s1]; [by apply IH|]. intros [= ->]. by exists l1.
Qed.

Lemma apply_sim ib sb ignore seg t0 samp num weight signal signal' l : okl l ->
  apply_accumulate ib sb (checked l0) K ignore seg t0 samp num weight signal = Some signal' ->
  exists l', apply_accumulate_on junk start interval ib sb K ignore seg t0 samp num weight signal l = Done (signal', l') /\ okl l'.
Proof using HK Hg Hl0.
  intros Hl. unfold apply_accumulate, apply_accumulate_on.
  destruct (to_size _) as [ni|]; cbn [of_opt mbind res_bind option_bind]; [|discriminate]. destruct (ni =? 0)%nat; [discriminate|]. destruct (Req_EM_T samp 0); [discriminate|]. cbv zeta.
  apply rfold_sim; [|done]. clear signal signal' l Hl. intros signal blk signal' l Hl.
  destruct (fill_weights _ _ _ _) as [ws|]; cbn [of_opt mbind res_bind option_bind]; [|discriminate].
  apply rfold_sim; [|done]. clear signal signal' l Hl. intros signal sblk signal' l Hl.
  apply break_sim; [|done]. clear signal signal' l Hl. intros signal i r l Hl.
  destruct (to_int _) as [c|]; cbn [of_opt mbind res_bind option_bind]; [|discriminate].
  destruct (_ =? 0)%nat; [intros [= <-]; by exists l|]. destruct (Rlt_dec _ 0); [discriminate|]. destruct (_ <? _)%nat; [discriminate|].
  match goal with |- (?a ≫= _) = _ -> _ => destruct a as [rz|] end; cbn [of_opt mbind res_bind option_bind]; [|discriminate].
  match goal with |- (?a ≫= _) = _ -> _ => destruct a as [src|] end; cbn [of_opt mbind res_bind option_bind]; [|discriminate].
  destruct (ws !! i) as [w|]; cbn [of_opt mbind res_bind option_bind]; [|discriminate].
  destruct (accumulate_inner_product _ _ _ _ _ _ _ _ _ _ _) as [s1|] eqn:E; cbn [of_opt mbind res_bind option_bind]; [|discriminate].
  intros [= <-]. destruct (inner_sim _ _ _ _ _ _ _ _ _ _ _ Hl E) as (l1 & -> & Hl1). cbn [mbind res_bind]. by exists l1.
Qed.

(** ** Sampling on a grid *)
Lemma query_ok l is ie : inv l -> box_ok 3 (is, ie) -> exists ms, search_range (l_tree l) is ie = Some ms /\ forall m, m ∈ ms <-> m ∈ M /\ in_query is ie m.
Proof using.
  intros Hl Hbox. destruct (sim_ranges (P := chunk_meta) 3 1 (l_tree l) (item_of <$> M) H (lr_tree _ _ _ _ _ _ _ Hl) (is, ie) Hbox) as (ms & Hms & Hperm). cbn [fst snd] in Hms.
  exists ms. split; [done|]. intros m. rewrite Hperm, elem_of_list_fmap.
  assert (forall m, m ∈ M -> overlapping (is, ie) (item_of m).1 <-> in_query is ie m) as Hq.
  { intros m' (i & Hi)%elem_of_list_lookup. destruct (lrep_get_m _ _ _ _ _ _ _ _ _ Hl Hi) as (c & _ & Hr & _). unfold overlapping, in_query, item_of. cbn [fst snd].
    destruct (meta_form m' c Hr) as (s1 & s2 & s3 & n1 & n2 & n3 & _ & _ & _ & _ & Es & Ee & _). rewrite (mr_start _ _ _ Hr), (mr_end _ _ _ Hr), Es, Ee. destruct Hbox as [[Hle _] Hls]. cbn [fst snd] in *.
    destruct is as [|x1 [|x2 [|x3 [|]]]]; try discriminate Hls. destruct ie as [|y1 [|y2 [|y3 [|]]]]; try discriminate Hle. cbn [zip_with]. rewrite !list.Forall_cons. cbn [fst snd]. split.
    - intros (H1 & H2 & H3 & _). split; repeat (constructor; [lia|]); constructor.
    - intros [HA HB]. apply Forall2_cons_1 in HA as [A1 HA]. apply Forall2_cons_1 in HA as [A2 HA]. apply Forall2_cons_1 in HA as [A3 _].
      apply Forall2_cons_1 in HB as [B1 HB]. apply Forall2_cons_1 in HB as [B2 HB]. apply Forall2_cons_1 in HB as [B3 _]. split; [lia|]. split; [lia|]. split; [lia|constructor]. }
  split.
  - intros (x & -> & Hx). apply elem_of_list_filter in Hx as [Ho Hx]. apply elem_of_list_fmap in Hx as (m' & -> & Hm'). split; [done|]. by apply Hq.
  - intros [Hm Hqm]. exists (item_of m). split; [done|]. apply elem_of_list_filter. split; [by apply Hq|]. apply elem_of_list_fmap. by exists m.
Qed.

Lemma fill_chunk_sim f0 st n arr arr' m l : okl l -> m ∈ M -> fill_chunk (checked l0) K f0 st n arr m = Some arr' ->
  exists l', fill_chunk_on junk K f0 st n (arr, l) m = Done (arr', l') /\ okl l'.
Proof using Hg Hl0.
  intros Hl Hm. unfold fill_chunk_on. cbn [fst snd]. destruct (cm_type m =? all_null)%N eqn:Hty.
  - unfold fill_chunk. rewrite Hty. intros [= ->]. by exists l.
  - assert (cm_type m = specified) as Hsp.
    { apply elem_of_list_lookup in Hm as (i & Hm). destruct Hl as [Hl _]. destruct (lrep_get_m _ _ _ _ _ _ _ _ _ Hl Hm) as (c & _ & Hr & _). rewrite (mr_type _ _ _ Hr) in Hty |- *. by destruct (c_null c). }
    destruct (retrieve_sim l m Hl Hm Hsp) as (d & l2 & Hret & Hl2 & Hd). rewrite Hret. cbn [mbind res_bind].
    assert (fill_chunk (checked l0) K f0 st n arr m = fill_chunk (given d) K f0 st n arr m) as ->.
    { unfold fill_chunk, chunk_samples. by rewrite Hd. }
    intros ->. cbn [of_opt mbind res_bind]. by exists l2.
Qed.
Lemma fill_chunks_sim f0 st n arr arr' ms l : okl l -> (forall m, m ∈ ms -> m ∈ M) -> foldM (fill_chunk (checked l0) K f0 st n) arr ms = Some arr' ->
  exists l', rfold (fill_chunk_on junk K f0 st n) (arr, l) ms = Done (arr', l') /\ okl l'.
Proof using Hg Hl0.
  revert arr l. induction ms as [|m ms IH]; intros arr l Hl Hms; cbn [foldM rfold].
  - intros [= ->]. by exists l.
  - destruct (fill_chunk (checked l0) K f0 st n arr m) as [a1|] eqn:E; cbn [mbind option_bind]; [|discriminate].
    destruct (fill_chunk_sim _ _ _ _ _ _ _ Hl (Hms m ltac:(left)) E) as (l1 & -> & Hl1). cbn [mbind res_bind]. apply IH; [done|]. intros m' Hm'. apply Hms. by right.
Qed.
Lemma fill_sim m_end junkr p q n arr arr' l : okl l ->
  (forall s1 s2 s3 e1 e2 e3, to_size ((p.1.1 - start.1.1) / interval.1.1) = Some s1 -> to_size ((p.1.2 - start.1.2) / interval.1.2) = Some s2 -> to_size ((p.2 - start.2) / interval.2) = Some s3 ->
    to_size ((q.1.1 - start.1.1) / interval.1.1) = Some e1 -> to_size ((q.1.2 - start.1.2) / interval.1.2) = Some e2 -> to_size ((q.2 - start.2) / interval.2) = Some e3 ->
    exists ms, search_range (l_tree l) [N.of_nat s1; N.of_nat s2; N.of_nat s3] [N.of_nat e1; N.of_nat e2; N.of_nat e3] = Some ms /\ forall m, m ∈ ms -> m ∈ M) ->
  fill_array (checked l0) m_end (fun s e => default [] (search_range (l_tree l) s e)) K junkr p q n arr = Some arr' ->
  exists l', fill_array_on junk start interval m_end K junkr p q n arr l = Done (arr', l') /\ okl l'.
Proof using Hg Hl0.
  intros Hl Hq. unfold fill_array, fill_array_on. cbn [checked g_start g_interval].
  destruct start as [[r0 z0] t0], interval as [[dr dz] dt]. cbn [fst snd] in *.
  match goal with |- (if ?b then _ else _) = _ -> _ => destruct b; [|discriminate] end.
  destruct (aresize _ _ _ arr) as [arr1|]; cbn [of_opt mbind res_bind option_bind]; [|discriminate]. cbv zeta.
  destruct (Req_EM_T dr 0); [discriminate|]. destruct (Req_EM_T dz 0); [discriminate|]. destruct (Req_EM_T dt 0); [discriminate|].
  match goal with |- (if ?b then _ else _) = _ -> _ => destruct b; [discriminate|] end. cbn [fst snd].
  destruct (to_size ((p.1.1 - r0) / dr)) as [s1|] eqn:S1; cbn [of_opt mbind res_bind option_bind]; [|discriminate].
  destruct (to_size ((p.1.2 - z0) / dz)) as [s2|] eqn:S2; cbn [of_opt mbind res_bind option_bind]; [|discriminate].
  destruct (to_size ((p.2 - t0) / dt)) as [s3|] eqn:S3; cbn [of_opt mbind res_bind option_bind]; [|discriminate].
  destruct (to_size ((q.1.1 - r0) / dr)) as [e1|] eqn:E1; cbn [of_opt mbind res_bind option_bind]; [|discriminate].
  destruct (to_size ((q.1.2 - z0) / dz)) as [e2|] eqn:E2; cbn [of_opt mbind res_bind option_bind]; [|discriminate].
  destruct (to_size ((q.2 - t0) / dt)) as [e3|] eqn:E3; cbn [of_opt mbind res_bind option_bind]; [|discriminate].
  destruct (Req_EM_T _ 0); [discriminate|]. destruct (Req_EM_T _ 0); [discriminate|]. destruct (Req_EM_T _ 0); [discriminate|].
  destruct (Hq s1 s2 s3 e1 e2 e3 eq_refl eq_refl eq_refl eq_refl eq_refl eq_refl) as (ms & Hms & Hin). unfold lib_find_range. rewrite Hms. cbn [default of_opt mbind res_bind]. unfold Datatypes.id.
  by apply fill_chunks_sim.
Qed.
End sim.
