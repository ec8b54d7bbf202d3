(** Crashes while slices are appended, part 3: the operations of the library, and what can be read afterwards. *)
From stdpp Require Import base list list_numbers numbers option gmap countable sets.
From Coq Require Import NArith ZArith Lia.
From Verif Require Import IndexSpec LoopsModel NDArrayModel NDArrayProps NullSupModel CodecModel StreamerModel StreamerProps CacheModel CacheProofs BBoxModel BBoxProps DownsampleModel
  RTreeModel RTreeInsert RTreeRebuild RTreeProps ChunkMetaModel ChunkMetaProps ChunkCacheModel ChunkCacheSpec ChunkCacheProofs ChunkCacheProofs2 ChunkCacheProofs3
  LibraryModel LibrarySpec LibraryProofs LibraryProofs2 LibraryProofs3 LibraryProofs4 LibraryProofs5 LibraryProofs6 LibraryProofs7 LibraryProps
  BoundaryModel RebuildModel CrashModel CrashSpec CrashProofs CrashProofs2 CrashProofs3 CrashAppendModel CrashAppendSpec CrashAppendProofs CrashAppendProofs2.
From Verif Require Import IndexSpec LibrarySpec.

(** ** Crashes *)
Section crash.
Context (P : bytes -> Prop) (OK : bytes -> bytes -> Prop).
Definition file_ok (fs : gmap bytes bytes) (n : bytes) : Prop := exists b, fs !! n = Some b /\ OK n b.
Definition files_ok (fs : gmap bytes bytes) : Prop := forall n, P n -> file_ok fs n.

Lemma fit_run w o : fit P OK o -> d_index (run1 w o).1 = d_index w.1 /\ forall n, P n -> file_ok (d_files w.1) n -> file_ok (d_files (run1 w o).1) n.
Proof using.
  intros Hf. destruct o as [[] [|p] b|[] [|p] b|[] ?|[] ?|[] ?]; try done; cbn [run1 fset fst dset d_files d_index fit] in *; (split; [done|]); intros n Hn (x & Hx & Hok); unfold file_ok.
  - exists x. rewrite lookup_partial_alter_ne; [done|]. by intros ->.
  - destruct (decide (p = n)) as [->|Hne]; [exists b; rewrite lookup_partial_alter; auto|]. exists x. by rewrite lookup_partial_alter_ne.
Qed.
Lemma fit_torn w o w' : fit P OK o -> torn w o w' -> d_index w'.1 = d_index w.1 /\ exists p, (forall n, P n -> n <> p -> file_ok (d_files w.1) n -> file_ok (d_files w'.1) n) /\
  ((forall s n b, o <> Patch s n b) -> ~ P p).
Proof using.
  intros Hf Ht. destruct Ht as [w [] [|p] b b' Hb|w [] [|p] b b'|w [] n b b' Hg Hb|w [] n b b' Hg Hb]; try done; cbn [fset fst dset d_files d_index fit] in *; (split; [done|]); exists p; split.
  - intros n _ Hne (x & Hx & Hok). exists x. by rewrite lookup_partial_alter_ne.
  - intros _. done.
  - intros n _ Hne (x & Hx & Hok). exists x. by rewrite lookup_partial_alter_ne.
  - intros H. by destruct (H Own (File p) b).
Qed.
Lemma fit_between ops w w' : Forall (fit P OK) ops -> files_ok (d_files w.1) -> crashed_between w ops w' -> d_index w'.1 = d_index w.1 /\ files_ok (d_files w'.1).
Proof using.
  intros Hf Hok Hc. induction Hc as [w ops|w o ops w' Ht Hnp|w o ops w' Hc IH]; [done| |]; apply list.Forall_cons in Hf as [Ho Hf].
  - destruct (fit_torn _ _ _ Ho Ht) as (E & p & Hp & Hpp). split; [done|]. intros n Hn. apply Hp; [done| |auto]. intros ->. by apply Hpp.
  - destruct (fit_run w o Ho) as [E H1]. destruct IH as [E2 H2]; [done| |split; [congruence|done]]. intros n Hn. apply H1; auto.
Qed.
Lemma fit_crashed ops w w' : Forall (fit P OK) ops -> files_ok (d_files w.1) -> crashed w ops w' -> d_index w'.1 = d_index w.1 /\ exists p, forall n, P n -> n <> p -> file_ok (d_files w'.1) n.
Proof using.
  intros Hf Hok Hc. induction Hc as [w ops|w o ops w' Ht|w o ops w' Hc IH]; [split; [done|]; exists []; auto| |]; apply list.Forall_cons in Hf as [Ho Hf].
  - destruct (fit_torn _ _ _ Ho Ht) as (E & p & Hp & Hpp). split; [done|]. exists p. intros n Hn Hne. auto.
  - destruct (fit_run w o Ho) as [E H1]. destruct IH as [E2 H2]; [done| |split; [congruence|done]]. intros n Hn. apply H1; auto.
Qed.
Lemma between_run w ops : crashed_between w ops (run w ops).
Proof using. revert w. induction ops as [|o ops IH]; intros w; [constructor|]. apply between_later. apply IH. Qed.
End crash.

(** ** The contents of the chunks that were flushed are the beginning of those now *)
Definition longer (c1 c : content) : Prop := forall x, in_shape (k_shape c) x -> in_shape (k_shape c1) x /\ k_at c1 x = k_at c x.
Lemma longer_refl c : longer c c. Proof. by intros x Hx. Qed.
Lemma longer_trans c1 c2 c3 : longer c1 c2 -> longer c2 c3 -> longer c1 c3.
Proof. intros H1 H2 x Hx. destruct (H2 x Hx) as [A1 A2]. destruct (H1 x A1) as [B1 B2]. split; [done|]. congruence. Qed.
Lemma longer_concat c1 c2 n1 n2 sh : k_shape c1 = n1 :: sh -> k_shape c2 = n2 :: sh -> longer (concat0 c1 c2) c1.
Proof.
  intros E1 E2 x Hx. rewrite (concat0_shape _ _ _ _ _ E1 E2). rewrite E1 in Hx. apply in_shape_cons in Hx as (i & r & -> & Hi & Hr). split.
  - apply in_shape_cons. exists i, r. split_and!; auto. lia.
  - by eapply concat0_at1.
Qed.
Definition extends (C0 C : list chunk) : Prop := forall i c0, C0 !! i = Some c0 -> exists c, C !! i = Some c /\ c_file c = c_file c0 /\ c_ser c = c_ser c0 /\ longer (c_val c) (c_val c0).

Section library.
Context (vd dims : nat) (junk : N) (L : lib) (HL : lib_ok L).
Local Notation session := (session vd dims junk L).
Local Notation lrep_ := (lrep_ vd dims).
Local Notation reads_as := (reads_as vd dims junk L).

(** A complete file with at least the contents of the chunks of [C0] with this name. *)
Definition whole (C0 : list chunk) (n b : bytes) : Prop := forall c0, c0 ∈ C0 -> c_file c0 = n -> exists c1, file_holds vd dims (c_ser c0) b c1 /\ longer c1 (c_val c0).

Lemma longer_reads d d2 S C : closed vd dims d2 S -> d_index d = d_index d2 -> (forall c, c ∈ C -> c ∈ ls_chunks S) ->
  (forall c, c ∈ C -> c_file c <> [] -> exists b c1, d_files d !! c_file c = Some b /\ file_holds vd dims (c_ser c) b c1 /\ longer c1 (c_val c)) -> reads_as d C.
Proof using HL.
  intros Hcl Ei Hsub Hfs size cs Hcs. destruct (reopen_ok vd dims junk L HL _ S size cs Hcl Hcs) as (l2 & Ho & Hr2). pose proof (lrep_dims _ _ _ _ Hr2) as Hd.
  unfold lib_open, copen in Ho |- *. destruct (rt_new meta0 dims 100) as [t0|]; cbn [of_opt mbind res_bind] in Ho |- *; [|discriminate Ho]. rewrite Ei.
  match type of Ho with (?x ≫= _) = _ => destruct x as [t| |] end; cbn [mbind res_bind] in Ho |- *; try discriminate Ho.
  destruct (cnew_inv (K := N) (Nat.max 1 size) (CEntry (mk_meta 0 [] 0 [] [] 0) (anew vd junk (replicate dims 1%nat)) Nothing)) as (ca & Ec & Hca); [clear; lia|].
  rewrite Ec in Ho |- *. cbn [of_opt mbind option_bind res_bind] in Ho |- *. injection Ho as <-. eexists. split; [reflexivity|].
  intros c ind Hc Hcov Hn. pose proof (Hsub c Hc) as Hc2. apply elem_of_list_lookup in Hc2 as (i & Hi). destruct (get_ok vd dims junk _ (reopened S cs) i c ind Hr2 Hi Hcov Hn) as (v & l3 & Hg & _ & Hv).
  destruct Hr2 as (M & sz & H & Hr). destruct (find_ok _ _ _ _ _ _ _ _ _ _ Hr Hi Hcov) as (slot & m & t' & Hm & Hmr & Hf & _).
  destruct (lrep_get _ _ _ _ _ _ _ _ _ Hr Hi) as (m1 & Hm1 & _ & _ & Hsz). assert (m1 = m) as -> by congruence.
  pose proof (lr_acc _ _ _ _ _ _ _ Hr (cm_id m)) as Hacc. rewrite Hsz in Hacc.
  unfold lib_get in Hg |- *. rewrite Hf in Hg. cbn [mbind res_bind] in Hg.
  assert (find_chunk ind (CLib 0 None t (d_index d2) (CStore size cs ca (d_files d))) = Done (slot, m, with_tree (CLib 0 None t (d_index d2) (CStore size cs ca (d_files d))) t')) as ->.
  { clear -Hf. unfold find_chunk in *. cbn [l_tree] in *. destruct (search_point t ind) as [[[sl|] t1]|]; cbn [of_opt mbind res_bind] in Hf |- *; try discriminate Hf. destruct (payload_at t1 sl); cbn [of_opt mbind res_bind] in Hf |- *; [|discriminate Hf]. by injection Hf as -> -> <-. }
  cbn [mbind res_bind l_store with_tree] in Hg |- *. unfold retrieve_chunk in Hg |- *. cbn [s_cache] in Hg |- *.
  rewrite (ccontains_spec _ _ _ Hca) in Hg |- *. cbn [fmap list_fmap] in Hg |- *. rewrite bool_decide_false in Hg |- * by (by intros ?%elem_of_nil).
  unfold deserialize_into_cache, make_room in Hg |- *. cbn [s_cache] in Hg |- *. destruct (has_free_slot_spec _ _ Hca) as [Hfr _].
  assert ((length (@nil (N * centry)) <? c_depth ca)%nat = true) as Hlt. { apply Nat.ltb_lt. destruct Hca as (free & used & _ & _ & _ & Hpos & _). exact Hpos. }
  rewrite Hlt in Hfr. rewrite Hfr in Hg |- *. cbn [mbind res_bind s_files s_cache s_size s_cs] in Hg |- *.
  destruct (cm_type m =? specified)%N eqn:Et.
  - assert (c_file c <> []) as Hne.
    { destruct Hcl as (M2 & sz2 & G1 & _ & _ & G4 & _ & _ & _ & G8). destruct (Forall2_lookup_r _ _ _ _ _ G1 Hi) as (m2 & Hm2 & Hmr2).
      destruct (G8 _ _ _ (amap_lookup _ _ _ _ _ (Forall2_length _ _ _ G1) G4 Hm2 Hi)) as (_ & _ & _ & Hod). destruct Hod as [(_ & Hp & _)|(Hty & _)].
      - by rewrite <- (mr_path _ _ _ Hmr2).
      - rewrite (mr_type _ _ _ Hmr2) in Hty. rewrite (mr_type _ _ _ Hmr) in Et. destruct (c_null c); [by apply N.eqb_eq in Et|done]. }
    destruct (Hfs c Hc Hne) as (b & c1 & Hb & Hh & Hlg).
    destruct (file_read vd dims (c_ser c) Hacc Hd b c1 (anew vd junk (replicate dims 1%nat)) junk Hh) as (a & Ea & _ & Hsh & Hrt).
    { apply api_new. destruct dims; [clear -Hd; lia|done]. }
    assert (load_chunk vd dims junk m (d_files d) = Done a) as ->. { unfold load_chunk. rewrite Et, (mr_path _ _ _ Hmr), Hb. cbn [of_opt mbind res_bind]. rewrite Ea. reflexivity. }
    cbn [mbind res_bind]. destruct (load_chunk vd dims junk m (d_files d2)) as [dd| |]; cbn [mbind res_bind] in Hg; try discriminate Hg.
    assert (exists c2, cinsert ca (cm_id m) (CEntry m a Nothing) = Some c2) as (c2 & ->).
    { destruct (cinsert_spec ca [] (cm_id m) (CEntry m a Nothing) Hca) as (c2 & E & _); [by intros ?%elem_of_nil| |by exists c2]. by apply Nat.ltb_lt. }
    cbn [of_opt mbind res_bind]. destruct (local_pos dims m c ind Hmr Hcov) as [Hp Hin]. destruct (Hlg _ Hin) as [Hin1 Hat]. destruct (Hrt _ Hin1) as (v' & Hv' & Hcb). rewrite Hp, Hv'. cbn [of_opt mbind res_bind].
    exists v'. eexists. split; [reflexivity|]. unfold value. by rewrite <- Hat.
  - assert (load_chunk vd dims junk m (d_files d) = load_chunk vd dims junk m (d_files d2)) as ->. { unfold load_chunk. by rewrite Et. }
    destruct (load_chunk vd dims junk m (d_files d2)) as [dd| |]; cbn [mbind res_bind] in Hg |- *; try discriminate Hg.
    destruct (cinsert ca (cm_id m) (CEntry m dd Nothing)) as [c1|]; cbn [of_opt mbind res_bind] in Hg |- *; [|discriminate Hg].
    destruct (aread vd dd _) as [v'|]; cbn [of_opt mbind res_bind] in Hg |- *; [|discriminate Hg]. injection Hg as <- _. eauto.
Qed.

(** ** The invariant *)
Lemma own_index l S M sz H i j ci cj : lrep_ l S M sz H -> ls_chunks S !! i = Some ci -> ls_chunks S !! j = Some cj -> c_file ci = c_file cj -> c_file ci <> [] -> i = j.
Proof using.
  intros Hr Hi Hj E Hne. destruct (lrep_get _ _ _ _ _ _ _ _ _ Hr Hi) as (mi & Hmi & Ri & Ai & _). destruct (lrep_get _ _ _ _ _ _ _ _ _ Hr Hj) as (mj & Hmj & Rj & Aj & _).
  destruct (lr_store _ _ _ _ _ _ _ Hr) as (la & _ & _ & _ & _ & H2). destruct (H2 _ _ _ Ai) as (_ & Hown & _).
  destruct (decide (cm_id mj = cm_id mi)) as [Eid|Hid].
  - eapply NoDup_lookup; [exact (lr_ids _ _ _ _ _ _ _ Hr)| |]; rewrite list_lookup_fmap; [rewrite Hmi; reflexivity|rewrite Hmj; cbn; by rewrite Eid].
  - exfalso. apply Hne. rewrite <- (mr_path _ _ _ Ri). eapply Hown; [exact Aj|done|]. by rewrite (mr_path _ _ _ Ri), (mr_path _ _ _ Rj).
Qed.
Lemma whole_at C0 l S M sz H i ci b c1 : lrep_ l S M sz H -> extends C0 (ls_chunks S) -> ls_chunks S !! i = Some ci -> c_file ci <> [] ->
  file_holds vd dims (c_ser ci) b c1 -> longer c1 (c_val ci) -> whole C0 (c_file ci) b.
Proof using.
  intros Hr He Hi Hne Hb Hlg c0 Hc0 Ef. apply elem_of_list_lookup in Hc0 as [j Hj]. destruct (He j c0 Hj) as (cj & Hcj & E1 & E2 & E3).
  assert (i = j) as <-. { eapply own_index; [exact Hr|exact Hi|exact Hcj|congruence|done]. }
  assert (cj = ci) as -> by congruence. exists c1. rewrite <- E2. split; [done|]. by eapply longer_trans.
Qed.
Lemma suits_amap S0 l S M sz H : lrep_ l S M sz H -> extends (ls_chunks S0) (ls_chunks S) -> suits vd dims sz (kept S0) (whole (ls_chunks S0)) (amap M (ls_chunks S)).
Proof using.
  intros Hr He k m c b Hk [Hne _] Hb. apply amap_inv in Hk as (i & m' & ci & Hm & Hi & -> & [= <- ->]). destruct (lrep_get _ _ _ _ _ _ _ _ _ Hr Hi) as (m1 & Hm1 & Rm & _ & Hsz).
  assert (m1 = m) as -> by congruence. rewrite (mr_path _ _ _ Rm) in *. rewrite Hsz in Hb. eapply whole_at; done.
Qed.
Definition ginv (S0 : lstate) (l : clib) (S : lstate) : Prop := session l S /\ nosq (kept S0) (l_store l) /\ extends (ls_chunks S0) (ls_chunks S) /\
  exists d2, closed vd dims d2 S0 /\ l_index l = d_index d2 /\ files_ok (kept S0) (whole (ls_chunks S0)) (s_files (l_store l)).

(** One operation. *)
Lemma ginv_step S0 l S ops l' S' : ginv S0 l S -> session l' S' -> nosq (kept S0) (l_store l') -> extends (ls_chunks S) (ls_chunks S') ->
  Forall (fit (kept S0) (whole (ls_chunks S0))) ops -> (forall o, run (disk l, o) ops = (disk l', o)) -> ginv S0 l' S'.
Proof using.
  intros (G1 & G2 & G3 & d2 & G4 & G5 & G6) Hs Hn He Hf Hrun. split; [done|]. split; [done|]. split.
  - intros i c0 Hi. destruct (G3 i c0 Hi) as (c & Hc & A1 & A2 & A3). destruct (He i c Hc) as (c' & Hc' & B1 & B2 & B3). exists c'. split; [done|]. split; [congruence|]. split; [congruence|]. by eapply longer_trans.
  - exists d2. split; [done|]. destruct (fit_between _ _ _ (disk l, disk l) _ Hf G6 (between_run _ _)) as [E1 E2]. rewrite Hrun in E1, E2. cbn [fst disk d_index d_files] in E1, E2. split; [congruence|done].
Qed.
Lemma extends_refl C : extends C C.
Proof using. intros i c Hc. exists c. split; [done|]. split; [done|]. split; [done|]. apply longer_refl. Qed.
Lemma retrieve_both S0 s A cs sz m c : (forall k, acceptable_chunk dims (sz k)) -> (0 < dims)%nat -> sinv vd dims cs sz s A -> nosq (kept S0) s -> suits vd dims sz (kept S0) (whole (ls_chunks S0)) A ->
  A !! cm_id m = Some (m, c) -> readable m c -> Forall (fit (kept S0) (whole (ls_chunks S0))) (retrieve_ops vd dims m s) /\
  forall d s', retrieve_chunk vd dims junk m s = Done (d, s') -> nosq (kept S0) s' /\ sinv vd dims cs sz s' A.
Proof using.
  intros Hacc Hd Hs Hn HA Hm Hrd. split; [eapply retrieve_fit; [exact Hacc|exact Hd|exact Hs|exact Hn|exact HA|by exists (m, c)]|].
  intros d s' E. split; [by eapply retrieve_nosq|]. destruct (retrieve_ok vd dims junk cs sz Hacc Hd s A m c Hs Hm Hrd) as (d1 & s1 & E1 & Hs1 & _). rewrite E in E1. by injection E1 as _ <-.
Qed.
Lemma get_fit S0 l S c ind : ginv S0 l S -> c ∈ ls_chunks S -> covers c ind -> (c_null c = true -> c_ov c = 0%N) ->
  Forall (fit (kept S0) (whole (ls_chunks S0))) (lib_get_ops vd dims ind l) /\ forall v l', lib_get vd dims junk ind l = Done (v, l') -> nosq (kept S0) (l_store l').
Proof using HL.
  intros (G1 & G2 & G3 & _) Hc Hcov Hnull. apply elem_of_list_lookup in Hc as [i Hi]. pose proof (session_inv vd dims junk L HL _ _ G1) as Hr0. pose proof (lrep_dims _ _ _ _ Hr0) as Hd. destruct Hr0 as (M & sz & H & Hr).
  destruct (find_ok _ _ _ _ _ _ _ _ _ _ Hr Hi Hcov) as (slot & m & t' & Hm & Hmr & Hf & _). destruct (lrep_get _ _ _ _ _ _ _ _ _ Hr Hi) as (m1 & Hm1 & _ & Ha & _). assert (m1 = m) as -> by congruence.
  destruct (retrieve_both S0 (l_store l) _ _ sz m (c_val c) (lr_acc _ _ _ _ _ _ _ Hr) Hd (lr_store _ _ _ _ _ _ _ Hr) G2 (suits_amap _ _ _ _ _ _ Hr G3) Ha) as [F1 F2]; [by eapply mr_readable|].
  unfold lib_get_ops, lib_get. rewrite Hf. cbn [rdone fst snd mbind res_bind l_store with_tree]. split; [exact F1|]. intros v l' E.
  destruct (retrieve_chunk vd dims junk m (l_store l)) as [[d s']| |]; cbn [mbind res_bind] in E; try discriminate E. destruct (aread vd d _); cbn [of_opt mbind res_bind] in E; [|discriminate E]. injection E as _ <-.
  cbn [l_store with_store]. by eapply F2.
Qed.
Lemma fill_fold_fit S0 cs sz A is ie os (Q : list (chunk_meta * chunk)) : (forall k, acceptable_chunk dims (sz k)) -> (0 < dims)%nat -> suits vd dims sz (kept S0) (whole (ls_chunks S0)) A ->
  (forall m c, (m, c) ∈ Q -> meta_rep dims m c /\ A !! cm_id m = Some (m, c_val c)) -> forall st, sinv vd dims cs sz st.2 A -> nosq (kept S0) st.2 ->
  Forall (fit (kept S0) (whole (ls_chunks S0))) (rfold_ops (fill_chunk_ops vd dims) (fill_chunk vd dims junk is ie os) st Q.*1) /\
  forall st', rfold (fill_chunk vd dims junk is ie os) st Q.*1 = Done st' -> nosq (kept S0) st'.2.
Proof using.
  intros Hacc Hd HA. induction Q as [|[m c] Q IH]; intros HQ st Hs Hn; cbn [rfold rfold_ops fmap list_fmap fst].
  { split; [constructor|]. by intros st' [= <-]. }
  destruct (HQ m c) as (Hmr & Hm); [by left|]. specialize (IH ltac:(intros m' c' Hq; apply HQ; by right)).
  assert (Forall (fit (kept S0) (whole (ls_chunks S0))) (fill_chunk_ops vd dims st m) /\ forall st', fill_chunk vd dims junk is ie os st m = Done st' -> sinv vd dims cs sz st'.2 A /\ nosq (kept S0) st'.2) as [F1 F2].
  { unfold fill_chunk_ops, fill_chunk. destruct (cm_type m =? all_null)%N.
    - split; [constructor|]. intros st'. destruct (afill _ _ _ _ _); cbn [of_opt mbind res_bind]; [|discriminate]. by intros [= <-].
    - destruct (cm_type m =? specified)%N eqn:Et; [|split; [constructor|discriminate]]. apply N.eqb_eq in Et.
      destruct (retrieve_both S0 st.2 A cs sz m (c_val c) Hacc Hd Hs Hn HA Hm) as [R1 R2]; [by left|]. split; [exact R1|]. intros st'.
      destruct (retrieve_chunk vd dims junk m st.2) as [[d s']| |]; cbn [mbind res_bind]; try discriminate. destruct (afill_from _ _ _ _ _ _); cbn [of_opt mbind res_bind]; [|discriminate]. intros [= <-]. cbn [snd].
      destruct (R2 _ _ eq_refl). done. }
  destruct (fill_chunk vd dims junk is ie os st m) as [st1| |]; cbn [rdone mbind res_bind].
  - destruct (F2 st1 eq_refl) as [Hs1 Hn1]. destruct (IH st1 Hs1 Hn1) as [I1 I2]. split; [by apply Forall_app|]. exact I2.
  - split; [by rewrite app_nil_r|discriminate].
  - split; [by rewrite app_nil_r|discriminate].
Qed.
Lemma fill_fit S0 l S buf is ie os : ginv S0 l S -> ok_fill vd dims buf is ie os ->
  Forall (fit (kept S0) (whole (ls_chunks S0))) (lib_fill_ops vd dims junk buf is ie os l) /\ forall b l', lib_fill vd dims junk buf is ie os l = Done (b, l') -> nosq (kept S0) (l_store l').
Proof using HL.
  intros (G1 & G2 & G3 & _) Hok. pose proof (session_inv vd dims junk L HL _ _ G1) as Hr0. pose proof (lrep_dims _ _ _ _ Hr0) as Hd. destruct Hr0 as (M & sz & H & Hr).
  destruct (range_ok vd dims _ _ _ _ _ is ie Hr) as (Q & Hq & HQ & _); [apply Hok|apply Hok|].
  destruct (fill_fold_fit S0 (ls_cs S) sz (amap M (ls_chunks S)) is ie os Q (lr_acc _ _ _ _ _ _ _ Hr) Hd (suits_amap _ _ _ _ _ _ Hr G3)) with (st := (buf, l_store l)) as [F1 F2].
  { intros m c [Hz _]%HQ. apply elem_of_list_lookup in Hz as [i Hz]. apply lookup_zip_with_Some in Hz as (m' & c' & [= <- <-] & Hm & Hc).
    destruct (lrep_get _ _ _ _ _ _ _ _ _ Hr Hc) as (m1 & Hm1 & Hmr & Ha & _). assert (m1 = m) as -> by congruence. done. }
  { exact (lr_store _ _ _ _ _ _ _ Hr). }
  { exact G2. }
  unfold lib_fill_ops, lib_fill. rewrite Hq. cbn [of_opt rdone]. split; [exact F1|]. intros b l'. destruct (_ && _); [|discriminate]. cbn [mbind res_bind].
  destruct (rfold _ _ _) as [[b' s']| |]; cbn [mbind res_bind]; try discriminate. intros [= _ <-]. cbn [l_store with_store]. exact (F2 _ eq_refl).
Qed.
End library.
