(** C63: a Green's function that is read from the library it is stored in. *)
From stdpp Require Import base sets list list_numbers numbers option gmap.
From Coq Require Import Reals Lra Lia NArith ZArith.
From Flocq Require Import IEEE754.Binary IEEE754.Bits.
From Verif Require Import IndexSpec LoopsProofs NDArrayModel NDArrayProofs NDArrayOps NDArrayProps CodecModel StreamerModel StreamerProps KernelModel KernelProps InterpModel InterpProps
  BBoxModel BBoxProps RTreeModel RTreeInsert RTreeProps ChunkMetaModel ChunkMetaProps ChunkCacheModel ChunkCacheSpec ChunkCacheProofs2 ChunkCacheProofs3 LibraryModel LibrarySpec LibraryProofs LibraryProofs2
  LibraryProofs4 LibraryProofs6 LibraryProofs7 RebuildSpec SignalModel SignalProps FillModel FillSpec FillProps ReadModel ReadSpec ReadProofs ReadProofs2 IndexSpec LibrarySpec.
Local Open Scope R_scope.

Lemma found_unique G r z t m m' : found G r z t m -> found G r z t m' -> m = m'.
Proof. intros (a1 & a2 & a3 & A1 & A2 & A3 & <-) (b1 & b2 & b3 & B1 & B2 & B3 & <-). apply to_size_cell in A1, A2, A3, B1, B2, B3. congruence. Qed.

(** ** Signals *)
Section signal.
Context (junk : N) (start interval : R * R * R) (L : lib) (HL : lib_ok L).

Lemma covers_may_search l S M sz H c ind : lrep_ 2 3 l S M sz H -> c ∈ ls_chunks S -> covers c ind -> may_search M ind.
Proof using.
  intros Hl Hc Hcov. apply elem_of_list_lookup in Hc as (i & Hc). destruct (lrep_get _ _ _ _ _ _ _ _ _ Hl Hc) as (m & Hm & Hr & _). split; [by destruct M|].
  destruct (meta_form m c Hr) as (s1 & s2 & s3 & n1 & n2 & n3 & _ & [Hft _] & _ & _ & Es & Ee & _). destruct Hcov as (Hl1 & _ & Hin). rewrite Es, Ee in *.
  destruct ind as [|x1 [|x2 [|x3 [|]]]]; try discriminate Hl1. cbn [zip_with] in Hft. rewrite !list.Forall_cons in Hft. destruct Hft as (F1 & F2 & F3 & _). cbn in F1, F2, F3.
  pose proof (Hin 0%nat _ _ _ eq_refl eq_refl eq_refl) as B1. pose proof (Hin 1%nat _ _ _ eq_refl eq_refl eq_refl) as B2. pose proof (Hin 2%nat _ _ _ eq_refl eq_refl eq_refl) as B3.
  rewrite !list.Forall_cons. split; [lia|]. split; [lia|]. split; [lia|constructor].
Qed.

Lemma position_found l l0 S M sz H c r z t : lrep_ 2 3 l S M sz H -> c ∈ ls_chunks S -> position_in c r z t ->
  exists m, found (checked junk start interval M l0) r z t (Some m) /\ found (pure junk start interval l0 M) r z t (Some m) /\ (cm_type m = specified <-> c_null c = false).
Proof using.
  intros Hl Hc (i1 & i2 & i3 & H1 & H2 & H3 & Hcov). pose proof (covers_may_search _ _ _ _ _ _ _ Hl Hc Hcov) as Hms. apply elem_of_list_lookup in Hc as (i & Hc).
  destruct (pure_some junk start interval S M sz H l0 l i c _ Hl Hc Hcov) as (m & Hm & Hf). destruct (lrep_get _ _ _ _ _ _ _ _ _ Hl Hc) as (m' & Hm' & Hr & _). assert (m' = m) as -> by congruence.
  exists m. split; [exists i1, i2, i3; split_and!; try done; cbn [checked g_chunk]; by rewrite decide_True|]. split; [by exists i1, i2, i3|].
  rewrite (mr_type _ _ _ Hr). by destruct (c_null c).
Qed.

Lemma off_ends_off l l0 S M sz H K t : lrep_ 2 3 l S M sz H -> lrep_ 2 3 l0 S M sz H -> off_ends S K t -> off_end (pure junk start interval l0 M) K t.
Proof using.
  intros Hl Hl0 Hoff ind m e Hf He. destruct (pure_found junk start interval S M sz H _ _ _ _ Hl0 Hf) as (i & c & Hm & Hc & Hr & _).
  destruct (meta_form m c Hr) as (s1 & s2 & s3 & n1 & n2 & n3 & Em & Hfit & _ & _ & Es & Ee & _). assert (c ∈ ls_chunks S) as HcS by (by eapply elem_of_list_lookup_2).
  rewrite (mr_end _ _ _ Hr), Ee in He. injection He as <-. rewrite (mr_ov _ _ _ Hr). exact (Hoff c _ _ _ HcS Ee).
Qed.

Theorem C63_signal l S K U ignore g ib sb seg t0 samp weight num n signal :
  session 2 3 junk L l S -> has_samples S U g -> has_overlap S K -> K = linear \/ K = keys ->
  (1 <= ib)%nat -> (1 <= sb)%nat -> 0 < samp -> interval.1.1 <> 0 -> interval.1.2 <> 0 -> 0 < interval.2 ->
  s_t0 seg < s_t1 seg -> INR n - 1 < s_t1 seg - s_t0 seg <= INR n ->
  (forall p, (p <= n)%nat -> - (2 ^ 31) <= (time_at seg n p - t0) / samp <= 2 ^ 31 - 1) ->
  (forall p j, (p <= n)%nat -> (j < num)%nat -> time_at seg n p <= t0 + INR j * samp ->
    let G := coords start interval in
    let at_ k := ind_t G (t0 + INR k * samp - time_at seg n p) in let r := ind_r G seg n p in let z := ind_z G seg n p in
    uses K U r z (at_ j) /\ off_ends S K (at_ j) /\
    (served S r z (at_ j) \/
     forall k, (j <= k < num)%nat -> null_at S r z (at_ k) \/ (ignore = true /\ outside S r z (at_ k) /\ grid_field K g r z (at_ k) = (0, 0)))) ->
  (num <= length signal)%nat ->
  exists l', apply_accumulate_on junk start interval ib sb K ignore seg t0 samp num weight signal l =
      Done (imap (fun j y => y + if (j <? num)%nat then direct_sum (coords start interval) (grid_field K g) seg n weight (t0 + INR j * samp) else 0) signal, l') /\
    session 2 3 junk L l' S.
Proof using HL.
  intros Hs Hg Hov HK Hib Hsb Hsamp Hr0 Hz0 Ht0 Hseg Hn Hrange Hcov Hlen. destruct (session_inv 2 3 junk L HL _ _ Hs) as (M & sz & H & Hl).
  set (g' := fun r z t i => if (i <? 2)%nat then g r z t i else 0).
  assert (has_samples S U g') as Hg'. { intros c r z t i Hc Hre HU Hi. unfold g'. rewrite (proj2 (Nat.ltb_lt i 2) Hi). by apply Hg. }
  assert (forall r z t i, (2 <= i)%nat -> g' r z t i = 0) as Hg2. { intros r z t i Hi. unfold g'. by rewrite (proj2 (Nat.ltb_ge i 2) Hi). }
  change (grid_field K g) with (grid_field K g') in *.
  pose proof (pure_library junk start interval S M sz H K U g' Hg' Hg2 Hov l Hl) as Hlib.
  set (C := checked junk start interval M l). set (P := pure junk start interval l M) in *.
  assert (0 < samp / interval.2) as Hts by (apply Rmult_lt_0_compat; [done|]; by apply Rinv_0_lt_compat).
  assert (apply_accumulate ib sb C K ignore seg t0 samp num weight signal
    = Some (plus_at signal (fun j => if (j <? num)%nat then direct_sum C (grid_field K g') seg n weight (t0 + INR j * samp) else 0))) as Hrun.
  { apply apply_spec; try done. cbv zeta in Hcov.
    change (ind_t (coords start interval)) with (ind_t C) in Hcov. change (ind_r (coords start interval)) with (ind_r C) in Hcov. change (ind_z (coords start interval)) with (ind_z C) in Hcov.
    intros p j Hp Hj Ht. assert (forall s, (j + s < num)%nat -> time_at seg n p <= t0 + INR (j + s) * samp) as Hlater. { intros s Hs'. rewrite plus_INR. pose proof (Rmult_le_pos (INR s) samp (pos_INR s) ltac:(lra)). lra. }
    destruct (Hcov p j Hp Hj Ht) as (_ & _ & [(c & Hc & Hnull & Hpos)|Hrest]).
    - left. destruct (position_found l l S M sz H c _ _ _ Hl Hc Hpos) as (m & Hfc & Hfp & Hty). apply Hty in Hnull.
      destruct (library_covered P K U g' _ _ _ (samp / interval.2) m (num - j) HK Hlib Hts Hfp Hnull) as (m' & e & Hfp' & Hrest).
      { intros s Hs'. rewrite (later_sample C) by exact Ht0. destruct (Hcov p (j + s)%nat Hp ltac:(lia)) as (Hu & Ho & _); [apply Hlater; lia|]. split; [exact Hu|]. exact (off_ends_off l l S M sz H K _ Hl Hl Ho). }
      assert (m' = m) as ->.
      { pose proof (found_unique _ _ _ _ _ _ Hfp Hfp') as [= ->]. done. }
      exists m, e. exact (conj Hfc Hrest).
    - right. intros k Hk. destruct (Hrest k Hk) as [(c & Hc & Hnull & Hpos)|(Hi & (Hne & i1 & i2 & i3 & H1 & H2 & H3 & Hsm & Hno) & HE)].
      + destruct (position_found l l S M sz H c _ _ _ Hl Hc Hpos) as (m & Hfc & Hfp & Hty).
        assert (time_at seg n p <= t0 + INR k * samp) as Hk2. { specialize (Hlater (k - j)%nat ltac:(lia)). by replace (j + (k - j))%nat with k in Hlater by lia. }
        assert (cm_type m <> specified) as Hnty. { intros E. apply Hty in E. congruence. }
        destruct (library_null P K U ignore g' _ _ _ m HK Hlib (proj1 (Hcov p k Hp ltac:(lia) Hk2)) Hfp Hnty) as (HE & Hor). split; [exact HE|]. right.
        destruct Hor as [(_ & Hf0)|(m' & e & Hfp' & Hrest')].
        * pose proof (found_unique _ _ _ _ _ _ Hfp Hf0) as E. discriminate E.
        * assert (m' = m) as ->.
          { pose proof (found_unique _ _ _ _ _ _ Hfp Hfp') as [= ->]. done. }
          exists m, e. exact (conj Hfc Hrest').
      + split; [exact HE|]. left. split; [done|]. exists i1, i2, i3. split; [done|]. split; [done|]. split; [done|]. cbn [C checked g_chunk].
        rewrite decide_True; [by apply (pure_none junk start interval S M sz H l l _ Hl)|]. split.
        * intros E. pose proof (lrep_len _ _ _ _ _ _ _ Hl) as Hml. rewrite E in Hml. destruct (ls_chunks S); [done|discriminate Hml].
        * clear -Hsm. inversion_clear Hsm as [|?? Q1 Hsm']. inversion_clear Hsm' as [|?? Q2 Hsm'']. inversion_clear Hsm'' as [|?? Q3 _]. repeat (constructor; [assumption|]). constructor. }
  destruct (apply_sim junk start interval L S M sz H K U g' Hg' HK l Hl ib sb ignore seg t0 samp num weight signal _ l (conj Hl Hs) Hrun) as (l' & Hrun' & _ & Hs').
  exists l'. split; [exact Hrun'|exact Hs'].
Qed.

(** ** Sampling on a grid *)
Lemma covers_start l S M sz H i m c : lrep_ 2 3 l S M sz H -> M !! i = Some m -> ls_chunks S !! i = Some c -> exists x1 x2 x3, c_start c = [x1; x2; x3] /\ covers c [x1; x2; x3].
Proof using.
  intros Hl Hm Hc. destruct (lrep_get_m _ _ _ _ _ _ _ _ _ Hl Hm) as (c' & Hc' & Hr & _). assert (c' = c) as -> by congruence.
  destruct (meta_form m c Hr) as (s1 & s2 & s3 & n1 & n2 & n3 & _ & _ & _ & (P1 & P2 & P3) & Es & Ee & _). exists s1, s2, s3. split; [done|]. unfold covers. rewrite Es, Ee.
  split; [done|]. split; [done|]. intros [|[|[|i']]] x y z Hx Hy Hz; try discriminate Hx; cbn in Hx, Hy, Hz; simplify_eq; lia.
Qed.
Lemma checked_held l S M sz H K g : lrep_ 2 3 l S M sz H -> has_samples S (needed K) g -> (forall r z t i, (2 <= i)%nat -> g r z t i = 0) -> more_overlap S K ->
  forall m, m ∈ M -> held (checked junk start interval M l) K g m.
Proof using.
  intros Hl Hg Hg2 Hov m (i & Hm)%elem_of_list_lookup. destruct (lrep_get_m _ _ _ _ _ _ _ _ _ Hl Hm) as (c & Hc & Hr & _).
  destruct (covers_start _ _ _ _ _ _ _ _ Hl Hm Hc) as (x1 & x2 & x3 & _ & Hcov). destruct (pure_some junk start interval S M sz H l l i c _ Hl Hc Hcov) as (m' & Hm' & Hf).
  assert (m' = m) as -> by congruence.
  destruct (pure_library junk start interval S M sz H K (needed K) g Hg Hg2 (fun c Hc => Nat.lt_le_incl _ _ (Hov c Hc)) l Hl _ _ _ _ Hf) as (ty & path & id & s1 & s2 & s3 & n1 & n2 & n3 & ov & E & Hfit & Ho & How & B1 & B2 & B3 & Hd).
  exists ty, path, id, s1, s2, s3, n1, n2, n3, ov. split; [done|]. split; [done|]. split. { pose proof (Hov c (elem_of_list_lookup_2 _ _ _ Hc)) as Q. rewrite <- (mr_ov _ _ _ Hr), E in Q. exact Q. } split; [done|]. split; [lia|]. pose proof (mr_type _ _ _ Hr) as Hty. rewrite E in Hty. cbn [mk_meta cm_type] in Hty.
  destruct (c_null c).
  - right. split; [done|]. rewrite decide_False in Hd by (rewrite Hty; done). done.
  - left. split; [done|]. rewrite decide_True in Hd by done. done.
Qed.

Section fill.
Context (l : clib) (S : lstate) (m_end : R * R * R) (K : kernel) (g : Z -> Z -> Z -> nat -> R) (p q : R * R * R) (n : nat * nat * nat) (junkr : R) (arr : ndarr R).
Local Notation G := (coords start interval).
Local Notation in_shape3 o1 o2 o3 := ((o1 < n.1.1)%nat /\ (o2 < n.1.2)%nat /\ (o3 < n.2)%nat).
Local Notation "'x1'" := (sample_r G p q n). Local Notation "'x2'" := (sample_z G p q n). Local Notation "'x3'" := (sample_t G p q n).

Record ok_sampling : Prop := {
  os_session : session 2 3 junk L l S;
  os_samples : has_samples S (needed K) g;
  os_overlap : more_overlap S K;
  os_kernel : K = linear \/ K = keys;
  os_interval : 0 < interval.1.1 /\ 0 < interval.1.2 /\ 0 < interval.2;
  os_range : start.1.1 <= p.1.1 /\ p.1.1 < q.1.1 /\ q.1.1 <= m_end.1.1 /\ start.1.2 <= p.1.2 /\ p.1.2 < q.1.2 /\ q.1.2 <= m_end.1.2 /\
             start.2 <= p.2 /\ p.2 < q.2 /\ q.2 <= m_end.2;
  os_size : Forall (fun i => i < 2 ^ 64)%N (last_ind G q);
  os_num : (2 <= n.1.1 /\ 2 <= n.1.2 /\ 2 <= n.2)%nat;
  os_owns : a_owns arr = true }.

Lemma index_cell s d a : 0 < d -> s <= a -> exists i, to_size ((a - s) / d) = Some i /\ N.of_nat i = trunc (index_pos s d a) /\ cell ((a - s) / d) i.
Proof using. intros Hd Ha. apply to_size_trunc. apply Rmult_le_pos; [lra|]. apply Rlt_le, Rinv_0_lt_compat, Hd. Qed.
Lemma cell_le x y i j : cell x i -> cell y j -> x <= y -> (i <= j)%nat.
Proof using. intros [H1 H2] [H3 H4] H. assert (i < Datatypes.S j)%nat; [|lia]. apply INR_lt. rewrite S_INR. lra. Qed.

Lemma sampling : ok_sampling -> exists M sz H, lrep_ 2 3 l S M sz H /\
  let search s e := default [] (search_range (l_tree l) s e) in let g' := fun r z t i => if (i <? 2)%nat then g r z t i else 0 in
  FillSpec.ok_fill (checked junk start interval M l) m_end M search K g' p q n /\
  forall arr', fill_array (checked junk start interval M l) m_end search K junkr p q n arr = Some arr' ->
    exists l', fill_array_on junk start interval m_end K junkr p q n arr l = Done (arr', l') /\ session 2 3 junk L l' S.
Proof using HL.
  intros [Hs Hg Hov HK HI Hra Hsz Hnum _]. destruct (session_inv 2 3 junk L HL _ _ Hs) as (M & sz & H & Hl). exists M, sz, H. split; [done|]. cbv zeta.
  set (g' := fun r z t i => if (i <? 2)%nat then g r z t i else 0).
  assert (has_samples S (needed K) g') as Hg'. { intros c r z t i Hc Hre HU Hi. unfold g'. rewrite (proj2 (Nat.ltb_lt i 2) Hi). by apply Hg. }
  assert (forall r z t i, (2 <= i)%nat -> g' r z t i = 0) as Hg2. { intros r z t i Hi. unfold g'. by rewrite (proj2 (Nat.ltb_ge i 2) Hi). }
  destruct HI as (I1 & I2 & I3). destruct Hra as (R1 & R2 & R3 & R4 & R5 & R6 & R7 & R8 & R9).
  destruct (index_cell start.1.1 interval.1.1 p.1.1 I1 ltac:(lra)) as (a1 & A1 & A1' & A1c). destruct (index_cell start.1.2 interval.1.2 p.1.2 I2 ltac:(lra)) as (a2 & A2 & A2' & A2c). destruct (index_cell start.2 interval.2 p.2 I3 ltac:(lra)) as (a3 & A3 & A3' & A3c).
  destruct (index_cell start.1.1 interval.1.1 q.1.1 I1 ltac:(lra)) as (b1 & B1 & B1' & B1c). destruct (index_cell start.1.2 interval.1.2 q.1.2 I2 ltac:(lra)) as (b2 & B2 & B2' & B2c). destruct (index_cell start.2 interval.2 q.2 I3 ltac:(lra)) as (b3 & B3 & B3' & B3c).
  assert (first_ind (checked junk start interval M l) p = [N.of_nat a1; N.of_nat a2; N.of_nat a3]) as EF by (rewrite A1', A2', A3'; reflexivity).
  assert (last_ind (checked junk start interval M l) q = [N.of_nat b1; N.of_nat b2; N.of_nat b3]) as EL by (rewrite B1', B2', B3'; reflexivity).
  assert (forall a b s d, 0 < d -> a < b -> (a - s) / d <= (b - s) / d) as Hmono. { intros a b s d Hd Hab. apply Rmult_le_compat_r; [apply Rlt_le, Rinv_0_lt_compat, Hd|lra]. }
  assert (box_ok 3 ([N.of_nat a1; N.of_nat a2; N.of_nat a3], [N.of_nat b1; N.of_nat b2; N.of_nat b3])) as Hbox.
  { pose proof (cell_le _ _ _ _ A1c B1c (Hmono _ _ _ _ I1 R2)) as L1. pose proof (cell_le _ _ _ _ A2c B2c (Hmono _ _ _ _ I2 R5)) as L2. pose proof (cell_le _ _ _ _ A3c B3c (Hmono _ _ _ _ I3 R8)) as L3.
    change (last_ind G q) with (last_ind (checked junk start interval M l) q) in Hsz. rewrite EL in Hsz. rewrite !list.Forall_cons in Hsz. destruct Hsz as (Z1 & Z2 & Z3 & _). clear -L1 L2 L3 Z1 Z2 Z3.
    split; [|done]. split; [done|]. cbn [fst snd]. intros [|[|[|i']]] x y Hx Hy; try discriminate Hx; cbn in Hx, Hy; simplify_eq; lia. }
  destruct (query_ok S M sz H l _ _ Hl Hbox) as (ms & Hms & Hin).
  split.
  - split; [done|done|cbn [checked g_start]; lra|done| |].
    + by apply (checked_held l S M sz H).
    + rewrite EF, EL. intros m. rewrite Hms. cbn [default]. exact (Hin m).
  - intros arr' E. destruct (fill_sim junk start interval L S M sz H K (needed K) g' Hg' l Hl m_end junkr p q n arr arr' l (conj Hl Hs)) as (l' & Hrun & _ & Hs').
    + intros s1 s2 s3 e1 e2 e3 E1 E2 E3 E4 E5 E6. assert (s1 = a1) as -> by congruence. assert (s2 = a2) as -> by congruence. assert (s3 = a3) as -> by congruence.
      assert (e1 = b1) as -> by congruence. assert (e2 = b2) as -> by congruence. assert (e3 = b3) as -> by congruence. exists ms. split; [exact Hms|]. intros m Hm. by apply Hin in Hm as [? _].
    + exact E.
    + exists l'. exact (conj Hrun Hs').
Qed.

Theorem C63_fill : ok_sampling ->
  exists arr' l', fill_array_on junk start interval m_end K junkr p q n arr l = Done (arr', l') /\ session 2 3 junk L l' S /\ a_shape arr' = [n.1.1; n.1.2; n.2] /\
    forall o1 o2 o3, in_shape3 o1 o2 o3 -> let seen := seen_in S (first_ind G p) (last_ind G q) (x1 o1) (x2 o2) (x3 o3) in
      (seen -> aread 2 arr' [o1; o2; o3] = Some (let E := grid_field K g (x1 o1) (x2 o2) (x3 o3) in [E.1; E.2])) /\
      (~ seen -> aread 2 arr' [o1; o2; o3] = Some [0; 0]).
Proof using HL.
  intros Hok. destruct (sampling Hok) as (M & sz & H & Hl & Hfill & Hsim). destruct (C61_fill_partial _ _ _ _ _ _ _ _ _ junkr arr Hfill (os_owns Hok)) as (arr' & E & Hsh & HR).
  destruct (Hsim _ E) as (l' & Hrun & Hs'). exists arr', l'. split; [exact Hrun|]. split; [exact Hs'|]. split; [done|]. clear E Hrun Hs' Hsim. intros o1 o2 o3 Ho.
  destruct (HR o1 o2 o3 Ho) as [RA RB]. clear HR. set (C := checked junk start interval M l) in *. cbv zeta.
  change (first_ind G p) with (first_ind C p). change (last_ind G q) with (last_ind C q). change (sample_r G p q n o1) with (sample_r C p q n o1) in *. change (sample_z G p q n o2) with (sample_z C p q n o2) in *. change (sample_t G p q n o3) with (sample_t C p q n o3) in *.
  assert (seen_in S (first_ind C p) (last_ind C q) (sample_r C p q n o1) (sample_z C p q n o2) (sample_t C p q n o3) <-> seen C M p q (sample_r C p q n o1) (sample_z C p q n o2) (sample_t C p q n o3)) as Hiff.
  { unfold seen, seen_in, in_query, FillSpec.within, within_chunk. split.
    - intros (c & Hc & Hn & H1 & H2 & Hw). apply elem_of_list_lookup in Hc as (i & Hc). destruct (lrep_get _ _ _ _ _ _ _ _ _ Hl Hc) as (m & Hm & Hr & _). exists m. rewrite (mr_start _ _ _ Hr), (mr_end _ _ _ Hr), (mr_type _ _ _ Hr), Hn.
      split; [by eapply elem_of_list_lookup_2|]. split; [exact (conj H1 H2)|]. split; [done|exact Hw].
    - intros (m & Hm & [H1 H2] & Hty & Hw). apply elem_of_list_lookup in Hm as (i & Hm). destruct (lrep_get_m _ _ _ _ _ _ _ _ _ Hl Hm) as (c & Hc & Hr & _). exists c.
      rewrite (mr_start _ _ _ Hr), (mr_end _ _ _ Hr) in *. split; [by eapply elem_of_list_lookup_2|]. split; [|exact (conj H1 (conj H2 Hw))].
      rewrite (mr_type _ _ _ Hr) in Hty. by destruct (c_null c). }
  split; [intros Hse; apply RA, Hiff, Hse|intros Hse; apply RB; intros Hx; apply Hse, Hiff, Hx].
Qed.

Theorem C63_fill_complete : ok_sampling -> range_stored start interval S p q -> end_between start interval S q ->
  exists arr' l', fill_array_on junk start interval m_end K junkr p q n arr l = Done (arr', l') /\ session 2 3 junk L l' S /\ a_shape arr' = [n.1.1; n.1.2; n.2] /\
    forall o1 o2 o3, in_shape3 o1 o2 o3 -> aread 2 arr' [o1; o2; o3] = Some (let E := grid_field K g (x1 o1) (x2 o2) (x3 o3) in [E.1; E.2]).
Proof using HL.
  intros Hok Hst Heb. destruct (sampling Hok) as (M & sz & H & Hl & Hfill & Hsim).
  destruct (C61_complete_partial _ _ _ _ _ _ _ _ _ junkr arr Hfill (os_owns Hok)) as (arr' & E & Hsh & HR).
  - intros i1 i2 i3 Hi H1 H2 H3. destruct (Hst i1 i2 i3 Hi H1 H2 H3) as (c & Hc & Hcov). apply elem_of_list_lookup in Hc as (i & Hc). destruct (lrep_get _ _ _ _ _ _ _ _ _ Hl Hc) as (m & Hm & Hr & _). exists m.
    rewrite (mr_start _ _ _ Hr), (mr_end _ _ _ Hr). split; [by eapply elem_of_list_lookup_2|]. destruct (meta_form m c Hr) as (s1 & s2 & s3 & n1 & n2 & n3 & _ & _ & _ & _ & Es & Ee & _).
    unfold covers in Hcov. rewrite Es, Ee in *. destruct Hcov as (_ & _ & Hb).
    pose proof (Hb 0%nat _ _ _ eq_refl eq_refl eq_refl) as B1. pose proof (Hb 1%nat _ _ _ eq_refl eq_refl eq_refl) as B2. pose proof (Hb 2%nat _ _ _ eq_refl eq_refl eq_refl) as B3.
    split; repeat (constructor; [lia|]); constructor.
  - intros m s1 s2 s3 Hm Es. apply elem_of_list_lookup in Hm as (i & Hm). destruct (lrep_get_m _ _ _ _ _ _ _ _ _ Hl Hm) as (c & Hc & Hr & _). rewrite (mr_start _ _ _ Hr) in Es.
    apply (Heb c); [by eapply elem_of_list_lookup_2|done].
  - destruct (Hsim _ E) as (l' & Hrun & Hs'). exists arr', l'. split; [exact Hrun|]. split; [exact Hs'|]. split; [done|]. exact HR.
Qed.
End fill.
End signal.
Print Assumptions C63_signal.
Print Assumptions C63_fill.
Print Assumptions C63_fill_complete.
