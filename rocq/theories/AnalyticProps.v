(** C62: the analytic calculation leaves the field, sampled on a regular grid. *)
From stdpp Require Import base list list_numbers numbers option gmap countable sets.
From Coq Require Import Reals NArith ZArith Lia Lra.
From Verif Require Import IndexSpec LoopsModel LoopsProofs NDArrayModel NDArrayProofs NDArrayOps NDArrayProps StreamerModel StreamerProps CodecModel
  BBoxModel BBoxProps DownsampleModel DownsampleProps RTreeModel RTreeInsert RTreeProps ChunkMetaModel ChunkMetaProps ChunkCacheModel ChunkCacheSpec
  LibraryModel LibrarySpec LibraryProofs LibraryProofs2 LibraryProofs3 LibraryProofs4 LibraryProofs5 LibraryProofs6 LibraryProofs7 LibraryProps
  BoundaryModel BoundaryProps RebuildModel RebuildSpec RebuildProofs RebuildProofs2 RebuildProofs3 RebuildProofs4 RebuildProps CalculateSpec CalculateProofs
  SignalModel SignalProps AnalyticModel AnalyticSpec AnalyticProofs.
From Verif Require Import IndexSpec LibrarySpec.
Local Opaque lib_open lib_close lib_flush lib_get lib_geometry rebuild.

Section props.
Context (vd : nat) (junk : N) (L : lib) (F : R -> R -> R -> list N) (ar az br bz t_end dr dz dt : R) (nr nz nt max_pts : nat) (uuids uuids2 : nat -> bytes) (ord : list N -> list N).
Local Notation run := (electric_dipole vd junk L F ar az br bz t_end dr dz dt max_pts uuids uuids2 ord).
Local Notation ok := (ok_dipole vd F ar az br bz t_end dr dz dt nr nz nt max_pts uuids uuids2).
Local Notation step a b n := ((b - a) / INR n)%R.

(** The calculation terminates without a failed assertion, its directory can be opened, and the array in it is the sampled field. *)
Theorem C62_dipole size2 cs2 : lib_ok L -> (junk < 2 ^ 32)%N -> ok -> (forall k, ord k ≡ₚ k) -> acceptable_chunk 3 cs2 ->
  exists d l2 S2, run = Done (d, ((ar, az, 0%R), (br, bz, t_end), (step ar br nr, step az bz nz, step 0 t_end nt))) /\
    lib_open vd 3 junk L size2 cs2 d = Done l2 /\ session vd 3 junk L l2 S2 /\ sampled_field vd F ar az br bz t_end nr nz nt max_pts (ls_chunks S2).
Proof using.
  intros HL Hj Hok Hord Hcs2. destruct Hok as [(Fr & Fz & Ft) HF (I1 & I2 & I3) (M1 & M2) Hids (N1 & N2)].
  destruct (number_pts_fit _ _ _ _ Fr) as (Er1 & Er2 & Pr). destruct (number_pts_fit _ _ _ _ Fz) as (Ez1 & Ez2 & Pz). destruct (number_pts_fit _ _ _ _ Ft) as (Et1 & Et2 & Pt).
  unfold chunks_total, shape in *. set (ends := [N.of_nat nr + 1; N.of_nat nz + 1; N.of_nat nt + 1]%N) in *. set (req := replicate 3 (N.of_nat max_pts)) in *. set (K := chunk_count [0; 0; 0]%N ends req) in *.
  assert (K <= 2 ^ 32)%N as HK1. { clear - Hids. clearbody K. lia. }
  assert (K + K <= 2 ^ 32)%N as HK2. { clear - Hids. clearbody K. lia. }
  assert (vto_nat ends = [nr + 1; nz + 1; nt + 1]%nat) as Eends. { unfold ends, vto_nat. rewrite !list.fmap_cons, list.fmap_nil. repeat f_equal; lia. }
  assert (vto_nat req = replicate 3 max_pts) as Ereq. { unfold req, vto_nat. rewrite fmap_replicate. f_equal. lia. }
  assert (vof_nat (replicate 3 max_pts) = req) as Ereq2. { unfold req, vof_nat. by rewrite fmap_replicate. }
  assert (vto_nat [0; 0; 0]%N = replicate 3 0%nat) as E0 by done.
  assert (forall i, (i < 3)%nat -> (0 < ends !!! i)%N /\ (ends !!! i + 2 < 2 ^ 31)%N) as Hends.
  { intros [|[|[|i]]] Hi; [change (0 < N.of_nat nr + 1 /\ N.of_nat nr + 1 + 2 < 2 ^ 31)%N|change (0 < N.of_nat nz + 1 /\ N.of_nat nz + 1 + 2 < 2 ^ 31)%N|change (0 < N.of_nat nt + 1 /\ N.of_nat nt + 1 + 2 < 2 ^ 31)%N|lia]; lia. }
  destruct (open_new vd 3 junk L HL 5 (rebuild_cs 3) (rebuild_cs_ok 3 ltac:(lia))) as (l0 & El0 & _).
  pose proof (ss_new vd 3 junk L _ _ _ (rebuild_cs_ok 3 ltac:(lia)) El0) as Hl0.
  set (chunks := box_chunks (loop_fuel (vto_nat ends)) (vto_nat [0; 0; 0]%N) (vto_nat ends) (vto_nat req)).
  assert (Forall (fun c => 0 < c)%nat (vto_nat req)) as Hpos. { rewrite Ereq. by apply Forall_replicate. }
  assert (chunk_loop (loop_fuel (vto_nat ends)) (vto_nat [0; 0; 0]%N) (vto_nat ends) (vto_nat req) = Some chunks) as Ech by (apply chunk_loop_spec; done).
  assert (N.of_nat (length chunks) = K) as Hcount. { apply chunks_len; [done|done| |done]. apply Forall_replicate. lia. }
  assert (Forall (piece 3 [0; 0; 0]%N ends req) chunks) as Hp.
  { apply list.Forall_forall. intros [cs ce] Hc. apply box_chunks_sizes in Hc as (A1 & A2 & A3 & A4 & A5 & A6); [|done]. cbn [fst snd] in *.
    change (length (vto_nat [0; 0; 0]%N)) with 3%nat in *. split; cbn [fst snd]; [lia|]. split; [lia|]. intros i Hi. rewrite F2_at in A3, A4, A5, A6.
    destruct A3 as [_ A3], A4 as [L4 A4], A5 as [L5 A5], A6 as [L6 A6]. specialize (A3 i ltac:(lia)). specialize (A4 i ltac:(rewrite Ereq, replicate_length; lia)). specialize (A5 i ltac:(lia)). specialize (A6 i ltac:(rewrite Eends; cbn [length]; lia)).
    unfold vto_nat in A4, A5, A6. rewrite fmap_at in A4 by (unfold req; rewrite replicate_length; lia). rewrite fmap_at in A5 by (cbn [length]; lia). rewrite fmap_at in A6 by (cbn [ends length]; lia). unfold vsub in A4. rewrite zip_at in A4 by lia.
    lia. }
  assert (N.of_nat max_pts ^ 3 * N.of_nat (vd + 1) < 2 ^ 32)%N as HM3. { eapply N.le_lt_trans; [|exact M2]. apply N.mul_le_mono_r, N.pow_le_mono_l. lia. }
  destruct (all_chunks vd junk L HL Hj F HF ar az 0%R (step ar br nr) (step az bz nz) (step 0 t_end nt) ends (N.of_nat max_pts) uuids) with (chunks := chunks) (rest := chunks) (done_ := @nil (list nat * list nat))
    (buf := anew vd junk (replicate 3 max_pts)) (l := l0) (Tc := @nil chunk) as (b & l1 & Tc & Ef & Hl1 & Hgood).
  { done. }
  { intros i Hi. destruct (Hends i Hi) as [_ H]. assert (2 ^ 31 < 2 ^ 32)%N by done. lia. }
  { exact HM3. }
  { exact N1. }
  { exact HK1. }
  { exact Hp. }
  { by apply box_chunks_disjoint. }
  { exact Hcount. }
  { done. }
  { by apply anew_float. }
  { exact Hl0. }
  { constructor. }
  { intros c Hc. destruct (proj1 (elem_of_nil c) Hc). }
  cbn [length Nat.add] in Ef. rewrite Hcount in Hl1. set (G := grid_val vd F ar az 0%R (step ar br nr) (step az bz nz) (step 0 t_end nt)) in *.
  assert (forall c, c ∈ Tc -> exists cc, cc ∈ chunks /\ good vd F ar az 0%R (step ar br nr) (step az bz nz) (step 0 t_end nt) c cc /\ piece 3 [0; 0; 0]%N ends req cc) as Hget.
  { intros c Hc. apply elem_of_list_lookup in Hc as [k Hk]. destruct (Forall2_lookup_l _ _ _ _ _ Hgood Hk) as (cc & Hcc & Hg). exists cc. split; [by eapply elem_of_list_lookup_2|]. split; [done|]. by eapply Forall_lookup_1. }
  assert (forall cc ind, length cc.1 = 3%nat -> length cc.2 = 3%nat -> inbox (vof_nat cc.1) (vof_nat cc.2) ind <-> in_box cc.1 cc.2 (vto_nat ind)) as Hbb.
  { intros cc ind L1 L2. rewrite inbox_at, in_box_at. unfold vof_nat, vto_nat. rewrite !fmap_length. split; intros (J1 & J2 & J3); (split; [lia|]); (split; [lia|]); intros i Hi; specialize (J3 i ltac:(lia)); rewrite !fmap_at in * by lia; lia. }
  assert (forall ind, inbox [0; 0; 0]%N ends ind <-> in_box (replicate 3 0%nat) (vto_nat ends) (vto_nat ind)) as Hwb.
  { intros ind. rewrite inbox_at, in_box_at. unfold vto_nat. rewrite !fmap_length, replicate_length. cbn [length]. split; intros (J1 & J2 & J3); (split; [done|]); (split; [cbn [ends length] in *; lia|]); intros i Hi; specialize (J3 i ltac:(cbn [ends length] in *; lia)).
    - rewrite !fmap_at by (cbn [ends length] in *; lia). rewrite lookup_total_replicate_2 by (cbn [ends length] in *; lia). lia.
    - rewrite !fmap_at in J3 by (cbn [ends length] in *; lia). rewrite lookup_total_replicate_2 in J3 by (cbn [ends length] in *; lia). destruct i as [|[|[|i]]]; cbn [ends length] in *; try lia; (split; [apply N.le_0_l|lia]). }
  assert (forall ind, (exists c, c ∈ Tc /\ covers c ind) <-> inbox [0; 0; 0]%N ends ind) as Hbox.
  { intros ind. split.
    - intros (c & Hc & Hcov). destruct (Hget c Hc) as (cc & _ & (G1 & G2 & _) & (P1 & P2 & P3)). unfold covers in Hcov. rewrite G1, G2 in Hcov. apply Hbb in Hcov; [|done..]. apply Hwb.
      apply in_box_at in Hcov as (J1 & J2 & J3). apply in_box_at. rewrite replicate_length. change (length (vto_nat ends)) with 3%nat. split; [done|]. split; [lia|]. intros i Hi. rewrite lookup_total_replicate_2 by lia.
      specialize (J3 i ltac:(lia)). destruct (P3 i Hi) as (_ & _ & A & _). assert (vto_nat ends !!! i = N.to_nat (ends !!! i)) as -> by (unfold vto_nat; rewrite fmap_at by (cbn [ends length]; lia); done). lia.
    - intros Hi. apply Hwb in Hi. destruct (box_chunks_cover (loop_fuel (vto_nat ends)) (replicate 3 0%nat) (vto_nat ends) (vto_nat req) (vto_nat ind) Hpos) as (cc & Hcc & Hin); [done|lia|done|].
      apply elem_of_list_lookup in Hcc as [k Hk]. destruct (Forall2_lookup_r _ _ _ _ _ Hgood Hk) as (c & Hc & Hg). exists c. split; [by eapply elem_of_list_lookup_2|]. destruct (Forall_lookup_1 _ _ _ _ Hp Hk) as (P1 & P2 & _).
      destruct Hg as (G1 & G2 & _). unfold covers. rewrite G1, G2. by apply Hbb. }
  assert (forall c x, c ∈ Tc -> covers c (vof_nat x) -> value c (vof_nat x) = G x) as Hval.
  { intros c x Hc Hcov. destruct (Hget c Hc) as (cc & _ & (G1 & G2 & _ & _ & G5) & (P1 & P2 & _)). apply G5. unfold covers in Hcov. rewrite G1, G2 in Hcov. apply Hbb in Hcov; [|done..]. replace x with (vto_nat (vof_nat x)); [done|].
    unfold vto_nat, vof_nat. rewrite <- list_fmap_compose. rewrite <- (list_fmap_id x) at 2. apply list_fmap_ext. intros. cbn. lia. }
  assert (Tc <> []) as Hne. { destruct (proj2 (Hbox [0; 0; 0]%N)) as (c & Hc & _); [|intros E; rewrite E in Hc; by apply elem_of_nil in Hc]. apply inbox_at. split; [done|]. split; [done|]. intros i Hi. split; [done|]. destruct (Hends i Hi) as [H _]. destruct i as [|[|[|i]]]; cbn [length] in Hi; try lia; exact H. }
  set (S1 := LState Tc K false (rebuild_cs 3)) in *.
  assert (is_hull 3 Tc [0; 0; 0]%N ends) as Hhull.
  { apply hull_of_box; [done|done| | |exact Hbox].
    - intros i Hi. destruct (Hends i Hi) as [H _]. destruct i as [|[|[|i]]]; try lia; exact H.
    - intros c Hc. destruct (Hget c Hc) as (cc & _ & (G1 & G2 & _) & (P1 & P2 & P3)). rewrite G1, G2. unfold vof_nat. rewrite !fmap_length. split; [done|]. split; [done|]. intros i Hi. rewrite !fmap_at by lia. destruct (P3 i Hi) as (_ & A & _). lia. }
  assert (ok_rebuild vd 3 S1 [0; 0; 0]%N ends (replicate 3 0%N) ends (replicate 3 0%N) req 2 uuids2) as Hrb.
  { split.
    - exact Hhull.
    - split; [done|]. intros ind Hi. by apply Hbox.
    - split_and!; unfold ends; repeat constructor; lia.
    - unfold ends. repeat constructor; assert (2 ^ 31 = 2147483648)%N by done; lia.
    - unfold ends. cbn [replicate zip zip_with]. assert (2 ^ 31 < 2 ^ 64)%N by done. repeat constructor; cbn [fst snd]; lia.
    - unfold req. rewrite replicate_length. split; [done|]. apply Forall_replicate. split; [lia|].
      assert (N.of_nat max_pts <= N.of_nat max_pts ^ 3)%N as Hp3. { rewrite <- (N.pow_1_r (N.of_nat max_pts)) at 1. apply N.pow_le_mono_r; lia. }
      assert (2 ^ 32 < 2 ^ 64)%N by done. set (P := (N.of_nat max_pts ^ 3)%N) in *. clearbody P. clear - Hp3 HM3 H. set (A := (2 ^ 32)%N) in *. set (B := (2 ^ 64)%N) in *. clearbody A B. nia.
    - unfold req. rewrite fmap_replicate. assert (N.of_nat (volume (replicate 3 (N.to_nat (N.of_nat max_pts) + 2 * 2)%nat)) = (N.of_nat max_pts + 4) ^ 3)%N as ->; [|exact M2].
      cbn [replicate volume]. rewrite !Nat2N.inj_mul. change 3%N with (N.succ (N.succ (N.succ 0))). rewrite !N.pow_succ_r', N.pow_0_r. replace (N.of_nat (N.to_nat (N.of_nat max_pts) + 2 * 2)) with (N.of_nat max_pts + 4)%N by lia. done.
    - change (replicate 3 0%N) with [0; 0; 0]%N. exact HK1.
    - change (replicate 3 0%N) with [0; 0; 0]%N. split; [intros i Hi; destruct (N2 i Hi) as (A1 & A2 & A3 & _); exact (conj A1 (conj A2 A3))|]. intros i j Hi Hj' E. destruct (N2 i Hi) as (_ & _ & _ & A). exact (A j Hj' E). }
  destruct (rebuild_ok vd 3 junk L HL (cylindrical vd) l1 S1 _ _ req 2 uuids2 false ord (cylindrical_total vd 2) Hj Hl1 Hrb) as (l2 & S2 & E2 & Hl2 & Hreb & Hnn & Hcyl).
  { change (replicate 3 0%N) with [0; 0; 0]%N. exact HK2. }
  { exact Hord. }
  destruct (flush_ok vd 3 l2 _ ord Hord (session_inv vd 3 junk L HL _ _ Hl2)) as (l3 & E3 & _ & _). pose proof (ss_flush vd 3 junk L _ _ _ _ Hl2 Hord E3) as Hl3.
  destruct (close_ok vd 3 l3 _ ord Hord (session_inv vd 3 junk L HL _ _ Hl3)) as (d & E4 & _).
  destruct (C53_closed_array_opens vd 3 junk L l3 S2 ord d size2 cs2 HL Hl3 Hord Hcs2 E4) as (l4 & E5 & Hl4).
  exists d, l4, (reopened S2 cs2). split; [|split; [exact E5|split; [exact Hl4|]]].
  - unfold electric_dipole. rewrite Er1. cbn [of_opt mbind res_bind]. rewrite Ez1. cbn [of_opt mbind res_bind]. rewrite Et1. cbn [of_opt mbind res_bind]. rewrite Er2. cbn [of_opt mbind res_bind]. rewrite Ez2. cbn [of_opt mbind res_bind]. rewrite Et2. cbn [of_opt mbind res_bind].
    cbv zeta. rewrite El0. cbn [mbind res_bind]. rewrite <- Eends, <- E0, <- Ereq, Ech. cbn [of_opt mbind res_bind]. rewrite Ereq, Ef. cbn [mbind res_bind]. rewrite Ereq2, E2. cbn [mbind res_bind]. rewrite E3. cbn [mbind res_bind]. rewrite E4. reflexivity.
  - cbn [reopened ls_chunks]. specialize (Hcyl eq_refl). destruct Hreb as [Rb Rf Rv]. clear E2 E3 E4 E5 El0 Ef.
    assert (forall (r z t : Z), (0 <= r <= Z.of_nat nr)%Z -> (0 <= z <= Z.of_nat nz)%Z -> (0 <= t <= Z.of_nat nt)%Z -> exists c ind, c ∈ Tc /\ covers c ind /\ zind ind = [r; z; t] /\
      value c ind = F (coord ar br nr r) (coord az bz nz z) (coord 0 t_end nt t)) as Hfind.
    { intros r z t Hr Hz Ht. set (x := [Z.to_nat r; Z.to_nat z; Z.to_nat t]). destruct (proj2 (Hbox (vof_nat x))) as (c & Hc & Hcov).
      - apply inbox_at. split; [done|]. split; [done|]. intros [|[|[|i]]] Hi; cbn [length] in Hi; [change (0 <= N.of_nat (Z.to_nat r) < N.of_nat nr + 1)%N|change (0 <= N.of_nat (Z.to_nat z) < N.of_nat nz + 1)%N|change (0 <= N.of_nat (Z.to_nat t) < N.of_nat nt + 1)%N|lia]; lia.
      - exists c, (vof_nat x). split; [done|]. split; [done|]. split.
        + unfold zind, vof_nat, x. rewrite !list.fmap_cons, list.fmap_nil. repeat f_equal; lia.
        + rewrite Hval by done. unfold G, grid_val, x, coord. rewrite !INR_IZR_INZ, !Z2Nat.id by lia. done. }
    assert (forall x : list Z, length x = 3%nat -> shifted (replicate 3 0%N) (replicate 3 0%N) x = x) as Hsh by (intros x Hx; apply shifted_same; done).
    split.
    + intros ind. rewrite Rb. replace (zip_with N.add _ _) with ends; [done|]. unfold ends. cbn [replicate zip_with]. rewrite !N.sub_0_r, !N.add_0_l. done.
    + intros c Hc. destruct (Rf c Hc) as [R1 R2]. split; [done|]. split; [by apply Hnn|]. apply F2_at in R2 as [R2 R3]. apply F1_at. unfold shape, req in *. rewrite replicate_length in R2. intros i Hi. specialize (R3 i Hi). cbv beta in R3. rewrite lookup_total_replicate_2 in R3 by lia. exact R3.
    + intros c r z t Hc Hre Hr Hz Ht. destruct (Hfind r z t Hr Hz Ht) as (c0 & ind & Hc0 & Hcov & Ei & Ev). rewrite <- Ev, <- Ei. specialize (Rv c0 c ind Hc0 Hcov Hc). rewrite Ei, Hsh in Rv by done. rewrite Ei. by apply Rv.
    + intros c r z t Hc Hre Hr Hout. destruct (Hcyl c [r; z; t] Hc) as [C1 _]; [done|by rewrite Hsh|]. rewrite Hsh in C1 by done. apply C1; [|done]. intros (_ & _ & Hz)%in_zbox_at. apply Hout.
      pose proof (Hz 0%nat ltac:(cbn; lia)) as Z0. pose proof (Hz 1%nat ltac:(cbn; lia)) as Z1. pose proof (Hz 2%nat ltac:(cbn; lia)) as Z2.
      change (Z.of_N 0 <= r < Z.of_N (N.of_nat nr + 1))%Z in Z0. change (Z.of_N 0 <= z < Z.of_N (N.of_nat nz + 1))%Z in Z1. change (Z.of_N 0 <= t < Z.of_N (N.of_nat nt + 1))%Z in Z2. lia.
    + intros c r z t Hc Hre Hr Hr2 Hz Ht. destruct (Hcyl c [r; z; t] Hc) as [_ C2]; [done|by rewrite Hsh|]. rewrite Hsh in C2 by done. destruct (Hfind (- r)%Z z t ltac:(lia) Hz Ht) as (c0 & ind & Hc0 & Hcov & Ei & Ev). rewrite <- Ev. apply C2; [exact Hr|exact Hc0|exact Hcov|]. rewrite Ei. cbn [mirror]. f_equal. lia.
Qed.
(** Reading: the element at r, z, t is the field at its coordinates. *)
Theorem C62_element size2 cs2 (r z t : N) : lib_ok L -> (junk < 2 ^ 32)%N -> ok -> (forall k, ord k ≡ₚ k) -> acceptable_chunk 3 cs2 -> (r <= N.of_nat nr)%N -> (z <= N.of_nat nz)%N -> (t <= N.of_nat nt)%N ->
  exists d c l2 w l3, run = Done (d, c) /\ lib_open vd 3 junk L size2 cs2 d = Done l2 /\ lib_get vd 3 junk [r; z; t] l2 = Done (w, l3) /\
    comes_back NullSuppressed (F (coord ar br nr (Z.of_N r)) (coord az bz nz (Z.of_N z)) (coord 0 t_end nt (Z.of_N t))) w.
Proof using.
  intros HL Hj Hok Hord Hcs2 Hr Hz Ht. destruct (C62_dipole size2 cs2 HL Hj Hok Hord Hcs2) as (d & l2 & S2 & E1 & E2 & Hl & [Hbox Hform Hval _ _]).
  destruct (proj2 (Hbox [r; z; t])) as (c & Hc & Hcov).
  { apply inbox_at. split; [done|]. split; [done|]. intros [|[|[|i]]] Hi; cbn [length] in Hi; [change (0 <= r < N.of_nat nr + 1)%N|change (0 <= z < N.of_nat nz + 1)%N|change (0 <= t < N.of_nat nt + 1)%N|lia]; lia. }
  destruct (zvalue_in c _ Hcov) as [Hre Hzv]. unfold zind in Hre, Hzv. rewrite !list.fmap_cons, list.fmap_nil in Hre, Hzv.
  destruct (C27_element_access vd 3 junk L l2 _ c _ HL Hl Hc Hcov) as (w & l3 & Hg & _ & Hw).
  { intros Hnull. destruct (Hform c Hc) as (_ & Hn & _). rewrite Hn in Hnull. discriminate. }
  exists d. eexists. exists l2, w, l3. split; [exact E1|]. split; [exact E2|]. split; [exact Hg|]. eapply comes_back_trans; [|exact Hw]. rewrite <- Hzv. apply Hval; [done|done|lia..].
Qed.
(** The shape of the array is reported: one more sample than steps along each axis. *)
Theorem C62_shape size2 cs2 : lib_ok L -> (junk < 2 ^ 32)%N -> ok -> (forall k, ord k ≡ₚ k) -> acceptable_chunk 3 cs2 ->
  exists d c l2 g l3, run = Done (d, c) /\ lib_open vd 3 junk L size2 cs2 d = Done l2 /\ lib_geometry 3 l2 = Done (g, l3) /\
    LibraryModel.g_shape g = [N.of_nat nr + 1; N.of_nat nz + 1; N.of_nat nt + 1]%N /\ LibraryModel.g_start g = [0; 0; 0]%N.
Proof using.
  intros HL Hj Hok Hord Hcs2. destruct (C62_dipole size2 cs2 HL Hj Hok Hord Hcs2) as (d & l2 & S2 & E1 & E2 & Hl & [Hbox _ _ _ _]).
  destruct (C30_shape_partial vd 3 junk L l2 _ HL Hl) as (g & l3 & E3 & _ & _ & Hg). exists d. eexists. exists l2, g, l3. split; [exact E1|]. split; [exact E2|]. split; [exact E3|]. clear E1 E2 E3.
  fold (shape nr nz nt). assert (forall i, (i < 3)%nat -> ([0; 0; 0]%N !!! i < shape nr nz nt !!! i)%N) as Hlt.
  { intros [|[|[|i]]] Hi; [change (0 < N.of_nat nr + 1)%N|change (0 < N.of_nat nz + 1)%N|change (0 < N.of_nat nt + 1)%N|]; lia. }
  assert (forall c, c ∈ ls_chunks S2 -> length (c_start c) = 3%nat /\ length (c_end c) = 3%nat /\ forall i, (i < 3)%nat -> (c_start c !!! i < c_end c !!! i)%N) as Hcb by (intros c Hc; exact (chunk_boxes vd 3 junk L l2 _ c HL Hl Hc)).
  assert (is_hull 3 (ls_chunks S2) [0; 0; 0]%N (shape nr nz nt)) as Hh by (apply hull_of_box; done).
  destruct Hg as [Hg1 Hg2]. { intros Hn. destruct (proj2 (Hbox [0; 0; 0]%N)) as (c & Hc & _); [|rewrite Hn in Hc; by apply elem_of_nil in Hc]. apply inbox_at. split; [done|]. split; [done|]. intros i Hi. split; [done|]. by apply Hlt. }
  destruct (hull_unique 3 (ls_chunks S2) (LibraryModel.g_start g) (g_end g) [0; 0; 0]%N (shape nr nz nt)) as [E1 E2]; [|done|done|].
  { intros c Hc. destruct (session_inv vd 3 junk L HL _ _ Hl) as (M & szs & H & Hr). apply elem_of_list_lookup in Hc as (i & Hi). destruct (lrep_get _ _ _ _ _ _ _ i c Hr Hi) as (m & _ & Hm & _). exact (conj (mr_dims _ _ _ Hm) (mr_box _ _ _ Hm)). }
  rewrite E1, E2 in Hg2. split; [|done].
  assert (zip_with N.sub (shape nr nz nt) [0; 0; 0]%N = shape nr nz nt) as Ez by (unfold shape; cbn [zip_with]; rewrite !N.sub_0_r; done).
  destruct Hg2 as [Hg2 _].
  - unfold count. rewrite Ez. destruct Hok as [_ _ (I1 & I2 & I3) (M1 & M2) Hids _].
    (* as many indices as in all chunks together *)
    pose proof (RebuildProofs3.count_bound [0; 0; 0]%N (shape nr nz nt) (replicate 3 (N.of_nat max_pts)) eq_refl eq_refl ltac:(by apply Forall_replicate; lia)) as Hb. unfold count in Hb. rewrite Ez in Hb.
    assert (N.of_nat (volume (vto_nat (replicate 3 (N.of_nat max_pts)))) <= (N.of_nat max_pts + 4) ^ 3)%N as Hv.
    { unfold vto_nat. rewrite fmap_replicate, Nat2N.id. cbn [replicate volume]. rewrite !Nat2N.inj_mul. change 3%N with (N.succ (N.succ (N.succ 0))). rewrite !N.pow_succ_r', N.pow_0_r. repeat (apply N.mul_le_mono; [lia|]). done. }
    unfold chunks_total in Hids. set (K := chunk_count _ _ _) in *. set (V := N.of_nat (volume _)) in *. set (P := ((N.of_nat max_pts + 4) ^ 3)%N) in *. set (C := foldr _ _ _) in *. clearbody K V P C.
    assert (P < 2 ^ 32)%N as HP. { eapply N.le_lt_trans; [|exact M2]. clear. nia. }
    assert (K < 2 ^ 32)%N as HK by (clear - Hids; lia). eapply N.le_lt_trans; [exact Hb|]. change (2 ^ 64)%N with (2 ^ 32 * 2 ^ 32)%N. apply N.mul_lt_mono_nonneg; [apply N.le_0_l|exact HK|apply N.le_0_l|]. eapply N.le_lt_trans; [exact Hv|exact HP].
  - rewrite Ez in Hg2. apply Hg2. intros ind Hi. by apply Hbox.
Qed.
(** The grid: the first sample is at the beginning, the last one exactly at the end; the step is not smaller than requested and less than twice as large. *)
Theorem C62_grid a b d n : steps_fit a b d n -> coord a b n 0 = a /\ coord a b n (Z.of_nat n) = b /\ (d <= (b - a) / INR n < 2 * d)%R /\ forall i, (coord a b n (i + 1) - coord a b n i = (b - a) / INR n)%R.
Proof using.
  intros (H1 & H2 & H3 & H4). assert (0 < INR n)%R as Hn by (by apply lt_0_INR). assert (1 <= INR n)%R as Hn1 by (change 1%R with (INR 1); apply le_INR; lia). unfold coord. split; [simpl; lra|]. split; [rewrite <- INR_IZR_INZ; field; lra|]. split.
  - rewrite plus_INR in H4. change (INR 1) with 1%R in H4. split.
    + apply Rmult_le_reg_r with (INR n); [done|]. unfold Rdiv. rewrite Rmult_assoc, Rinv_l by lra. lra.
    + apply Rmult_lt_reg_r with (INR n); [done|]. unfold Rdiv. rewrite Rmult_assoc, Rinv_l by lra. nra.
  - intros i. rewrite plus_IZR. field. lra.
Qed.
(** A field that is even in r, on a grid that begins at r = 0: what is stored in front of the axis is the field there, too. *)
Theorem C62_negative_radius C : sampled_field vd F ar az br bz t_end nr nz nt max_pts C -> ar = 0%R -> (forall r z t, F (- r)%R z t = F r z t) ->
  forall c r z t, c ∈ C -> reach c [r; z; t] -> (- Z.of_nat nr <= r <= Z.of_nat nr)%Z -> (0 <= z <= Z.of_nat nz)%Z -> (0 <= t <= Z.of_nat nt)%Z ->
    comes_back NullSuppressed (F (coord ar br nr r) (coord az bz nz z) (coord 0 t_end nt t)) (zvalue c [r; z; t]).
Proof using.
  intros [_ _ Hv _ Hm] Ha He c r z t Hc Hre Hr Hz Ht. destruct (Z.le_gt_cases 0 r) as [H|H]; [apply Hv; try done; lia|].
  replace (F (coord ar br nr r)) with (F (coord ar br nr (- (- r)))) by (by rewrite Z.opp_involutive). specialize (Hm c r z t Hc Hre H ltac:(lia) Hz Ht).
  assert (coord ar br nr (- - r) = - coord ar br nr (- r))%R as ->. { unfold coord. rewrite Ha, (opp_IZR (- r)). ring. } rewrite He. exact Hm.
Qed.
End props.

(** Without ar = 0 this fails: from r = 10 to r = 12 in two steps, index -1 stands for r = 9 but holds the field at r = 11. *)
Theorem C62_offset_refuted : exists F : R -> R -> R -> list N, (forall r z t, F (- r)%R z t = F r z t) /\
  forall C c, sampled_field 1 F 10 0 12 2 2 2 2 2 2 C -> c ∈ C -> reach c [-1; 0; 0]%Z -> F (coord 10 12 2 (-1)) (coord 0 2 2 0) (coord 0 2 2 0) = [1%N] /\ zvalue c [-1; 0; 0]%Z = [0%N].
Proof.
  exists (fun r _ _ => if Req_EM_T (r * r) 81 then [1%N] else [0%N]). split.
  - intros r z t. replace (- r * - r)%R with (r * r)%R by ring. done.
  - intros C c [_ _ _ _ Hm] Hc Hre. split.
    + unfold coord. change (INR 2) with 2%R. destruct (Req_EM_T _ 81) as [_|n]; [done|]. destruct n. lra.
    + specialize (Hm c (-1)%Z 0%Z 0%Z Hc Hre ltac:(lia) ltac:(lia) ltac:(lia) ltac:(lia)). unfold coord in Hm. change (INR 2) with 2%R in Hm. change (IZR (- (-1))) with 1%R in Hm.
      destruct (Req_EM_T _ 81) as [E|_]; [lra|]. destruct Hm as [->|(_ & _ & ->)]; done.
Qed.
(** The requested step is not kept: steps of at most 1 were asked for from 0 to 19/10, the only step is 19/10. *)
Theorem C62_coarser_refuted : number_pts 0 (19 / 10) 1 = Some 1%nat /\ axis_step 0 (19 / 10) 1 = Some (19 / 10)%R.
Proof.
  assert (steps_fit 0 (19 / 10) 1 1) as H. { split; [lra|]. split; [lia|]. change (INR 1) with 1%R. change (INR (1 + 1)) with 2%R. lra. }
  destruct (number_pts_fit _ _ _ _ H) as (-> & E & _). split; [done|]. rewrite E. f_equal. change (INR 1) with 1%R. lra.
Qed.
(** A region smaller than the requested step leads to a division by zero. *)
Theorem C62_small_region_refuted vd junk L F az br bz t_end dr dz dt max_pts uuids uuids2 ord : (0 <= br < dr)%R -> electric_dipole vd junk L F 0 az br bz t_end dr dz dt max_pts uuids uuids2 ord = Undef.
Proof.
  intros [H1 H2]. unfold electric_dipole.
  assert (number_pts 0 br dr = Some 0%nat) as ->.
  { unfold number_pts. destruct (Req_EM_T dr 0) as [E|_]; [lra|]. apply to_size_cell. assert (0 < dr)%R as Hd by lra. rewrite Rminus_0_r. unfold cell. change (INR 0) with 0%R. split.
    - apply Rmult_le_reg_r with dr; [done|]. unfold Rdiv. rewrite Rmult_assoc, Rinv_l by lra. lra.
    - apply Rmult_lt_reg_r with dr; [done|]. unfold Rdiv. rewrite Rmult_assoc, Rinv_l by lra. lra. }
  cbn [of_opt mbind res_bind].
  assert (axis_step 0 br 0 = None) as -> by (unfold axis_step; change (INR 0) with 0%R; destruct (Req_EM_T 0 0) as [_|n]; [done|by destruct n]).
  destruct (number_pts az bz dz); [|done]. cbn [of_opt mbind res_bind]. destruct (number_pts 0 t_end dt); done.
Qed.
Print Assumptions C62_dipole.
Print Assumptions C62_element.
Print Assumptions C62_shape.
Print Assumptions C62_grid.
Print Assumptions C62_negative_radius.
Print Assumptions C62_offset_refuted.
Print Assumptions C62_coarser_refuted.
Print Assumptions C62_small_region_refuted.

(** * The hypotheses are met: 3 x 2 x 4 steps, chunks of 2 points in each direction. *)
Definition an_names (i : nat) : bytes := [N.of_nat i].
Definition an_names2 (i : nat) : bytes := [N.of_nat i; 1%N].
Definition an_F (r z t : R) : list N := if Rlt_dec r t then [1; 2]%N else [0; 7]%N.
Example C62_hypotheses_nonvacuous : ok_dipole 2 an_F 0 (-1) (33 / 10) 1 4 1 1 1 3 2 4 2 an_names an_names2.
Proof.
  assert (chunks_total 3 2 4 2 = 12%N) as E by reflexivity.
  split.
  - unfold steps_fit. split_and!; try lia; try lra; cbn; lra.
  - intros r z t. unfold an_F. destruct (Rlt_dec r t); (split; [done|]); repeat constructor.
  - done.
  - split; [lia|done].
  - rewrite E. done.
  - unfold good_names. rewrite E. split; intros i Hi; (split; [done|]); (split; [done|]); (split; [repeat constructor; lia|]); intros j Hj [= Hij]; lia.
Qed.
