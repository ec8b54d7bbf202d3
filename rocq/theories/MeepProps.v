(** C70: signals from the Green's function that the MEEP calculator leaves. *)
From stdpp Require Import base sets list list_numbers numbers option gmap countable.
From Coq Require Import Reals Lra Lia NArith ZArith.
From Flocq Require Import IEEE754.Binary IEEE754.Bits.
From Verif Require Import IndexSpec NDArrayModel NDArrayProps CodecModel StreamerModel StreamerProps KernelModel KernelProps BBoxModel BBoxProps DownsampleModel DownsampleProps RTreeModel RTreeInsert RTreeProps ChunkMetaModel
  ChunkCacheModel ChunkCacheSpec LibraryModel LibrarySpec LibraryProofs LibraryProofs2 LibraryProofs4 LibraryProofs6 LibraryProofs7 RebuildModel RebuildSpec RebuildProofs4 ParallelSpec RecordSpec StorageSpec
  CalculateModel CalculateSpec CalculateProofs CalculateProps InterpProps SignalModel SignalProps CoordsModel CoordsSpec CoordsProps ReadModel ReadSpec ReadProofs ReadProps ReadAnalytic ShowerModel ShowerSpec EmissionModel EmissionSpec EmissionProps MeepSpec.
From Verif Require Import IndexSpec LibrarySpec CalculateSpec ReadSpec.
Local Open Scope R_scope.
Local Opaque lib_open calculate calculate_green apply_accumulate_on.

(** ** What is read *)
Section samples.
Context (cz cr sz sr nz nr d : N) (ov : nat) (csize : N) (ct cl jobs : nat) (chunks : nat -> list (list Z * list Z)) (E : nat -> list Z -> list N)
    (cut : nat -> nat -> nat -> list nat -> bool) (names : nat -> nat -> nat -> nat -> bytes) (T : nat) (uuids2 : nat -> nat -> bytes) (kept : nat -> list N -> list N).
Hypothesis Hok : ok_calculate 2 cz cr sz sr nz nr d ov csize ct cl jobs chunks E names T uuids2.
Hypothesis Hkept : forall t x, (t < T)%nat -> domain (wide_start sz sr d ov) (wide_shape cz cr sz sr nz nr d ov) x -> kept_field 2 sz sr d ov jobs chunks E cut t x (kept t x).
Hypothesis Hfin : forall t p, finite_value (E t p).
Local Notation at_ := (sample_at cz cr sz sr nz nr d ov T).
Local Notation cell_of := (cell_of sz sr d).

Lemma cell_domain r z t : at_ r z t -> domain (wide_start sz sr d ov) (wide_shape cz cr sz sr nz nr d ov) (cell_of r z) /\ zind (cell_of r z) = [Z.of_N sz + z * Z.of_N d; Z.of_N sr + r * Z.of_N d]%Z.
Proof using Hok.
  intros (Hr & Hz & _). destruct (ca_domain _ _ _ _ _ _ _ _ _ _ _ _ _ _ _ _ _ _ Hok) as (D1 & D2 & D3 & D4 & D5).
  pose proof (axis_z 2 cz cr sz sr nz nr d ov csize ct cl jobs chunks E names T uuids2 Hok) as (_ & _ & _ & _ & Z5 & Z6 & _). pose proof (axis_r 2 cz cr sz sr nz nr d ov csize ct cl jobs chunks E names T uuids2 Hok) as (_ & _ & _ & _ & R5 & R6 & _).
  assert (forall n k, (0 < n)%N -> (k < Z.of_N (samples n d))%Z -> (k * Z.of_N d < Z.of_N n)%Z) as Hs.
  { intros n k Hn Hk. destruct (Z.le_gt_cases 0 k) as [H0|H0]; [|nia]. pose proof (proj2 (samples_iff n d (Z.to_N k) Hn D3)) as H. lia. }
  set (b1 := bz sz d ov) in *. set (b2 := br sr d ov) in *. set (a1 := az cz sz nz d ov) in *. set (a2 := ar cr sr nr d ov) in *.
  pose proof (Hs nz (z - Z.of_N a1)%Z D1 ltac:(lia)) as H1. pose proof (Hs nr (r - Z.of_N a2)%Z D2 ltac:(lia)) as H2. clear Hs.
  assert (- (Z.of_N b1 * Z.of_N d) <= z * Z.of_N d)%Z by nia. assert (- (Z.of_N b2 * Z.of_N d) <= r * Z.of_N d)%Z by nia.
  split.
  - unfold MeepSpec.cell_of, wide_start, wide_shape, domain. fold b1 b2 a1 a2. cbn [zip_with]. split; repeat constructor; nia.
  - unfold zind, MeepSpec.cell_of. rewrite !list.fmap_cons, list.fmap_nil. f_equal; [|f_equal]; nia.
Qed.
Lemma kept_finite t x : (t < T)%nat -> domain (wide_start sz sr d ov) (wide_shape cz cr sz sr nz nr d ov) x -> length (kept t x) = 2%nat /\ finite_value (kept t x).
Proof using Hok Hkept Hfin.
  intros Ht Hx. destruct (Hkept t x Ht Hx) as (m & j & c & _ & _ & _ & ->). unfold stored_value. destruct (cut _ _ _ _).
  - split; [done|]. repeat constructor.
  - split; [|apply Hfin]. apply (ca_field _ _ _ _ _ _ _ _ _ _ _ _ _ _ _ _ _ _ Hok).
Qed.

Lemma green_has_samples S : calculated 2 cz cr sz sr nz nr d ov csize jobs chunks E cut T (ls_chunks S) ->
  has_samples S (known cz cr sz sr nz nr d ov T) (green_samples cz cr sz sr nz nr d ov T kept).
Proof using Hok Hkept Hfin.
  intros [_ _ Hval Hout Hmir] c r z t i Hc Hre Hknown Hi. unfold green_samples. case_decide as Hd.
  - destruct (cell_domain _ _ _ Hd) as [Hx Hzi]. pose proof Hd as (_ & _ & Ht). assert (Z.to_nat t < T)%nat as Ht' by lia. destruct (kept_finite _ _ Ht' Hx) as [Hl Hfv]. pose proof (Hkept _ _ Ht' Hx) as Hk.
    set (v := kept _ _) in *. clearbody v.
    assert (comes_back NullSuppressed v (zvalue c [r; z; t])) as Hv.
    { replace t with (Z.of_nat (Z.to_nat t)) in Hre |- * by lia. unfold opposite in *. destruct (r <? _)%Z eqn:Er.
      - apply Z.ltb_lt in Er. exact (Hmir c r z (Z.to_nat t) _ v Hc Hre Ht' Er Hx Hzi Hk).
      - exact (Hval c r z (Z.to_nat t) _ v Hc Hre Ht' Hx Hzi Hk). }
    destruct (lookup_lt_is_Some_2 v i) as [b Hb]; [lia|]. rewrite (list_lookup_total_correct _ _ _ Hb). pose proof (Forall_lookup_1 _ _ _ _ Hfv Hb) as Hfb.
    destruct Hv as [->|(_ & Hz0 & ->)]; [by exists b|]. exists 0%N. rewrite Hl, lookup_replicate_2 by lia. split; [done|]. destruct float_is_zero as [H1 H2]. split; [done|].
    rewrite H2. symmetry. apply float_zero. exact (Forall_lookup_1 _ _ _ _ Hz0 Hb).
  - assert (- Z.of_N (br sr d ov) <= r)%Z as Hr by (destruct Hknown; [done|contradiction]). unfold opposite in Hd. rewrite (proj2 (Z.ltb_ge _ _) Hr) in Hd.
    exists 0%N. rewrite (Hout c r z t Hc Hre Hr); [|intros (H1 & H2 & H3); apply Hd; unfold sample_at; lia]. rewrite lookup_replicate_2 by done. split; [done|exact float_is_zero].
Qed.
End samples.

(** ** Where it is read *)
Lemma off_ends_box junk L l S K (m1 m2 : N) (T : nat) (t : R) : lib_ok L -> session 2 3 junk L l S -> (forall ind, (exists c, c ∈ ls_chunks S /\ covers c ind) <-> inbox [0; 0; 0]%N [m1; m2; N.of_nat T] ind) ->
  (0 < T)%nat -> t <= INR (T - 1) -> (forall c, c ∈ ls_chunks S -> (k_support K < N.to_nat (c_ov c))%nat) \/ (forall k, (0 < k <= T - 1)%nat -> t <> INR k) -> off_ends S K t.
Proof.
  intros HL Hs Hb HT Ht Ho c e1 e2 e3 Hc Ee. destruct Ho as [Ho|Ho]; [left; by apply Ho|]. right.
  pose proof (session_inv 2 3 junk L HL _ _ Hs) as (M & sz & H & Hl). apply elem_of_list_lookup in Hc as (i & Hc).
  pose proof (lrep_len _ _ _ _ _ _ _ Hl) as Hml. destruct (lookup_lt_is_Some_2 M i) as [m Hm]. { apply lookup_lt_Some in Hc. lia. }
  destruct (covers_start _ _ _ _ _ _ _ _ Hl Hm Hc) as (x1 & x2 & x3 & Es & Hcv).
  intros Et. assert (0 < e3)%N as Q3. { destruct Hcv as (_ & _ & Hat). rewrite Es, Ee in Hat. pose proof (Hat 2%nat _ _ _ eq_refl eq_refl eq_refl). lia. }
  assert (covers c [x1; x2; (e3 - 1)%N]) as Hcv'.
  { clear -Hcv Es Ee Q3. destruct Hcv as (_ & _ & Hat). rewrite Es, Ee in Hat. pose proof (Hat 0%nat _ _ _ eq_refl eq_refl eq_refl). pose proof (Hat 1%nat _ _ _ eq_refl eq_refl eq_refl). pose proof (Hat 2%nat _ _ _ eq_refl eq_refl eq_refl).
    unfold covers. rewrite Es, Ee. split; [done|]. split; [done|]. intros [|[|[|k]]] x y w X1 X2 X3; try discriminate X1; cbn in X1, X2, X3; simplify_eq; lia. }
  pose proof (proj1 (Hb _) (ex_intro _ c (conj (elem_of_list_lookup_2 _ _ _ Hc) Hcv'))) as Hin. apply inbox_at in Hin as (_ & _ & Hin). specialize (Hin 2%nat ltac:(cbn; lia)). change (0 <= e3 - 1 < N.of_nat T)%N in Hin.
  assert (N.to_nat e3 = T \/ N.to_nat e3 <= T - 1)%nat as [E1|E1] by lia.
  - rewrite E1 in Et. rewrite Et, minus_INR in Ht by lia. change (INR 1) with 1 in Ht. lra.
  - apply (Ho (N.to_nat e3)); [lia|done].
Qed.

Section green.
Context (junk : N) (L : lib) (geom request : cylinder) (rho : R) (cz cr sz sr nz nr : N) (dt timestep t_end : R) (steps : list nat) (fuelT fuelM : nat)
    (size2 : nat) (cs2 : list nat) (d : N) (ov : nat) (csize : N) (ct cl jobs : nat) (chunks : nat -> list (list Z * list Z)) (M : nat -> list Z -> list N)
    (cut : nat -> nat -> nat -> list nat -> bool) (names : nat -> nat -> nat -> nat -> bytes) (uuids2 : nat -> nat -> bytes).
Context (fuel p0 size : nat) (ord : nat -> list N -> list N) (ordm : list N -> list N) (ord2 : nat -> list N -> list N) (ordm2 : list N -> list N).
Context (kept : nat -> list N -> list N).
Local Notation run := (calculate_green 2 junk L geom request rho cz cr fuelT fuelM dt timestep t_end size2 cs2 d ov csize ct cl fuel p0 size jobs chunks M cut names ord ordm uuids2 ord2 ordm2).
Local Notation T := (length steps).
Local Notation field_at := (fun t p => M (steps !!! t) p).
Local Notation ok := (ok_calculate 2 cz cr sz sr nz nr d ov csize ct cl jobs chunks field_at names T uuids2).
Local Notation start := (green_start geom rho sz sr).
Local Notation end_ := (green_end geom rho t_end sz sr nz nr).
Local Notation iv := (green_step geom rho t_end sz sr nz nr d T).
Local Notation g := (green_samples cz cr sz sr nz nr d ov T kept).
Local Notation U := (known cz cr sz sr nz nr d ov T).

(** The calculation can be done, and [kept] is what it keeps of the field: the field in every cell and step, or zero where it was truncated. *)
Record ok_green : Prop := {
  og_lib : lib_ok L /\ (junk < 2 ^ 32)%N;
  og_region : ok_region geom request rho cz cr sz sr nz nr;
  og_steps : ok_steps dt timestep t_end steps;
  og_fuel : (T < fuelT)%nat /\ Forall (fun n => n < fuelM)%nat steps;
  og_calculate : ok;
  og_orders : orders ord ordm ord2 ordm2 /\ partition_steps jobs fuel p0 /\ acceptable_chunk 3 cs2;
  og_two : (d < nz)%N /\ (d < nr)%N /\ (2 <= T)%nat;
  og_finite : forall t p, finite_value (M t p);
  og_kept : forall t x, (t < T)%nat -> domain (wide_start sz sr d ov) (wide_shape cz cr sz sr nz nr d ov) x -> kept_field 2 sz sr d ov jobs chunks field_at cut t x (kept t x) }.
Hypothesis H : ok_green.

Lemma two_samples : (1 < samples nr d)%N /\ (1 < samples nz d)%N.
Proof using H.
  destruct (og_two H) as (Dz & Dr & _). destruct (ca_domain _ _ _ _ _ _ _ _ _ _ _ _ _ _ _ _ _ _ (og_calculate H)) as (D1 & D2 & D3 & _). split; apply samples_iff; lia.
Qed.
Lemma t_end_pos : 0 < t_end.
Proof using H.
  destruct (og_steps H) as [[_ Hts] Hs _]. destruct (og_two H) as (_ & _ & HT). destruct (lookup_lt_is_Some_2 steps 1%nat) as [n1 Hn1]; [lia|]. destruct (Hs _ _ Hn1) as [H' _]. change (INR 1) with 1 in H'. lra.
Qed.
Lemma ends_apart : start.1.1 < end_.1.1 /\ start.1.2 < end_.1.2.
Proof using H.
  destruct (ca_domain _ _ _ _ _ _ _ _ _ _ _ _ _ _ _ _ _ _ (og_calculate H)) as (D1 & D2 & D3 & _). pose proof (or_rho _ _ _ _ _ _ _ _ _ (og_region H)) as Hr. cbn [green_start green_end fst snd].
  pose proof (Rinv_0_lt_compat _ Hr) as Hi. split; apply Rplus_lt_compat_r, Rmult_lt_compat_r; try done; apply lt_INR; lia.
Qed.
Lemma step_pos : 0 < iv.1.1 /\ 0 < iv.1.2 /\ 0 < iv.2.
Proof using H.
  pose proof ends_apart as [E1 E2]. pose proof t_end_pos as E3. pose proof two_samples as [S1 S2]. destruct (og_two H) as (_ & _ & HT). cbn [green_step fst snd].
  split; [|split]; (apply Rmult_lt_0_compat; [lra|]; apply Rinv_0_lt_compat, lt_0_INR; lia).
Qed.

Lemma green_runs : exists dout l S, run = Done (dout, (start, end_, iv)) /\ lib_open 2 3 junk L size2 cs2 dout = Done l /\ session 2 3 junk L l S /\
  calculated 2 cz cr sz sr nz nr d ov csize jobs chunks field_at cut T (ls_chunks S).
Proof using H.
  destruct H as [[HL Hj] Hreg Hst [Hft Hfm] Hok (Ho & Hp & Hcs) (Dz & Dr & HT) _ _]. pose proof two_samples as [S1 S2].
  destruct (region_is _ _ _ _ _ _ _ _ _ Hreg) as [E1 E2]. pose proof (C59_steps dt timestep t_end steps fuelT fuelM Hst Hft Hfm) as E3.
  destruct (C60_calculate 2 junk L cz cr sz sr nz nr d ov csize ct cl jobs chunks field_at cut names T uuids2 fuel p0 size ord ordm ord2 ordm2 size2 cs2 HL Hj Hok Ho Hp Hcs) as (dout & l2 & St & E4 & _ & E5 & Hs & Hc & _).
  destruct (C60_shape 2 junk L cz cr sz sr nz nr d ov csize ct cl jobs chunks field_at cut names T uuids2 fuel p0 size ord ordm ord2 ordm2 size2 cs2 HL Hj Hok Ho Hp Hcs) as (dout' & l2' & gg & l3 & E4' & E5' & E6 & E7 & _).
  rewrite E4 in E4'. injection E4' as <-. rewrite E5 in E5'. injection E5' as <-.
  assert (forall a b n, (1 < n)%N -> interval a b n = Some ((b - a) / INR (N.to_nat n - 1))) as Hi.
  { intros a b n Hn. unfold interval. rewrite minus_INR by lia. change (INR 1) with 1. destruct (Req_EM_T _ 0) as [He|]; [|done]. exfalso. assert (1 < INR (N.to_nat n)) by (change 1 with (INR 1); apply lt_INR; lia). lra. }
  exists dout, l2, (reopened St cs2). split; [|exact (conj E5 (conj Hs Hc))].
  Local Transparent calculate_green.
  unfold calculate_green. rewrite E1. cbn [of_opt mbind res_bind]. rewrite E2. cbn [of_opt mbind res_bind]. rewrite E3. cbn [of_opt mbind res_bind]. rewrite E4. cbn [mbind res_bind]. rewrite E5. cbn [mbind res_bind]. rewrite E6. cbn [mbind res_bind].
  rewrite E7. unfold out_shape, green_coords. rewrite !Hi by lia. cbn [mbind option_bind of_opt res_bind]. unfold cells_region. cbn [rmin rmax zmin zmax]. rewrite Nat2N.id. reflexivity.
Qed.
Local Opaque calculate_green.

(** A track that can be seen. *)
Lemma green_seen S l K ignore t0 samp num seg n : session 2 3 junk L l S -> calculated 2 cz cr sz sr nz nr d ov csize jobs chunks field_at cut T (ls_chunks S) ->
  K = linear \/ K = keys -> in_green geom rho t_end sz sr nz nr d ov T kept K t0 samp num seg n -> seen start iv S K U g ignore t0 samp num seg n.
Proof using H.
  intros Hs Hcal HK (H1 & H2 & H3 & H4). split; [exact H1|]. split; [exact H2|]. split; [exact H3|]. intros p j Hp Hj Ht. destruct (H4 p j Hp Hj Ht) as (B1 & B2 & B3 & Hoff & Hin & Hnn). cbv zeta. clear H4.
  pose proof step_pos as (I1 & I2 & I3). pose proof ends_apart as [A1 A2]. pose proof t_end_pos as A3. pose proof two_samples as [S1 S2]. destruct (og_two H) as (_ & _ & HT). destruct (og_lib H) as [HL _].
  assert (0 <= t0 + INR j * samp - time_at seg n p <= t_end) as B3' by (split; [lra|exact B3]).
  set (s := t0 + INR j * samp - time_at seg n p) in *. clearbody s.
  set (G := coords start iv) in *. set (mr := (N.to_nat (samples nr d) - 1)%nat) in *. set (mz := (N.to_nat (samples nz d) - 1)%nat) in *. set (mt := (T - 1)%nat) in *.
  assert ((0 < mr)%nat /\ (0 < mz)%nat /\ (0 < mt)%nat) as (M1 & M2 & M3) by lia.
  destruct (coordinate_cell start.1.1 end_.1.1 mr (radius (along seg n p)) A1 M1 B1) as (i1 & C1 & J1). destruct (coordinate_cell start.1.2 end_.1.2 mz (along seg n p).2 A2 M2 B2) as (i2 & C2 & J2).
  destruct (coordinate_cell 0 t_end mt s A3 M3 B3') as (i3 & C3 & J3).
  change (cell (ind_r G seg n p) i1) in C1. change (cell (ind_z G seg n p) i2) in C2. change (cell (ind_t G s) i3) in C3.
  split; [|split].
  - intros j1 j2 j3 (Q1 & Q1') (Q2 & Q2') (Q3 & Q3').
    assert (0 <= Int_part (ind_r G seg n p))%Z as P1. { apply Int_part_bound. destruct C1 as [C1 _]. pose proof (pos_INR i1). lra. }
    destruct HK as [-> | ->]; [left; cbn [linear k_support] in Q1; lia|]. cbn [keys k_support] in *. destruct Hin as [Hin|[Hin|[Hin|[Hz Ht']]]]; [discriminate Hin|left; lia|left|].
    + assert (1 <= Int_part (ind_r G seg n p))%Z; [|lia]. apply Int_part_bound, (step_le 1); [exact I1|]. change (INR 1) with 1. cbn [green_step fst snd] in Hin. lra.
    + assert (1 <= Int_part (ind_z G seg n p))%Z as P2. { apply Int_part_bound, (step_le 1); [exact I2|]. change (INR 1) with 1. cbn [green_step fst snd] in Hz. lra. }
      assert (1 <= Int_part (ind_t G s))%Z as P3. { apply Int_part_bound, (step_le 1); [exact I3|]. change (INR 1) with 1. cbn [green_step fst snd] in Ht'. lra. }
      assert (Int_part (ind_z G seg n p) < Z.of_nat mz - 1)%Z as P4. { apply Int_part_below. rewrite minus_IZR, <- INR_IZR_INZ. apply (step_lt 1); [done|exact I2|]. change (INR 1) with 1. cbn [green_step fst snd] in Hz. fold mz in Hz. lra. }
      assert (Int_part (ind_t G s) < Z.of_nat mt - 1)%Z as P5. { apply Int_part_below. rewrite minus_IZR, <- INR_IZR_INZ. apply (step_lt 1); [done|exact I3|]. change (INR 1) with 1. cbn [green_step fst snd] in Ht'. fold mt in Ht'. lra. }
      destruct (Z.le_gt_cases (- Z.of_N (br sr d ov)) j1) as [L1|L1]; [left; exact L1|right]. unfold sample_at, opposite. rewrite (proj2 (Z.ltb_lt _ _) L1). clear -P1 P2 P3 P4 P5 Q1 Q1' Q2 Q2' Q3 Q3' L1 S1 S2. lia.
  - destruct Hcal as [Hb Hf _ _ _]. apply (off_ends_box junk L l S K (samples nr d) (samples nz d) T); try assumption; [lia| |].
    + unfold ind_t. cbn [G coords g_start g_interval green_start green_step fst snd]. fold mt.
      assert (0 < INR mt) as Hmt by (apply lt_0_INR; lia). replace ((s - 0) / ((t_end - 0) / INR mt)) with (INR mt * (s / t_end)) by (field; lra).
      assert (s / t_end <= 1) by (apply Rmult_le_reg_r with t_end; [exact A3|]; unfold Rdiv; rewrite Rmult_assoc, Rinv_l by lra; lra). nra.
    + destruct Hoff as [Ho|Ho]; [left; intros c Hc; destruct (Hf c Hc) as [-> _]; by rewrite Nat2N.id|]. right. intros k Hk E. apply (Ho k Hk). rewrite <- E. unfold ind_t. cbn [G coords g_start g_interval green_start green_step fst snd]. fold mt. field.
      split; [apply not_0_INR; lia|lra].
  - left. pose proof Hcal as [Hb Hf Hval _ _].
    destruct (proj2 (Hb [N.of_nat i1; N.of_nat i2; N.of_nat i3])) as (c & Hc & Hcov).
    { apply inbox_at. split; [done|]. split; [done|]. intros [|[|[|i]]] Hi; cbn [length] in Hi; [change (0 <= N.of_nat i1 < samples nr d)%N|change (0 <= N.of_nat i2 < samples nz d)%N|change (0 <= N.of_nat i3 < N.of_nat T)%N|lia]; lia. }
    exists c. split; [done|]. split; [|exists i1, i2, i3; exact (conj C1 (conj C2 (conj C3 Hcov)))].
    destruct (c_null c) eqn:En; [|done]. exfalso. apply (Hnn i1 i2 i3 C1 C2 C3).
    destruct (zvalue_in c _ Hcov) as [Hre Hzv]. unfold zind in Hre, Hzv. rewrite !list.fmap_cons, list.fmap_nil in Hre, Hzv. rewrite !nat_N_Z in Hre, Hzv.
    assert (sample_at cz cr sz sr nz nr d ov T (Z.of_nat i1) (Z.of_nat i2) (Z.of_nat i3)) as Hat. { clear -J1 J2 J3 S1 S2 HT. unfold sample_at. lia. }
    destruct (cell_domain _ _ _ _ _ _ _ _ _ _ _ _ _ _ _ _ _ (og_calculate H) _ _ _ Hat) as [Hx Hzi].
    assert (cell_of sz sr d (Z.of_nat i1) (Z.of_nat i2) = [sz + N.of_nat i2 * d; sr + N.of_nat i1 * d]%N) as Ec by (unfold cell_of; f_equal; [|f_equal]; lia). rewrite Ec in Hx, Hzi.
    assert (i3 < T)%nat as Hi3 by (clear -J3 HT; lia).
    apply (comes_back_null _ _ _ (Hval c _ _ _ _ _ Hc Hre Hi3 Hx Hzi (og_kept H _ _ Hi3 Hx))). rewrite Hzv. exact (null_elements 2 3 junk L l S c _ HL Hs Hc En Hcov).
Qed.

(** ** The signals *)
(** The calculation leaves a Green's function; its signal for a track, in one call, is the sum over the steps of the track of the field that the kernel interpolates between the samples. *)
Theorem C70_signal K ignore ib sb weight seg n t0 samp num signal : K = linear \/ K = keys -> (k_support K <= ov)%nat -> (1 <= ib)%nat -> (1 <= sb)%nat -> 0 < samp ->
  in_green geom rho t_end sz sr nz nr d ov T kept K t0 samp num seg n -> (num <= length signal)%nat ->
  exists dout l l', run = Done (dout, (start, end_, iv)) /\ lib_open 2 3 junk L size2 cs2 dout = Done l /\
    apply_accumulate_on junk start iv ib sb K ignore seg t0 samp num weight signal l = Done (plus_samples t0 samp num (direct_sum (coords start iv) (grid_field K g) seg n weight) signal, l').
Proof using H.
  intros HK Hov Hib Hsb Hsamp Hin Hlen. destruct green_runs as (dout & l & S & E1 & E2 & Hs & Hcal).
  assert (has_overlap S K) as Ho. { intros c Hc. destruct Hcal as [_ Hf _ _ _]. destruct (Hf c Hc) as [-> _]. by rewrite Nat2N.id. }
  destruct (one_track junk start iv L (proj1 (og_lib H)) S U g t0 samp num (green_has_samples _ _ _ _ _ _ _ _ _ _ _ _ _ _ _ _ _ _ _ (og_calculate H) (og_kept H) (fun t p => og_finite H _ _) S Hcal) Hsamp step_pos
    K ignore ib sb weight l seg n signal Hs Ho HK Hib Hsb (green_seen S l K ignore t0 samp num seg n Hs Hcal HK Hin) Hlen) as (l' & E3 & _).
  exists dout, l, l'. exact (conj E1 (conj E2 E3)).
Qed.
(** Several tracks, one after the other. *)
Theorem C70_tracks tracks t0 samp num signal : (2 <= ov)%nat -> 0 < samp -> Forall (fun sn => in_green geom rho t_end sz sr nz nr d ov T kept keys t0 samp num sn.1 sn.2) tracks -> (num <= length signal)%nat ->
  exists dout l l', run = Done (dout, (start, end_, iv)) /\ lib_open 2 3 junk L size2 cs2 dout = Done l /\
    accumulate_tracks junk start iv (fst <$> tracks) t0 samp num signal l = Done (plus_samples t0 samp num (fun t => total start iv keys g 1 t tracks) signal, l').
Proof using H.
  intros Hov Hsamp Hin Hlen. destruct green_runs as (dout & l & S & E1 & E2 & Hs & Hcal).
  assert (has_overlap S keys) as Ho. { intros c Hc. destruct Hcal as [_ Hf _ _ _]. destruct (Hf c Hc) as [-> _]. by rewrite Nat2N.id. }
  destruct (C69_tracks junk start iv L (proj1 (og_lib H)) S U g t0 samp num (green_has_samples _ _ _ _ _ _ _ _ _ _ _ _ _ _ _ _ _ _ _ (og_calculate H) (og_kept H) (fun t p => og_finite H _ _) S Hcal) Hsamp step_pos tracks Ho)
    with (l := l) (signal := signal) as (l' & E3 & _); [|exact Hs|exact Hlen|].
  - rewrite list.Forall_forall in Hin |- *. intros sn Hsn. exact (green_seen S l keys false t0 samp num sn.1 sn.2 Hs Hcal (or_intror eq_refl) (Hin sn Hsn)).
  - exists dout, l, l'. exact (conj E1 (conj E2 E3)).
Qed.
(** A whole shower. *)
Theorem C70_shower density h step_t n m t0 samp num : (2 <= ov)%nat -> 0 < samp ->
  length (p_charge (h_profile h)) = length (p_grammage (h_profile h)) -> ends_after density h step_t n -> (0 < n <= int_max)%nat -> 0 < step_t -> (forall x y z, 0 <= density x y z) ->
  (forall i, (i + 1 < n)%nat -> in_green geom rho t_end sz sr nz nr d ov T kept keys t0 samp num (Segment (in_ns (point h step_t i)) (in_ns (point h step_t (i + 1))) (INR i * step_t) (INR (i + 1) * step_t) 1) m) ->
  exists dout l segs l', run = Done (dout, (start, end_, iv)) /\ lib_open 2 3 junk L size2 cs2 dout = Done l /\
    fill_tracks density h step_t [] = Some segs /\ length segs = (n - 1)%nat /\
    shower_emission junk start iv density h step_t t0 samp num l =
      Done ((fun j => 2 * total start iv keys g 1 (t0 + INR j * samp) ((fun seg => (seg, m)) <$> segs)) <$> seq 0 num, l').
Proof using H.
  intros Hov Hsamp Hl Hend Hn Hdt Hd Hin. destruct green_runs as (dout & l & S & E1 & E2 & Hs & Hcal).
  assert (has_overlap S keys) as Ho. { intros c Hc. destruct Hcal as [_ Hf _ _ _]. destruct (Hf c Hc) as [-> _]. by rewrite Nat2N.id. }
  destruct (C69_shower junk start iv L (proj1 (og_lib H)) S U g t0 samp num (green_has_samples _ _ _ _ _ _ _ _ _ _ _ _ _ _ _ _ _ _ _ (og_calculate H) (og_kept H) (fun t p => og_finite H _ _) S Hcal) Hsamp step_pos
    density h step_t n m l Hl Hend Hn Hdt Hd Ho Hs) as (segs & l' & F1 & F2 & F3 & _).
  - intros i Hi. exact (green_seen S l keys false t0 samp num _ m Hs Hcal (or_intror eq_refl) (Hin i Hi)).
  - exists dout, l, segs, l'. exact (conj E1 (conj E2 (conj F1 (conj F2 F3)))).
Qed.
End green.
Print Assumptions C70_signal.
Print Assumptions C70_tracks.
Print Assumptions C70_shower.

(** * The hypotheses are met: the domain of C59's example, every cell of the region is stored, overlap 2. *)
Definition me_one : N := 1065353216%N.
Definition me_two : N := 1073741824%N.
Definition me_E (t : nat) (p : list Z) : list N := if Z.even (Z.of_nat t + default 0%Z (p !! 0%nat) / 2 + default 0%Z (p !! 1%nat) / 2) then [me_one; me_two] else [me_two; me_one].
Definition me_kept (t : nat) (x : list N) : list N := me_E (co_ex_steps !!! t) (centre x).
Definition me_seg : segment := Segment (2, 0, 4) (5 / 2, 0, 7 / 2) 0 (1 / 2) 1.
Lemma me_E_cases t p : me_E t p = [me_one; me_two] \/ me_E t p = [me_two; me_one].
Proof. unfold me_E. destruct (Z.even _); auto. Qed.
Local Notation me_field := (fun t p => me_E (co_ex_steps !!! t) p).
Lemma me_chunks m j c : (m < 2)%nat -> co_ex_chunks m !! j = Some c -> j = 0%nat /\ ((m = 0%nat /\ c = ([1; 1], [15; 3])%Z) \/ (m = 1%nat /\ c = ([1; 5], [15; 7])%Z)).
Proof. intros Hm Hj. destruct m as [|[|m]], j as [|j]; cbn in Hj; try discriminate Hj; try lia; injection Hj as <-; auto. Qed.
Lemma me_covered x : domain (wide_start 2 0 1 2) (wide_shape 8 4 2 0 4 3 1 2) x -> exists m j c, (m < 2)%nat /\ co_ex_chunks m !! j = Some c /\ cell_in c x.
Proof.
  intros [H1 H2]. assert (wide_start 2 0 1 2 = [0; 0]%N /\ wide_shape 8 4 2 0 4 3 1 2 = [8; 4]%N) as [E1 E2] by (split; vm_compute; reflexivity). rewrite E1, E2 in *. destruct x as [|x0 [|x1 [|? ?]]]; cbn [zip_with] in H2; repeat match goal with H : Forall2 _ _ _ |- _ => inversion_clear H end.
  destruct (N.lt_ge_cases x1 2) as [Hx|Hx]; [exists 0%nat, 0%nat, ([1; 1], [15; 3])%Z|exists 1%nat, 0%nat, ([1; 5], [15; 7])%Z]; (split; [lia|]); (split; [done|]); unfold cell_in, centre; rewrite !list.fmap_cons, list.fmap_nil; cbn [fst snd]; split; repeat constructor; lia.
Qed.
Lemma me_ok : ok_calculate 2 8 4 2 0 4 3 1 2 2%N 2 2 2 co_ex_chunks me_field ca_ex_names (length co_ex_steps) ca_ex_names2.
Proof.
  pose proof me_chunks as Hreg.
  assert (forall c m, (m < 2)%nat -> c ∈ co_ex_chunks m -> sim_chunk 2 c) as Hsc.
  { intros c m Hm (j & Hj)%elem_of_list_lookup. destruct (Hreg m j c Hm Hj) as [_ [[_ ->]|[_ ->]]]; (split; [done|]); (split; [done|]); (split; [by repeat constructor|]); split; repeat constructor; try done; match goal with |- Z.Odd ?z => exists (z / 2)%Z; done end. }
  split.
  - lia.
  - done.
  - split; [simpl; lia|done].
  - lia.
  - split; [lia|done].
  - intros m c Hm Hc. by apply (Hsc c m).
  - intros m m' j j' c c' x Hm Hm' Hj Hj' [Hx Hy] [Hx' Hy']. destruct (Hreg m j c Hm Hj) as [-> [[-> ->]|[-> ->]]], (Hreg m' j' c' Hm' Hj') as [-> [[-> ->]|[-> ->]]]; try done; exfalso; cbn [fst snd] in *;
    (destruct x as [|x0 [|x1 [|? ?]]]; unfold centre in *; rewrite ?list.fmap_cons, ?list.fmap_nil in *; repeat match goal with H : Forall2 _ _ _ |- _ => inversion_clear H end; lia).
  - exact me_covered.
  - intros t p. destruct (me_E_cases (co_ex_steps !!! t) p) as [-> | ->]; (split; [done|]); repeat constructor; unfold me_one, me_two; lia.
  - vm_compute. done.
  - vm_compute. done.
  - vm_compute. done.
  - vm_compute. done.
  - vm_compute. done.
  - intros m t j c k Hm Ht Hj Hk. split; [done|]. split; [done|]. assert (N.of_nat k < 30)%N as Hk2. { destruct (Hreg m j c Hm Hj) as [_ [[_ ->]|[_ ->]]]; (eapply N.lt_le_trans; [exact Hk|vm_compute; done]). }
    destruct (Hreg m j c Hm Hj) as [-> _]. simpl (length _) in Ht. split; [repeat constructor; lia|]. intros m' t' j' c' k' _ _ _ _ Heq. unfold ca_ex_names in Heq. injection Heq as E1 E2 E3 E4. lia.
  - intros n i Hn Hi. split; [done|]. split; [done|]. assert (N.of_nat i < 200 /\ N.of_nat n < 200)%N as [A1 A2]. { split; (eapply N.lt_le_trans; [eassumption|vm_compute; done]). }
    split; [repeat constructor; lia|]. intros m j _ _ Heq. unfold ca_ex_names2 in Heq. injection Heq as E1 E2. lia.
Qed.
Lemma me_ok_green : ok_green 0 lib0 co_ex_geom co_ex_request 1 8 4 2 0 4 3 (1 / 2) 1 (5 / 2) co_ex_steps 5 6 [2; 2; 2]%nat 1 2 2%N 2 2 2 co_ex_chunks me_E (fun _ _ _ _ => false) ca_ex_names ca_ex_names2
  5 1 (fun _ k => k) (fun k => k) (fun _ k => k) (fun k => k) me_kept.
Proof.
  split.
  - exact (conj lib0_ok eq_refl).
  - exact co_ex_region.
  - exact co_ex_ok_steps.
  - split; [cbn; lia|repeat constructor; lia].
  - exact me_ok.
  - split; [split; [done|split; [done|split; done]]|]. split; [split; [lia|split; [lia|done]]|]. split; [done|]. split; [repeat constructor; lia|left; done].
  - split; [done|split; [done|cbn; lia]].
  - intros t p. destruct (me_E_cases t p) as [-> | ->]; repeat constructor.
  - intros t x Ht Hx. destruct (me_covered x Hx) as (m & j & c & Hm & Hj & Hc). exists m, j, c. split; [done|]. split; [done|]. split; [done|]. reflexivity.
Qed.
Lemma me_in_green : in_green co_ex_geom 1 (5 / 2) 2 0 4 3 1 2 (length co_ex_steps) me_kept keys 1 (1 / 8) 2 me_seg 1.
Proof.
  assert (green_start co_ex_geom 1 2 0 = (0, 2, 0)) as Es. { unfold green_start. cbn [co_ex_geom rmin zmin]. change (N.to_nat 0) with 0%nat. change (N.to_nat 2) with 2%nat. change (INR 2) with 2. change (INR 0) with 0. f_equal; f_equal; lra. }
  assert (green_end co_ex_geom 1 (5 / 2) 2 0 4 3 = (3, 6, 5 / 2)) as Ee. { unfold green_end. cbn [co_ex_geom rmin zmin]. change (N.to_nat (0 + 3)) with 3%nat. change (N.to_nat (2 + 4)) with 6%nat. simpl (INR _). f_equal; f_equal; lra. }
  assert (green_step co_ex_geom 1 (5 / 2) 2 0 4 3 1 (length co_ex_steps) = (3 / 2, 4 / 3, 5 / 4)) as Ei.
  { unfold green_step. rewrite Es, Ee. change (N.to_nat (samples 3 1) - 1)%nat with 2%nat. change (N.to_nat (samples 4 1) - 1)%nat with 3%nat. change (length co_ex_steps - 1)%nat with 2%nat. cbn [fst snd]. simpl (INR _). f_equal; [f_equal|]; lra. }
  assert (forall p, (p <= 1)%nat -> (p = 0%nat /\ along me_seg 1 p = (2, 0, 4) /\ time_at me_seg 1 p = 0) \/ (p = 1%nat /\ along me_seg 1 p = (5 / 2, 0, 7 / 2) /\ time_at me_seg 1 p = 1 / 2)) as Hp.
  { intros p Hp. destruct p as [|[|p]]; [left|right|lia]; (split; [done|]); unfold along, time_at, me_seg; cbn [s_start s_end s_t0 s_t1 fst snd]; simpl (INR _); (split; [f_equal; [f_equal|]|]; lra). }
  assert (forall x z, 0 <= x -> radius (x, 0, z) = x) as Hr. { intros x z Hx. unfold radius. cbn [fst snd]. replace (x * x + 0 * 0) with (x * x) by lra. by apply sqrt_square. }
  split; [unfold me_seg; cbn; lra|]. split; [unfold me_seg; cbn [s_t0 s_t1]; simpl (INR _); lra|]. split.
  { intros p Hle. destruct (Hp p Hle) as [(_ & _ & ->)|(_ & _ & ->)]; lra. }
  intros p j Hle Hj Ht. cbv zeta. rewrite Es, Ee, Ei. cbn [fst snd].
  assert (radius (along me_seg 1 p) = (along me_seg 1 p).1.1 /\ 2 <= (along me_seg 1 p).1.1 <= 5 / 2 /\ 7 / 2 <= (along me_seg 1 p).2 <= 4) as (E1 & E2 & E3).
  { destruct (Hp p Hle) as [(_ & -> & _)|(_ & -> & _)]; cbn [fst snd]; (split; [apply Hr; lra|lra]). }
  assert (1 / 2 <= 1 + INR j * (1 / 8) - time_at me_seg 1 p <= 9 / 8) as E4.
  { destruct (Hp p Hle) as [(_ & _ & ->)|(_ & _ & ->)]; destruct j as [|[|j]]; [..|lia| | |lia]; simpl (INR _); lra. }
  split; [lra|]. split; [lra|]. split; [lra|]. split; [right; intros k Hk E; pose proof (le_INR 1 k ltac:(lia)) as Hk1; change (INR 1) with 1 in Hk1; lra|].
  split; [right; right; left; lra|].
  intros i1 i2 i3 _ _ _ Hn. unfold me_kept in Hn. destruct (me_E_cases (co_ex_steps !!! i3) (centre [(2 + N.of_nat i2 * 1)%N; (0 + N.of_nat i1 * 1)%N])) as [E|E]; rewrite E in Hn; apply list.Forall_cons in Hn as [[Hn|Hn] _]; discriminate Hn.
Qed.
Example C70_nonvacuous (size2 size : nat) : exists (dout : dir) (c : (R * R * R) * (R * R * R) * (R * R * R)) (l l' : clib),
  calculate_green 2 0 lib0 co_ex_geom co_ex_request 1 8 4 5 6 (1 / 2) 1 (5 / 2) size2 [2; 2; 2]%nat 1 2 2%N 2 2 5 1 size 2 co_ex_chunks me_E (fun _ _ _ _ => false) ca_ex_names (fun _ k => k) (fun k => k) ca_ex_names2 (fun _ k => k) (fun k => k) = Done (dout, c) /\
  lib_open 2 3 0 lib0 size2 [2; 2; 2]%nat dout = Done l /\
  accumulate_tracks 0 c.1.1 c.2 [me_seg; me_seg] 1 (1 / 8) 2 [0; 5] l = Done (plus_samples 1 (1 / 8) 2 (fun t => total c.1.1 c.2 keys (green_samples 8 4 2 0 4 3 1 2 3 me_kept) 1 t [(me_seg, 1%nat); (me_seg, 1%nat)]) [0; 5], l').
Proof.
  destruct (C70_tracks 0 lib0 co_ex_geom co_ex_request 1 8 4 2 0 4 3 (1 / 2) 1 (5 / 2) co_ex_steps 5 6 size2 [2; 2; 2]%nat 1 2 2%N 2 2 2 co_ex_chunks me_E (fun _ _ _ _ => false) ca_ex_names ca_ex_names2
    5 1 size (fun _ k => k) (fun k => k) (fun _ k => k) (fun k => k) me_kept me_ok_green [(me_seg, 1%nat); (me_seg, 1%nat)] 1 (1 / 8) 2 [0; 5]) as (dout & l & l' & E1 & E2 & E3).
  - lia.
  - lra.
  - apply list.Forall_cons. split; [exact me_in_green|]. apply list.Forall_cons. split; [exact me_in_green|]. apply list.Forall_nil. exact I.
  - cbn. lia.
  - eexists dout, _, l, l'. split; [exact E1|]. split; [exact E2|]. exact E3.
Qed.
