(** C59: the coordinates of a calculated Green's function. *)
From stdpp Require Import base list list_numbers numbers option gmap countable sets.
From Coq Require Import Reals Lra NArith ZArith Lia.
From Verif Require Import IndexSpec LoopsModel LoopsProofs NDArrayModel NDArrayProofs NDArrayOps NDArrayProps StreamerModel StreamerProps CodecModel
  BBoxModel BBoxProps DownsampleModel DownsampleProps RTreeModel RTreeInsert RTreeProps ChunkMetaModel ChunkMetaProps ChunkCacheModel ChunkCacheSpec
  LibraryModel LibrarySpec LibraryProofs LibraryProps
  BoundaryModel BoundaryProps RebuildModel RebuildSpec PartitionModel PartitionProps ParallelModel ParallelSpec
  RecordModel RecordSpec StorageModel StorageSpec StorageProps CalculateModel CalculateSpec CalculateProofs CalculateProofs2 CalculateProps
  KernelModel InterpModel InterpProps SignalModel SignalProps CoordsModel CoordsSpec.
From Verif Require Import IndexSpec LibrarySpec.
Local Opaque lib_open lib_get lib_geometry calculate.
Local Open Scope R_scope.

(** * The stored region *)
Lemma whole_trunc x i : whole x i -> N.of_nat <$> to_size x = Some i.
Proof. intros H. rewrite (to_size_cell x (N.to_nat i) H). cbn. f_equal. lia. Qed.
Lemma axis_start_is g e a n rho s : 0 < rho -> g < e -> INR (N.to_nat n) = (e - g) * rho -> whole ((a - g) * rho) s -> axis_start g (e - g) a n = Some s.
Proof. intros Hr Hg Hn Hs. unfold axis_start. destruct (Req_EM_T (e - g) 0); [lra|]. apply whole_trunc. rewrite Hn. replace ((a - g) / (e - g) * ((e - g) * rho)) with ((a - g) * rho) by (field; lra). done. Qed.
Lemma axis_shape_is g e a n rho s : 0 < rho -> g < e -> INR (N.to_nat n) = (e - g) * rho -> whole (a * rho) s -> axis_shape (e - g) a n = Some s.
Proof. intros Hr Hg Hn Hs. unfold axis_shape. destruct (Req_EM_T (e - g) 0); [lra|]. apply whole_trunc. rewrite Hn. replace (a / (e - g) * ((e - g) * rho)) with (a * rho) by (field; lra). done. Qed.
Lemma N_to_nat_INR a b : INR (N.to_nat a) + INR (N.to_nat b) = INR (N.to_nat (a + b)).
Proof. rewrite N2Nat.inj_add, plus_INR. done. Qed.
Lemma axis_in g a b e rho c s n : 0 < rho -> g <= a <= b -> b <= e -> INR (N.to_nat c) = (e - g) * rho -> whole ((a - g) * rho) s -> whole ((b - a) * rho) n -> (s + n <= c)%N.
Proof.
  intros Hr Ha Hb Hc [Hs _] [Hn _]. assert (N.to_nat (s + n) <= N.to_nat c)%nat; [|lia]. apply INR_le. rewrite <- N_to_nat_INR, Hc.
  assert ((b - a) * rho + (a - g) * rho = (b - g) * rho) by ring. assert ((b - g) * rho <= (e - g) * rho) by (apply Rmult_le_compat_r; lra). lra.
Qed.
(** Along one axis: the stored range begins at most one cell before the requested one, and ends at most two cells before it. *)
Lemma axis_region g a b rho s n : 0 < rho -> whole ((a - g) * rho) s -> whole ((b - a) * rho) n ->
  let lo := INR (N.to_nat s) / rho + g in let hi := INR (N.to_nat (s + n)) / rho + g in
  lo <= a < lo + 1 / rho /\ b - 2 / rho < hi <= b.
Proof.
  intros Hr [H1 H2] [H3 H4]. cbv zeta. rewrite <- N_to_nat_INR. assert (0 < / rho) as Hi by (by apply Rinv_0_lt_compat).
  assert (forall x y, x * rho <= y -> x <= y / rho) as Hle. { intros x y H. apply (Rmult_le_compat_r (/ rho)) in H; [|lra]. replace (x * rho * / rho) with x in H by (field; lra). done. }
  assert (forall x y, y <= x * rho -> y / rho <= x) as Hle'. { intros x y H. apply (Rmult_le_compat_r (/ rho)) in H; [|lra]. replace (x * rho * / rho) with x in H by (field; lra). done. }
  assert (forall x y, x * rho < y -> x < y / rho) as Hlt. { intros x y H. apply (Rmult_lt_compat_r (/ rho)) in H; [|lra]. replace (x * rho * / rho) with x in H by (field; lra). done. }
  set (u := INR (N.to_nat s)) in *. set (v := INR (N.to_nat n)) in *. clearbody u v. pose proof (Hle' _ _ H1). pose proof (Hlt _ _ H2).
  assert ((u + v) / rho <= b - g) by (apply Hle'; lra). assert (b - g < (u + v + 2) / rho) by (apply Hlt; lra).
  replace ((u + 1) / rho) with (u / rho + 1 / rho) in * by (field; lra). replace ((u + v + 2) / rho) with ((u + v) / rho + 2 / rho) in * by (field; lra). lra.
Qed.
Lemma vwadd2 a b c e : (a + c < 2 ^ 64)%N -> (b + e < 2 ^ 64)%N -> vwadd [a; b] [c; e] = [(a + c)%N; (b + e)%N].
Proof. intros H1 H2. unfold vwadd. cbn [zip_with]. unfold wadd, W. by rewrite !N.mod_small. Qed.

Definition cells_region (geom : cylinder) (rho : R) (sz sr nz nr : N) : cylinder :=
  Cyl (INR (N.to_nat sr) / rho + rmin geom) (INR (N.to_nat (sr + nr)) / rho + rmin geom) (INR (N.to_nat sz) / rho + zmin geom) (INR (N.to_nat (sz + nz)) / rho + zmin geom).
Lemma region_is geom request rho cz cr sz sr nz nr : ok_region geom request rho cz cr sz sr nz nr ->
  storage_domain geom request rho cz cr = Some ([sz; sr], [nz; nr]) /\ region_stored geom rho [sz; sr] [nz; nr] = Some (cells_region geom rho sz sr nz nr).
Proof.
  intros [Hr [G1 G2] [C1 C2] [W1 W2] (I1 & I2 & I3 & I4) [S1 S2] [N1 N2]]. unfold storage_domain.
  rewrite (axis_start_is _ _ _ _ rho sz Hr G1 C1 S1). cbn [mbind option_bind]. rewrite (axis_start_is _ _ _ _ rho sr Hr G2 C2 S2). cbn [mbind option_bind].
  rewrite (axis_shape_is _ _ _ _ rho nz Hr G1 C1 N1). cbn [mbind option_bind]. rewrite (axis_shape_is _ _ _ _ rho nr Hr G2 C2 N2). cbn [mbind option_bind].
  destruct (Req_EM_T _ _) as [_|]; [|done]. destruct (Req_EM_T _ _) as [_|]; [|done]. split; [done|]. unfold region_stored.
  pose proof (axis_in _ _ _ _ rho cz sz nz Hr I1 I2 C1 S1 N1). pose proof (axis_in _ _ _ _ rho cr sr nr Hr I3 I4 C2 S2 N2).
  rewrite vwadd2; [done|eapply N.le_lt_trans; eassumption..].
Qed.

(** The stored region begins at most one cell before the requested region and ends at most two cells before its end. *)
Theorem C59_region_partial geom request rho cz cr sz sr nz nr : ok_region geom request rho cz cr sz sr nz nr ->
  exists stored, storage_domain geom request rho cz cr = Some ([sz; sr], [nz; nr]) /\ region_stored geom rho [sz; sr] [nz; nr] = Some stored /\
    zmin stored <= zmin request < zmin stored + 1 / rho /\ zmax request - 2 / rho < zmax stored <= zmax request /\
    rmin stored <= rmin request < rmin stored + 1 / rho /\ rmax request - 2 / rho < rmax stored <= rmax request.
Proof.
  intros H. destruct (region_is _ _ _ _ _ _ _ _ _ H) as [E1 E2]. eexists. split; [exact E1|]. split; [exact E2|]. destruct H as [Hr _ _ _ _ [S1 S2] [N1 N2]].
  destruct (axis_region _ _ _ _ _ _ Hr S1 N1). destruct (axis_region _ _ _ _ _ _ Hr S2 N2). cbn [zmin zmax rmin rmax cells_region]. done.
Qed.
(** A request that begins and ends at boundaries of cells is stored as it is. *)
Theorem C59_aligned_region geom request rho cz cr sz sr nz nr : ok_region geom request rho cz cr sz sr nz nr ->
  (zmin request - zmin geom) * rho = INR (N.to_nat sz) -> (rmin request - rmin geom) * rho = INR (N.to_nat sr) ->
  (zmax request - zmin request) * rho = INR (N.to_nat nz) -> (rmax request - rmin request) * rho = INR (N.to_nat nr) ->
  storage_domain geom request rho cz cr = Some ([sz; sr], [nz; nr]) /\ region_stored geom rho [sz; sr] [nz; nr] = Some request.
Proof.
  intros H A1 A2 A3 A4. destruct (region_is _ _ _ _ _ _ _ _ _ H) as [E1 E2]. split; [exact E1|]. rewrite E2. f_equal. destruct H as [Hr _ _ _ _ _ _]. unfold cells_region. rewrite <- !N_to_nat_INR, <- A1, <- A2, <- A3, <- A4.
  destruct request as [a b c e]. cbn [zmin zmax rmin rmax]. f_equal; field; lra.
Qed.
(** The stored region need not contain the requested one: its end can be missed by more than a cell. *)
Theorem C59_request_refuted : exists geom request rho cz cr sz sr nz nr stored, ok_region geom request rho cz cr sz sr nz nr /\ (0 < nz /\ 0 < nr)%N /\
  region_stored geom rho [sz; sr] [nz; nr] = Some stored /\ zmax stored < zmax request - 1 / rho.
Proof.
  set (geom := Cyl 0 10 0 10). set (request := Cyl 0 5 (9 / 10) (38 / 10)). assert (ok_region geom request 1 10 10 0 0 2 5) as H.
  { split; unfold whole; cbn [geom request zmin zmax rmin rmax]; change (N.to_nat 10) with 10%nat; change (N.to_nat 0) with 0%nat; change (N.to_nat 2) with 2%nat; change (N.to_nat 5) with 5%nat; simpl (INR _); [lra|lra|lra|done|lra|lra|lra]. }
  exists geom, request, 1, 10%N, 10%N, 0%N, 0%N, 2%N, 5%N. destruct (region_is _ _ _ _ _ _ _ _ _ H) as [_ E]. eexists. split; [exact H|]. split; [done|]. split; [exact E|].
  cbn [geom request zmin zmax cells_region]. change (N.to_nat (0 + 2)) with 2%nat. simpl (INR _). lra.
Qed.

(** * The main loop *)
Lemma advance_is dt cur n : 0 < dt -> cur <= INR n * dt < cur + dt -> forall fuel k, (k <= n)%nat -> (n - k < fuel)%nat -> advance fuel dt cur k = Some n.
Proof.
  intros Hd Hn. induction fuel as [|fuel IH]; intros k Hk Hf; [lia|]. cbn [advance]. destruct (Rlt_dec (INR k * dt) cur) as [Hlt|Hge].
  - destruct (decide (k = n)) as [->|]; [lra|]. apply IH; lia.
  - f_equal. destruct (decide (k = n)) as [->|]; [done|]. exfalso. assert (S k <= n)%nat as Hkn by lia. apply le_INR in Hkn. rewrite S_INR in Hkn. apply (Rmult_le_compat_r dt) in Hkn; [|lra]. lra.
Qed.
Lemma main_loop_is dt ts t_end mfuel : 0 < dt -> 0 < ts -> forall steps j fuel k,
  (forall i n, steps !! i = Some n -> INR (j + i) * ts <= t_end /\ INR (j + i) * ts <= INR n * dt < INR (j + i) * ts + dt) -> t_end < INR (j + length steps) * ts ->
  INR k * dt < INR j * ts + dt -> (length steps < fuel)%nat -> Forall (fun n => n < mfuel)%nat steps -> main_loop fuel mfuel dt ts t_end (INR j * ts) k = Some steps.
Proof.
  intros Hd Hts. induction steps as [|n steps IH]; intros j fuel k Hs Hlast Hk Hf Hm; (destruct fuel as [|fuel]; [cbn [length] in Hf; lia|]); cbn [main_loop].
  - cbn [length] in Hlast. rewrite Nat.add_0_r in Hlast. destruct (Rle_dec _ _); [lra|done].
  - destruct (Hs 0%nat n eq_refl) as [H1 H2]. rewrite Nat.add_0_r in H1, H2. destruct (Rle_dec _ _) as [_|]; [|done]. apply list.Forall_cons in Hm as [Hm1 Hm2].
    assert (k <= n)%nat as Hkn. { destruct (decide (k <= n)%nat) as [|Hx]; [done|]. exfalso. assert (S n <= k)%nat as Hx' by lia. apply le_INR in Hx'. rewrite S_INR in Hx'. apply (Rmult_le_compat_r dt) in Hx'; lra. }
    rewrite (advance_is dt _ n Hd H2) by lia. cbn [mbind option_bind]. replace (INR j * ts + ts) with (INR (S j) * ts) by (rewrite S_INR; ring).
    rewrite (IH (S j)); [done| | | |cbn [length] in Hf; lia|done].
    + intros i m Hi. replace (S j + i)%nat with (j + S i)%nat by lia. by apply Hs.
    + replace (S j + length steps)%nat with (j + length (n :: steps))%nat by (cbn [length]; lia). done.
    + rewrite S_INR. lra.
Qed.
(** The slices that are stored: up to the end of the time, each after the first of meep's steps that reaches the time of the slice. *)
Theorem C59_steps dt ts t_end steps fuel mfuel : ok_steps dt ts t_end steps -> (length steps < fuel)%nat -> Forall (fun n => n < mfuel)%nat steps ->
  main_loop fuel mfuel dt ts t_end 0 0 = Some steps.
Proof.
  intros [[Hd Hts] Hs Hl] Hf Hm. replace 0 with (INR 0 * ts) by (simpl; ring). apply main_loop_is; try done. simpl (INR 0). lra.
Qed.

(** * Deviation of the coordinates along one axis *)
Lemma samples_bound n d : (0 < n)%N -> (0 < d)%N -> ((samples n d - 1) * d + 1 <= n /\ n <= (samples n d - 1) * d + d)%N.
Proof.
  intros Hn Hd. pose proof (samples_le n d Hn Hd) as [H1 _]. pose proof (proj2 (samples_iff n d (samples n d - 1) Hn Hd) ltac:(lia)). split; [lia|].
  destruct (N.le_gt_cases n ((samples n d - 1) * d + d)) as [|Hx]; [done|]. exfalso. assert (samples n d * d < n)%N as Hy. { replace (samples n d * d)%N with ((samples n d - 1) * d + d)%N by nia. done. }
  apply samples_iff in Hy; lia.
Qed.
Lemma axis_deviation g rho s n d i iv : 0 < rho -> (0 < n)%N -> (0 < d)%N -> (i < samples n d)%N ->
  interval (INR (N.to_nat s) / rho + g) (INR (N.to_nat (s + n)) / rho + g) (samples n d) = Some iv ->
  0 < iv /\ Rabs (INR (N.to_nat s) / rho + g + INR (N.to_nat i) * iv - point_pos g rho (2 * Z.of_N (s + i * d) + 1)) <= (INR (N.to_nat d) - 1 / 2) / rho.
Proof.
  intros Hr Hn Hd Hi. unfold interval. destruct (Req_EM_T _ 0) as [|Hne]; [done|]. intros [= <-]. destruct (samples_bound n d Hn Hd) as [B1 B2]. set (q := samples n d) in *.
  assert (exists q', q = N.succ q') as [q' Eq]. { exists (N.pred q). lia. } rewrite Eq in *. clear Eq. replace (N.succ q' - 1)%N with q' in * by lia.
  assert (INR (N.to_nat (N.succ q')) - 1 = INR (N.to_nat q')) as E1 by (rewrite N2Nat.inj_succ, S_INR; ring). rewrite E1 in *.
  assert (0 < INR (N.to_nat q')) as Hq by (pose proof (pos_INR (N.to_nat q')); lra).
  assert (exists e, n = q' * d + e)%N as [e ->] by (exists (n - q' * d)%N; lia). assert (1 <= e <= d)%N as He by lia. clear B1 B2.
  assert (INR (N.to_nat i) <= INR (N.to_nat q')) as Hiq by (apply le_INR; lia). pose proof (pos_INR (N.to_nat i)) as Hi0.
  assert (1 <= INR (N.to_nat e) <= INR (N.to_nat d)) as [He1 He2]. { split; [change 1 with (INR 1)|]; apply le_INR; lia. }
  assert (0 < / rho) as Hri by (by apply Rinv_0_lt_compat). unfold point_pos.
  assert (IZR (2 * Z.of_N (s + i * d) + 1) = 2 * (INR (N.to_nat s) + INR (N.to_nat i) * INR (N.to_nat d)) + 1) as ->.
  { rewrite plus_IZR, mult_IZR. f_equal. f_equal. rewrite <- mult_INR, <- plus_INR, INR_IZR_INZ. f_equal. lia. }
  rewrite !N2Nat.inj_add, !N2Nat.inj_mul, !plus_INR, !mult_INR.
  set (S := INR (N.to_nat s)) in *. set (D := INR (N.to_nat d)) in *. set (Q := INR (N.to_nat q')) in *. set (I := INR (N.to_nat i)) in *. set (X := INR (N.to_nat e)) in *. clearbody S D Q I X.
  assert (0 <= I / Q * X <= X) as [F1 F2].
  { assert (0 <= I / Q <= 1) as [F1 F2]. { split; [apply Rmult_le_pos; [done|left; by apply Rinv_0_lt_compat]|]. apply (Rmult_le_reg_r Q); [done|]. replace (I / Q * Q) with I by (field; lra). lra. }
    split; [apply Rmult_le_pos; lra|]. rewrite <- (Rmult_1_l X) at 2. apply Rmult_le_compat_r; lra. }
  split. { replace ((S + (Q * D + X)) / rho + g - (S / rho + g)) with ((Q * D + X) * / rho) by (field; lra). apply Rmult_lt_0_compat; [apply Rmult_lt_0_compat; [|done]|by apply Rinv_0_lt_compat]. assert (0 <= Q * D) by (apply Rmult_le_pos; lra). lra. }
  replace (S / rho + g + I * (((S + (Q * D + X)) / rho + g - (S / rho + g)) / Q) - (g + (2 * (S + I * D) + 1) / (2 * rho))) with ((I / Q * X - 1 / 2) * / rho) by (field; lra).
  set (Y := I / Q * X) in *. clearbody Y. apply Rabs_le. split.
  - assert (- (D - 1 / 2) <= Y - 1 / 2) as H by lra. apply (Rmult_le_compat_r (/ rho)) in H; [|lra]. unfold Rdiv at 1. lra.
  - apply Rmult_le_compat_r; lra.
Qed.
Lemma time_deviation dt ts t_end steps k n it : ok_steps dt ts t_end steps -> steps !! k = Some n -> interval 0 t_end (N.of_nat (length steps)) = Some it ->
  - dt < INR k * it - INR n * dt < ts.
Proof.
  intros [[Hd Hts] Hs Hl] Hk. unfold interval. rewrite Nat2N.id. destruct (Req_EM_T _ 0) as [|Hne]; [done|]. intros [= <-]. destruct (Hs k n Hk) as [_ [H1 H2]].
  pose proof (lookup_lt_Some _ _ _ Hk) as Hkl. assert (exists m, length steps = S m) as [m Em] by (exists (length steps - 1)%nat; lia). rewrite Em in *. rewrite S_INR in *.
  destruct (lookup_lt_is_Some_2 steps m) as [nm Hm]; [lia|]. destruct (Hs m nm Hm) as [H3 _].
  assert (0 < INR m) as Hm0 by (pose proof (pos_INR m); lra). assert (INR k <= INR m) as Hkm by (apply le_INR; lia). pose proof (pos_INR k) as Hk0. clear Hm Hs Hk Em Hkl.
  replace (INR m + 1 - 1) with (INR m) by ring. set (K := INR k) in *. set (M := INR m) in *. set (N := INR n) in *. clearbody K M N.
  assert (0 <= K / M <= 1) as [F1 F2]. { split; [apply Rmult_le_pos; [done|left; by apply Rinv_0_lt_compat]|]. apply (Rmult_le_reg_r M); [done|]. replace (K / M * M) with K by (field; lra). lra. }
  replace (K * ((t_end - 0) / M)) with (K * ts + K / M * (t_end - M * ts)) by (field; lra). set (X := t_end - M * ts). assert (0 <= X < ts) as [X1 X2] by (unfold X; lra). clearbody X.
  assert (0 <= K / M * X) by (apply Rmult_le_pos; lra). assert (K / M * X <= 1 * X) by (apply Rmult_le_compat_r; lra). lra.
Qed.

Lemma interval_some a b n : (1 < n)%N -> exists iv, interval a b n = Some iv.
Proof. intros Hn. unfold interval. destruct (Req_EM_T _ 0) as [E|]; [|eauto]. exfalso. assert (2 <= N.to_nat n)%nat as H by lia. apply le_INR in H. simpl (INR 2) in H. lra. Qed.

(** The first sample along r and z is always assigned to a position half a cell before the one where the field was recorded. *)
Theorem C59_first_sample_refuted geom request rho cz cr sz sr nz nr : ok_region geom request rho cz cr sz sr nz nr ->
  exists stored, region_stored geom rho [sz; sr] [nz; nr] = Some stored /\
    zmin stored = point_pos (zmin geom) rho (2 * Z.of_N sz + 1) - 1 / (2 * rho) /\ rmin stored = point_pos (rmin geom) rho (2 * Z.of_N sr + 1) - 1 / (2 * rho).
Proof.
  intros H. destruct (region_is _ _ _ _ _ _ _ _ _ H) as [_ E2]. eexists. split; [exact E2|]. destruct H as [Hr _ _ _ _ _ _].
  assert (forall s g, INR (N.to_nat s) / rho + g = point_pos g rho (2 * Z.of_N s + 1) - 1 / (2 * rho)) as Hp.
  { intros s g. unfold point_pos. rewrite plus_IZR, mult_IZR, INR_IZR_INZ. replace (Z.of_nat (N.to_nat s)) with (Z.of_N s) by lia. field. lra. }
  split; apply Hp.
Qed.

(** * The Green's function of a whole calculation *)
Section green.
Context (vd : nat) (junk : N) (L : lib) (geom request : cylinder) (rho : R) (cz cr sz sr nz nr : N) (fuelT fuelM : nat) (dt timestep t_end : R) (steps : list nat)
    (size2 : nat) (cs2 : list nat) (d : N) (ov : nat) (csize : N) (ct cl jobs : nat) (chunks : nat -> list (list Z * list Z)) (M : nat -> list Z -> list N)
    (cut : nat -> nat -> nat -> list nat -> bool) (names : nat -> nat -> nat -> nat -> bytes) (uuids2 : nat -> nat -> bytes).
Context (fuel p0 size : nat) (ord : nat -> list N -> list N) (ordm : list N -> list N) (ord2 : nat -> list N -> list N) (ordm2 : list N -> list N).
Local Notation run := (calculate_green vd junk L geom request rho cz cr fuelT fuelM dt timestep t_end size2 cs2 d ov csize ct cl fuel p0 size jobs chunks M cut names ord ordm uuids2 ord2 ordm2).
Local Notation T := (length steps).
Local Notation field_at := (fun t p => M (steps !!! t) p).
Local Notation ok := (ok_calculate vd cz cr sz sr nz nr d ov csize ct cl jobs chunks field_at names T uuids2).

(** A whole calculation with at least two samples along every axis: the element at r, z, t is the field at a point whose distance from the coordinates of
    the element is less than [d] cells along r and z, and less than a time step (or one of meep's) in time. *)
Theorem C59_green_function_partial : lib_ok L -> (junk < 2 ^ 32)%N -> ok_region geom request rho cz cr sz sr nz nr -> ok_steps dt timestep t_end steps ->
  (T < fuelT)%nat -> Forall (fun n => n < fuelM)%nat steps -> ok -> orders ord ordm ord2 ordm2 -> partition_steps jobs fuel p0 -> acceptable_chunk 3 cs2 ->
  (d < nz)%N -> (d < nr)%N -> (2 <= T)%nat ->
  exists dout (start end_ iv : R * R * R), run = Done (dout, (start, end_, iv)) /\ start.2 = 0 /\ end_.2 = t_end /\
    (start.1.1 <= rmin request < start.1.1 + 1 / rho) /\ (rmax request - 2 / rho < end_.1.1 <= rmax request) /\
    (start.1.2 <= zmin request < start.1.2 + 1 / rho) /\ (zmax request - 2 / rho < end_.1.2 <= zmax request) /\
    0 < iv.1.1 /\ 0 < iv.1.2 /\ 0 < iv.2 /\
    start.1.1 + INR (N.to_nat (samples nr d) - 1) * iv.1.1 = end_.1.1 /\ start.1.2 + INR (N.to_nat (samples nz d) - 1) * iv.1.2 = end_.1.2 /\ INR (T - 1) * iv.2 = end_.2 /\
    forall r z t n v, (r * d < nr)%N -> (z * d < nz)%N -> steps !! t = Some n ->
      kept_field vd sz sr d ov jobs chunks field_at cut t [sz + z * d; sr + r * d]%N v -> ov = 0%nat \/ ~ null_vector v ->
      exists l2 w l3, lib_open vd 3 junk L size2 cs2 dout = Done l2 /\ lib_get vd 3 junk [r; z; N.of_nat t] l2 = Done (w, l3) /\ comes_back NullSuppressed v w /\
        exists pz pr, (~ null_vector v -> v = M n [pz; pr]) /\
          Rabs (start.1.1 + INR (N.to_nat r) * iv.1.1 - point_pos (rmin geom) rho pr) <= (INR (N.to_nat d) - 1 / 2) / rho /\
          Rabs (start.1.2 + INR (N.to_nat z) * iv.1.2 - point_pos (zmin geom) rho pz) <= (INR (N.to_nat d) - 1 / 2) / rho /\
          - dt < INR t * iv.2 - INR n * dt < timestep.
Proof using.
  intros HL Hj Hreg Hst Hft Hfm Hok Ho Hp Hcs Dz Dr HT.
  destruct (region_is _ _ _ _ _ _ _ _ _ Hreg) as [E1 E2]. pose proof (C59_steps dt timestep t_end steps fuelT fuelM Hst Hft Hfm) as E3.
  destruct (C60_shape vd junk L cz cr sz sr nz nr d ov csize ct cl jobs chunks field_at cut names T uuids2 fuel p0 size ord ordm ord2 ordm2 size2 cs2 HL Hj Hok Ho Hp Hcs) as (dout & l2 & g & l3 & E4 & E5 & E6 & E7 & _).
  destruct (ca_domain _ _ _ _ _ _ _ _ _ _ _ _ _ _ _ _ _ _ Hok) as (D1 & D2 & D3 & D4 & D5).
  assert (forall n, (0 < n)%N -> (d < n)%N -> (1 < samples n d)%N) as Hsam by (intros n Hn Hdn; apply samples_iff; lia).
  destruct (interval_some (rmin (cells_region geom rho sz sr nz nr)) (rmax (cells_region geom rho sz sr nz nr)) (samples nr d) (Hsam nr D2 Dr)) as [ir Er].
  destruct (interval_some (zmin (cells_region geom rho sz sr nz nr)) (zmax (cells_region geom rho sz sr nz nr)) (samples nz d) (Hsam nz D1 Dz)) as [iz Ez].
  destruct (interval_some 0 t_end (N.of_nat T) ltac:(lia)) as [it Et].
  destruct Hreg as [Hr _ _ _ _ [S1 S2] [N1 N2]]. destruct (axis_region _ _ _ _ _ _ Hr S1 N1) as [Az Bz]. destruct (axis_region _ _ _ _ _ _ Hr S2 N2) as [Ar Br].
  assert (forall a b n iv, interval a b n = Some iv -> (0 < n)%N -> a + INR (N.to_nat n - 1) * iv = b) as Hend.
  { intros a b n iv. unfold interval. destruct (Req_EM_T _ 0); [done|]. intros [= <-] Hn. rewrite minus_INR by lia. change (INR 1) with 1. field. lra. }
  assert (0 < it) as It.
  { pose proof (Hend _ _ _ _ Et ltac:(lia)) as H. rewrite Nat2N.id, Rplus_0_l in H. destruct Hst as [[_ Hts] Hs _]. destruct (lookup_lt_is_Some_2 steps 1%nat) as [n1 Hn1]; [lia|]. destruct (Hs _ _ Hn1) as [H' _]. simpl (INR 1) in H'.
    assert (0 < INR (T - 1)) as Hp0 by (apply lt_0_INR; lia). apply (Rmult_lt_reg_l (INR (T - 1))); [done|]. lra. }
  destruct (axis_deviation (rmin geom) rho sr nr d 0 ir Hr D2 D3 (proj1 (samples_le nr d D2 D3)) Er) as [Ir _].
  destruct (axis_deviation (zmin geom) rho sz nz d 0 iz Hr D1 D3 (proj1 (samples_le nz d D1 D3)) Ez) as [Iz _].
  exists dout, (rmin (cells_region geom rho sz sr nz nr), zmin (cells_region geom rho sz sr nz nr), 0), (rmax (cells_region geom rho sz sr nz nr), zmax (cells_region geom rho sz sr nz nr), t_end), (ir, iz, it).
  split.
  { unfold calculate_green. rewrite E1. cbn [of_opt mbind res_bind]. rewrite E2. cbn [of_opt mbind res_bind]. rewrite E3. cbn [of_opt mbind res_bind]. rewrite E4. cbn [mbind res_bind]. rewrite E5. cbn [mbind res_bind]. rewrite E6. cbn [mbind res_bind].
    rewrite E7. unfold out_shape, green_coords. rewrite Er. cbn [mbind option_bind]. rewrite Ez. cbn [mbind option_bind]. rewrite Et. cbn [mbind option_bind of_opt res_bind]. reflexivity. }
  cbn [fst snd]. split; [done|]. split; [done|]. split; [exact Ar|]. split; [exact Br|]. split; [exact Az|]. split; [exact Bz|]. split; [exact Ir|]. split; [exact Iz|]. split; [exact It|].
  split; [apply Hend; [exact Er|apply samples_le; done]|]. split; [apply Hend; [exact Ez|apply samples_le; done]|].
  split; [pose proof (Hend _ _ _ _ Et ltac:(lia)) as H; rewrite Nat2N.id in H; lra|].
  intros r z t n v Hrr Hzz Hn Hk Hnn. pose proof (lookup_lt_Some _ _ _ Hn) as Ht.
  destruct (C60_element vd junk L cz cr sz sr nz nr d ov csize ct cl jobs chunks field_at cut names T uuids2 fuel p0 size ord ordm ord2 ordm2 size2 cs2 r z t v HL Hj Hok Ho Hp Hcs Hrr Hzz Ht Hk Hnn) as (dout' & l2' & w & l3' & F1 & F2 & F3 & F4).
  rewrite E4 in F1. injection F1 as <-. exists l2', w, l3'. split; [exact F2|]. split; [exact F3|]. split; [exact F4|].
  exists (2 * Z.of_N (sz + z * d) + 1)%Z, (2 * Z.of_N (sr + r * d) + 1)%Z. split.
  { intros Hv. destruct Hk as (m & j & c & _ & _ & _ & ->). unfold stored_value in *. destruct (cut m t j _) eqn:Ecut.
    - destruct Hv. apply list.Forall_forall. intros y Hy. apply elem_of_replicate in Hy as [-> _]. by left.
    - rewrite (list_lookup_total_correct _ _ _ Hn). done. }
  apply samples_iff in Hrr; [|done..]. apply samples_iff in Hzz; [|done..].
  split; [exact (proj2 (axis_deviation (rmin geom) rho sr nr d r ir Hr D2 D3 Hrr Er))|]. split; [exact (proj2 (axis_deviation (zmin geom) rho sz nz d z iz Hr D1 D3 Hzz Ez))|].
  exact (time_deviation _ _ _ _ _ _ _ Hst Hn Et).
Qed.
End green.

(** * The hypotheses are met: 8 x 4 cells of size one, two processes (r = 0, 1 and r = 2, 3), the region z in [2.5, 6.75], r in [0, 3] is requested, every
    second cell is stored, overlap 1; slices every unit of time until 2.5, meep's step is 1/2. *)
Definition co_ex_geom : cylinder := Cyl 0 4 0 8.
Definition co_ex_request : cylinder := Cyl 0 3 (5 / 2) (27 / 4).
Definition co_ex_steps : list nat := [0; 2; 4]%nat.
Definition co_ex_chunks (m : nat) : list (list Z * list Z) := match m with 0%nat => [([1; 1], [15; 3])%Z] | _ => [([1; 5], [15; 7])%Z] end.
Lemma co_ex_region : ok_region co_ex_geom co_ex_request 1 8 4 2 0 4 3.
Proof.
  split; unfold whole; cbn [co_ex_geom co_ex_request zmin zmax rmin rmax]; change (N.to_nat 8) with 8%nat; change (N.to_nat 0) with 0%nat; change (N.to_nat 2) with 2%nat; change (N.to_nat 4) with 4%nat; change (N.to_nat 3) with 3%nat; simpl (INR _); [lra|lra|lra|done|lra|lra|lra].
Qed.
Lemma co_ex_ok_steps : ok_steps (1 / 2) 1 (5 / 2) co_ex_steps.
Proof.
  split; [lra| |simpl (length _); simpl (INR _); lra]. intros [|[|[|k]]] n Hk; cbn in Hk; try discriminate Hk; injection Hk as <-; simpl (INR _); lra.
Qed.
Example C59_hypotheses_nonvacuous : ok_region co_ex_geom co_ex_request 1 8 4 2 0 4 3 /\ ok_steps (1 / 2) 1 (5 / 2) co_ex_steps /\
  ok_calculate 1 8 4 2 0 4 3 2 1 2%N 2 2 2 co_ex_chunks (fun t p => st_E (co_ex_steps !!! t) p) ca_ex_names (length co_ex_steps) ca_ex_names2 /\ partition_steps 2 5 1 /\
  kept_field 1 2 0 2 1 2 co_ex_chunks (fun t p => st_E (co_ex_steps !!! t) p) (fun _ _ _ _ => false) 1 [2 + 1 * 2; 0 + 1 * 2]%N [295%N] /\ ~ null_vector [295%N].
Proof.
  split; [exact co_ex_region|]. split; [exact co_ex_ok_steps|].
  assert (forall m j c, (m < 2)%nat -> co_ex_chunks m !! j = Some c -> j = 0%nat /\ ((m = 0%nat /\ c = ([1; 1], [15; 3])%Z) \/ (m = 1%nat /\ c = ([1; 5], [15; 7])%Z))) as Hreg.
  { intros [|[|m]] [|j] c Hm Hj; cbn in Hj; try discriminate Hj; try lia; injection Hj as <-; auto. }
  assert (forall c m, (m < 2)%nat -> c ∈ co_ex_chunks m -> sim_chunk 2 c) as Hsc.
  { intros c m Hm (j & Hj)%elem_of_list_lookup. destruct (Hreg m j c Hm Hj) as [_ [[_ ->]|[_ ->]]]; (split; [done|]); (split; [done|]); (split; [by repeat constructor|]); split; repeat constructor; try done; match goal with |- Z.Odd ?z => exists (z / 2)%Z; done end. }
  split; [|split; [split; [lia|]; split; [lia|done]|]; split].
  - split.
    + lia.
    + done.
    + split; [simpl; lia|done].
    + lia.
    + split; [lia|done].
    + intros m c Hm Hc. by apply (Hsc c m).
    + intros m m' j j' c c' x Hm Hm' Hj Hj' [Hx Hy] [Hx' Hy']. destruct (Hreg m j c Hm Hj) as [-> [[-> ->]|[-> ->]]], (Hreg m' j' c' Hm' Hj') as [-> [[-> ->]|[-> ->]]]; try done; exfalso; cbn [fst snd] in *;
      (destruct x as [|x0 [|x1 [|? ?]]]; unfold centre in *; rewrite ?list.fmap_cons, ?list.fmap_nil in *; repeat match goal with H : Forall2 _ _ _ |- _ => inversion_clear H end; lia).
    + intros x [H1 H2]. destruct x as [|x0 [|x1 [|? ?]]]; cbn [zip_with] in H2; repeat match goal with H : Forall2 _ _ _ |- _ => inversion_clear H end.
      destruct (N.lt_ge_cases x1 2) as [Hx|Hx]; [exists 0%nat, 0%nat, ([1; 1], [15; 3])%Z|exists 1%nat, 0%nat, ([1; 5], [15; 7])%Z]; (split; [lia|]); (split; [done|]); unfold cell_in, centre; rewrite !list.fmap_cons, list.fmap_nil; cbn [fst snd]; split; repeat constructor; lia.
    + intros t p. generalize (co_ex_steps !!! t). intros t'. split; [done|]. constructor; [|done]. unfold st_E. pose proof (Z.mod_pos_bound (100 * Z.of_nat t' + 10 * default 0%Z (p !! 0%nat) + default 0%Z (p !! 1%nat)) 1000 ltac:(lia)). lia.
    + vm_compute. done.
    + vm_compute. done.
    + vm_compute. done.
    + vm_compute. done.
    + vm_compute. done.
    + intros m t j c k Hm Ht Hj Hk. split; [done|]. split; [done|]. assert (N.of_nat k < 9)%N as Hk2. { destruct (Hreg m j c Hm Hj) as [_ [[_ ->]|[_ ->]]]; (eapply N.lt_le_trans; [exact Hk|vm_compute; done]). }
      destruct (Hreg m j c Hm Hj) as [-> _]. simpl (length _) in Ht. split; [repeat constructor; lia|]. intros m' t' j' c' k' _ _ _ _ Heq. unfold ca_ex_names in Heq. injection Heq as E1 E2 E3 E4. lia.
    + assert (foldr N.mul 1%N ((fun n => samples n 2) <$> out_shape 4 3 2 (length co_ex_steps)) = 2%N) as -> by reflexivity. intros n i Hn Hi. split; [done|]. split; [done|]. split; [repeat constructor; lia|]. intros m j _ _ Heq. unfold ca_ex_names2 in Heq. injection Heq as E1 E2. lia.
  - exists 1%nat, 0%nat, ([1; 5], [15; 7])%Z. split; [lia|]. split; [done|]. split; [split; vm_compute; repeat constructor; done|vm_compute; done].
  - intros H. apply list.Forall_cons in H as [[H|H] _]; discriminate H.
Qed.
Print Assumptions C59_region_partial.
Print Assumptions C59_aligned_region.
Print Assumptions C59_request_refuted.
Print Assumptions C59_steps.
Print Assumptions C59_first_sample_refuted.
Print Assumptions C59_green_function_partial.
