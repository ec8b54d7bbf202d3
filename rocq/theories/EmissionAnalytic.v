(** C69, from the beginning to the end: the signals of several tracks, and of a shower, in the Green's function that the analytic calculator has stored. *)
From stdpp Require Import base sets list list_numbers numbers option gmap countable.
From Coq Require Import Reals Lra Lia NArith ZArith.
From Verif Require Import IndexSpec NDArrayModel CodecModel StreamerModel StreamerProps KernelModel KernelProps BBoxModel BBoxProps RTreeModel RTreeInsert RTreeProps ChunkMetaModel
  ChunkCacheModel ChunkCacheSpec LibraryModel LibrarySpec RebuildSpec SignalModel SignalProps FillModel FillSpec ReadModel ReadSpec ReadProps AnalyticModel AnalyticSpec AnalyticProps ReadAnalytic
  ShowerModel ShowerSpec ShowerProps EmissionModel EmissionSpec EmissionProps LibrarySpec ReadSpec.
Local Open Scope R_scope.
Local Opaque lib_open electric_dipole apply_accumulate_on int_max.

Section end_to_end.
Context (junk : N) (L : lib) (F : R -> R -> R -> list N) (ar az br bz t_end dr dz dt : R) (nr nz nt max_pts : nat) (uuids uuids2 : nat -> bytes) (ord : list N -> list N) (size2 : nat) (cs2 : list nat).
Local Notation run := (electric_dipole 2 junk L F ar az br bz t_end dr dz dt max_pts uuids uuids2 ord).
Local Notation ok := (ok_dipole 2 F ar az br bz t_end dr dz dt nr nz nt max_pts uuids uuids2).
Local Notation step a b n := ((b - a) / INR n).
Local Notation start := (ar, az, 0).
Local Notation interval := (step ar br nr, step az bz nz, step 0 t_end nt).
Local Notation g := (samples F ar az br bz t_end nr nz nt).

(** The track, in [n] steps of at most one, is in the region of the calculation for all delays at which it is needed: at least one step away from the first radius,
    or one step inside in height and delay; and no delay is a multiple of the time step of the field (see C63_analytic_signal_keys). *)
Definition in_region (t0 samp : R) (num : nat) (seg : segment) (n : nat) : Prop :=
  s_t0 seg < s_t1 seg /\ INR n - 1 < s_t1 seg - s_t0 seg <= INR n /\
  (forall p, (p <= n)%nat -> - (2 ^ 31) <= (time_at seg n p - t0) / samp <= 2 ^ 31 - 1) /\
  forall p j, (p <= n)%nat -> (j < num)%nat -> time_at seg n p <= t0 + INR j * samp ->
    let r := radius (along seg n p) in let z := (along seg n p).2 in let s := t0 + INR j * samp - time_at seg n p in
    ar <= r <= br /\ az <= z <= bz /\ s <= t_end /\
    (ar + step ar br nr <= r \/ (az + step az bz nz <= z < bz - step az bz nz /\ step 0 t_end nt <= s < t_end - step 0 t_end nt)) /\
    (forall k, (0 < k <= nt)%nat -> s <> INR k * step 0 t_end nt).

Lemma region_seen St t0 samp num seg n : ok -> finite_field F ->
  (forall seg n p s, let G := coords start interval in ar <= radius (along seg n p) <= br -> az <= (along seg n p).2 <= bz -> 0 <= s <= t_end ->
      (k_support keys = 1%nat \/ forall k, (0 < k <= nt)%nat -> ind_t G s <> INR k) ->
      off_ends St keys (ind_t G s) /\ served St (ind_r G seg n p) (ind_z G seg n p) (ind_t G s)) ->
  in_region t0 samp num seg n -> seen start interval St keys (usable F ar az br bz t_end nr nz nt) g false t0 samp num seg n.
Proof using.
  intros Hok Hfin Hpos (H1 & H2 & H3 & H4). split; [exact H1|]. split; [exact H2|]. split; [exact H3|]. intros p j Hp Hj Ht. destruct (H4 p j Hp Hj Ht) as (B1 & B2 & B3 & Hin & Hoff). cbv zeta.
  destruct (keys_usable F ar az br bz t_end dr dz dt nr nz nt max_pts uuids uuids2 seg n p (t0 + INR j * samp - time_at seg n p) Hok Hfin B1 B2 Hin Hoff) as [Hu Ho].
  split; [exact Hu|]. destruct (Hpos seg n p (t0 + INR j * samp - time_at seg n p) B1 B2 ltac:(lra) Ho) as [Q1 Q2]. split; [exact Q1|]. left. exact Q2.
Qed.

(** The signal of any tracks in the region: the sum of the signals of the tracks in the interpolated field. *)
Theorem C69_analytic tracks t0 samp num signal :
  lib_ok L -> (junk < 2 ^ 32)%N -> ok -> finite_field F -> (forall k, ord k ≡ₚ k) -> acceptable_chunk 3 cs2 -> 0 < samp ->
  Forall (fun sn => in_region t0 samp num sn.1 sn.2) tracks -> (num <= length signal)%nat ->
  exists d l l', run = Done (d, (start, (br, bz, t_end), interval)) /\ lib_open 2 3 junk L size2 cs2 d = Done l /\
    accumulate_tracks junk start interval (fst <$> tracks) t0 samp num signal l =
      Done (plus_samples t0 samp num (fun t => total start interval keys g 1 t tracks) signal, l').
Proof using.
  intros HL Hj Hok Hfin Hord Hcs Hsamp Hall Hlen.
  destruct (analytic_session junk L F ar az br bz t_end dr dz dt nr nz nt max_pts uuids uuids2 ord size2 cs2 keys HL Hj Hok Hord Hcs (or_intror eq_refl)) as (d & l & St & Erun & Eopen & Hs & Hsam & Hov & Hint & Hpos).
  destruct (C69_tracks junk start interval L HL St (usable F ar az br bz t_end nr nz nt) g t0 samp num Hsam Hsamp Hint tracks Hov) with (l := l) (signal := signal) as (l' & E & _).
  - rewrite list.Forall_forall in Hall |- *. intros sn Hsn. exact (region_seen St t0 samp num sn.1 sn.2 Hok Hfin Hpos (Hall sn Hsn)).
  - exact Hs.
  - exact Hlen.
  - exists d, l, l'. exact (conj Erun (conj Eopen E)).
Qed.

(** The signal that the example computes of a shower in the region: twice the sum of the signals of its tracks (C67_tracks) in the interpolated field. *)
Theorem C69_analytic_shower density h step_t n m t0 samp num :
  lib_ok L -> (junk < 2 ^ 32)%N -> ok -> finite_field F -> (forall k, ord k ≡ₚ k) -> acceptable_chunk 3 cs2 -> 0 < samp ->
  length (p_charge (h_profile h)) = length (p_grammage (h_profile h)) -> ends_after density h step_t n -> (0 < n <= int_max)%nat -> 0 < step_t -> (forall x y z, 0 <= density x y z) ->
  (forall i, (i + 1 < n)%nat -> in_region t0 samp num (Segment (in_ns (point h step_t i)) (in_ns (point h step_t (i + 1))) (INR i * step_t) (INR (i + 1) * step_t) 1) m) ->
  exists d l segs l', run = Done (d, (start, (br, bz, t_end), interval)) /\ lib_open 2 3 junk L size2 cs2 d = Done l /\
    fill_tracks density h step_t [] = Some segs /\ length segs = (n - 1)%nat /\
    shower_emission junk start interval density h step_t t0 samp num l =
      Done ((fun j => 2 * total start interval keys g 1 (t0 + INR j * samp) ((fun seg => (seg, m)) <$> segs)) <$> seq 0 num, l').
Proof using.
  intros HL Hj Hok Hfin Hord Hcs Hsamp Hl Hend Hn Hdt Hd Hin.
  destruct (analytic_session junk L F ar az br bz t_end dr dz dt nr nz nt max_pts uuids uuids2 ord size2 cs2 keys HL Hj Hok Hord Hcs (or_intror eq_refl)) as (d & l & St & Erun & Eopen & Hs & Hsam & Hov & Hint & Hpos).
  destruct (C69_shower junk start interval L HL St (usable F ar az br bz t_end nr nz nt) g t0 samp num Hsam Hsamp Hint density h step_t n m l Hl Hend Hn Hdt Hd Hov Hs) as (segs & l' & E1 & E2 & E3 & _).
  - intros i Hi. exact (region_seen St t0 samp num _ m Hok Hfin Hpos (Hin i Hi)).
  - exists d, l, segs, l'. exact (conj Erun (conj Eopen (conj E1 (conj E2 E3)))).
Qed.
End end_to_end.
Print Assumptions C69_analytic_shower.

(** * The hypotheses are met: the field of C62_hypotheses_nonvacuous and two tracks. *)
Definition ea_seg (q : R) : segment := Segment (2, 0, - 1 / 2) (2, 1, 1 / 2) (1 / 4) (9 / 4) q.
Lemma ea_in_region q : in_region 0 (-1) (33 / 10) 1 4 3 2 4 0 1 4 (ea_seg q) 2.
Proof.
  split; [cbn; lra|]. split; [cbn; lra|]. split.
  { intros p Hp. unfold time_at. cbn [ea_seg s_t0 s_t1]. apply le_INR in Hp. pose proof (pos_INR p). change (INR 2) with 2 in *. lra. }
  intros p j Hp Hj _. cbv zeta. assert (INR p <= 2) as Hp2 by (change 2 with (INR 2); by apply le_INR). pose proof (pos_INR p). assert (INR j <= 3) as Hj2 by (replace 3 with (INR 3) by (cbn; lra); apply le_INR; lia). pose proof (pos_INR j).
  assert (2 <= radius (along (ea_seg q) 2 p) <= 33 / 10) as Hr.
  { unfold radius, along. cbn [ea_seg s_start s_end fst snd]. change (INR 2) with 2 in *. split.
    - rewrite <- (sqrt_Rsqr 2) at 1 by lra. apply sqrt_le_1_alt. unfold Rsqr. nra.
    - rewrite <- (sqrt_Rsqr (33 / 10)) by lra. apply sqrt_le_1_alt. unfold Rsqr. nra. }
  split; [lra|]. split; [unfold along; cbn [ea_seg s_start s_end fst snd]; change (INR 2) with 2; lra|]. unfold time_at. cbn [ea_seg s_t0 s_t1]. change (INR 2) with 2.
  split; [lra|]. split; [left; replace (INR 3) with 3 by (cbn; lra); lra|]. intros k _. replace (INR 4) with 4 by (cbn; lra). rewrite !INR_IZR_INZ. intros E.
  assert (IZR (4 * (Z.of_nat j - Z.of_nat p - Z.of_nat k)) = IZR 1) as E'. { rewrite mult_IZR, !minus_IZR. lra. } apply eq_IZR in E'. lia.
Qed.
Example C69_analytic_nonvacuous (size2 : nat) : exists (d : dir) (c : (R * R * R) * (R * R * R) * (R * R * R)) (l l' : clib),
  electric_dipole 2 0 lib0 an_F 0 (-1) (33 / 10) 1 4 1 1 1 2 an_names an_names2 (fun k => k) = Done (d, c) /\ lib_open 2 3 0 lib0 size2 [2; 2; 2]%nat d = Done l /\
  accumulate_tracks 0 c.1.1 c.2 [ea_seg 1; ea_seg 3] 0 1 4 [0; 0; 0; 5] l =
    Done (plus_samples 0 1 4 (fun t => total c.1.1 c.2 keys (samples an_F 0 (-1) (33 / 10) 1 4 3 2 4) 1 t [(ea_seg 1, 2%nat); (ea_seg 3, 2%nat)]) [0; 0; 0; 5], l').
Proof.
  destruct (C69_analytic 0 lib0 an_F 0 (-1) (33 / 10) 1 4 1 1 1 3 2 4 2 an_names an_names2 (fun k => k) size2 [2; 2; 2]%nat [(ea_seg 1, 2%nat); (ea_seg 3, 2%nat)] 0 1 4 [0; 0; 0; 5]) as (d & l & l' & E1 & E2 & E3).
  - exact lib0_ok.
  - done.
  - exact C62_hypotheses_nonvacuous.
  - exact C63_finite_nonvacuous.
  - done.
  - split; [done|]. split; [repeat constructor; lia|]. constructor. done.
  - lra.
  - rewrite !list.Forall_cons. split; [apply ea_in_region|]. split; [apply ea_in_region|constructor].
  - cbn. lia.
  - exists d, ((0, -1, 0), (33 / 10, 1, 4), ((33 / 10 - 0) / INR 3, (1 - -1) / INR 2, (4 - 0) / INR 4)), l, l'. split; [exact E1|]. split; [exact E2|exact E3].
Qed.
(** A vertical shower through this region, in two tracks of half a nanosecond. *)
Definition ea_shower : shower := Shower (2 * speed_of_light, 0, - 1 / 2 * speed_of_light) 0 0 (Profile [0; 5 / 2 * per_step (1 / 2)] [1; 6]) 10.
Lemma ea_ends : ends_after ice_density ea_shower (1 / 2) 3.
Proof.
  exists (5 / 2 * per_step (1 / 2)). split; [done|]. rewrite ice_depth. pose proof (per_step_pos (1 / 2) ltac:(lra)). split; [cbn [INR]; lra|].
  intros [|[|[|i]]] Hi; try lia; rewrite ice_depth; cbn [INR]; lra.
Qed.
Lemma ea_point i : in_ns (point ea_shower (1 / 2) i) = (2, 0, - 1 / 2 + INR i * (1 / 2)).
Proof.
  unfold in_ns, point, axis, ea_shower. cbn [h_start h_zenith h_azimuth fst snd]. rewrite sin_0, cos_0. pose proof ShowerProofs.light_pos as Hc. f_equal; [f_equal|]; field; lra.
Qed.
Lemma ea_shower_in_region i : (i + 1 < 3)%nat ->
  in_region 0 (-1) (33 / 10) 1 4 3 2 4 (1 / 8) 1 3 (Segment (in_ns (point ea_shower (1 / 2) i)) (in_ns (point ea_shower (1 / 2) (i + 1))) (INR i * (1 / 2)) (INR (i + 1) * (1 / 2)) 1) 1.
Proof.
  intros Hi. rewrite !ea_point, plus_INR. change (INR 1) with 1. assert (INR i <= 1) as Hi1 by (change 1 with (INR 1); apply le_INR; lia). pose proof (pos_INR i) as Hi0.
  set (seg := Segment _ _ _ _ _). split; [cbn; lra|]. split; [cbn; lra|]. split.
  { intros p Hp. unfold time_at. cbn [seg s_t0 s_t1]. apply le_INR in Hp. pose proof (pos_INR p). change (INR 1) with 1 in *. nra. }
  intros p j Hp Hj _. cbv zeta. assert (INR p <= 1) as Hp2 by (change 1 with (INR 1); by apply le_INR). pose proof (pos_INR p). assert (INR j <= 2) as Hj2 by (change 2 with (INR 2); apply le_INR; lia). pose proof (pos_INR j).
  assert (radius (along seg 1 p) = 2) as Hr. { unfold radius, along. cbn [seg s_start s_end fst snd]. change (INR 1) with 1. transitivity (sqrt (2 * 2)); [f_equal; field|apply sqrt_square; lra]. }
  rewrite Hr. split; [lra|]. split; [unfold along; cbn [seg s_start s_end fst snd]; change (INR 1) with 1; lra|]. unfold time_at. cbn [seg s_t0 s_t1]. change (INR 1) with 1.
  split; [lra|]. split; [left; replace (INR 3) with 3 by (cbn; lra); lra|]. intros k _. replace (INR 4) with 4 by (cbn; lra). rewrite !INR_IZR_INZ. intros E.
  assert (IZR (8 * (Z.of_nat j - Z.of_nat k) - 4 * Z.of_nat i - 4 * Z.of_nat p) = IZR (-1)) as E'. { rewrite !minus_IZR, !mult_IZR, !minus_IZR. lra. } apply eq_IZR in E'. lia.
Qed.
Example C69_analytic_shower_nonvacuous (size2 : nat) : exists (d : dir) (c : (R * R * R) * (R * R * R) * (R * R * R)) (l l' : clib) a b,
  electric_dipole 2 0 lib0 an_F 0 (-1) (33 / 10) 1 4 1 1 1 2 an_names an_names2 (fun k => k) = Done (d, c) /\ lib_open 2 3 0 lib0 size2 [2; 2; 2]%nat d = Done l /\
  fill_tracks ice_density ea_shower (1 / 2) [] = Some [a; b] /\
  shower_emission 0 c.1.1 c.2 ice_density ea_shower (1 / 2) (1 / 8) 1 3 l =
    Done ((fun j => 2 * total c.1.1 c.2 keys (samples an_F 0 (-1) (33 / 10) 1 4 3 2 4) 1 (1 / 8 + INR j * 1) [(a, 1%nat); (b, 1%nat)]) <$> [0; 1; 2]%nat, l').
Proof.
  destruct (C69_analytic_shower 0 lib0 an_F 0 (-1) (33 / 10) 1 4 1 1 1 3 2 4 2 an_names an_names2 (fun k => k) size2 [2; 2; 2]%nat ice_density ea_shower (1 / 2) 3 1 (1 / 8) 1 3) as (d & l & segs & l' & E1 & E2 & E3 & Hl & E4).
  - exact lib0_ok.
  - done.
  - exact C62_hypotheses_nonvacuous.
  - exact C63_finite_nonvacuous.
  - done.
  - split; [done|]. split; [repeat constructor; lia|]. constructor. done.
  - lra.
  - done.
  - exact ea_ends.
  - pose proof int_max_5. lia.
  - lra.
  - exact ice_density_pos.
  - exact ea_shower_in_region.
  - destruct segs as [|a [|b [|]]]; try discriminate Hl. exists d, ((0, -1, 0), (33 / 10, 1, 4), ((33 / 10 - 0) / INR 3, (1 - -1) / INR 2, (4 - 0) / INR 4)), l, l', a, b. split; [exact E1|]. split; [exact E2|]. split; [exact E3|exact E4].
Qed.
