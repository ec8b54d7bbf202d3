(** C67: the line currents of a shower. *)
From stdpp Require Import base list list_numbers numbers option.
From Coq Require Import Reals Lra Lia ZArith.
From Verif Require Import NDArrayModel NDArrayProofs SignalModel ShowerModel ShowerSpec ShowerProofs.
Local Open Scope R_scope.
Local Opaque int_max.

Section props.
Context (density : R -> R -> R -> R) (h : shower) (dt : R).
Local Notation pt := (point h dt). Local Notation dep := (depth density h dt).
Local Notation pr := (h_profile h).

Lemma shower_filled n v : length (p_charge pr) = length (p_grammage pr) -> ends_after density h dt n -> (0 < n <= int_max)%nat ->
  0 <= dt -> (forall x y z, 0 <= density x y z) -> exists v', get_shower density h dt v = Some v' /\ filled density h dt n n v'.
Proof using.
  intros Hlen (maxg & Hmax & Hge & Hlt) Hn Hdt Hd. unfold get_shower. rewrite Hmax. cbn [mbind option_bind].
  pose proof (count_spec density h dt maxg n Hge Hlt n 0 int_max eq_refl (proj2 Hn)) as Hc. rewrite point_0 in Hc. cbn [depth] in Hc. rewrite Hc. cbn [mbind option_bind].
  destruct (lookup_lt_is_Some_2 (p_charge pr) 0) as [q Hq]; [apply lookup_lt_Some in Hmax; lia|].
  apply (points_spec density h dt n maxg Hmax Hlen Hlt) with (q := q); [|lia|done]. intros i _. cbn [depth]. pose proof light_pos.
  pose proof (Rmult_le_pos _ _ (Hd (pt i).1.1 (pt i).1.2 (pt i).2) (Rmult_le_pos _ _ Hdt (Rlt_le _ _ light_pos))). lra.
Qed.

(** The tracks: one after each other along the shower axis in steps of [dt], until the profile ends.  Their charge is the one of the profile at the depth where
    they begin, times the scaling; except for the first one. *)
Theorem C67_tracks n out : length (p_charge pr) = length (p_grammage pr) -> ends_after density h dt n -> (0 < n <= int_max)%nat ->
  0 <= dt -> (forall x y z, 0 <= density x y z) ->
  exists segs, fill_tracks density h dt out = Some (out ++ segs) /\ length segs = (n - 1)%nat /\
    forall i seg, segs !! i = Some seg ->
      s_start seg = in_ns (pt i) /\ s_end seg = in_ns (pt (S i)) /\ s_t0 seg = INR i * dt /\ s_t1 seg = INR (S i) * dt /\
      (i = 0%nat -> p_charge pr !! 0%nat = Some (s_charge seg)) /\
      ((0 < i)%nat -> exists q, charge_at pr (dep i) q /\ s_charge seg = q * h_scaling h).
Proof using.
  intros Hlen Hend Hn Hdt Hd. destruct (shower_filled n (Vectors [] [] [] [] []) Hlen Hend Hn Hdt Hd) as (v & Hv & Hf). unfold fill_tracks. rewrite Hv. cbn [mbind option_bind].
  rewrite (proj1 (fi_len _ _ _ _ _ _ Hf)). destruct (tracks_spec density h dt n v out Hf (n - 1) ltac:(lia)) as (qs & Hl & Hqs & ->).
  eexists. split; [reflexivity|]. split; [by rewrite imap_length|]. intros i seg Hs. rewrite list_lookup_imap in Hs. destruct (qs !! i) as [q|] eqn:Hq; [|discriminate]. injection Hs as <-.
  pose proof (lookup_lt_Some _ _ _ Hq) as Hi. rewrite Hl in Hi. rewrite <- Hqs in Hq by done. cbn [track_of s_start s_end s_t0 s_t1 s_charge]. split_and!; try done.
  - intros ->. by rewrite <- (fi_first _ _ _ _ _ _ Hf).
  - intros Hi0. destruct (fi_ce _ _ _ _ _ _ Hf i ltac:(lia)) as (q' & Hq' & E). exists q'. split; [done|]. congruence.
Qed.

(** Each track begins where and when the one before ends. *)
Theorem C67_contiguous n out segs : length (p_charge pr) = length (p_grammage pr) -> ends_after density h dt n -> (0 < n <= int_max)%nat ->
  0 <= dt -> (forall x y z, 0 <= density x y z) -> fill_tracks density h dt out = Some (out ++ segs) ->
  (forall a, segs !! 0%nat = Some a -> s_start a = in_ns (h_start h) /\ s_t0 a = 0) /\
  forall i a b, segs !! i = Some a -> segs !! S i = Some b -> s_start b = s_end a /\ s_t0 b = s_t1 a.
Proof using.
  intros Hlen Hend Hn Hdt Hd Hrun. destruct (C67_tracks n out Hlen Hend Hn Hdt Hd) as (segs' & E & _ & Hs). rewrite Hrun in E. apply (inj Some), (inj (app out)) in E. subst segs'. split.
  - intros a Ha. destruct (Hs _ _ Ha) as (-> & _ & -> & _). rewrite point_0. split; [done|]. cbn. ring.
  - intros i a b Ha Hb. destruct (Hs _ _ Ha) as (_ & -> & _ & -> & _). destruct (Hs _ _ Hb) as (-> & _ & -> & _). done.
Qed.

(** The charge moves at the speed of light (one, in the units of the tracks) for [dt] along every track. *)
Theorem C67_speed n out segs : length (p_charge pr) = length (p_grammage pr) -> ends_after density h dt n -> (0 < n <= int_max)%nat ->
  0 <= dt -> (forall x y z, 0 <= density x y z) -> fill_tracks density h dt out = Some (out ++ segs) ->
  forall seg, seg ∈ segs -> s_t1 seg - s_t0 seg = dt /\ distance (s_start seg) (s_end seg) = s_t1 seg - s_t0 seg.
Proof using.
  intros Hlen Hend Hn Hdt Hd Hrun seg Hin. destruct (C67_tracks n out Hlen Hend Hn Hdt Hd) as (segs' & E & _ & Hs). rewrite Hrun in E. apply (inj Some), (inj (app out)) in E. subst segs'.
  apply elem_of_list_lookup in Hin as (i & Hi). destruct (Hs _ _ Hi) as (-> & -> & -> & -> & _). assert (INR (S i) * dt - INR i * dt = dt) as Edt by (rewrite S_INR; ring). split; [done|]. rewrite Edt.
  unfold distance, in_ns, point, axis. cbn [fst snd]. pose proof light_pos as Hc. rewrite S_INR.
  match goal with |- sqrt ?e = _ => replace e with (dt * dt * (sin (h_zenith h) * sin (h_zenith h) * (sin (h_azimuth h) * sin (h_azimuth h) + cos (h_azimuth h) * cos (h_azimuth h)) + cos (h_zenith h) * cos (h_zenith h))) end.
  - pose proof (sin2_cos2 (h_azimuth h)) as E1. pose proof (sin2_cos2 (h_zenith h)) as E2. unfold Rsqr in E1, E2. rewrite E1, Rmult_1_r, E2, Rmult_1_r. by apply sqrt_square.
  - field. lra.
Qed.

(** Without a profile, if the profile does not go beyond depth zero, and if the depth does not increase, the behaviour is undefined. *)
Theorem C67_undefined out : 
  (p_grammage pr = [] \/ (exists m, p_grammage pr !! (length (p_grammage pr) - 1)%nat = Some m /\ m <= 0) \/
   (exists m, p_grammage pr !! (length (p_grammage pr) - 1)%nat = Some m /\ 0 < m /\ dt <= 0 /\ forall x y z, 0 <= density x y z)) ->
  fill_tracks density h dt out = None.
Proof using.
  intros H. unfold fill_tracks. assert (get_shower density h dt (Vectors [] [] [] [] []) = None) as ->; [|done]. unfold get_shower. destruct H as [->|[(m & -> & Hm)|(m & -> & Hm & Hdt & Hd)]]; [done|..]; cbn [mbind option_bind].
  - assert (count_points density h int_max (dt * speed_of_light) m 0 (h_start h).1.1 (h_start h).1.2 (h_start h).2 0 = Some 0%nat) as ->; [|done].
    generalize int_max as f. intros [|f]; cbn [count_points]; destruct (Rlt_dec 0 m); done || lra.
  - assert (forall i, dep i <= 0) as Hneg. { induction i as [|i IH]; cbn [depth]; [lra|]. pose proof light_pos as Hc. pose proof (Hd (pt i).1.1 (pt i).1.2 (pt i).2) as Hp. 
      assert (density (pt i).1.1 (pt i).1.2 (pt i).2 * (dt * speed_of_light) <= 0); [|lra]. 
      assert (0 <= density (pt i).1.1 (pt i).1.2 (pt i).2 * ((- dt) * speed_of_light)) as Q; [|lra]. apply Rmult_le_pos; [done|]. apply Rmult_le_pos; lra. }
    pose proof (count_none density h dt m int_max (fun i _ => Rle_lt_trans _ _ _ (Hneg i) Hm) int_max 0 (Nat.add_0_l _)) as Hc. rewrite point_0 in Hc. cbn [depth] in Hc. by rewrite Hc.
Qed.
End props.

(** ** In ice *)
Definition per_step (dt : R) : R := 917 * kilogram * (dt * speed_of_light).
Lemma per_step_pos dt : 0 < dt -> 0 < per_step dt.
Proof. intros H. unfold per_step, kilogram, joule. pose proof light_pos. apply Rmult_lt_0_compat; [lra|]. by apply Rmult_lt_0_compat. Qed.
Lemma ice_depth h dt i : depth ice_density h dt i = INR i * per_step dt.
Proof. induction i as [|i IH]; [cbn; ring|]. cbn [depth]. rewrite IH, S_INR. unfold ice_density, per_step. field. Qed.

(** In ice, the number of points is the length of the profile over the matter per step, rounded up. *)
Theorem C67_ice h dt max : p_grammage (h_profile h) !! (length (p_grammage (h_profile h)) - 1)%nat = Some max -> 0 < max -> 0 < dt ->
  max <= INR int_max * per_step dt ->
  exists n, ends_after ice_density h dt n /\ (0 < n <= int_max)%nat /\ INR (n - 1) * per_step dt < max <= INR n * per_step dt.
Proof.
  intros Hmax Hm Hdt Hfit. pose proof (per_step_pos dt Hdt) as Hp.
  assert (forall k, max <= INR k * per_step dt -> exists n, (n <= k)%nat /\ max <= INR n * per_step dt /\ forall i, (i < n)%nat -> INR i * per_step dt < max) as Hex.
  { induction k as [|k IH]; intros Hk. { exists 0%nat. split; [done|]. split; [done|]. intros; lia. }
    destruct (Rle_dec max (INR k * per_step dt)) as [H|H]; [destruct (IH H) as (n & H1 & H2); exists n; split; [lia|done]|].
    exists (S k). split; [done|]. split; [done|]. intros i Hi. assert (INR i <= INR k) by (apply le_INR; lia). pose proof (Rmult_le_compat_r (per_step dt) _ _ (Rlt_le _ _ Hp) H0). lra. }
  destruct (Hex _ Hfit) as (n & H1 & H2 & H3). exists n. assert (0 < n)%nat as Hn. { destruct n; [|lia]. cbn in H2. lra. }
  split; [|split; [done|]; split; [apply H3; lia|done]]. exists max. split; [done|]. split; [by rewrite ice_depth|]. intros i Hi. rewrite ice_depth. by apply H3.
Qed.
Lemma ice_density_pos x y z : 0 <= ice_density x y z.
Proof. unfold ice_density, kilogram, joule. lra. Qed.

(** ** Examples and what does not hold *)
(** A vertical shower; the profile is two steps of 1 ns and a half long. *)
Definition ex_shower (k : R) : shower := Shower (3, 4, -12) 0 0 (Profile [0; 5 / 2 * per_step 1] [1; 6]) k.
Lemma ex_max k : p_grammage (h_profile (ex_shower k)) !! (length (p_grammage (h_profile (ex_shower k))) - 1)%nat = Some (5 / 2 * per_step 1).
Proof. done. Qed.
Lemma int_max_5 : (5 <= int_max)%nat.
Proof. Local Transparent int_max. unfold int_max. replace (2 ^ 31 - 1)%Z with (Z.of_nat 5 + 2147483642)%Z by reflexivity. rewrite Z2Nat.inj_add, Nat2Z.id by lia. apply Nat.le_add_r. Qed.
Local Opaque int_max.
Lemma ex_ends k : ends_after ice_density (ex_shower k) 1 3.
Proof.
  exists (5 / 2 * per_step 1). split; [apply ex_max|]. rewrite ice_depth. pose proof (per_step_pos 1 ltac:(lra)). split; [cbn [INR]; lra|].
  intros [|[|[|i]]] Hi; try lia; rewrite ice_depth; cbn [INR]; lra.
Qed.
Example C67_nonvacuous : exists a b, fill_tracks ice_density (ex_shower 10) 1 [] = Some [a; b] /\ s_charge a = 1 /\ s_charge b = 30 /\ s_t1 b = 2.
Proof.
  destruct (C67_tracks ice_density (ex_shower 10) 1 3 [] eq_refl (ex_ends 10)) as (segs & E & Hl & Hs); [pose proof int_max_5; lia|lra|exact ice_density_pos|].
  destruct segs as [|a [|b [|]]]; try discriminate Hl. exists a, b. split; [done|]. destruct (Hs 0%nat a eq_refl) as (_ & _ & _ & _ & H0 & _). destruct (Hs 1%nat b eq_refl) as (_ & _ & _ & Ht & _ & H1).
  specialize (H0 eq_refl). injection H0 as <-. destruct (H1 ltac:(lia)) as (q & Hq & ->). rewrite ice_depth in Hq. pose proof (per_step_pos 1 ltac:(lra)) as Hp. split; [done|]. split; [|rewrite Ht; cbn; ring].
  destruct Hq as [(g0 & Hg0 & Hle & _)|(k & g0 & g1 & q0 & q1 & Hg0 & Hg1 & Hq0 & Hq1 & _ & _ & ->)].
  - cbn in Hg0. injection Hg0 as <-. cbn [INR] in Hle. lra.
  - destruct k as [|[|k]]; cbn in Hg0, Hg1, Hq0, Hq1; try discriminate. injection Hg0 as <-. injection Hg1 as <-. injection Hq0 as <-. injection Hq1 as <-. cbn [INR h_scaling ex_shower]. field. lra.
Qed.

(** The charge of the first track is not scaled: it is the same for every energy. *)
Theorem C67_first_scaling_refuted : exists h dt a b, let scaled k := Shower (h_start h) (h_zenith h) (h_azimuth h) (h_profile h) k in
  (exists r, fill_tracks ice_density (scaled 1) dt [] = Some (a :: r)) /\ (exists r, fill_tracks ice_density (scaled 10) dt [] = Some (b :: r)) /\
  s_charge a <> 0 /\ s_charge b = s_charge a.
Proof.
  destruct (C67_tracks ice_density (ex_shower 1) 1 3 [] eq_refl (ex_ends 1)) as (segs & E & Hl & Hs); [pose proof int_max_5; lia|lra|exact ice_density_pos|].
  destruct (C67_tracks ice_density (ex_shower 10) 1 3 [] eq_refl (ex_ends 10)) as (segs' & E' & Hl' & Hs'); [pose proof int_max_5; lia|lra|exact ice_density_pos|].
  destruct segs as [|a r]; [discriminate Hl|]. destruct segs' as [|b r']; [discriminate Hl'|]. exists (ex_shower 1), 1, a, b. cbv zeta. split; [by exists r|]. split; [by exists r'|].
  destruct (Hs 0%nat a eq_refl) as (_ & _ & _ & _ & H0 & _). specialize (H0 eq_refl). destruct (Hs' 0%nat b eq_refl) as (_ & _ & _ & _ & H1 & _). specialize (H1 eq_refl).
  injection H0 as H0. injection H1 as H1. rewrite <- H0, <- H1. split; [lra|done].
Qed.

(** ** print_dimensions *)
Lemma axis_in_ns p : distance_from_axis (in_ns p) = sqrt (p.1.1 * p.1.1 + p.1.2 * p.1.2) / speed_of_light.
Proof.
  unfold distance_from_axis, in_ns. cbn [fst snd]. pose proof light_pos as Hc. set (e := p.1.1 * p.1.1 + p.1.2 * p.1.2).
  assert (0 <= e) as He by (unfold e; nra). replace (p.1.1 / speed_of_light * (p.1.1 / speed_of_light) + p.1.2 / speed_of_light * (p.1.2 / speed_of_light)) with ((/ speed_of_light * / speed_of_light) * e) by (unfold e; field; lra).
  pose proof (Rinv_0_lt_compat _ Hc) as Hi. rewrite sqrt_mult; [|nra|done]. rewrite sqrt_square by lra. unfold Rdiv. ring.
Qed.

Theorem C67_dimensions density h n : length (p_charge (h_profile h)) = length (p_grammage (h_profile h)) -> ends_after density h 1 n -> (0 < n <= int_max)%nat ->
  (forall x y z, 0 <= density x y z) ->
  exists r_min r_max z_min z_max, print_dimensions density h = Some (r_min, r_max, z_min, z_max) /\
    let r i := distance_from_axis (in_ns (point h 1 i)) in let z i := (in_ns (point h 1 i)).2 in
    (forall i, (i < n)%nat -> r_min <= r i <= r_max /\ z_min <= z i <= z_max) /\
    (exists i, (i < n)%nat /\ r_min = r i) /\ (exists i, (i < n)%nat /\ z_min = z i) /\ (exists i, (i < n)%nat /\ z_max = z i) /\
    ((exists i, (i < n)%nat /\ r_max = r i) \/ r_max = distance (0, 0, 0) (in_ns (h_start h))).
Proof.
  intros Hlen Hend Hn Hd. destruct (shower_filled density h 1 n (Vectors [] [] [] [] []) Hlen Hend Hn ltac:(lra) Hd) as (v & Hv & Hf). unfold print_dimensions. rewrite Hv. cbn [mbind option_bind].
  pose proof (fi_x _ _ _ _ _ _ Hf) as Fx. pose proof (fi_y _ _ _ _ _ _ Hf) as Fy. pose proof (fi_z _ _ _ _ _ _ Hf) as Fz. rewrite Fx, Fy, Fz by lia. cbn [mbind option_bind]. rewrite (proj1 (fi_len _ _ _ _ _ _ Hf)).
  set (p := point h 1) in *. set (R0 := sqrt ((p 0%nat).1.1 * (p 0%nat).1.1 + (p 0%nat).1.2 * (p 0%nat).1.2 + (p 0%nat).2 * (p 0%nat).2)).
  set (rr := fun i => sqrt ((p i).1.1 * (p i).1.1 + (p i).1.2 * (p i).1.2)).
  assert (rr 0%nat <= R0) as HR0. { apply sqrt_le_1_alt. nra. }
  assert (forall m, (m <= n)%nat -> exists a b c d, foldM (extend_dimensions v) (R0, R0, (p 0%nat).2, (p 0%nat).2) (seq 0 m) = Some (a, b, c, d) /\ a <= R0 <= b /\ c <= (p 0%nat).2 <= d /\
    (forall i, (i < m)%nat -> a <= rr i <= b /\ c <= (p i).2 <= d) /\ (a = R0 \/ exists i, (i < m)%nat /\ a = rr i) /\ (b = R0 \/ exists i, (i < m)%nat /\ b = rr i) /\
    (c = (p 0%nat).2 \/ exists i, (i < m)%nat /\ c = (p i).2) /\ (d = (p 0%nat).2 \/ exists i, (i < m)%nat /\ d = (p i).2)) as Hfold.
  { induction m as [|m IH]; intros Hm. { exists R0, R0, (p 0%nat).2, (p 0%nat).2. split; [done|]. split; [lra|]. split; [lra|]. split; [intros; lia|]. auto. }
    destruct (IH ltac:(lia)) as (a & b & c & d & E & Ha & Hc & Hall & A & B & C & D). rewrite seq_S, foldM_app, E. cbn [mbind option_bind foldM plus extend_dimensions]. rewrite Fx, Fy, Fz by lia. cbn [mbind option_bind].
    change (sqrt ((p m).1.1 * (p m).1.1 + (p m).1.2 * (p m).1.2)) with (rr m). eexists _, _, _, _. split; [reflexivity|].
    pose proof (Rmin_l a (rr m)). pose proof (Rmin_r a (rr m)). pose proof (Rmax_l b (rr m)). pose proof (Rmax_r b (rr m)). pose proof (Rmin_l c (p m).2). pose proof (Rmin_r c (p m).2). pose proof (Rmax_l d (p m).2). pose proof (Rmax_r d (p m).2).
    split; [lra|]. split; [lra|]. split.
    { intros i Hi. destruct (decide (i = m)) as [->|]; [lra|]. destruct (Hall i ltac:(lia)). lra. }
    split_and!.
    - unfold Rmin. destruct (Rle_dec a (rr m)); [|right; exists m; split; [lia|done]]. destruct A as [->|(i & Hi & ->)]; [by left|right; exists i; split; [lia|done]].
    - unfold Rmax. destruct (Rle_dec b (rr m)); [right; exists m; split; [lia|done]|]. destruct B as [->|(i & Hi & ->)]; [by left|right; exists i; split; [lia|done]].
    - unfold Rmin. destruct (Rle_dec c (p m).2); [|right; exists m; split; [lia|done]]. destruct C as [->|(i & Hi & ->)]; [by left|right; exists i; split; [lia|done]].
    - unfold Rmax. destruct (Rle_dec d (p m).2); [right; exists m; split; [lia|done]|]. destruct D as [->|(i & Hi & ->)]; [by left|right; exists i; split; [lia|done]]. }
  destruct (Hfold n ltac:(lia)) as (a & b & c & d & E & Ha & Hc & Hall & A & B & C & D). rewrite E. cbn [mbind option_bind]. eexists _, _, _, _. split; [reflexivity|]. pose proof light_pos as Hpos. pose proof (Rinv_0_lt_compat _ Hpos) as Hinv. cbv zeta. split_and!.
  - intros i Hi. rewrite axis_in_ns. fold p. change (sqrt ((p i).1.1 * (p i).1.1 + (p i).1.2 * (p i).1.2)) with (rr i). cbn [in_ns snd]. unfold Rdiv. destruct (Hall i Hi) as [[H1 H2] [H3 H4]]. split; split; apply Rmult_le_compat_r; lra.
  - destruct A as [->|(i & Hi & ->)]; [|exists i; split; [done|]; rewrite axis_in_ns; done]. exists 0%nat. split; [lia|]. rewrite axis_in_ns. fold p. change (sqrt ((p 0%nat).1.1 * (p 0%nat).1.1 + (p 0%nat).1.2 * (p 0%nat).1.2)) with (rr 0%nat).
    f_equal. destruct (Hall 0%nat ltac:(lia)) as [[H1 _] _]. lra.
  - destruct C as [->|(i & Hi & ->)]; [exists 0%nat; split; [lia|done]|by exists i].
  - destruct D as [->|(i & Hi & ->)]; [exists 0%nat; split; [lia|done]|by exists i].
  - destruct B as [->|(i & Hi & ->)]; [|left; exists i; split; [done|]; rewrite axis_in_ns; done]. right. unfold distance, R0. unfold p. rewrite point_0. unfold in_ns. cbn [fst snd]. set (q := h_start h).
    set (e := q.1.1 * q.1.1 + q.1.2 * q.1.2 + q.2 * q.2). assert (0 <= e) as He by (unfold e; nra).
    match goal with |- _ = sqrt ?x => replace x with ((/ speed_of_light * / speed_of_light) * e) by (unfold e; field; lra) end. rewrite sqrt_mult; [|nra|done]. rewrite sqrt_square by lra. unfold Rdiv. ring.
Qed.

Lemma ex_radius k i : distance_from_axis (in_ns (point (ex_shower k) 1 i)) = 5 / speed_of_light.
Proof.
  rewrite axis_in_ns. f_equal. unfold point, axis. cbn [fst snd ex_shower h_start h_zenith h_azimuth]. rewrite sin_0, !Rmult_0_l, !Rmult_0_r, !Rplus_0_r.
  replace (3 * 3 + 4 * 4) with (5 * 5) by ring. apply sqrt_square. lra.
Qed.
(** The printed largest radius may be larger than the radius of all points: it is at least the distance of the vertex from the origin. *)
Theorem C67_dimensions_radius_refuted : exists h r_min r_max z_min z_max, print_dimensions ice_density h = Some (r_min, r_max, z_min, z_max) /\
  ends_after ice_density h 1 3 /\ forall i, (i < 3)%nat -> distance_from_axis (in_ns (point h 1 i)) < r_max.
Proof.
  exists (ex_shower 1). pose proof (ex_ends 1) as He. destruct (shower_filled ice_density (ex_shower 1) 1 3 (Vectors [] [] [] [] []) eq_refl He ltac:(pose proof int_max_5; lia) ltac:(lra) ice_density_pos) as (v & Hv & Hf).
  unfold print_dimensions. rewrite Hv. cbn [mbind option_bind]. pose proof (fi_x _ _ _ _ _ _ Hf) as Fx. pose proof (fi_y _ _ _ _ _ _ Hf) as Fy. pose proof (fi_z _ _ _ _ _ _ Hf) as Fz.
  rewrite Fx, Fy, Fz by lia. cbn [mbind option_bind]. rewrite (proj1 (fi_len _ _ _ _ _ _ Hf)). cbn [seq foldM]. unfold extend_dimensions.
  do 3 (rewrite Fx, Fy, Fz by lia; cbn [mbind option_bind]). eexists _, _, _, _. split; [reflexivity|]. split; [done|]. intros i Hi. rewrite ex_radius. apply Rmult_lt_compat_r; [apply Rinv_0_lt_compat, light_pos|].
  eapply Rlt_le_trans; [|apply Rmax_l]. eapply Rlt_le_trans; [|apply Rmax_l]. eapply Rlt_le_trans; [|apply Rmax_l]. rewrite point_0. cbn [ex_shower h_start fst snd].
  replace (3 * 3 + 4 * 4 + -12 * -12) with (13 * 13) by ring. rewrite sqrt_square; lra.
Qed.
(** The tracks need not be in the region that is printed. *)
Theorem C67_dimensions_tracks_refuted : exists h dt r_min r_max z_min z_max segs seg, print_dimensions ice_density h = Some (r_min, r_max, z_min, z_max) /\
  0 < dt < 1 /\ fill_tracks ice_density h dt [] = Some segs /\ seg ∈ segs /\ z_max < (s_end seg).2.
Proof.
  exists (ex_shower 1), (2 / 5). pose proof (ex_ends 1) as He. destruct (C67_dimensions ice_density (ex_shower 1) 3 eq_refl He ltac:(pose proof int_max_5; lia) ice_density_pos) as (a & b & c & d & E & _ & _ & _ & (i & Hi & Ed) & _).
  exists a, b, c, d. assert (forall x, per_step x = x * per_step 1) as Hps by (intros x; unfold per_step; ring). pose proof (per_step_pos 1 ltac:(lra)) as Hp.
  assert (ends_after ice_density (ex_shower 1) (2 / 5) 7) as He2.
  { exists (5 / 2 * per_step 1). split; [apply ex_max|]. rewrite ice_depth, (Hps (2 / 5)). split; [cbn [INR]; lra|]. intros j Hj. rewrite ice_depth, (Hps (2 / 5)). assert (INR j <= INR 6) as Hj6 by (apply le_INR; lia). 
    assert (INR j * (2 / 5 * per_step 1) <= INR 6 * (2 / 5 * per_step 1)) as Q by (apply Rmult_le_compat_r; lra). cbn [INR] in Q. lra. }
  destruct (C67_tracks ice_density (ex_shower 1) (2 / 5) 7 [] eq_refl He2) as (segs & Es & Hl & Hs); [|lra|exact ice_density_pos|].
  { split; [lia|]. Local Transparent int_max. unfold int_max. replace (2 ^ 31 - 1)%Z with (Z.of_nat 7 + 2147483640)%Z by reflexivity. rewrite Z2Nat.inj_add, Nat2Z.id by lia. apply Nat.le_add_r. }
  destruct (lookup_lt_is_Some_2 segs 5) as [seg Hseg]; [lia|]. exists segs, seg. split; [done|]. split; [lra|]. split; [done|]. split; [by eapply elem_of_list_lookup_2|].
  destruct (Hs _ _ Hseg) as (_ & -> & _). rewrite Ed. unfold in_ns, point, axis. cbn [snd ex_shower h_start h_zenith]. rewrite cos_0. apply Rmult_lt_compat_r; [apply Rinv_0_lt_compat, light_pos|].
  pose proof light_pos as Hc. assert (INR i <= INR 2) as Hi2 by (apply le_INR; lia). cbn [INR] in *. assert (INR i * 1 * speed_of_light * 1 <= 2 * speed_of_light) by nra. lra.
Qed.
