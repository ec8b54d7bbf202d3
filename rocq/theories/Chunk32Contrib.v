(** C76: the contributions of one integration point, at the exact positions. *)
From stdpp Require Import base list list_numbers numbers option.
From Coq Require Import Reals ZArith Bool Lra Lia.
From Flocq Require Import Core IEEE754.BinarySingleNaN.
From Verif Require Import NDArrayModel NDArrayProps BBoxModel ChunkMetaModel ChunkMetaProps InterpModel SignalModel AntennaModel AntennaSpec AntennaProps DiscreteModel DiscreteSpec DiscreteProps.
From Verif Require Import Interp32Model Interp32Spec Interp32Weights Interp32Proofs Interp32Props Interp32Nodes Signal32Model Signal32Spec Signal32Props Signal32Whole Signal32Error Signal32Any Chunk32Spec Chunk32Props Chunk32Loop.
Local Open Scope R_scope.
Local Notation fexp32 := (FLT_exp (-149) 24).
Local Notation rnd32 := (round radix2 fexp32 ZnearestE).
Local Notation u := (/ 16777216).

(** The exact index of the coordinate [x] on an axis that starts at [x0] with the step [d]. *)
Definition axis_index (x x0 d : f32) : R := (B2R x - B2R x0) / B2R d.

(** The index that is calculated for it is correct up to three roundings, and not negative. *)
Theorem C76_index (x x0 d : f32) P : is_finite x = true -> is_finite x0 = true -> 0 < B2R d -> Rabs (B2R x - B2R x0) <= 2 ^ 100 -> 0 <= axis_index x x0 d <= P -> P <= 2 ^ 100 ->
  is_finite (t_index32 x x0 d) = true /\ 0 <= B2R (t_index32 x x0 d) /\ Rabs (B2R (t_index32 x x0 d) - axis_index x x0 d) <= 3 * P / 2 ^ 24 + / 2 ^ 140.
Proof.
  intros Fx F0 Hd Ha Hi HP. unfold axis_index in *. set (a := B2R x - B2R x0) in *. set (dd := B2R d) in *.
  assert (2 ^ 24 = 16777216) as E24 by (simpl pow; lra). rewrite E24.
  pose proof bpow127_big as B127. assert (8 * 2 ^ 100 <= 2 ^ 110) as P110. { change 110%nat with (10 + 100)%nat. rewrite pow_add. pose proof (pow_le 2 100 ltac:(lra)). simpl (2 ^ 10). lra. }
  assert (1 <= 2 ^ 100) as P1. { apply Rle_trans with (2 ^ 0); [simpl; lra|apply Rle_pow; [lra|lia]]. }
  assert (0 <= a) as Ha0. { replace a with (a / dd * dd) by (field; lra). apply Rmult_le_pos; lra. } rewrite (Rabs_pos_eq a) in Ha by lra.
  destruct (minus_value x x0 Fx F0) as [G1 V1]; [fold a; rewrite Rabs_pos_eq by lra; lra|]. pose proof (diff_err x x0) as R1. fold a in V1, R1. rewrite (Rabs_pos_eq a) in R1 by lra. apply Rabs_le_inv in R1.
  pose proof (rnd_pos a Ha0) as Hp. set (b := rnd32 a) in *.
  assert (0 < / dd) as Hinv by (by apply Rinv_0_lt_compat). assert (a / dd * (1 - u) <= b / dd <= a / dd * (1 + u)) as Hb.
  { unfold Rdiv. split; [replace (a * / dd * (1 - u)) with (a * (1 - u) * / dd) by ring|replace (a * / dd * (1 + u)) with (a * (1 + u) * / dd) by ring]; apply Rmult_le_compat_r; lra. }
  set (q := a / dd) in *. assert (0 <= b / dd) as Hq0 by (unfold Rdiv; apply Rmult_le_pos; lra).
  assert (B2R (Bminus mode_NE x x0) / B2R d = b / dd) as Ebd by (unfold f32 in *; rewrite V1; reflexivity).
  destruct (div_value32 (Bminus mode_NE x x0) d G1) as [G2 V2]; [fold dd; lra|rewrite Ebd, Rabs_pos_eq by lra; lra|]. rewrite Ebd in V2.
  unfold t_index32. split; [exact G2|]. unfold f32 in *. rewrite V2. split; [by apply rnd_pos|].
  pose proof (rnd_err (b / dd)) as R2. rewrite (Rabs_pos_eq (b / dd)) in R2 by lra. pose proof eta_small as [Z0 Z1]. apply Rabs_le_inv in R2. set (y := rnd32 (b / dd)) in *. clearbody y q. set (v := b / dd) in *. clearbody v.
  assert (eta <= / 2 ^ 140) as He. { pose proof eta_50. lra. } apply Rabs_le. lra.
Qed.
Print Assumptions C76_index.

(** The errors of the positions on the axes of space and of time: chunks of size at most [len], indices at most [P] and [T]. *)
Definition space_error (len : nat) (P : R) : R := (INR len + 3 * P + 1) / 2 ^ 24.
Definition time_error (len : nat) (T : R) : R := (9 * INR len + 8 * T + 5) / 2 ^ 24.

Lemma contribution_weaken sup weight g tol er et r z t er' et' r' z' t' source w x :
  Rabs (r - r') + er <= er' -> Rabs (z - z') + er <= er' -> Rabs (t - t') + et <= et' -> contribution sup weight g tol er et r z t source w x -> contribution sup weight g tol er' et' r' z' t' source w x.
Proof.
  intros Hr Hz Ht (a & b & c & v0 & v1 & A & B & C & D). exists a, b, c, v0, v1.
  assert (forall p q q' e e', Rabs (q - q') + e <= e' -> Rabs (p - q) <= e -> Rabs (p - q') <= e') as Tri. { intros p q q' e e' H1 H2. replace (p - q') with (p - q + (q - q')) by ring. eapply Rle_trans; [apply Rabs_triang|]. lra. }
  split; [by eapply Tri|]. split; [by eapply Tri|]. split; [by eapply Tri|]. exact D.
Qed.

(** If the contributions of a point to [n] samples are calculated, then each of these samples, and no other one, got one contribution: the product with a value of the Green's function that is correct up to the
    errors of the positions and of the interpolation. *)
Theorem C76_contributions {A} (plus : A -> f32 -> A) G K sup weight tol g M P T len rz (t_start t_samp : f32) n source pos w signal s' :
  kernel_of K sup weight tol -> library32 G sup g len -> 0 <= M <= 2 ^ 100 -> grid_bounded M g ->
  let '(r0, z0, t0) := h_start G in let '(dr, dz, dt) := h_interval G in
  Forall (fun x : f32 => is_finite x = true /\ Rabs (B2R x) <= 2 ^ 90) [r0; z0; t0; dr; dz; dt; rz.1; rz.2; t_start; t_samp] -> 0 < B2R dr -> 0 < B2R dz -> 0 < B2R dt ->
  0 <= axis_index rz.1 r0 dr <= P -> 0 <= axis_index rz.2 z0 dz <= P -> P <= 2 ^ 21 ->
  0 <= axis_index t_start t0 dt -> / 2 ^ 100 <= B2R t_samp / B2R dt -> axis_index t_start t0 dt + INR n * (B2R t_samp / B2R dt) <= T -> T <= 2 ^ 20 -> INR n <= 2 ^ 24 ->
  accumulate_inner_product32 plus G K false rz t_start t_samp n source pos w signal = Some s' ->
  exists x, s' = added plus pos n x signal /\ forall i, (i < n)%nat ->
    contribution sup weight g (tol M) (space_error len P) (time_error len T) (axis_index rz.1 r0 dr) (axis_index rz.2 z0 dz) (sample_time (axis_index t_start t0 dt) (B2R t_samp / B2R dt) i) source w (x i).
Proof.
  intros HK HL [HM0 HM1] Hg. unfold accumulate_inner_product32. destruct (h_start G) as [[r0 z0] t0]. destruct (h_interval G) as [[dr dz] dt]. destruct rz as [pr pz]. cbn [fst snd].
  intros HF Hdr Hdz Hdt Hr Hz HP Ht Hts HT HT20 Hn H.
  repeat match goal with HF : Forall _ _ |- _ => inversion_clear HF end. repeat match goal with HF : _ /\ _ |- _ => destruct HF end.
  assert (2 ^ 24 = 16777216) as E24 by (simpl pow; lra). assert (2 ^ 22 = 4194304) as E22 by (simpl pow; lra). assert (2 ^ 21 = 2097152) as E21 by (simpl pow; lra). assert (2 ^ 20 = 1048576) as E20 by (simpl pow; lra).
  assert (4 * 2 ^ 90 <= 2 ^ 100) as P90. { change 100%nat with (10 + 90)%nat. rewrite pow_add. pose proof (pow_le 2 90 ltac:(lra)). simpl (2 ^ 10). lra. }
  assert (10000000 <= 2 ^ 90) as P100. { apply Rle_trans with (2 ^ 30); [simpl pow; lra|apply Rle_pow; [lra|lia]]. }
  assert (0 < / 2 ^ 140) as P140 by (apply Rinv_0_lt_compat, pow_lt; lra). assert (/ 2 ^ 140 <= / 16777216 * / 1000) as Q140. { replace (/ 16777216 * / 1000) with (/ 16777216000) by lra. apply Rinv_le_contravar; [lra|]. apply Rle_trans with (2 ^ 40); [simpl pow; lra|apply Rle_pow; [lra|lia]]. }
  assert (forall x y : f32, Rabs (B2R x) <= 2 ^ 90 -> Rabs (B2R y) <= 2 ^ 90 -> Rabs (B2R x - B2R y) <= 2 ^ 100) as Hdiff. { intros x y Hx Hy. pose proof (Rabs_triang (B2R x) (- B2R y)) as Htr. rewrite Rabs_Ropp in Htr. unfold Rminus. lra. }
  set (q := B2R t_samp / B2R dt) in *. set (a := axis_index t_start t0 dt) in *. assert (0 < / 2 ^ 100) as Q100 by (apply Rinv_0_lt_compat, pow_lt; lra).
  assert (0 <= INR n * q) as Hnq by (apply Rmult_le_pos; [apply pos_INR|lra]).
  destruct (C76_index pr r0 dr P) as (Fr & Pr & Er); [done|done|done|by apply Hdiff|done|lra|].
  destruct (C76_index pz z0 dz P) as (Fz & Pz & Ez); [done|done|done|by apply Hdiff|done|lra|].
  destruct (C76_index t_start t0 dt T) as (Ft & Pt & Et); [done|done|done|by apply Hdiff|fold a; lra|lra|]. fold a in Et. rewrite E24 in Er, Ez, Et. rewrite E24 in Hn. rewrite E21 in HP. rewrite E20 in HT20.
  set (fr := t_index32 pr r0 dr) in *. set (fz := t_index32 pz z0 dz) in *. set (ft := t_index32 t_start t0 dt) in *.
  (* the step *)
  destruct (decide (n = 0)%nat) as [->|Hn0].
  { exists (fun _ => zero32). cbn [accumulate_loop32 Nat.leb] in H. injection H as <-. split; [by rewrite added_nil|lia]. }
  assert (1 <= INR n) as Hn1 by (apply (le_INR 1); lia). assert (q <= INR n * q) as Hq1. { rewrite <- (Rmult_1_l q) at 1. apply Rmult_le_compat_r; lra. }
  pose proof bpow127_big as B127. assert (2 ^ 100 <= 2 ^ 110) as P110 by (apply Rle_pow; [lra|lia]).
  destruct (div_value32 t_samp dt) as [Fs Vs]; [done|lra|fold q; rewrite Rabs_pos_eq by lra; lra|]. fold q in Vs. set (ts := Bdiv mode_NE t_samp dt) in *. 
  pose proof (rnd_err q) as Rq. rewrite (Rabs_pos_eq q) in Rq by lra. apply Rabs_le_inv in Rq.
  assert (0 < eta) as He0 by apply eta_small. assert (eta <= / 2 ^ 140) as He1 by (pose proof eta_50; lra). assert (16777216 * eta <= / 16777216) as He2. { pose proof eta_many as He. assert (/ 2 ^ 120 <= / 16777216); [|lra]. apply Rinv_le_contravar; [lra|]. apply Rle_trans with (2 ^ 30); [simpl pow; lra|apply Rle_pow; [lra|lia]]. }
  assert (/ 2 ^ 140 <= / 16777216 * / 2 ^ 100) as He3. { rewrite <- Rinv_mult. apply Rinv_le_contravar; [apply Rmult_lt_0_compat; [lra|apply pow_lt; lra]|]. change 140%nat with (40 + 100)%nat. rewrite pow_add. apply Rmult_le_compat_r; [apply pow_le; lra|simpl pow; lra]. }
  assert (0 < B2R ts) as Hts0. { unfold f32 in *. rewrite Vs. lra. }
  assert (forall i, (i <= n)%nat -> INR i * Rabs (B2R ts - q) <= T * u + u) as Hsi.
  { intros i Hi. assert (INR i <= INR n) as Hin by (by apply le_INR). pose proof (pos_INR i). apply Rle_trans with (INR n * (q * u + eta)).
    - apply Rmult_le_compat; [apply pos_INR|apply Rabs_pos|exact Hin|]. unfold f32 in *. rewrite Vs. apply Rabs_le. lra.
    - assert (INR n * eta <= 16777216 * eta) by (apply Rmult_le_compat_r; lra). assert (INR n * q * u <= T * u) by (apply Rmult_le_compat_r; lra). lra. }
  apply Rabs_le_inv in Er as Er', Ez as Ez', Et as Et'.
  assert (forall y : f32, 0 <= B2R y -> exists i, INR i <= B2R y < INR i + 1) as Hfloor.
  { intros y Hy. exists (Z.to_nat (Zfloor (B2R y))). rewrite INR_IZR_INZ, Z2Nat.id by (apply Zfloor_lub; lra). split; [apply Zfloor_lb|apply Zfloor_ub]. }
  destruct (Hfloor fr Pr) as [ir Cr]. destruct (Hfloor fz Pz) as [iz Cz].
  destruct (loop_sound plus G K sup weight tol g M (T + 1) len HK HL (conj HM0 HM1) Hg fr fz ft ts ir iz n source w Fr Fz Ft Fs Cr Cz Pt Hts0) with (fuel := n) (cur := 0%nat) (pos := pos) (signal := signal) (s' := s') as (x & -> & Hx).
  { rewrite E22. lra. } { rewrite E22. lra. }
  { assert (INR n * B2R ts = INR n * q + INR n * (B2R ts - q)) as -> by ring. pose proof (Hsi n ltac:(lia)) as Hs. assert (INR n * (B2R ts - q) <= INR n * Rabs (B2R ts - q)) by (apply Rmult_le_compat_l; [lra|apply Rle_abs]). clear Vs. clearbody ts fr fz ft. lra. }
  { rewrite E21. lra. } { rewrite E24. lra. } { lia. } { exact H. }
  rewrite Nat.sub_0_r in *. exists x. split; [reflexivity|]. intros i Hi. eapply contribution_weaken; [| | |apply Hx; lia].
  - unfold space_error. rewrite E24. clear -Er Q140. lra.
  - unfold space_error. rewrite E24. clear -Ez Q140. lra.
  - rewrite Nat.add_0_l. unfold sample_time, time_error. rewrite E24. replace (B2R ft + INR i * B2R ts - (a + INR i * q)) with (B2R ft - a + INR i * (B2R ts - q)) by ring.
    pose proof (Rabs_triang (B2R ft - a) (INR i * (B2R ts - q))) as Htr. rewrite Rabs_mult, (Rabs_pos_eq (INR i)) in Htr by apply pos_INR. pose proof (Hsi i ltac:(lia)) as Hs. assert (0 <= T) as HT0 by (clear -HT Hnq Ht; lra). clear -Et Htr Hs Q140 HT0. lra.
Qed.
Print Assumptions C76_contributions.

(** * The theorems are not vacuous *)
(** A library with one chunk of 1 x 1 x 4 elements, with an overlap of 2 elements; the Green's function is 1 everywhere. *)
Definition ex_meta : chunk_meta := mk_meta specified [] 0 [0; 0; 0]%N [1; 1; 4]%N 2.
Definition ex_data : ndarr f32 := anew 2 one32 [5; 5; 8]%nat.
Definition ex_grid : grid := fun _ _ _ _ => one32.
Definition ex_green : green32 := Green32 (zero32, zero32, zero32) (one32, one32, one32) (fun i => match i with [a; b; c] => if ((a <? 1) && (b <? 1) && (c <? 4))%N then Some ex_meta else None | _ => None end) (fun _ => Some ex_data).
Lemma ex_holds : holds ex_grid 0 0 0 1 1 4 2 ex_data.
Proof.
  split; [by constructor|]. split; [reflexivity|]. intros i j k c Hi Hj Hk Hc. unfold ex_grid. cbn [Nat.add Nat.mul] in *.
  do 5 (destruct i as [|i]; [do 5 (destruct j as [|j]; [do 8 (destruct k as [|k]; [do 2 (destruct c as [|c]; [reflexivity|]); lia|]); lia|]); lia|]). lia.
Qed.
Lemma ex_chunk_at : chunk_at ex_meta [0; 0; 0]%nat [1; 1; 4]%nat 2. Proof. split_and!; reflexivity. Qed.
Lemma ex_moderate s n ov : (s + n <= 100)%nat -> (n + 2 * ov <= 100)%nat -> moderate s n ov.
Proof. intros H1 H2. apply le_INR in H1, H2. assert (INR 100 = 100) as E by (rewrite INR_IZR_INZ; reflexivity). rewrite E in *. split; [apply Rle_lt_trans with 100; [exact H1|simpl pow; lra]|apply Rle_lt_trans with 100; [exact H2|simpl pow; lra]]. Qed.
Lemma ex_bounded : grid_bounded 1 ex_grid. Proof. intros ? ? ? ?. destruct one_value as [F V]. split; [exact F|]. unfold ex_grid. unfold f32 in *. rewrite V, Rabs_R1. lra. Qed.
Lemma ex_library : library32 ex_green 1 ex_grid 9.
Proof.
  intros ir iz it m H. cbn [h_chunk ex_green] in H. destruct (_ && _) eqn:Hb in H; [|done]. injection H as <-. apply andb_prop in Hb as [Hb H3]. apply andb_prop in Hb as [H1 H2]. apply N.ltb_lt in H1, H2, H3.
  split; [reflexivity|]. exists 0%nat, 0%nat, 0%nat, 1%nat, 1%nat, 4%nat, 2%nat, ex_data. split; [apply ex_chunk_at|]. split; [reflexivity|]. split; [apply ex_holds|]. split_and!; try lia; try (apply ex_moderate; lia).
Qed.
Example C76_contributions_nonvacuous : kernel_of linear32 1 linear_weight (fun M => M / 2 ^ 20 + / 2 ^ 140) /\ library32 ex_green 1 ex_grid 9 /\ grid_bounded 1 ex_grid /\
  Forall (fun x : f32 => is_finite x = true /\ Rabs (B2R x) <= 2 ^ 90) [zero32; zero32; zero32; one32; one32; one32; zero32; zero32; zero32; one32] /\
  axis_index zero32 zero32 one32 = 0 /\ B2R one32 / B2R one32 = 1 /\
  (map B2SF <$> accumulate_inner_product32 plus_float ex_green linear32 false (zero32, zero32) zero32 one32 3 (one32, zero32) 1 one32 [zero32; zero32; zero32; zero32; zero32]) = Some (map B2SF [zero32; one32; one32; one32; zero32]).
Proof.
  split; [constructor|]. split; [apply ex_library|]. split; [apply ex_bounded|]. destruct one_value as [F V]. assert (1 <= 2 ^ 90) as P. { apply Rle_trans with (2 ^ 0); [simpl; lra|apply Rle_pow; [lra|lia]]. }
  assert (B2R zero32 = 0) as Z by reflexivity. unfold f32 in *.
  split. { repeat (constructor; [split; [reflexivity|rewrite ?Z, ?V, ?Rabs_R0, ?Rabs_R1; lra]|]). constructor. }
  split; [unfold axis_index; unfold f32 in *; rewrite Z, V; lra|]. split; [rewrite V; lra|]. vm_compute. reflexivity.
Qed.
Example C76_chunk_values_nonvacuous : exists x1 x2 (x3 : nat -> R) out, chunk_samples32 ex_green linear32 ex_meta zero32 zero32 zero32 one32 3 = Some out /\ length out = 3%nat /\ Rabs (x1 - 0) <= 6 / 2 ^ 24 /\ Rabs (x2 - 0) <= 6 / 2 ^ 24 /\
  forall s, (s < 3)%nat -> Rabs (x3 s - INR s) <= 8 * 9 / 2 ^ 24 /\ exists y0 y1, out !! s = Some [y0; y1] /\ within y0 (interpolated 1 linear_weight ex_grid x1 x2 (x3 s) 0) (1 / 2 ^ 20 + / 2 ^ 140) /\ within y1 (interpolated 1 linear_weight ex_grid x1 x2 (x3 s) 1) (1 / 2 ^ 20 + / 2 ^ 140).
Proof.
  destruct one_value as [F V]. assert (B2R zero32 = 0) as Z by reflexivity. assert (1 <= 2 ^ 100) as P. { apply Rle_trans with (2 ^ 0); [simpl; lra|apply Rle_pow; [lra|lia]]. }
  destruct (C76_chunk_values linear32 1 linear_weight _ ex_green ex_meta ex_grid 0 0 0 1 1 4 2 ex_data 1 zero32 zero32 zero32 one32 0 0 0 3 kernel_linear ex_chunk_at eq_refl ex_holds) as (x1 & x2 & x3 & out & H1 & H2 & H3 & H4 & H5); try reflexivity; try lia; try (apply ex_moderate; lia); try apply ex_bounded; try lra; unfold f32 in *.
  1-3: rewrite Z; simpl; lra.
  1: simpl; lra.
  { intros s Hs. unfold sample_time. rewrite Z, V. assert (INR s <= INR 3) as HS by (apply le_INR; lia). simpl in HS |- *. lra. }
  exists x1, x2, x3, out. rewrite Z in *. split; [exact H1|]. split; [exact H2|]. cbn [Nat.add Nat.mul] in *. rewrite !INR_IZR_INZ in H3, H4. split; [exact H3|]. split; [exact H4|].
  intros s Hs. destruct (H5 s Hs) as [H6 H7]. split; [|exact H7]. unfold sample_time in H6. rewrite V, Rplus_0_l, Rmult_1_r in H6. replace (INR 9) with 9 in H6 by (rewrite INR_IZR_INZ; reflexivity). exact H6.
Qed.
