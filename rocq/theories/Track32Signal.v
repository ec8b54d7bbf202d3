(** C76: the whole signal of a track, at the exact points of the track. *)
From stdpp Require Import base list list_numbers numbers option.
From Coq Require Import Reals ZArith Bool Lra Lia Psatz.
From Flocq Require Import Core IEEE754.BinarySingleNaN.
From Verif Require Import NDArrayModel BBoxModel ChunkMetaModel InterpModel SignalModel AntennaModel AntennaSpec AntennaProps DiscreteModel DiscreteSpec DiscreteProps.
From Verif Require Import Interp32Model Interp32Spec Interp32Weights Interp32Props Signal32Model Signal32Spec Signal32Props Signal32Whole Signal32Error Signal32Any Signal32Stops Signal32Example Chunk32Spec Chunk32Props Chunk32Loop Chunk32Contrib Chunk32Signal Track32Props.
Local Open Scope R_scope.

(** The error of the coordinates of a point of the track. *)
Definition track_size (seg : segment32) : R := let '(a, b, c) := s32_start seg in let '(d, e, f) := s32_end seg in Rabs (B2R a) + Rabs (B2R b) + Rabs (B2R c) + Rabs (B2R d) + Rabs (B2R e) + Rabs (B2R f).
Definition place_error (seg : segment32) : R := 24 * track_size seg / 2 ^ 24 + / 2 ^ 70.
(** The exact cylindrical coordinates of point [p]. *)
Definition exact_r (seg : segment32) (n p : nat) : R := let '(a, b, _) := s32_start seg in let '(d, e, _) := s32_end seg in sqrt (on_track a d n p * on_track a d n p + on_track b e n p * on_track b e n p).
Definition exact_z (seg : segment32) (n p : nat) : R := let '(_, _, c) := s32_start seg in let '(_, _, f) := s32_end seg in on_track c f n p.

Lemma place_near seg n p : usual_track seg n -> (p <= n)%nat -> let place := coord_cyl32 (position32 seg (itgr_step32 (s32_t0 seg) (s32_t1 seg) (N.of_nat n)) p) in
  within place.1 (exact_r seg n p) (place_error seg) /\ within place.2 (exact_z seg n p) (place_error seg).
Proof.
  intros Hu Hp place. pose proof (C76_place seg n p Hu Hp) as H. fold place in H. unfold exact_r, exact_z, place_error, track_size. destruct (s32_start seg) as [[ax ay] az]. destruct (s32_end seg) as [[bx by_] bz]. destruct place as [r z]. cbv zeta in H. cbn [fst snd].
  destruct H as [[F1 E1] [F2 E2]]. assert (2 ^ 24 = 16777216) as E24 by (simpl pow; lra). rewrite E24 in *.
  assert (/ 2 ^ 120 <= / 2 ^ 70) as H70 by (apply Rinv_le_contravar; [apply pow_lt; lra|apply Rle_pow; [lra|lia]]).
  pose proof (Rabs_pos (B2R ax)). pose proof (Rabs_pos (B2R bx)). pose proof (Rabs_pos (B2R ay)). pose proof (Rabs_pos (B2R by_)). pose proof (Rabs_pos (B2R az)). pose proof (Rabs_pos (B2R bz)).
  split; (split; [assumption|]); (eapply Rle_trans; [eassumption|]); lra.
Qed.

(** The exact coordinates are bounded by those of the end points. *)
Lemma exact_bound seg n p : usual_track seg n -> (p <= n)%nat -> Rabs (exact_r seg n p) <= track_size seg /\ Rabs (exact_z seg n p) <= track_size seg /\ track_size seg <= 6 * 2 ^ 40.
Proof.
  intros [HC [F0 F1] HD HI] Hp. destruct (intervals (s32_t0 seg) (s32_t1 seg) n F0 F1 HD HI) as (Hn0 & Hn & _). unfold exact_r, exact_z, track_size. destruct (s32_start seg) as [[ax ay] az]. destruct (s32_end seg) as [[bx by_] bz].
  assert (forall s e : f32, Rabs (on_track s e n p) <= Rabs (B2R s) + Rabs (B2R e)) as HT.
  { intros s e. unfold on_track. pose proof (pos_INR p) as Pp. assert (INR p <= INR n) as Hpn by (by apply le_INR). assert (0 <= INR p / INR n <= 1) as Hpq. { split; [apply Rmult_le_pos; [lra|left; apply Rinv_0_lt_compat; lra]|]. apply Rmult_le_reg_r with (INR n); [lra|]. unfold Rdiv. rewrite Rmult_assoc, Rinv_l, Rmult_1_r by lra. lra. }
    replace (B2R s + INR p / INR n * (B2R e - B2R s)) with ((1 - INR p / INR n) * B2R s + INR p / INR n * B2R e) by ring. eapply Rle_trans; [apply Rabs_triang|]. rewrite !Rabs_mult, (Rabs_pos_eq (1 - INR p / INR n)), (Rabs_pos_eq (INR p / INR n)) by lra. pose proof (Rabs_pos (B2R s)) as A1. pose proof (Rabs_pos (B2R e)) as A2. assert (0 <= INR p / INR n * Rabs (B2R s)) as A3 by (apply Rmult_le_pos; lra). assert (0 <= (1 - INR p / INR n) * Rabs (B2R e)) as A4 by (apply Rmult_le_pos; lra). lra. }
  pose proof (HT ax bx) as TX. pose proof (HT ay by_) as TY. pose proof (HT az bz) as TZ. pose proof (distance_bound (on_track ax bx n p) (on_track ay by_ n p)) as DB.
  pose proof (Rabs_pos (B2R ax)). pose proof (Rabs_pos (B2R bx)). pose proof (Rabs_pos (B2R ay)). pose proof (Rabs_pos (B2R by_)). pose proof (Rabs_pos (B2R az)). pose proof (Rabs_pos (B2R bz)).
  split; [rewrite Rabs_pos_eq by apply sqrt_pos; lra|]. split; [lra|].
  repeat match goal with HF : Forall _ _ |- _ => inversion_clear HF end. repeat match goal with HF : is_finite _ = true /\ _ |- _ => destruct HF end. lra.
Qed.
Lemma Forall2_in {A B} (P Q : A -> B -> Prop) l k : Forall2 P l k -> (forall x y, x ∈ l -> P x y -> Q x y) -> Forall2 Q l k.
Proof. induction 1 as [|x y l k Hxy _ IH]; intros H; constructor; [apply H; [left|exact Hxy]|]. apply IH. intros a b Ha. apply H. by right. Qed.

(** If the calculation of the signal of a track returns, then each sample has got exactly one contribution of every point of the track that is not later than the sample (up to the error of the times): the
    product with a value of the Green's function at the exact position of the point and the exact time since it, up to the errors of the positions, of the times and of the interpolation. *)
Theorem C76_track_signal {A} (plus : A -> f32 -> A) ib sb G K sup weight tol g M P len seg (ts dt : f32) num n w signal s' :
  (1 <= ib)%nat -> (1 <= sb)%nat -> kernel_of K sup weight tol -> library32 G sup g len -> 0 <= M <= 2 ^ 100 -> grid_bounded M g ->
  any_times (s32_t0 seg) (s32_t1 seg) ts dt n num -> usual_track seg n ->
  let '(r0, z0, t0) := h_start G in let '(dr, dz, dtG) := h_interval G in
  let step := itgr_step32 (s32_t0 seg) (s32_t1 seg) (N.of_nat n) in
  let pt := point_time (B2R (s32_t0 seg)) ((B2R (s32_t1 seg) - B2R (s32_t0 seg)) / INR n) in
  let st := sample_time (B2R ts) (B2R dt) in
  let E := any_error (B2R (s32_t0 seg)) (B2R (s32_t1 seg)) (B2R ts) (B2R dt) num in
  let T := (Rabs (B2R (s32_t0 seg)) + Rabs (B2R (s32_t1 seg)) + Rabs (B2R ts) + (INR num + 1) * B2R dt + E - B2R t0) / B2R dtG in
  let er := space_error len P + place_error seg / B2R dr + place_error seg / B2R dz in
  let et := time_error len T + E / B2R dtG in
  Forall (fun x : f32 => is_finite x = true /\ Rabs (B2R x) <= 2 ^ 90) [r0; z0; t0; dr; dz; dtG] -> 0 < B2R dr -> 0 < B2R dz -> 0 < B2R dtG -> B2R t0 <= 0 -> / 2 ^ 100 <= B2R dt / B2R dtG -> T <= 2 ^ 20 -> P <= 2 ^ 21 ->
  (forall p, (p <= n)%nat -> B2R r0 + place_error seg <= exact_r seg n p <= B2R r0 + P * B2R dr - place_error seg /\ B2R z0 + place_error seg <= exact_z seg n p <= B2R z0 + P * B2R dz - place_error seg) ->
  apply_accumulate32 plus ib sb G K false seg ts dt num w signal = Some s' ->
  exists (c : nat -> nat) (xs : nat -> list f32),
    (forall p, (p <= n)%nat -> pt p - E <= st (c p) /\ ((0 < c p)%nat -> st (c p) < pt p + B2R dt + E)) /\
    s' = changed (fun j y => foldl plus y (xs j)) signal /\ (forall j, (num <= j)%nat -> xs j = []) /\
    forall j, (j < num)%nat -> Forall2 (fun p x =>
      contribution sup weight g (tol M) er et ((exact_r seg n p - B2R r0) / B2R dr) ((exact_z seg n p - B2R z0) / B2R dz) ((st j - pt p - B2R t0) / B2R dtG)
        (field_cyl32 (source32 seg) (position32 seg step p)) (point_weight32 (trapezoid32 n p) step w) x)
      (filter (fun p => (c p <= j)%nat) (seq 0 (n + 1))) (xs j).
Proof.
  intros Hib Hsb HK HL HM Hg Ht Hu. pose proof (C76_signal plus ib sb G K sup weight tol g M P len seg ts dt num n w signal s' Hib Hsb HK HL HM Hg Ht (ut_intervals _ _ Hu)) as HS.
  destruct (h_start G) as [[r0 z0] t0]. destruct (h_interval G) as [[dr dz] dtG]. intros step pt st E T er et HF Hdr Hdz Hdt Ht0 Hq HT HP Hplace H. cbv zeta in HS. fold step in HS.
  assert (forall p, (p <= n)%nat -> let place := coord_cyl32 (position32 seg step p) in Forall (fun x : f32 => is_finite x = true /\ Rabs (B2R x) <= 2 ^ 90) [place.1; place.2] /\ 0 <= axis_index place.1 r0 dr <= P /\ 0 <= axis_index place.2 z0 dz <= P) as HP'.
  { intros p Hp place. destruct (place_near seg n p Hu Hp) as [[F1 E1] [F2 E2]]. fold step in F1, E1, F2, E2. fold place in F1, E1, F2, E2. destruct (Hplace p Hp) as [H1 H2]. apply Rabs_le_inv in E1, E2.
    destruct HM as [HM0 _]. assert (exists B, 0 <= B /\ B <= 2 ^ 90 /\ Rabs (B2R place.1) <= B /\ Rabs (B2R place.2) <= B) as (B & _ & HB & B1 & B2).
    { destruct (exact_bound seg n p Hu Hp) as (X1 & X2 & X3). assert (2 ^ 40 = 1099511627776) as E40 by (simpl pow; lra). assert (2 ^ 24 = 16777216) as E24 by (simpl pow; lra). assert (2 ^ 50 = 1125899906842624) as E50 by (simpl pow; lra). assert (2 ^ 50 <= 2 ^ 90) as E90 by (apply Rle_pow; [lra|lia]).
      assert (0 < / 2 ^ 70 <= 1) as P70. { split; [apply Rinv_0_lt_compat, pow_lt; lra|]. rewrite <- Rinv_1. apply Rinv_le_contravar; [lra|]. apply Rle_trans with (2 ^ 0); [simpl; lra|apply Rle_pow; [lra|lia]]. }
      assert (place_error seg <= 1125899906842) as PE. { unfold place_error. rewrite E24. rewrite E40 in X3. lra. } apply Rabs_le_inv in X1, X2. rewrite E40 in X3. rewrite E50 in E90. exists 1125899906842624. split; [lra|]. split; [exact E90|]. split; apply Rabs_le; lra. }
    split; [repeat (constructor; [split; [assumption|lra]|]); constructor|]. unfold axis_index.
    assert (forall x x0 d : R, 0 < d -> x0 <= x <= x0 + P * d -> 0 <= (x - x0) / d <= P) as HI. { intros x x0 d Hd Hx. split; [apply Rmult_le_pos; [lra|left; by apply Rinv_0_lt_compat]|]. apply Rmult_le_reg_r with d; [exact Hd|]. unfold Rdiv. rewrite Rmult_assoc, Rinv_l, Rmult_1_r by lra. lra. }
    split; apply HI; lra. }
  destruct (HS HF Hdr Hdz Hdt Ht0 Hq HT HP HP' H) as (c & xs & A1 & A2 & A3 & A4). exists c, xs. split; [exact A1|]. split; [exact A2|]. split; [exact A3|]. intros j Hj. specialize (A4 j Hj).
  eapply Forall2_in; [exact A4|]. intros p x Hin Hc. apply elem_of_list_filter in Hin as [_ Hin]. apply elem_of_seq in Hin as [_ Hin]. assert (p <= n)%nat as Hp by lia.
  destruct (place_near seg n p Hu Hp) as [[F1 E1] [F2 E2]]. fold step in F1, E1, F2, E2.
  assert (0 <= place_error seg) as P0 by (eapply Rle_trans; [apply Rabs_pos|exact E1]).
  assert (0 <= place_error seg / B2R dr /\ 0 <= place_error seg / B2R dz) as [Q1 Q2] by (split; (apply Rmult_le_pos; [lra|left; by apply Rinv_0_lt_compat])).
  assert (forall a b x0 d : R, 0 < d -> Rabs (a - b) <= place_error seg -> Rabs ((a - x0) / d - (b - x0) / d) <= place_error seg / d) as HD. { intros a b x0 d Hd Hab. replace ((a - x0) / d - (b - x0) / d) with ((a - b) / d) by (field; lra). unfold Rdiv. rewrite Rabs_mult, (Rabs_pos_eq (/ d)) by (left; by apply Rinv_0_lt_compat). apply Rmult_le_compat_r; [left; by apply Rinv_0_lt_compat|exact Hab]. }
  eapply contribution_weaken; [| | |exact Hc].
  - unfold axis_index. pose proof (HD _ _ (B2R r0) (B2R dr) Hdr E1) as HH. unfold er. lra.
  - unfold axis_index. pose proof (HD _ _ (B2R z0) (B2R dz) Hdz E2) as HH. unfold er. lra.
  - unfold et, pt, st, E, T. rewrite Rminus_eq_0, Rabs_R0, Rplus_0_l. apply Rle_refl.
Qed.

(** The theorems are not vacuous: a charge at half a unit from the axis moves from height 1/4 to height 1/2 in a unit of time; the library is the one of Chunk32Contrib. *)
Definition ex_seg4 : segment32 := Segment32 (half32, zero32, Bmult mode_NE half32 half32) (half32, zero32, half32) zero32 one32 one32.
Lemma quarter_value : has_value (Bmult mode_NE half32 half32) (1 / 4).
Proof. split; [reflexivity|]. rewrite <- (SF2R_B2SF 24 128). replace (B2SF (Bmult mode_NE half32 half32)) with (SpecFloat.S754_finite false 8388608 (-25)) by (vm_compute; reflexivity). unfold SF2R, F2R. cbn [Fnum Fexp cond_Zopp]. rewrite bpow_neg. change (2 ^ 25)%Z with 33554432%Z. lra. Qed.
Example C76_track_nonvacuous : usual_track ex_seg4 1 /\ is_finite (s32_charge ex_seg4) = true /\ Rabs (B2R (s32_charge ex_seg4)) <= 2 ^ 30 /\ any_times (s32_t0 ex_seg4) (s32_t1 ex_seg4) zero32 one32 1 3 /\
  (forall p, (p <= 1)%nat -> 0 + place_error ex_seg4 <= exact_r ex_seg4 1 p <= 0 + 1 * 1 - place_error ex_seg4 /\ 0 + place_error ex_seg4 <= exact_z ex_seg4 1 p <= 0 + 1 * 1 - place_error ex_seg4) /\
  (map B2SF <$> apply_accumulate32 plus_float 100 100 ex_green linear32 false ex_seg4 zero32 one32 3 one32 [zero32; zero32; zero32; zero32]) =
    Some (map (fun k => B2SF (Bdiv mode_NE (binary_normalize 24 128 _ _ mode_NE k 0 false : f32) (of_size 8))) [-1; -2; -2]%Z ++ [B2SF zero32]).
Proof.
  destruct one_value as [F V]. destruct half_value as [Fh Vh]. destruct quarter_value as [Fq Vq]. assert (B2R zero32 = 0) as Z by reflexivity.
  assert (2 ^ 40 = 1099511627776) as E40 by (simpl pow; lra). assert (2 ^ 50 = 1125899906842624) as E50 by (simpl pow; lra). assert (2 ^ 60 = 1152921504606846976) as E60 by (simpl pow; lra). assert (2 ^ 20 = 1048576) as E20 by (simpl pow; lra). assert (2 ^ 30 = 1073741824) as E30 by (simpl pow; lra). assert (2 ^ 24 = 16777216) as E24 by (simpl pow; lra). unfold f32 in *.
  split. { split; cbn [s32_start s32_end s32_t0 s32_t1 ex_seg4]; unfold f32 in *.
    - repeat (constructor; [split; [reflexivity|rewrite ?Vh, ?Vq, ?Z, ?Rabs_R0; try (rewrite Rabs_pos_eq by lra); lra]|]). constructor.
    - split; reflexivity.
    - rewrite V, Z. lra.
    - vm_compute; reflexivity. }
  split; [reflexivity|]. split; [cbn [s32_charge ex_seg4]; unfold f32 in *; rewrite V, Rabs_R1; lra|].
  split. { cbn [s32_t0 s32_t1 ex_seg4]. assert (1 <= 2 ^ 90) as P90. { apply Rle_trans with (2 ^ 0); [simpl; lra|apply Rle_pow; [lra|lia]]. } assert (/ 2 ^ 90 <= 1) by (rewrite <- Rinv_1; apply Rinv_le_contravar; lra). split; unfold f32 in *; rewrite ?Z, ?V, ?Rabs_R0, ?Rabs_R1, ?E60, ?E20, ?E30, ?E24; [by split_and!|lra|lra|lra|lra|simpl; lra|split; [lia|simpl; lra]]. }
  split. { assert (0 < / 2 ^ 70 <= / 16) as P70. { split; [apply Rinv_0_lt_compat, pow_lt; lra|]. apply Rinv_le_contravar; [lra|]. apply Rle_trans with (2 ^ 4); [simpl; lra|apply Rle_pow; [lra|lia]]. }
    assert (0 <= place_error ex_seg4 <= / 8) as PE. { unfold place_error, track_size. cbn [s32_start s32_end ex_seg4]. unfold f32 in *. rewrite Vh, Vq, Z, E24, Rabs_R0, !Rabs_pos_eq by lra. lra. }
    assert (forall p, (p <= 1)%nat -> 0 <= INR p <= 1) as HI. { intros p Hp. split; [apply pos_INR|]. apply (le_INR p 1). exact Hp. }
    intros p Hp. specialize (HI p Hp). assert (exact_r ex_seg4 1 p = 1 / 2) as ->. { unfold exact_r, on_track. cbn [s32_start s32_end ex_seg4]. unfold f32 in *. rewrite Vh, Z. rewrite !Rminus_eq_0, !Rmult_0_r, !Rplus_0_r. rewrite Rmult_0_r, Rplus_0_r. apply sqrt_square. lra. }
    assert (1 / 4 <= exact_z ex_seg4 1 p <= 1 / 2). { unfold exact_z, on_track. cbn [s32_start s32_end ex_seg4]. unfold f32 in *. rewrite Vh, Vq. change (INR 1) with 1. lra. } lra. }
  vm_compute. reflexivity.
Qed.
