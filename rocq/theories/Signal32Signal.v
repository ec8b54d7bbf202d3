(** C75: the theorems about the whole signal in 32-bit floats, and where the times go wrong. *)
From stdpp Require Import base list list_numbers numbers option.
From Coq Require Import Reals ZArith Bool Lra Lia.
From Flocq Require Import Core IEEE754.BinarySingleNaN.
From Verif Require Import NDArrayModel BBoxModel ChunkMetaModel InterpModel SignalModel AntennaModel AntennaSpec AntennaProps DiscreteModel DiscreteSpec DiscreteProps.
From Verif Require Import Interp32Model Interp32Spec Interp32Weights Signal32Model Signal32Spec Signal32Props Signal32Whole.
Local Open Scope R_scope.
Local Notation fexp32 := (FLT_exp (-149) 24).
Local Notation rnd32 := (round radix2 fexp32 ZnearestE).
Local Instance valid32s : Valid_exp fexp32. Proof. apply FLT_exp_valid. reflexivity. Qed.

Lemma is_one (x : f32) : has_value x 1 -> x = one32.
Proof.
  intros [F V]. destruct one_value as [F1 V1]. unfold f32 in *. apply B2R_inj; [| |congruence].
  - destruct x; try discriminate; [exfalso; unfold B2R in V; lra|reflexivity].
  - reflexivity.
Qed.

(** On a grid of times, the signal has exactly the contributions that it should have, in the order of the points: element [j] of the signal gets the
    contribution of every point of the track that is not later than the time of sample [j], and of no other, and every contribution is evaluated at the exact time
    since the point.  [e p f j] is what the evaluation of the Green's function for point [p], starting with sample [f], does with element [j]. *)
Theorem C75_signal {A} call ib sb seg (ts dt : f32) num n weight k (c : nat -> nat) (e : nat -> nat -> nat -> A -> A) signal :
  (1 <= ib)%nat -> (1 <= sb)%nat -> (0 < n)%nat -> time_grid k -> (k <= 0)%Z ->
  on_grid k (s32_t0 seg) -> on_grid k (s32_t1 seg) -> on_grid k ts -> on_grid k dt -> 0 < B2R dt ->
  B2R (s32_t1 seg) - B2R (s32_t0 seg) = INR n ->
  Rabs (B2R (s32_t0 seg)) + INR n + Rabs (B2R ts) + INR num * B2R dt < reach k ->
  (num <= length signal)%nat ->
  (forall p j, (p <= n)%nat -> (c p <= j)%nat <-> point_time (B2R (s32_t0 seg)) 1 p <= sample_time (B2R ts) (B2R dt) j) ->
  (forall p first m sig conv, (p <= n)%nat -> (c p <= first)%nat -> (0 < m)%nat -> (first + m <= num)%nat -> length sig = length signal ->
     has_value conv (sample_time (B2R ts) (B2R dt) first - point_time (B2R (s32_t0 seg)) 1 p) ->
     call (coord_cyl32 (position32 seg one32 p)) conv m (field_cyl32 (source32 seg) (position32 seg one32 p)) first (point_weight32 (trapezoid32 n p) one32 weight) sig
     = Some (changed (fun j y => if ((first <=? j) && (j <? first + m))%nat then e p first j y else y) sig)) ->
  apply_accumulate_with call ib sb seg ts dt num weight signal
  = Some (changed (fun j y => if (j <? num)%nat then foldl (fun y p => if Rle_dec (point_time (B2R (s32_t0 seg)) 1 p) (sample_time (B2R ts) (B2R dt) j)
                                                                       then e p (Nat.max (j / sb * sb) (c p)) j y else y) y (seq 0 (n + 1)) else y) signal).
Proof.
  intros Hib Hsb Hn Hk Hk0 G0 G1 Gs Gd Hd Hdur Hr Hlen Hcp Hcall. set (t0 := B2R (s32_t0 seg)) in *.
  assert (reach k <= 16777216) as Hreach. { unfold reach. change 16777216 with (bpow radix2 24). apply bpow_le. lia. }
  pose proof (Rabs_pos t0) as P0. pose proof (Rabs_pos (B2R ts)) as Ps. pose proof (lt_0_INR n Hn) as Pn. assert (0 <= INR num * B2R dt) as Pd by (apply Rmult_le_pos; [apply pos_INR|lra]).
  assert (2 ^ 24 = 16777216) as E24 by (simpl pow; lra).
  destruct (C75_whole_track k (s32_t0 seg) (s32_t1 seg) n Hk G0 G1 Hn ltac:(lra) ltac:(lra) Hdur) as [Hint Hstep].
  pose proof (is_one _ Hstep) as Est.
  assert (on_grid k one32) as G1'. { destruct one_value as [F V]. split; [exact F|]. rewrite V. split.
    - exists (2 ^ (- k))%Z. rewrite (IZR_Zpower radix2) by lia. rewrite <- bpow_plus. replace (- k + k)%Z with 0%Z by lia. reflexivity.
    - rewrite Rabs_R1. apply Rle_trans with (INR n); [|lra]. change 1 with (INR 1). apply le_INR. lia. }
  assert (forall p, (p <= n)%nat -> INR p <= INR n) as Hpn by (intros; by apply le_INR).
  destruct one_value as [F1 V1].
  assert (forall p, (p <= n)%nat -> has_value (itgr_time32 (s32_t0 seg) one32 p) (point_time t0 1 p) /\ on_grid k (itgr_time32 (s32_t0 seg) one32 p)) as Htp.
  { intros p Hp. specialize (Hpn p Hp). pose proof (pos_INR p). destruct (C75_point_times k (s32_t0 seg) one32 p Hk G0 G1' ltac:(lra)) as [H1 H2].
    - fold t0. rewrite V1, Rmult_1_r, (Rabs_pos_eq (INR p)) by lra. lra.
    - rewrite V1 in H1. by split. }
  assert (forall p, (p <= n)%nat -> Rabs (point_time t0 1 p) <= Rabs t0 + INR n) as Habs.
  { intros p Hp. unfold point_time. specialize (Hpn p Hp). pose proof (pos_INR p). eapply Rle_trans; [apply Rabs_triang|]. rewrite Rmult_1_r, (Rabs_pos_eq (INR p)) by lra. lra. }
  assert (forall p, (p <= n)%nat -> causal_sample32 (itgr_time32 (s32_t0 seg) one32 p) ts dt = Some (c p)) as Hc.
  { intros p Hp. destruct (Htp p Hp) as [[Fp Vp] Gp]. set (x := (point_time t0 1 p - B2R ts) / B2R dt).
    assert (rounded_up x (Zceil x)) as Hup. { split; [|apply Zceil_ub]. assert (IZR (Zceil x) < x + 1); [|lra]. pose proof (Zceil_floor_neq x) as HF. pose proof (Zfloor_lb x) as HL. destruct (Req_dec (IZR (Zfloor x)) x) as [E|E]; [rewrite <- E at 1; rewrite Zceil_IZR; lra|]. rewrite HF, plus_IZR by exact E. lra. }
    rewrite (C75_first_sample k _ ts dt (Zceil x) Hk Gp Gs Gd Hd); [|rewrite Vp|rewrite Vp; exact Hup].
    2: { pose proof (Habs p Hp). eapply Rle_lt_trans; [apply Rabs_triang|]. rewrite Rabs_Ropp. lra. }
    f_equal. assert (forall j, (Z.to_nat (Zceil x) <= j)%nat <-> (c p <= j)%nat) as Hiff.
    { intros j. rewrite (Hcp p j Hp). unfold sample_time. assert (point_time t0 1 p = B2R ts + x * B2R dt) as -> by (unfold x; field; lra). destruct Hup as [U1 U2]. split.
      - intros H. assert (IZR (Zceil x) <= INR j) as H1. { rewrite INR_IZR_INZ. apply IZR_le. lia. } assert (x * B2R dt <= INR j * B2R dt) by (apply Rmult_le_compat_r; lra). lra.
      - intros H. assert (x <= INR j) as H1. { apply (Rmult_le_reg_r (B2R dt)); lra. } rewrite INR_IZR_INZ in H1. assert (Zceil x <= Z.of_nat j)%Z by (by apply Zceil_glb). lia. }
    pose proof (proj1 (Hiff (Z.to_nat (Zceil x))) ltac:(lia)). pose proof (proj2 (Hiff (c p)) ltac:(lia)). lia. }
  assert (forall p j, (p <= n)%nat -> (j <= num)%nat -> has_value (conv_start32 (itgr_time32 (s32_t0 seg) one32 p) ts dt j) (sample_time (B2R ts) (B2R dt) j - point_time t0 1 p) /\
     (Bleb zero32 (conv_start32 (itgr_time32 (s32_t0 seg) one32 p) ts dt j) = true <-> point_time t0 1 p <= sample_time (B2R ts) (B2R dt) j)) as Hconv.
  { intros p j Hp Hj. destruct (Htp p Hp) as [[Fp Vp] Gp]. rewrite <- Vp. apply (C75_time_since_point k); [exact Hk|exact Gp|exact Gs|exact Gd|exact Hd|]. rewrite Vp. pose proof (Habs p Hp).
    assert (INR j * B2R dt <= INR num * B2R dt). { apply Rmult_le_compat_r; [lra|]. by apply le_INR. } lra. }
  rewrite (loops_spec call ib sb seg ts dt num n weight (length signal) c e Hib Hsb Hn Hlen Hint); rewrite ?Est.
  - f_equal. apply changed_ext. intros j y. destruct (j <? num)%nat; [|done]. apply foldl_ext_in. intros p Hp%elem_of_seq v.
    destruct (Rle_dec (point_time t0 1 p) (sample_time (B2R ts) (B2R dt) j)) as [H|H].
    + apply Hcp in H; [|lia]. by rewrite (proj2 (Nat.leb_le _ _) H).
    + destruct (Nat.leb_spec (c p) j) as [H'|H']; [|done]. destruct H. apply Hcp; [lia|done].
  - exact Hc.
  - intros p q Hpq Hq. apply Hcp; [lia|]. apply Rle_trans with (point_time t0 1 q). { unfold point_time. rewrite !Rmult_1_r. apply Rplus_le_compat_l. by apply le_INR. } by apply Hcp.
  - intros p j Hp Hj Hjn. apply Hconv; [done|lia|]. by apply Hcp.
  - intros p first m sig Hp Hf Hm Hfm Hls. apply Hcall; try done. apply Hconv; [done|lia].
  - done.
Qed.
Print Assumptions C75_signal.

(** * Where the times go wrong *)
(** The floats nearest to 6.3, 7.3, 0.7 and 0.3, and 7. *)
Definition ex_6_3 : f32 := binary_normalize 24 128 _ _ mode_NE 13212058 (-21) false.
Definition ex_7_3 : f32 := binary_normalize 24 128 _ _ mode_NE 15309210 (-21) false.
Definition ex_0_7 : f32 := binary_normalize 24 128 _ _ mode_NE 11744051 (-24) false.
Definition ex_0_3 : f32 := binary_normalize 24 128 _ _ mode_NE 10066330 (-25) false.
Lemma sf_value (x : f32) m e : B2SF x = SpecFloat.S754_finite false m (Z.neg e) -> has_value x (IZR (Zpos m) / IZR (2 ^ Zpos e)).
Proof. intros H. split; [destruct x; try discriminate; reflexivity|]. rewrite <- (SF2R_B2SF 24 128), H. unfold SF2R, F2R. cbn [Fnum Fexp cond_Zopp]. rewrite bpow_neg. reflexivity. Qed.

(** The signal of a track from 6.3 to 7.3, sampled every 0.7 from 0, cannot be computed: sample 9 is chosen as the first sample that the start of the track contributes to; its time is computed
    as a number below 6.3, and the assert in line 326 fails, whatever the Green's function is. *)
Theorem C75_causality_refuted :
  has_value ex_6_3 (13212058 / 2097152) /\ has_value ex_7_3 (15309210 / 2097152) /\ has_value ex_0_7 (11744051 / 16777216) /\
  causal_sample32 ex_6_3 zero32 ex_0_7 = Some 9%nat /\ B2R (conv_start32 ex_6_3 zero32 ex_0_7 9) < 0 /\
  forall (A : Type) (plus : A -> f32 -> A) G K ignore a b charge weight signal,
    apply_accumulate32 plus 100 100 G K ignore (Segment32 a b ex_6_3 ex_7_3 charge) zero32 ex_0_7 20 weight signal = None.
Proof.
  split; [exact (sf_value ex_6_3 13212058 21 ltac:(vm_compute; reflexivity))|].
  split; [exact (sf_value ex_7_3 15309210 21 ltac:(vm_compute; reflexivity))|].
  split; [exact (sf_value ex_0_7 11744051 24 ltac:(vm_compute; reflexivity))|].
  split; [vm_compute; reflexivity|]. split.
  - rewrite <- (SF2R_B2SF 24 128). replace (B2SF (conv_start32 ex_6_3 zero32 ex_0_7 9)) with (SpecFloat.S754_finite true 8388608 (-44)) by (vm_compute; reflexivity).
    unfold SF2R, F2R. cbn [Fnum Fexp cond_Zopp]. pose proof (bpow_gt_0 radix2 (-44)). assert (IZR (Z.opp 8388608) < 0) by (apply IZR_lt; lia). apply Rmult_lt_reg_r with (/ bpow radix2 (-44)); [by apply Rinv_0_lt_compat|]. rewrite Rmult_assoc, Rinv_r, Rmult_0_l by lra. lra.
  - intros. vm_compute. reflexivity.
Qed.
Print Assumptions C75_causality_refuted.

(** A chunk that ends at index 400, from index 7 on, with a step of 0.3: the code counts 1311 samples that the chunk determines, but the last of them is behind
    the end of the chunk, and the assert in line 399 fails. *)
Theorem C75_chunk_end_refuted : has_value ex_0_3 (10066330 / 33554432) /\
  (forall left, (1311 <= left)%nat -> samples_from_chunk 400 (of_size 7) ex_0_3 left = None) /\ samples_from_chunk 400 (of_size 7) ex_0_3 1310 = Some 1310%nat.
Proof.
  split; [exact (sf_value ex_0_3 10066330 25 ltac:(vm_compute; reflexivity))|]. split.
  - intros left Hl. unfold samples_from_chunk. replace (to_size32 (Bdiv mode_NE (Bminus mode_NE (of_size 400) (of_size 7)) ex_0_3)) with (Some 1310%N) by (vm_compute; reflexivity). cbn [mbind option_bind].
    change (N.to_nat 1310 + 1)%nat with 1311%nat. rewrite Nat.min_l by exact Hl. change (N.of_nat (1311 - 1)) with 1310%N.
    replace (Bleb (Bplus mode_NE (of_size 7) (Bmult mode_NE (of_size 1310) ex_0_3)) (of_size 400)) with false by (vm_compute; reflexivity). reflexivity.
  - vm_compute. reflexivity.
Qed.
Print Assumptions C75_chunk_end_refuted.
