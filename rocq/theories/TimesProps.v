(** C80: the samples of the shower example. *)
From stdpp Require Import base list list_numbers numbers option.
From Coq Require Import Reals ZArith Bool Lra Lia.
From Flocq Require Import Core Relative IEEE754.BinarySingleNaN.
From Verif Require Import AntennaModel AntennaSpec AntennaProps DiscreteModel DiscreteSpec DiscreteProps Interp32Weights Signal32Props Signal32Any TimesModel.
Local Open Scope R_scope.
Local Notation fexp32 := (FLT_exp (-149) 24).
Local Notation rnd32 := (round radix2 fexp32 ZnearestE).
Local Notation u := (/ 16777216).

(** Ordinary times: from [t0] to a later [t1] in steps [dt], at most 2^23 of them. *)
Definition ordinary_times (t0 t1 dt : f32) : Prop :=
  is_finite t0 = true /\ is_finite t1 = true /\ is_finite dt = true /\ Rabs (B2R t0) <= 2 ^ 60 /\ Rabs (B2R t1) <= 2 ^ 60 /\ B2R t0 <= B2R t1 /\ / 2 ^ 60 <= B2R dt <= 2 ^ 60 /\ B2R t1 - B2R t0 <= 2 ^ 23 * B2R dt.
Lemma index_value i : INR i <= 16777216 -> has_value (of_size (N.of_nat i)) (INR i).
Proof. intros H. destruct (of_size_value (N.of_nat i)) as [F V]; [rewrite INR_IZR_INZ in H; apply le_IZR in H; lia|]. split; [exact F|]. rewrite V. unfold real. rewrite nat_N_Z, <- INR_IZR_INZ. reflexivity. Qed.
Lemma time_value t0 t1 dt i : ordinary_times t0 t1 dt -> INR i <= 16777216 ->
  is_finite (sample_time t0 dt i) = true /\ B2R (sample_time t0 dt i) = rnd32 (B2R t0 + rnd32 (INR i * B2R dt)) /\ Rabs (B2R (sample_time t0 dt i) - (B2R t0 + INR i * B2R dt)) <= (Rabs (B2R t0) + 3 * (INR i * B2R dt) + 1 / 2 ^ 80) / 2 ^ 24.
Proof.
  intros (F0 & F1 & Fd & B0 & B1 & Hle & Hd & Hr) Hi. destruct (index_value i Hi) as [Fi Vi]. pose proof bpow127_big as B127. assert (2 ^ 24 = 16777216) as E24 by (simpl pow; lra). rewrite E24.
  pose proof (pos_INR i) as Hi0. assert (0 < / 2 ^ 60) as P0 by (apply Rinv_0_lt_compat, pow_lt; lra).
  assert (0 <= INR i * B2R dt <= 16777216 * 2 ^ 60) as Hp. { split; [apply Rmult_le_pos; lra|apply Rmult_le_compat; lra]. } assert (16777216 * 2 ^ 60 = 2 ^ 84) as E84. { rewrite <- E24, <- pow_add. reflexivity. } assert (64 * 2 ^ 84 <= 2 ^ 110) as E110. { replace 64 with (2 ^ 6) by (simpl pow; lra). rewrite <- pow_add. apply Rle_pow; [lra|lia]. } assert (2 ^ 60 <= 2 ^ 84) as E60 by (apply Rle_pow; [lra|lia]). assert (1 <= 2 ^ 60) as E1 by (apply pow_R1_Rle; lra).
  unfold f32 in *. destruct (mult_value32 (of_size (N.of_nat i)) dt Fi Fd) as [Fm Vm]; [unfold f32 in *; rewrite Vi, Rabs_pos_eq; lra|]. unfold f32 in *. rewrite Vi in Vm. pose proof (rnd_err (INR i * B2R dt)) as R1. rewrite (Rabs_pos_eq (INR i * B2R dt)) in R1 by lra. apply Rabs_le_inv in R1. pose proof eta_small as [Z0 Z1].
  set (p := rnd32 (INR i * B2R dt)) in *. apply Rabs_le_inv in B0 as B0'. destruct (plus_value t0 (Bmult mode_NE (of_size (N.of_nat i)) dt) F0 Fm) as [Fs Vs]; [unfold f32 in *; rewrite Vm; apply Rabs_le; lra|]. unfold f32 in *. rewrite Vm in Vs. unfold sample_time. split; [exact Fs|]. split; [exact Vs|]. unfold f32 in *. rewrite Vs.
  pose proof (sum_err t0 (Bmult mode_NE (of_size (N.of_nat i)) dt)) as R2. unfold f32 in *. rewrite Vm in R2. assert (eta <= u * (/ 2 ^ 80) * / 4) as He. { unfold eta. assert (2 ^ 150 = 2 ^ 24 * 2 ^ 80 * 2 ^ 46) as -> by (rewrite <- !pow_add; reflexivity). assert (4 <= 2 ^ 46) by (apply Rle_trans with (2 ^ 2); [simpl; lra|apply Rle_pow; [lra|lia]]). assert (0 < 2 ^ 80) by (apply pow_lt; lra). rewrite E24, !Rinv_mult. apply Rmult_le_compat_l; [left; apply Rmult_lt_0_compat; [lra|apply Rinv_0_lt_compat; lra]|apply Rinv_le; lra]. }
  assert (0 < / 2 ^ 80) as P80 by (apply Rinv_0_lt_compat, pow_lt; lra). assert (Rabs (B2R t0 + p) <= Rabs (B2R t0) + (INR i * B2R dt * (1 + u) + eta)) as R3. { eapply Rle_trans; [apply Rabs_triang|]. apply Rplus_le_compat_l. apply Rabs_le. lra. } apply Rabs_le_inv in R2. set (s := rnd32 (B2R t0 + p)) in *. clearbody s p. set (a := Rabs (B2R t0)) in *. clearbody a. set (q := INR i * B2R dt) in *. clearbody q. apply Rabs_le. unfold Rdiv. lra.
Qed.
(** There are about (t1 - t0) / dt samples; the time of each is t0 + i dt up to two roundings; the times do not go back. *)
Theorem C80_times t0 t1 dt : ordinary_times t0 t1 dt -> exists times, signal_times t0 t1 dt = Some times /\
  (B2R t1 - B2R t0) / B2R dt * (1 - 3 / 2 ^ 24) - 1 - / 2 ^ 80 < INR (length times) <= (B2R t1 - B2R t0) / B2R dt * (1 + 3 / 2 ^ 24) + / 2 ^ 80 /\
  (forall i t, times !! i = Some t -> is_finite t = true /\ Rabs (B2R t - (B2R t0 + INR i * B2R dt)) <= (Rabs (B2R t0) + 3 * (INR i * B2R dt) + 1 / 2 ^ 80) / 2 ^ 24) /\
  (forall i j s t, (i <= j)%nat -> times !! i = Some s -> times !! j = Some t -> B2R s <= B2R t).
Proof.
  intros H. pose proof H as (F0 & F1 & Fd & B0 & B1 & Hle & Hd & Hr). assert (2 ^ 24 = 16777216) as E24 by (simpl pow; lra). assert (2 ^ 23 = 8388608) as E23 by (simpl pow; lra). pose proof bpow127_big as B127. assert (1 <= 2 ^ 60) as E1 by (apply pow_R1_Rle; lra). assert (0 < / 2 ^ 60) as P0 by (apply Rinv_0_lt_compat; lra). assert (64 * 2 ^ 60 <= 2 ^ 110) as E110. { replace 64 with (2 ^ 6) by (simpl pow; lra). rewrite <- pow_add. apply Rle_pow; [lra|lia]. }
  apply Rabs_le_inv in B0 as B0', B1 as B1'. set (a := B2R t1 - B2R t0) in *. destruct (minus_value t1 t0 F1 F0) as [Fm Vm]; [fold a; rewrite Rabs_pos_eq; unfold a in *; lra|]. fold a in Vm. pose proof (diff_err t1 t0) as R1. fold a in R1. assert (0 <= a) as Ha by (unfold a; lra). rewrite (Rabs_pos_eq a) in R1 by exact Ha. apply Rabs_le_inv in R1. set (m := rnd32 a) in *. set (d := B2R dt) in *.
  set (q := a / d). assert (0 <= q <= 8388608) as Hq. { unfold q. split; [unfold Rdiv; apply Rmult_le_pos; [exact Ha|left; apply Rinv_0_lt_compat; lra]|]. apply Rmult_le_reg_r with d; [lra|]. unfold Rdiv. rewrite Rmult_assoc, Rinv_l by lra. lra. }
  assert (q * (1 - u) <= m / d <= q * (1 + u)) as Hm. { unfold q, Rdiv. assert (0 < / d) by (apply Rinv_0_lt_compat; lra). split; [replace (a * / d * (1 - u)) with (a * (1 - u) * / d) by ring|replace (a * / d * (1 + u)) with (a * (1 + u) * / d) by ring]; apply Rmult_le_compat_r; lra. }
  assert (B2R (Bminus mode_NE t1 t0) / B2R dt = m / d) as Emd by (unfold f32 in *; rewrite Vm; reflexivity). destruct (div_value32 (Bminus mode_NE t1 t0) dt Fm) as [Fq Vq]; [fold d; lra|rewrite Emd, Rabs_pos_eq by lra; lra|]. rewrite Emd in Vq.
  pose proof (rnd_err (m / d)) as R2. rewrite (Rabs_pos_eq (m / d)) in R2 by lra. apply Rabs_le_inv in R2. pose proof (rnd_pos (m / d) ltac:(lra)) as Hpos. pose proof eta_small as [Z0 Z1]. destruct (trunc_value _ Fq) as (k & Ek & K1 & K2). { unfold f32 in *. rewrite Vq. assert (2 ^ 25 <= 2 ^ 60) by (apply Rle_pow; [lra|lia]). assert (2 ^ 25 = 33554432) by (simpl pow; lra). lra. }
  unfold f32 in *. rewrite Vq in K1, K2. set (y := rnd32 (m / d)) in *. assert (INR (N.to_nat k) = real k) as Ek'. { unfold real. rewrite INR_IZR_INZ. f_equal. lia. }
  assert (eta <= / 2 ^ 80) as He by (unfold eta; apply Rinv_le; [apply pow_lt; lra|apply Rle_pow; [lra|lia]]). assert (0 < / 2 ^ 80) as P80 by (apply Rinv_0_lt_compat, pow_lt; lra).
  assert (INR (N.to_nat k) <= 8388610) as HN by (rewrite Ek'; lra). assert (forall i, (i < N.to_nat k)%nat -> INR i <= 16777216) as HN' by (intros i Hi; pose proof (lt_INR _ _ Hi); lra).
  exists (sample_time t0 dt <$> seq 0 (N.to_nat k)). assert (forall i (t : f32), (sample_time t0 dt <$> seq 0 (N.to_nat k)) !! i = Some t -> (i < N.to_nat k)%nat /\ t = sample_time t0 dt i) as Hlk. { intros i t Hi. rewrite list_lookup_fmap in Hi. apply fmap_Some in Hi as (j & Hj & ->). apply lookup_seq in Hj as [-> Hj]. split; [exact Hj|reflexivity]. }
  split_and!.
  - unfold signal_times, number_of_samples. unfold f32 in *. rewrite Ek. reflexivity.
  - rewrite fmap_length, seq_length, Ek', E24. lra.
  - rewrite fmap_length, seq_length, Ek', E24. lra.
  - intros i t Hi. apply Hlk in Hi as [Hi ->]. destruct (time_value t0 t1 dt i H (HN' i Hi)) as (A & _ & B). split; assumption.
  - intros i j s t Hij Hi Hj. apply Hlk in Hi as [Hi ->]. apply Hlk in Hj as [Hj ->]. destruct (time_value t0 t1 dt i H (HN' i Hi)) as (_ & E & _). destruct (time_value t0 t1 dt j H (HN' j Hj)) as (_ & E' & _). unfold f32 in *. rewrite E, E'. apply round_le; [typeclasses eauto..|]. apply Rplus_le_compat_l. apply round_le; [typeclasses eauto..|]. fold d; apply Rmult_le_compat_r; [lra|]; apply le_INR, Hij.
Qed.
(** If the step is larger than the rounding at the end, the times are different and increase. *)
Theorem C80_increasing t0 t1 dt i j : ordinary_times t0 t1 dt -> (i < j)%nat -> INR j <= 2 ^ 24 -> 2 * (Rabs (B2R t0) + 3 * (INR j * B2R dt) + 1) / 2 ^ 24 < B2R dt -> B2R (sample_time t0 dt i) < B2R (sample_time t0 dt j).
Proof.
  intros H Hij Hj24 Hs. pose proof H as (_ & _ & _ & _ & _ & _ & Hd & _). assert (2 ^ 24 = 16777216) as E24 by (simpl pow; lra). pose proof (lt_INR _ _ Hij) as Hlt. destruct (time_value t0 t1 dt i H ltac:(lra)) as (_ & _ & A). destruct (time_value t0 t1 dt j H ltac:(lra)) as (_ & _ & B). rewrite E24 in *. assert (0 < / 2 ^ 60) by (apply Rinv_0_lt_compat, pow_lt; lra).
  assert (/ 2 ^ 80 <= 1) as P80. { rewrite <- Rinv_1. apply Rinv_le; [lra|apply pow_R1_Rle; lra]. } assert (INR i + 1 <= INR j) as Hj. { rewrite <- S_INR. apply le_INR. lia. } assert (INR i * B2R dt + B2R dt <= INR j * B2R dt) as Hp. { replace (INR i * B2R dt + B2R dt) with ((INR i + 1) * B2R dt) by ring. apply Rmult_le_compat_r; lra. }
  apply Rabs_le_inv in A, B. unfold Rdiv in *. rewrite Rmult_1_l in *. set (x := / 2 ^ 80) in *. lra.
Qed.
(** The example: from 1050 to 1300 with 5 samples per unit of time: 1250 samples. *)
Definition whole_time (k : Z) : f32 := binary_normalize 24 128 _ _ mode_NE k 0 false.
Example C80_nonvacuous : ordinary_times (whole_time 1050) (whole_time 1300) (sampling_interval (whole_time 5)) /\ number_of_samples (whole_time 1050) (whole_time 1300) (sampling_interval (whole_time 5)) = Some 1250%N.
Proof.
  assert (B2R (whole_time 1050) = 1050) as V0 by (rewrite <- SF2R_B2SF; vm_compute; lra). assert (B2R (whole_time 1300) = 1300) as V1 by (rewrite <- SF2R_B2SF; vm_compute; lra).
  assert (B2R (sampling_interval (whole_time 5)) = 13421773 / 67108864) as Vd. { rewrite <- SF2R_B2SF. assert (B2SF (sampling_interval (whole_time 5)) = SpecFloat.S754_finite false 13421773 (-26)) as -> by (vm_compute; reflexivity). unfold SF2R, F2R. cbn [Fnum Fexp cond_Zopp]. change (bpow radix2 (-26)) with (/ IZR (2 ^ 26)). change (2 ^ 26)%Z with 67108864%Z. lra. }
  assert (2 ^ 11 <= 2 ^ 60) as P11 by (apply Rle_pow; [lra|lia]). assert (2 ^ 11 = 2048) as E11 by (simpl pow; lra). assert (/ 2 ^ 60 <= / 2048) as Q by (apply Rinv_le; lra). assert (2 ^ 23 = 8388608) as E23 by (simpl pow; lra).
  split; [|vm_compute; reflexivity]. unfold ordinary_times. rewrite V0, V1, Vd, E23. split_and!; try reflexivity; try lra; rewrite Rabs_pos_eq; lra.
Qed.

(** The step is 1 / rate up to two roundings. *)
Theorem C80_interval (rate : f32) : is_finite rate = true -> / 2 ^ 60 <= B2R rate <= 2 ^ 60 -> is_finite (sampling_interval rate) = true /\ Rabs (B2R (sampling_interval rate) - / B2R rate) <= 2 / 2 ^ 24 * / B2R rate.
Proof.
  intros F H. assert (0 < / 2 ^ 60) as P0 by (apply Rinv_0_lt_compat, pow_lt; lra). destruct (to_double_value rate F) as [Fd Vd]. destruct (of_size64_value 1) as [F1 V1]; [lia|]. change (real 1) with 1 in V1. set (r := B2R rate) in *. assert (/ 2 ^ 60 <= / r <= 2 ^ 60) as Hr. { split; [apply Rinv_le; lra|]. rewrite <- (Rinv_inv (2 ^ 60)). apply Rinv_le; lra. }
  assert (bpow radix2 60 = 2 ^ 60) as E60 by (change (bpow radix2 60) with (IZR (2 ^ 60)); rewrite (pow_IZR 2 60); reflexivity). assert (bpow radix2 (-60) = / 2 ^ 60) as Em60 by (change (-60)%Z with (- (60))%Z; rewrite bpow_opp, E60; reflexivity).
  assert (bpow radix2 61 = 2 * 2 ^ 60) as E61 by (change 61%Z with (1 + 60)%Z; rewrite bpow_plus, E60; reflexivity). assert (bpow radix2 (-61) = / 2 * / 2 ^ 60) as Em61 by (change (-61)%Z with (- (61))%Z; rewrite bpow_opp, E61, Rinv_mult; reflexivity).
  pose proof (Bdiv_correct 53 1024 _ _ mode_NE (of_size64 1) (to_double rate)) as HB. change (round_mode mode_NE) with ZnearestE in HB. change (SpecFloat.fexp 53 1024) with (FLT_exp (-1074) 53) in HB. unfold f32, f64 in *. rewrite V1, Vd in HB. specialize (HB ltac:(lra)). replace (1 / r) with (/ r) in HB by (unfold Rdiv; ring). rewrite Rlt_bool_true in HB. 2:{ apply below_64. rewrite Rabs_pos_eq by lra. apply Rle_trans with (bpow radix2 60); [rewrite E60; lra|apply bpow_le; lia]. }
  destruct HB as (E & Fq & _). rewrite F1 in Fq. pose proof (relative_error_N_FLT radix2 (-1074) 53 eq_refl (fun x => negb (Z.even x)) (/ r)) as R1. specialize (R1 ltac:(rewrite Rabs_pos_eq by lra; apply Rle_trans with (bpow radix2 (-60)); [apply bpow_le; lia|rewrite Em60; lra])). set (y := round radix2 (FLT_exp (-1074) 53) ZnearestE (/ r)) in *. rewrite (Rabs_pos_eq (/ r)) in R1 by lra.
  assert (bpow radix2 (-53 + 1) <= / 1000000000000) as B53. { change (-53 + 1)%Z with (- (52))%Z. rewrite bpow_opp. apply Rinv_le; [lra|]. change (bpow radix2 52) with (IZR (2 ^ 52)). apply IZR_le. lia. } assert (/ 2 * bpow radix2 (-53 + 1) * / r <= / 2 * / 1000000000000 * / r) as R1' by (apply Rmult_le_compat_r; lra). apply Rabs_le_inv in R1. change (- (53) + 1)%Z with (-53 + 1)%Z in R1. clearbody y.
  assert (0 < 2 ^ 60) as P60 by (apply pow_lt; lra). pose proof (relative_error_N_FLT radix2 (-149) 24 eq_refl (fun x => negb (Z.even x)) y) as R2. specialize (R2 ltac:(rewrite Rabs_pos_eq by lra; apply Rle_trans with (bpow radix2 (-61)); [apply bpow_le; lia|rewrite Em61; lra])). rewrite (Rabs_pos_eq y) in R2 by lra. assert (bpow radix2 (-24 + 1) = / 8388608) as B24 by (change (-24 + 1)%Z with (- (23))%Z; rewrite bpow_opp; f_equal; change (bpow radix2 23) with (IZR (2 ^ 23)); f_equal; lia). change (- (24) + 1)%Z with (-24 + 1)%Z in R2. rewrite B24 in R2.
  unfold sampling_interval. destruct (to_float_round (Bdiv mode_NE (of_size64 1) (to_double rate))) as [Ff Vf]; [exact Fq|unfold f32, f64 in *; rewrite E; apply below_32; rewrite Rabs_pos_eq by lra; apply Rle_trans with (bpow radix2 61); [rewrite E61; lra|apply bpow_le; lia]|]. split; [exact Ff|]. unfold f32, f64 in *. rewrite Vf, E. set (z := rnd32 y) in *. apply Rabs_le_inv in R2. replace (2 ^ 24) with 16777216 by (simpl pow; lra). apply Rabs_le. lra.
Qed.
(** The constants of the example. *)
Theorem C80_example : exists times, signal_times (whole_time 1050) (whole_time 1300) (sampling_interval (whole_time 5)) = Some times /\ length times = 1250%nat /\
  (forall i t, times !! i = Some t -> Rabs (B2R t - (1050 + INR i / 5)) <= 1 / 5000) /\ (forall i j s t, (i < j)%nat -> times !! i = Some s -> times !! j = Some t -> B2R s < B2R t).
Proof.
  destruct C80_nonvacuous as [H Hn]. destruct (C80_times _ _ _ H) as (times & E & _ & Ht & _). exists times. split; [exact E|]. unfold signal_times in E. rewrite Hn in E. cbn [mbind option_bind] in E. apply (inj Some) in E. set (n := N.to_nat 1250) in E. assert (n = 1250%nat) as En by (unfold n; rewrite <- Nnat.Nat2N.id; reflexivity). clearbody n. assert (length times = 1250%nat) as Hl by (rewrite <- E, fmap_length, seq_length; exact En). split; [exact Hl|].
  assert (B2R (whole_time 1050) = 1050) as V0 by (rewrite <- SF2R_B2SF; vm_compute; lra). assert (B2R (sampling_interval (whole_time 5)) = 13421773 / 67108864) as Vd. { rewrite <- SF2R_B2SF. assert (B2SF (sampling_interval (whole_time 5)) = SpecFloat.S754_finite false 13421773 (-26)) as -> by (vm_compute; reflexivity). unfold SF2R, F2R. cbn [Fnum Fexp cond_Zopp]. change (bpow radix2 (-26)) with (/ IZR (2 ^ 26)). change (2 ^ 26)%Z with 67108864%Z. lra. }
  assert (/ 2 ^ 80 <= 1) as P80. { rewrite <- Rinv_1. apply Rinv_le; [lra|apply pow_R1_Rle; lra]. } assert (2 ^ 24 = 16777216) as E24 by (simpl pow; lra).
  assert (forall i (t : f32), times !! i = Some t -> INR i <= 1250) as Hi. { intros i t Hi. apply lookup_lt_Some in Hi. rewrite Hl in Hi. rewrite INR_IZR_INZ. apply IZR_le. lia. } split.
  - intros i t Hit. destruct (Ht i t Hit) as [_ A]. unfold f32 in *. rewrite V0, Vd, E24, (Rabs_pos_eq 1050) in A by lra. pose proof (Hi i t Hit). pose proof (pos_INR i). apply Rabs_le_inv in A. apply Rabs_le. unfold Rdiv in *. set (x := / 2 ^ 80) in *. clearbody x. lra.
  - intros i j s t Hij Hs Htt. assert (s = sample_time (whole_time 1050) (sampling_interval (whole_time 5)) i) as ->. { rewrite <- E, list_lookup_fmap in Hs. apply fmap_Some in Hs as (k & Hk & ->). apply lookup_seq in Hk as [-> _]. reflexivity. } assert (t = sample_time (whole_time 1050) (sampling_interval (whole_time 5)) j) as ->. { rewrite <- E, list_lookup_fmap in Htt. apply fmap_Some in Htt as (k & Hk & ->). apply lookup_seq in Hk as [-> _]. reflexivity. }
    pose proof (Hi j _ Htt). pose proof (pos_INR j). apply C80_increasing with (whole_time 1300); [exact H|exact Hij|lra|]. unfold f32 in *. rewrite V0, Vd, E24, (Rabs_pos_eq 1050) by lra. lra.
Qed.
