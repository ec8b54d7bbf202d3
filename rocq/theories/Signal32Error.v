(** C75: the times of a signal calculation in 32-bit floats, for any times. *)
From stdpp Require Import base list list_numbers numbers option.
From Coq Require Import Reals ZArith Bool Lra Lia.
From Flocq Require Import Core IEEE754.BinarySingleNaN.
From Verif Require Import NDArrayModel BBoxModel ChunkMetaModel InterpModel SignalModel AntennaModel AntennaSpec AntennaProps DiscreteModel DiscreteSpec DiscreteProps.
From Verif Require Import Interp32Model Interp32Spec Interp32Weights Signal32Model Signal32Spec Signal32Props Signal32Whole.
Local Open Scope R_scope.
Local Notation fexp32 := (FLT_exp (-149) 24).
Local Notation rnd32 := (round radix2 fexp32 ZnearestE).
Local Instance valid32e : Valid_exp fexp32. Proof. apply FLT_exp_valid. reflexivity. Qed.
Local Notation u := (/ 16777216).

(** * How many samples a chunk determines *)
Lemma quotient_floor k x y : time_grid k -> multiple k x -> multiple k y -> 0 < y <= reach k -> 0 <= x < reach k ->
  Zfloor (rnd32 (x / y)) = Zfloor (x / y) /\ 0 <= x / y <= 16777216.
Proof.
  intros Hk Mx My Hy Hx. assert (0 <= x / y) as H0. { apply Rmult_le_pos; [lra|]. apply Rlt_le, Rinv_0_lt_compat. lra. }
  assert (multiple k (- x)) as Mx'. { destruct Mx as (a & ->). exists (- a)%Z. rewrite opp_IZR. ring. }
  assert (- x / y = - (x / y)) as E by (unfold Rdiv; ring).
  assert (rounded_up (- x / y) (- Zfloor (x / y))) as Hu. { rewrite E. unfold rounded_up. rewrite opp_IZR. pose proof (Zfloor_lb (x / y)). pose proof (Zfloor_ub (x / y)). lra. }
  destruct (quotient_ceil k _ _ _ Hk Mx' My Hy ltac:(rewrite Rabs_Ropp, Rabs_pos_eq by lra; lra) Hu) as (H1 & H2 & _).
  rewrite E in H1, H2. rewrite round_NE_opp in H1. unfold Zceil in H1. rewrite Ropp_involutive in H1. rewrite Rabs_Ropp, Rabs_pos_eq in H2 by lra. split; [lia|lra].
Qed.
(** On a grid of indices, the code takes as many samples as there are up to the end of the chunk, but not more than it needs, and the assert of line 399 holds. *)
Theorem C75_chunk_samples k end_t (cft ts : f32) left : time_grid k -> (k <= 0)%Z -> (0 < left)%nat -> on_grid k cft -> on_grid k ts -> 0 < B2R ts -> 0 <= B2R cft <= real end_t -> real end_t < reach k ->
  exists m, samples_from_chunk end_t cft ts left = Some m /\ (0 < m <= left)%nat /\ sample_time (B2R cft) (B2R ts) (m - 1) <= real end_t /\
    (m = left \/ real end_t < sample_time (B2R cft) (B2R ts) m).
Proof.
  intros Hk Hk0 Hl (Fc & Mc & Rc) (Fs & Ms & Rs) Hs Hce Hr. rewrite (Rabs_pos_eq (B2R ts)) in Rs by lra.
  assert (reach k <= 16777216) as Hreach. { unfold reach. change 16777216 with (bpow radix2 24). apply bpow_le. lia. }
  assert (end_t <= 2 ^ 24)%N as He. { assert (IZR (Z.of_N end_t) < 16777216) as H by (unfold real in Hr; lra). apply lt_IZR in H. lia. }
  destruct (of_size_value _ He) as [Fe Ve]. assert (multiple k (real end_t)) as Me.
  { exists (Z.of_N end_t * 2 ^ (- k))%Z. rewrite mult_IZR, (IZR_Zpower radix2) by lia. rewrite Rmult_assoc, <- bpow_plus. replace (- k + k)%Z with 0%Z by lia. change (bpow radix2 0) with 1. unfold real. ring. }
  unfold samples_from_chunk, sample_time. set (E := real end_t) in *.
  destruct (minus_grid k (of_size end_t) cft Hk Fe Fc) as [F1 V1]; [rewrite Ve; exact Me|exact Mc|rewrite Ve, Rabs_pos_eq by lra; lra|]. rewrite Ve in V1.
  destruct (quotient_floor k (E - B2R cft) (B2R ts) Hk (multiple_minus _ _ _ Me Mc) Ms (conj Hs Rs) ltac:(lra)) as [Hf Hq]. set (x := (E - B2R cft) / B2R ts) in *.
  destruct (div_value32 (Bminus mode_NE (of_size end_t) cft) ts F1) as [F2 V2]; [lra|rewrite V1; fold x; rewrite Rabs_pos_eq by lra; eapply Rle_trans; [apply Hq|]; change 16777216 with (bpow radix2 24); apply bpow_le; lia|]. rewrite V1 in V2. fold x in V2.
  assert (0 <= rnd32 x) as H0. { apply round_ge_generic; [typeclasses eauto|typeclasses eauto|apply generic_format_0|lra]. }
  assert (rnd32 x <= 16777216) as H1. { apply round_le_generic; [typeclasses eauto|typeclasses eauto|apply (integer_format32 16777216); lia|lra]. }
  destruct (trunc_value _ F2) as (c & Hc & B1 & B2). { rewrite V2. split; [exact H0|]. apply Rle_lt_trans with 16777216; [exact H1|]. simpl pow. lra. } rewrite Hc. cbn [mbind option_bind].
  assert (Z.of_N c = Zfloor x) as Ec. { rewrite <- Hf. symmetry. apply Zfloor_imp. rewrite plus_IZR. rewrite V2 in B1, B2. unfold real in *. lra. }
  pose proof (Zfloor_lb x) as L1. pose proof (Zfloor_ub x) as L2. rewrite <- Ec in L1, L2. assert (IZR (Z.of_N c) = INR (N.to_nat c)) as Ei. { rewrite INR_IZR_INZ. f_equal. lia. } rewrite Ei in L1, L2.
  assert (x * B2R ts = E - B2R cft) as Ex by (unfold x; field; lra). clearbody x.
  set (m := Nat.min (N.to_nat c + 1) left). assert (0 < m <= left)%nat as Hm by (unfold m; lia).
  assert (INR (m - 1) * B2R ts <= E - B2R cft) as Hmt. { rewrite <- Ex. apply Rmult_le_compat_r; [lra|]. apply Rle_trans with (INR (N.to_nat c)); [apply le_INR; unfold m; lia|exact L1]. }
  pose proof (pos_INR (m - 1)) as Hm0. assert (0 <= INR (m - 1) * B2R ts) as Hm1 by (apply Rmult_le_pos; lra).
  assert (INR (m - 1) <= 16777216) as Hm2. { apply Rle_trans with (INR (N.to_nat c)); [apply le_INR; unfold m; lia|lra]. }
  destruct (count_grid k (m - 1) ts Hk Hm2 Fs Ms) as [F3 V3]; [rewrite Rabs_pos_eq; lra|].
  destruct (plus_grid k cft (Bmult mode_NE (of_size (N.of_nat (m - 1))) ts) Hk Fc F3 Mc) as [F4 V4]; [rewrite V3; apply multiple_times; exact Ms|rewrite V3, Rabs_pos_eq; lra|]. rewrite V3 in V4.
  exists m. rewrite Bleb_correct by assumption. rewrite V4, Ve. rewrite Rle_bool_true by lra. split; [reflexivity|]. split; [exact Hm|]. split; [lra|].
  destruct (Nat.le_gt_cases left (N.to_nat c + 1)) as [Hcl|Hcl]; [left; unfold m; lia|]. right. assert (m = N.to_nat c + 1)%nat as -> by (unfold m; lia).
  assert (x * B2R ts < INR (N.to_nat c + 1) * B2R ts) as Hlt. { apply Rmult_lt_compat_r; [lra|]. rewrite plus_INR. simpl (INR 1). lra. } lra.
Qed.
Print Assumptions C75_chunk_samples.

(** * Any times *)
(** The error of the times in the calculation for one point. *)
Definition time_error (t_p ts dt : R) : R := (4 * Rabs t_p + 4 * Rabs ts + 4 * dt) / 2 ^ 23 + / 2 ^ 140.
Lemma eta_140 : 8 * eta <= / 2 ^ 140. Proof. unfold eta. change 150%nat with (10 + 140)%nat. rewrite pow_add, Rinv_mult. assert (0 < / 2 ^ 140) by (apply Rinv_0_lt_compat, pow_lt; lra). simpl (2 ^ 10). lra. Qed.
(** For times that are not too large and at most 2^22 samples from the start of the signal to the point, the sample that is chosen is up to the error the first one that is not earlier than the point,
    and the time since the point is correct and not negative up to the error. *)
Theorem C75_time_error (t_p ts dt : f32) : is_finite t_p = true -> is_finite ts = true -> is_finite dt = true -> Rabs (B2R t_p) <= 2 ^ 60 -> Rabs (B2R ts) <= 2 ^ 60 -> 0 < B2R dt <= 2 ^ 60 ->
  B2R ts <= B2R t_p -> (B2R t_p - B2R ts) / B2R dt <= 2 ^ 22 ->
  exists c, causal_sample32 t_p ts dt = Some c /\ is_finite (conv_start32 t_p ts dt c) = true /\
    B2R t_p - time_error (B2R t_p) (B2R ts) (B2R dt) <= sample_time (B2R ts) (B2R dt) c < B2R t_p + B2R dt + time_error (B2R t_p) (B2R ts) (B2R dt) /\
    Rabs (B2R (conv_start32 t_p ts dt c) - (sample_time (B2R ts) (B2R dt) c - B2R t_p)) <= time_error (B2R t_p) (B2R ts) (B2R dt).
Proof.
  intros Fp Fs Fd Bp Bs [Hd Bd] Hle Hx. set (a := B2R t_p) in *. set (s := B2R ts) in *. set (d := B2R dt) in *.
  assert (2 ^ 22 = 4194304) as E22 by (simpl pow; lra). rewrite E22 in Hx.
  assert (64 * 2 ^ 60 <= 2 ^ 110) as P60. { change 110%nat with (50 + 60)%nat. rewrite pow_add. pose proof (pow_lt 2 60 ltac:(lra)). assert (64 <= 2 ^ 50) by (apply Rle_trans with (2 ^ 6); [simpl pow; lra|apply Rle_pow; [lra|lia]]). apply Rmult_le_compat_r; lra. }
  assert (1000000000 <= 2 ^ 60) as P61 by (simpl pow; lra). pose proof eta_small as HE. pose proof eta_140 as HE2. assert (0 < / 2 ^ 140) as P140 by (apply Rinv_0_lt_compat, pow_lt; lra).
  pose proof bpow127_big as B127.
  (* the difference *)
  assert (Rabs (a - s) <= Rabs a + Rabs s) as Has. { unfold Rminus. rewrite <- (Rabs_Ropp s). apply Rabs_triang. }
  destruct (minus_value t_p ts Fp Fs) as [F1 V1]; [fold a s; lra|]. fold a s in V1.
  assert (Rabs (rnd32 (a - s) - (a - s)) <= Rabs (a - s) * u) as R1. { rewrite <- ulp32_value. unfold Rminus. apply plus32; [apply format32|apply generic_format_opp, format32]. }
  set (D := a - s) in *. assert (0 <= D) as HD by (unfold D; lra). rewrite (Rabs_pos_eq D) in R1, Has by lra. set (d1 := rnd32 D) in *. apply Rabs_le_inv in R1.
  assert (0 <= d1) as Hd1. { apply round_ge_generic; [typeclasses eauto|typeclasses eauto|apply generic_format_0|lra]. }
  (* the quotient *)
  set (x := D / d) in *. assert (Ex : x * d = D) by (unfold x; field; lra). assert (0 <= x) as Hx0. { apply Rmult_le_pos; [lra|apply Rlt_le, Rinv_0_lt_compat; lra]. }
  assert (x * (1 - u) <= d1 / d <= x * (1 + u)) as Hq1. { split; apply (Rmult_le_reg_r d); try lra; unfold Rdiv; rewrite (Rmult_assoc d1), Rinv_l by lra; [replace (x * (1 - u) * d) with (x * d * (1 - u)) by ring|replace (x * (1 + u) * d) with (x * d * (1 + u)) by ring]; rewrite Ex; lra. }
  set (y := d1 / d) in *. assert (0 <= y) as Hy0 by (apply Rle_trans with (x * (1 - u)); [apply Rmult_le_pos; lra|apply Hq1]).
  destruct (div_value32 (Bminus mode_NE t_p ts) dt F1) as [F2 V2]; [fold d; lra|rewrite V1; fold d y; rewrite Rabs_pos_eq by lra; lra|]. rewrite V1 in V2. fold d y in V2.
  pose proof (round_error y) as R2. rewrite ulp32_value in R2. fold eta in R2. rewrite (Rabs_pos_eq y) in R2 by lra. set (q := rnd32 y) in *. apply Rabs_le_inv in R2.
  assert (0 <= q) as Hq0. { apply round_ge_generic; [typeclasses eauto|typeclasses eauto|apply generic_format_0|lra]. }
  (* the ceiling *)
  pose proof (ceil_value _ F2) as HC. rewrite V2 in HC. set (z := Zceil q) in *. pose proof (Zceil_ub q) as Z1. fold z in Z1.
  assert (IZR z < q + 1) as Z2. { unfold z. destruct (Req_dec (IZR (Zfloor q)) q) as [E|E]; [rewrite <- E at 1; rewrite Zceil_IZR; lra|]. rewrite (Zceil_floor_neq _ E), plus_IZR. pose proof (Zfloor_lb q). pose proof (Zfloor_ub q). lra. }
  assert (0 <= z)%Z as Hz0 by (apply le_IZR; lra). assert (z <= 8388608)%Z as Hz1. { assert (z < 8388609)%Z; [|lia]. apply lt_IZR. lra. }
  unfold causal_sample32. rewrite (int_value _ z HC) by lia. cbn [mbind option_bind]. exists (Z.to_nat (Z.max 0 z)). split; [reflexivity|]. rewrite Z.max_r by lia. set (c := Z.to_nat z).
  assert (INR c = IZR z) as Ec. { unfold c. rewrite INR_IZR_INZ, Z2Nat.id by lia. reflexivity. }
  (* the time of the sample *)
  unfold conv_start32, sample_time. rewrite Ec. assert (IZR z <= 8388608) as Hz2 by (apply IZR_le; lia). assert (0 <= IZR z) as Hz3 by (apply IZR_le; lia). set (w := IZR z) in *. clearbody w.
  destruct (count_value c) as [Fc Vc]; [rewrite Ec; lra|]. rewrite Ec in Vc.
  assert (- (x * (3 * u) + eta) <= w - x <= x * (3 * u) + eta + 1) as Hwx. { clear -Hq1 R2 Z1 Z2 Hx0 Hx HE Hy0. split; lra. }
  set (W := w * d). assert (- (D * (3 * u) + eta * d) <= W - D <= D * (3 * u) + eta * d + d) as HW. { unfold W. rewrite <- Ex. clear -Hwx Hd. split; nra. }
  assert (0 <= eta * d <= u * / 1000000 * d) as Hed. { split; [apply Rmult_le_pos; lra|apply Rmult_le_compat_r; lra]. } set (ed := eta * d) in *.
  assert (0 <= W) as HW0 by (apply Rmult_le_pos; lra).
  assert (W <= 2 * D + 2 * d) as HW1 by lra.
  destruct (mult_near (of_size (N.of_nat c)) dt Fc Fd) as [F3 V3]; [rewrite Vc; fold d; fold W; rewrite Rabs_pos_eq by lra; lra|]. rewrite Vc in V3. fold d in V3. fold W in V3. rewrite (Rabs_pos_eq W) in V3 by lra.
  set (m := Bmult mode_NE (of_size (N.of_nat c)) dt) in *. apply Rabs_le_inv in V3.
  assert (Rabs (W + s) <= Rabs a + Rabs s + 3 * D * u + 2 * ed + d) as HWs.
  { replace (W + s) with ((W - D) + a) by (unfold D; ring). eapply Rle_trans; [apply Rabs_triang|]. assert (Rabs (W - D) <= 3 * D * u + ed + d) by (apply Rabs_le; lra). pose proof (Rabs_pos s). lra. }
  assert (Rabs (B2R m + s) <= Rabs (W + s) + (W * u + eta)) as Hms. { replace (B2R m + s) with ((W + s) + (B2R m - W)) by ring. eapply Rle_trans; [apply Rabs_triang|]. apply Rplus_le_compat_l. apply Rabs_le. lra. }
  destruct (plus_near m ts F3 Fs) as [F4 V4]; [fold s; lra|]. fold s in V4. set (t := Bplus mode_NE m ts) in *.
  assert (Rabs (B2R t - a) <= Rabs (B2R t - (B2R m + s)) + (W * u + eta) + (3 * D * u + ed + d)) as Hta.
  { replace (B2R t - a) with ((B2R t - (B2R m + s)) + (B2R m - W) + (W - D)) by (unfold D; ring). eapply Rle_trans; [apply Rabs_triang|]. apply Rplus_le_compat; [|apply Rabs_le; lra]. eapply Rle_trans; [apply Rabs_triang|]. apply Rplus_le_compat_l. apply Rabs_le. lra. }
  set (T1 := Rabs (B2R t - (B2R m + s))) in *. set (T2 := Rabs (B2R m + s)) in *. set (T3 := Rabs (W + s)) in *. pose proof (Rabs_pos a) as Pa. pose proof (Rabs_pos s) as Ps. set (Aa := Rabs a) in *. set (As := Rabs s) in *.
  destruct (minus_near t t_p F4 Fp) as [F5 V5]; [fold a; lra|]. fold a in V5. set (r := Bminus mode_NE t t_p) in *. set (T4 := Rabs (B2R t - a)) in *.
  split; [exact F5|]. unfold time_error. fold Aa As. assert (2 ^ 23 = 8388608) as -> by (simpl pow; lra).
  assert (s + W - a = W - D) as Esw by (unfold D; ring). split; [split; lra|].
  replace (B2R r - (s + W - a)) with ((B2R r - (B2R t - a)) + (B2R t - (B2R m + s)) + (B2R m - W)) by ring.
  eapply Rle_trans; [apply Rabs_triang|]. apply Rle_trans with ((T4 * u + eta) + T1 + (W * u + eta)).
  { apply Rplus_le_compat; [|apply Rabs_le; lra]. eapply Rle_trans; [apply Rabs_triang|]. apply Rplus_le_compat; [lra|]. unfold T1. lra. }
  lra.
Qed.
Print Assumptions C75_time_error.
