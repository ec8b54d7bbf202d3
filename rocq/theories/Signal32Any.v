(** C75: the signal for any times. *)
From stdpp Require Import base list list_numbers numbers option.
From Coq Require Import Reals ZArith Bool Lra Lia.
From Flocq Require Import Core IEEE754.BinarySingleNaN.
From Verif Require Import NDArrayModel BBoxModel ChunkMetaModel InterpModel SignalModel AntennaModel AntennaSpec AntennaProps DiscreteModel DiscreteSpec DiscreteProps.
From Verif Require Import Interp32Model Interp32Spec Interp32Weights Signal32Model Signal32Spec Signal32Props Signal32Whole Signal32Error.
Local Open Scope R_scope.
Local Notation fexp32 := (FLT_exp (-149) 24).
Local Notation rnd32 := (round radix2 fexp32 ZnearestE).
Local Instance valid32a : Valid_exp fexp32. Proof. apply FLT_exp_valid. reflexivity. Qed.
Local Notation u := (/ 16777216).

(** * Specification *)
(** Times that are not too large, compared with 2^60 and with the sampling step; the numbers of intervals and samples are at most 2^24. *)
Record any_times (t0 t1 ts dt : f32) (n num : nat) : Prop := {
  at_finite : is_finite t0 = true /\ is_finite t1 = true /\ is_finite ts = true /\ is_finite dt = true;
  at_range : Rabs (B2R t0) + Rabs (B2R t1) + Rabs (B2R ts) <= 2 ^ 60;
  at_track : B2R t0 < B2R t1;
  at_step : / 2 ^ 90 <= B2R dt <= 2 ^ 30;
  at_ratio : Rabs (B2R t0) + Rabs (B2R t1) + Rabs (B2R ts) <= 2 ^ 20 * B2R dt;
  at_num : INR num <= 2 ^ 24;
  at_intervals : (0 < n)%nat /\ INR n <= 2 ^ 24
}.
(** The error of the times. *)
Definition any_error (t0 t1 ts dt : R) (num : nat) : R := 24 * (Rabs t0 + Rabs t1 + Rabs ts + (INR num + 1) * dt) / 2 ^ 24 + / 2 ^ 120.

(** * Errors of the times *)
Lemma rnd_mono x y : x <= y -> rnd32 x <= rnd32 y. Proof. apply round_le; typeclasses eauto. Qed.
Lemma rnd_pos x : 0 <= x -> 0 <= rnd32 x. Proof. intros. apply round_ge_generic; [typeclasses eauto|typeclasses eauto|apply generic_format_0|done]. Qed.
Lemma rnd_neg x : x <= 0 -> rnd32 x <= 0. Proof. intros. apply round_le_generic; [typeclasses eauto|typeclasses eauto|apply generic_format_0|done]. Qed.
Lemma rnd_err x : Rabs (rnd32 x - x) <= Rabs x * u + eta. Proof. pose proof (round_error x) as H. by rewrite ulp32_value in H. Qed.
Lemma sum_err (x y : f32) : Rabs (rnd32 (B2R x + B2R y) - (B2R x + B2R y)) <= Rabs (B2R x + B2R y) * u.
Proof. rewrite <- ulp32_value. apply plus32; apply format32. Qed.
Lemma diff_err (x y : f32) : Rabs (rnd32 (B2R x - B2R y) - (B2R x - B2R y)) <= Rabs (B2R x - B2R y) * u.
Proof. rewrite <- ulp32_value. unfold Rminus at 1 3 4. apply plus32; [apply format32|apply generic_format_opp, format32]. Qed.
Lemma eta_many : 16777216 * eta <= / 8 * / 2 ^ 120.
Proof. unfold eta. change 150%nat with (30 + 120)%nat. rewrite pow_add, Rinv_mult. assert (0 < / 2 ^ 120) by (apply Rinv_0_lt_compat, pow_lt; lra). assert (2 ^ 30 = 1073741824) as -> by (simpl pow; lra). lra. Qed.

Section times.
Context (t0 t1 ts dt : f32) (n num : nat) (H : any_times t0 t1 ts dt n num).
Let step := itgr_step32 t0 t1 (N.of_nat n).
Let tp p := itgr_time32 t0 step p.
Let B := Rabs (B2R t0) + Rabs (B2R t1).

Lemma step_value : is_finite step = true /\ 0 <= B2R step <= 2 ^ 62 /\ INR n * Rabs (B2R step - (B2R t1 - B2R t0) / INR n) <= B * (3 * u) + INR n * eta.
Proof.
  destruct H as [(F0 & F1 & Fs & Fd) HR HT HD HQ HN [Hn HI]]. assert (2 ^ 24 = 16777216) as E24 by (simpl pow; lra). rewrite E24 in *. pose proof bpow127_big as B127. pose proof eta_small as HE.
  assert (2 ^ 62 = 4611686018427387904) as E62 by (simpl pow; lra). assert (2 ^ 60 = 1152921504606846976) as E60 by (simpl pow; lra). rewrite E62, E60 in *.
  assert (IZR 1000000000000000000000 <= 2 ^ 110) as P110. { apply Rle_trans with (2 ^ 80); [simpl pow; lra|apply Rle_pow; [lra|lia]]. }
  pose proof (Rabs_pos (B2R ts)) as Ps. pose proof (lt_0_INR n Hn) as Pn. assert (1 <= INR n) as Pn1 by (apply (le_INR 1); lia).
  set (d := B2R t1 - B2R t0). assert (0 < d) as Hd by (unfold d; lra). assert (d <= B) as HdB. { unfold d, B. pose proof (Rle_abs (B2R t1)). pose proof (Rle_abs (- B2R t0)) as Hx. rewrite Rabs_Ropp in Hx. lra. } assert (B <= 1152921504606846976) as HB by (unfold B; lra).
  destruct (minus_value t1 t0 F1 F0) as [G1 V1]; [fold d; rewrite Rabs_pos_eq by lra; lra|]. fold d in V1. pose proof (diff_err t1 t0) as R1. fold d in R1. rewrite (Rabs_pos_eq d) in R1 by lra. apply Rabs_le_inv in R1. set (d1 := rnd32 d) in *.
  assert (0 <= d1) as Hd1 by lra. destruct (count_value n HI) as [Gn Vn].
  set (y := d1 / INR n). assert (y * INR n = d1) as Ey by (unfold y; field; lra). assert (0 <= y) as Hy by (unfold y; apply Rmult_le_pos; [lra|apply Rlt_le, Rinv_0_lt_compat; lra]). assert (y <= d1) as Hyd by nra.
  unfold step, itgr_step32. destruct (div_value32 (Bminus mode_NE t1 t0) (of_size (N.of_nat n)) G1) as [G2 V2]; [lra|rewrite V1, Vn; fold y; rewrite Rabs_pos_eq by lra; lra|]. rewrite V1, Vn in V2. fold y in V2.
  pose proof (rnd_err y) as R2. rewrite (Rabs_pos_eq y) in R2 by lra. apply Rabs_le_inv in R2. pose proof (rnd_pos y Hy) as R3. rewrite V2. set (z := rnd32 y) in *. split; [exact G2|]. split; [lra|].
  rewrite <- (Rabs_pos_eq (INR n)) at 1 by lra. rewrite <- Rabs_mult. replace (INR n * (z - d / INR n)) with (INR n * (z - y) + (d1 - d)) by (rewrite <- Ey; field; lra).
  apply Rabs_le. assert (INR n * (z - y) <= INR n * (y * u + eta) /\ - (INR n * (y * u + eta)) <= INR n * (z - y)) as [K1 K2]. { split; [apply Rmult_le_compat_l; lra|]. rewrite <- Ropp_mult_distr_r_reverse. apply Rmult_le_compat_l; lra. }
  assert (INR n * (y * u + eta) = d1 * u + INR n * eta) as EK by (rewrite <- Ey; ring). rewrite EK in K1, K2. set (w := INR n * (z - y)) in *. set (ne := INR n * eta) in *. split; lra.
Qed.
Lemma point_error p : (p <= n)%nat -> is_finite (tp p) = true /\ Rabs (B2R (tp p) - point_time (B2R t0) ((B2R t1 - B2R t0) / INR n) p) <= 7 * B * u + / 2 * / 2 ^ 120 /\
  Rabs (point_time (B2R t0) ((B2R t1 - B2R t0) / INR n) p) <= 2 * B.
Proof.
  intros Hp. destruct step_value as (F1 & V1 & V2). destruct H as [(F0 & F1' & Fs & Fd) HR HT HD HQ HN [Hn HI]]. assert (2 ^ 24 = 16777216) as E24 by (simpl pow; lra). rewrite E24 in *. pose proof bpow127_big as B127. pose proof eta_small as HE. pose proof eta_many as HE2.
  assert (2 ^ 62 = 4611686018427387904) as E62 by (simpl pow; lra). assert (2 ^ 60 = 1152921504606846976) as E60 by (simpl pow; lra). rewrite E62, E60 in *.
  assert (IZR 100000000000000000000000000000000 <= 2 ^ 110) as P110. { apply Rle_trans with (2 ^ 109); [simpl pow; lra|apply Rle_pow; [lra|lia]]. }
  pose proof (Rabs_pos (B2R ts)) as Ps. pose proof (lt_0_INR n Hn) as Pn. assert (INR p <= INR n) as Hpn by (by apply le_INR). pose proof (pos_INR p) as Pp.
  set (d := B2R t1 - B2R t0) in *. assert (0 < d) as Hd by (unfold d; lra). assert (d <= B) as HdB. { unfold d, B. pose proof (Rle_abs (B2R t1)). pose proof (Rle_abs (- B2R t0)) as Hx. rewrite Rabs_Ropp in Hx. lra. } assert (B <= 1152921504606846976) as HB by (unfold B; lra).
  assert (0 < eta) as He0 by apply HE. assert (0 < / 2 ^ 120) as P120 by (apply Rinv_0_lt_compat, pow_lt; lra). set (i120 := / 2 ^ 120) in *.
  assert (i120 <= 1) as Q120. { unfold i120. rewrite <- Rinv_1. apply Rinv_le_contravar; [lra|]. apply pow_R1_Rle. lra. }
  assert (INR n * eta <= i120 / 8) as Hne by nra. set (ne := INR n * eta) in *.
  set (x := d / INR n) in *. assert (x * INR n = d) as Ex by (unfold x; field; lra). assert (0 < x) as Hx by (apply Rdiv_lt_0_compat; lra).
  assert (Rabs (INR p * B2R step - INR p * x) <= B * (3 * u) + ne) as Herr. { rewrite <- Rmult_minus_distr_l, Rabs_mult, (Rabs_pos_eq (INR p)) by lra. eapply Rle_trans; [|exact V2]. apply Rmult_le_compat_r; [apply Rabs_pos|lra]. }
  assert (0 <= INR p * x <= d) as Hpx. { split; [apply Rmult_le_pos; lra|]. rewrite <- Ex, Rmult_comm. apply Rmult_le_compat_l; lra. } set (px := INR p * x) in *.
  assert (0 <= INR p * B2R step) as Hps by (apply Rmult_le_pos; lra). set (ps := INR p * B2R step) in *. apply Rabs_le_inv in Herr.
  destruct (count_value p) as [Gp Vp]; [lra|]. destruct (mult_value32 (of_size (N.of_nat p)) step Gp F1) as [F2 V3]; [rewrite Vp; fold ps; rewrite Rabs_pos_eq by lra; lra|]. rewrite Vp in V3. fold ps in V3.
  pose proof (rnd_err ps) as R1. rewrite (Rabs_pos_eq ps) in R1 by lra. rewrite <- V3 in R1. set (m := Bmult mode_NE (of_size (N.of_nat p)) step) in *. apply Rabs_le_inv in R1.
  pose proof (Rabs_pos (B2R t0)) as P0. pose proof (Rabs_pos (B2R t1)) as P1. assert (Rabs (B2R t0) <= B) as HtB by (unfold B; lra). apply Rabs_le_inv in HtB as HtB'.
  assert (Rabs (B2R m + B2R t0) <= 2 * B + B * (5 * u) + i120) as Hm. { apply Rabs_le. clearbody B. lra. }
  destruct (plus_value m t0 F2 F0) as [F3 V4]; [lra|]. pose proof (sum_err m t0) as R2. rewrite <- V4 in R2. unfold tp, itgr_time32. fold m. set (t := Bplus mode_NE m t0) in *.
  split; [exact F3|]. unfold point_time. fold px. split; [|apply Rabs_le; lra].
  assert (Rabs (B2R t - (B2R m + B2R t0)) <= (2 * B + B * (5 * u) + i120) * u) as R3 by (eapply Rle_trans; [exact R2|apply Rmult_le_compat_r; lra]). apply Rabs_le_inv in R3.
  apply Rabs_le. clearbody B i120 px ps. lra.
Qed.
Lemma point_mono p q : (p <= q)%nat -> (q <= n)%nat -> B2R (tp p) <= B2R (tp q).
Proof.
  intros Hpq Hq. assert (forall p, (p <= n)%nat -> B2R (tp p) = rnd32 (rnd32 (INR p * B2R step) + B2R t0)) as Hv.
  { clear p q Hpq Hq. intros p Hp. destruct step_value as (F1 & V1 & V2). destruct H as [(F0 & F1' & Fs & Fd) HR HT HD HQ HN [Hn HI]]. assert (2 ^ 24 = 16777216) as E24 by (simpl pow; lra). rewrite E24 in *. pose proof bpow127_big as B127. pose proof eta_small as HE.
    assert (2 ^ 62 = 4611686018427387904) as E62 by (simpl pow; lra). assert (2 ^ 60 = 1152921504606846976) as E60 by (simpl pow; lra). rewrite E62, E60 in *.
    assert (IZR 100000000000000000000000000000000 <= 2 ^ 110) as P110. { apply Rle_trans with (2 ^ 109); [simpl pow; lra|apply Rle_pow; [lra|lia]]. }
    assert (INR p <= INR n) as Hpn by (by apply le_INR). pose proof (pos_INR p) as Pp. pose proof (Rabs_pos (B2R ts)) as Ps. pose proof (Rabs_pos (B2R t0)) as P0. pose proof (Rabs_pos (B2R t1)) as P1.
    assert (0 <= INR p * B2R step <= 16777216 * 4611686018427387904) as Hps. { split; [apply Rmult_le_pos; lra|]. apply Rmult_le_compat; lra. } set (ps := INR p * B2R step) in *.
    destruct (count_value p) as [Gp Vp]; [lra|]. destruct (mult_value32 (of_size (N.of_nat p)) step Gp F1) as [F2 V3]; [rewrite Vp; fold ps; rewrite Rabs_pos_eq by lra; lra|]. rewrite Vp in V3. fold ps in V3.
    pose proof (rnd_err ps) as R1. rewrite (Rabs_pos_eq ps) in R1 by lra. apply Rabs_le_inv in R1.
    destruct (plus_value (Bmult mode_NE (of_size (N.of_nat p)) step) t0 F2 F0) as [F3 V4]; [rewrite V3; eapply Rle_trans; [apply Rabs_triang|]; rewrite (Rabs_pos_eq (rnd32 ps)) by (apply rnd_pos; lra); lra|]. rewrite V3 in V4. exact V4. }
  rewrite !Hv by lia. apply rnd_mono. apply Rplus_le_compat_r. apply rnd_mono. apply Rmult_le_compat_r; [apply step_value|]. by apply le_INR.
Qed.
Lemma point_range p : (p <= n)%nat -> Rabs (B2R (tp p)) <= (2 + / 1000) * B + / 2 ^ 120.
Proof.
  intros Hp. destruct (point_error p Hp) as (_ & H1 & H2). set (x := point_time _ _ _) in *. replace (B2R (tp p)) with ((B2R (tp p) - x) + x) by ring. eapply Rle_trans; [apply Rabs_triang|].
  assert (0 <= B) by (unfold B; pose proof (Rabs_pos (B2R t0)); pose proof (Rabs_pos (B2R t1)); lra). assert (0 < / 2 ^ 120) by (apply Rinv_0_lt_compat, pow_lt; lra). lra.
Qed.
Lemma small_120 : / 2 ^ 120 <= u * B2R dt.
Proof.
  destruct H as [_ _ _ [HD _] _ _ _]. apply Rle_trans with (u * / 2 ^ 90); [|apply Rmult_le_compat_l; lra].
  change 120%nat with (30 + 90)%nat. assert (0 < / 2 ^ 90) by (apply Rinv_0_lt_compat, pow_lt; lra). rewrite pow_add, Rinv_mult. apply Rmult_le_compat_r; [lra|]. simpl pow. lra.
Qed.
Lemma causal_value p : (p <= n)%nat -> causal_sample32 (tp p) ts dt = Some (Z.to_nat (Zceil (rnd32 (rnd32 (B2R (tp p) - B2R ts) / B2R dt)))).
Proof.
  intros Hp. destruct (point_error p Hp) as (Fp & _). pose proof (point_range p Hp) as Rp. pose proof small_120 as S120. destruct H as [(F0 & F1' & Fs & Fd) HR HT [HD HD'] HQ HN [Hn HI]]. pose proof bpow127_big as B127. pose proof eta_small as HE.
  assert (0 < / 2 ^ 90) as P100 by (apply Rinv_0_lt_compat, pow_lt; lra). assert (2 ^ 20 = 1048576) as E20 by (simpl pow; lra). assert (2 ^ 30 = 1073741824) as E30 by (simpl pow; lra). rewrite E20, E30 in *.
  assert (IZR 100000000000000000000000000000000 <= 2 ^ 110) as P110. { apply Rle_trans with (2 ^ 109); [simpl pow; lra|apply Rle_pow; [lra|lia]]. }
  pose proof (Rabs_pos (B2R ts)) as Ps. set (i120 := / 2 ^ 120) in *. fold B in HQ. assert (0 <= B) as HB by (unfold B; pose proof (Rabs_pos (B2R t0)); pose proof (Rabs_pos (B2R t1)); lra).
  assert (Rabs (B2R (tp p) - B2R ts) <= 3145729 * B2R dt) as Hx. { eapply Rle_trans; [apply Rabs_triang|]. rewrite Rabs_Ropp. clearbody B. lra. }
  destruct (minus_value (tp p) ts Fp Fs) as [G1 V1]; [lra|]. pose proof (diff_err (tp p) ts) as R1. set (x := B2R (tp p) - B2R ts) in *.
  assert (Rabs (rnd32 x) <= 3145730 * B2R dt) as Hy. { replace (rnd32 x) with ((rnd32 x - x) + x) by ring. eapply Rle_trans; [apply Rabs_triang|]. lra. } set (y := rnd32 x) in *.
  assert (Rabs (y / B2R dt) <= 3145730) as Hq. { unfold Rdiv. rewrite Rabs_mult, (Rabs_pos_eq (/ B2R dt)) by (apply Rlt_le, Rinv_0_lt_compat; lra). apply (Rmult_le_reg_r (B2R dt)); [lra|]. rewrite Rmult_assoc, Rinv_l by lra. lra. }
  unfold causal_sample32. destruct (div_value32 (Bminus mode_NE (tp p) ts) dt G1) as [G2 V2]; [lra|rewrite V1; lra|]. rewrite V1 in V2. fold x y in V2. set (q := y / B2R dt) in *. apply Rabs_le_inv in Hq.
  pose proof (rnd_mono _ _ (proj1 Hq)) as Q1. pose proof (rnd_mono _ _ (proj2 Hq)) as Q2. rewrite (round_generic _ _ _ (- _)) in Q1 by (rewrite <- opp_IZR; apply integer_format32; lia). rewrite (round_generic _ _ _ (IZR _)) in Q2 by (apply integer_format32; lia).
  pose proof (ceil_value _ G2) as HC. rewrite V2 in HC. pose proof (Zceil_ub (rnd32 q)) as Z1. pose proof (Zceil_le _ _ Q2) as Z2. rewrite Zceil_IZR in Z2. assert (-3145730 <= Zceil (rnd32 q))%Z as Z3 by (apply le_IZR; lra).
  rewrite (int_value _ _ HC) by lia. cbn [mbind option_bind]. f_equal. lia.
Qed.
Lemma causal_mono p q : (p <= q)%nat -> (q <= n)%nat -> (Z.to_nat (Zceil (rnd32 (rnd32 (B2R (tp p) - B2R ts) / B2R dt))) <= Z.to_nat (Zceil (rnd32 (rnd32 (B2R (tp q) - B2R ts) / B2R dt))))%nat.
Proof.
  intros Hpq Hq. assert (Zceil (rnd32 (rnd32 (B2R (tp p) - B2R ts) / B2R dt)) <= Zceil (rnd32 (rnd32 (B2R (tp q) - B2R ts) / B2R dt)))%Z; [|lia].
  apply Zceil_le, rnd_mono. assert (0 < B2R dt) as Hd. { destruct H as [_ _ _ [HD _] _ _ _]. assert (0 < / 2 ^ 90) by (apply Rinv_0_lt_compat, pow_lt; lra). lra. }
  apply Rmult_le_compat_r; [apply Rlt_le, Rinv_0_lt_compat; lra|]. apply rnd_mono. pose proof (point_mono p q Hpq Hq). lra.
Qed.
(** The first sample and the exact time of the point. *)
Lemma causal_error p c : (p <= n)%nat -> causal_sample32 (tp p) ts dt = Some c -> 
  let pt := point_time (B2R t0) ((B2R t1 - B2R t0) / INR n) p in let E := any_error (B2R t0) (B2R t1) (B2R ts) (B2R dt) num in
  pt - E <= sample_time (B2R ts) (B2R dt) c /\ ((0 < c)%nat -> sample_time (B2R ts) (B2R dt) c < pt + B2R dt + E).
Proof.
  intros Hp Hc pt E. destruct (point_error p Hp) as (Fp & Ep & _). fold pt in Ep. pose proof (point_range p Hp) as Rp. pose proof small_120 as S120. pose proof (causal_value p Hp) as Hv. destruct H as [(F0 & F1' & Fs & Fd) HR HT [HD HD'] HQ HN [Hn HI]].
  assert (0 < / 2 ^ 90) as P100 by (apply Rinv_0_lt_compat, pow_lt; lra). assert (2 ^ 20 = 1048576) as E20 by (simpl pow; lra). assert (2 ^ 30 = 1073741824) as E30 by (simpl pow; lra). assert (2 ^ 60 = 1152921504606846976) as E60 by (simpl pow; lra). assert (2 ^ 22 = 4194304) as E22 by (simpl pow; lra).
  pose proof (Rabs_pos (B2R ts)) as Ps. assert (0 < / 2 ^ 120) as P120 by (apply Rinv_0_lt_compat, pow_lt; lra). assert (/ 2 ^ 140 <= / 4 * / 2 ^ 120) as P140. { change 140%nat with (20 + 120)%nat. rewrite pow_add, Rinv_mult. rewrite E20. lra. } set (i120 := / 2 ^ 120) in *. set (i140 := / 2 ^ 140) in *.
  fold B in HQ, HR. assert (0 <= B) as HB by (unfold B; pose proof (Rabs_pos (B2R t0)); pose proof (Rabs_pos (B2R t1)); lra). rewrite E20, E30, E60 in *. pose proof (pos_INR num) as P5.
  assert (E = 24 * (B + Rabs (B2R ts) + (INR num + 1) * B2R dt) * u + i120) as EE. { unfold E, any_error, B. assert (2 ^ 24 = 16777216) as -> by (simpl pow; lra). fold i120. unfold Rdiv. ring. }
  assert (B2R dt <= (INR num + 1) * B2R dt) as Hnd. { rewrite <- (Rmult_1_l (B2R dt)) at 1. apply Rmult_le_compat_r; lra. } set (nd := (INR num + 1) * B2R dt) in *. clearbody E. subst E.
  apply Rabs_le_inv in Ep. pose proof Rp as Rp'. apply Rabs_le_inv in Rp'.
  destruct (Rle_or_lt (B2R ts) (B2R (tp p))) as [Hle|Hlt].
  - assert (Rabs (B2R ts) <= 1048576 * B2R dt) as Hts by lra. apply Rabs_le_inv in Hts.
    destruct (C75_time_error (tp p) ts dt Fp Fs Fd) as (c' & Hc' & _ & [C1 C2] & _); [lra|lra|lra|lra| |].
    + rewrite E22. apply (Rmult_le_reg_r (B2R dt)); [lra|]. unfold Rdiv. rewrite Rmult_assoc, Rinv_l by lra. clearbody B. lra.
    + assert (c' = c) as -> by congruence. unfold time_error in C1, C2. fold i140 in C1, C2. assert (2 ^ 23 = 8388608) as E23 by (simpl pow; lra). rewrite E23 in C1, C2.
      clearbody B nd i120 i140 pt. set (X := sample_time _ _ _) in *. split; [|intros _]; lra.
  - assert (c = 0%nat) as ->.
    { rewrite Hv in Hc. injection Hc as <-. assert (Zceil (rnd32 (rnd32 (B2R (tp p) - B2R ts) / B2R dt)) <= 0)%Z; [|lia]. apply Zceil_glb. apply rnd_neg.
      assert (rnd32 (B2R (tp p) - B2R ts) <= 0) as H0 by (apply rnd_neg; lra). unfold Rdiv. assert (0 < / B2R dt) by (apply Rinv_0_lt_compat; lra). nra. }
    split; [|lia]. unfold sample_time. simpl INR. clearbody B nd i120. lra.
Qed.
(** The time since the point. *)
Lemma conv_value p j : (p <= n)%nat -> (j <= num)%nat -> is_finite (conv_start32 (tp p) ts dt j) = true /\ B2R (conv_start32 (tp p) ts dt j) = rnd32 (rnd32 (rnd32 (INR j * B2R dt) + B2R ts) - B2R (tp p)) /\
  Rabs (B2R (conv_start32 (tp p) ts dt j) - (sample_time (B2R ts) (B2R dt) j - point_time (B2R t0) ((B2R t1 - B2R t0) / INR n) p)) <= any_error (B2R t0) (B2R t1) (B2R ts) (B2R dt) num.
Proof.
  intros Hp Hj. destruct (point_error p Hp) as (Fp & Ep & _). set (pt := point_time _ _ _) in *. pose proof (point_range p Hp) as Rp. pose proof small_120 as S120. destruct H as [(F0 & F1' & Fs & Fd) HR HT [HD HD'] HQ HN [Hn HI]]. pose proof bpow127_big as B127. pose proof eta_small as HE. pose proof eta_many as HE2.
  assert (0 < / 2 ^ 90) as P100 by (apply Rinv_0_lt_compat, pow_lt; lra). assert (2 ^ 24 = 16777216) as E24 by (simpl pow; lra). assert (2 ^ 30 = 1073741824) as E30 by (simpl pow; lra). assert (2 ^ 60 = 1152921504606846976) as E60 by (simpl pow; lra).
  assert (IZR 100000000000000000000000000000000 <= 2 ^ 110) as P110. { apply Rle_trans with (2 ^ 109); [simpl pow; lra|apply Rle_pow; [lra|lia]]. }
  pose proof (Rabs_pos (B2R ts)) as Ps. assert (0 < / 2 ^ 120) as P120 by (apply Rinv_0_lt_compat, pow_lt; lra). set (i120 := / 2 ^ 120) in *. fold B in HQ, HR. assert (0 <= B) as HB by (unfold B; pose proof (Rabs_pos (B2R t0)); pose proof (Rabs_pos (B2R t1)); lra). rewrite E24, E30, E60 in *.
  pose proof (pos_INR j) as Pj. assert (INR j <= INR num) as Hjn by (by apply le_INR).
  assert (any_error (B2R t0) (B2R t1) (B2R ts) (B2R dt) num = 24 * (B + Rabs (B2R ts) + (INR num + 1) * B2R dt) * u + i120) as ->. { unfold any_error, B. rewrite E24. fold i120. unfold Rdiv. ring. }
  assert (0 <= INR j * B2R dt <= (INR num + 1) * B2R dt) as Hjd. { split; [apply Rmult_le_pos; lra|]. apply Rmult_le_compat_r; lra. }
  assert ((INR num + 1) * B2R dt <= 16777217 * 1073741824) as Hnd by (apply Rmult_le_compat; lra). unfold sample_time. set (nd := (INR num + 1) * B2R dt) in *. set (jd := INR j * B2R dt) in *.
  destruct (count_value j) as [Gj Vj]; [lra|]. unfold conv_start32.
  destruct (mult_value32 (of_size (N.of_nat j)) dt Gj Fd) as [F2 V2]; [rewrite Vj; fold jd; rewrite Rabs_pos_eq by lra; lra|]. rewrite Vj in V2. fold jd in V2. pose proof (rnd_err jd) as R1. rewrite (Rabs_pos_eq jd) in R1 by lra. apply Rabs_le_inv in R1.
  assert (0 <= rnd32 jd) as R1' by (apply rnd_pos; lra). set (m := Bmult mode_NE (of_size (N.of_nat j)) dt) in *.
  assert (Rabs (B2R m + B2R ts) <= Rabs (B2R ts) + jd + jd * u + eta) as A1. { eapply Rle_trans; [apply Rabs_triang|]. rewrite V2, (Rabs_pos_eq (rnd32 jd)) by lra. lra. }
  destruct (plus_value m ts F2 Fs) as [F3 V3]; [clearbody B; lra|]. pose proof (sum_err m ts) as R2. rewrite <- V3 in R2. set (t := Bplus mode_NE m ts) in *.
  assert (Rabs (B2R t) <= Rabs (B2R m + B2R ts) * (1 + u)) as A2. { replace (B2R t) with ((B2R t - (B2R m + B2R ts)) + (B2R m + B2R ts)) by ring. eapply Rle_trans; [apply Rabs_triang|]. lra. }
  assert (Rabs (B2R t - B2R (tp p)) <= Rabs (B2R t) + Rabs (B2R (tp p))) as A3. { eapply Rle_trans; [apply Rabs_triang|]. rewrite Rabs_Ropp. lra. }
  destruct (minus_value t (tp p) F3 Fp) as [F4 V4]; [clearbody B; lra|]. pose proof (diff_err t (tp p)) as R3. rewrite <- V4 in R3. set (r := Bminus mode_NE t (tp p)) in *.
  split; [exact F4|]. split; [rewrite V4, V3, V2; reflexivity|]. rewrite V2 in A1, R2.
  replace (B2R r - (B2R ts + jd - pt)) with ((B2R r - (B2R t - B2R (tp p))) + (B2R t - (rnd32 jd + B2R ts)) + (rnd32 jd - jd) - (B2R (tp p) - pt)) by ring.
  rewrite V2 in A2. set (T1 := Rabs (rnd32 jd + B2R ts)) in *. set (T2 := Rabs (B2R t)) in *. set (T3 := Rabs (B2R t - B2R (tp p))) in *. set (T4 := Rabs (B2R (tp p))) in *.
  apply Rabs_le_inv in R2, R3, Ep. apply Rabs_le. clearbody B i120 nd jd T1 T2 T3 T4. split; lra.
Qed.
Lemma conv_mono p i j : (p <= n)%nat -> (i <= j)%nat -> (j <= num)%nat -> B2R (conv_start32 (tp p) ts dt i) <= B2R (conv_start32 (tp p) ts dt j).
Proof.
  intros Hp Hij Hj. destruct (conv_value p i Hp ltac:(lia)) as (_ & -> & _). destruct (conv_value p j Hp Hj) as (_ & -> & _).
  apply rnd_mono. apply Rplus_le_compat_r. apply rnd_mono. apply Rplus_le_compat_r. apply rnd_mono. apply Rmult_le_compat_r; [|by apply le_INR].
  destruct H as [_ _ _ [HD _] _ _ _]. assert (0 < / 2 ^ 90) by (apply Rinv_0_lt_compat, pow_lt; lra). lra.
Qed.
End times.
