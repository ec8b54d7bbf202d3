(** C66: the sampling steps of the analytic calculator. *)
From Coq Require Import Reals Lra Lia Arith.
From Coquelicot Require Import Coquelicot.
From Verif Require Import GammaModel GammaSpec GammaProofs DipoleSpec DipoleProofs SamplingModel SamplingSpec SamplingProofs.
Local Open Scope R_scope.

Lemma Rpower_root n : 1 < Rpower 2 (1 / INR (n + 1)) /\ Rpower 2 (1 / INR (n + 1)) ^ S n = 2.
Proof.
  assert (0 < INR (n + 1)) as H by (apply lt_0_INR; lia). split.
  - replace 1 with (Rpower 2 0) at 1 by (apply Rpower_O; lra). apply Rpower_lt; [lra|]. apply Rmult_lt_0_compat; [lra|apply Rinv_0_lt_compat, H].
  - rewrite <- Rpower_pow by apply exp_pos. rewrite Rpower_mult. replace (1 / INR (n + 1) * INR (S n)) with 1; [apply Rpower_1; lra|]. replace (S n) with (n + 1)%nat by lia. field. lra.
Qed.

(** The calculator's maximal frequency is the one at which the filter passes half of the power. *)
Theorem C66_bandwidth n tp : (0 < n)%nat -> 0 < tp -> exists f, fmax n tp = Some f /\ 0 < f /\ half_power_frequency (impulse_response n tp) f.
Proof.
  intros Hn Htp. pose proof PI_RGT_0 as Hpi. assert (0 < INR n) as Hn' by (apply lt_0_INR, Hn). destruct (Rpower_root n) as [H1 H2]. set (x := Rpower 2 (1 / INR (n + 1))) in *.
  assert (0 < 2 * PI * tp) as Hd by (apply Rmult_lt_0_compat; lra). exists (INR n / (2 * PI * tp) * sqrt (x - 1)). assert (0 < sqrt (x - 1)) as Hs by (apply sqrt_lt_R0; lra).
  split; [unfold fmax; rewrite odiv_ok by lra; reflexivity|]. split; [apply Rmult_lt_0_compat; [apply Rmult_lt_0_compat; [exact Hn'|apply Rinv_0_lt_compat, Hd]|exact Hs]|].
  set (f := INR n / (2 * PI * tp) * sqrt (x - 1)). assert (0 < f) as Hf by (apply Rmult_lt_0_compat; [apply Rmult_lt_0_compat; [exact Hn'|apply Rinv_0_lt_compat, Hd]|exact Hs]).
  assert (1 + (2 * PI * f * tp / INR n) ^ 2 = x) as Ef. { replace (2 * PI * f * tp / INR n) with (sqrt (x - 1)) by (unfold f; field; repeat split; lra). rewrite pow2_sqrt by lra. ring. }
  assert (forall f', 2 * PI * f' * tp / INR n = f' * (2 * PI * tp / INR n)) as Hlin by (intros f'; field; lra). assert (0 < 2 * PI * tp / INR n) as Hc by (apply Rmult_lt_0_compat; [exact Hd|apply Rinv_0_lt_compat, Hn']).
  set (c := 2 * PI * tp / INR n) in *. rewrite Hlin in Ef. split; [|split].
  - pose proof (filter_power n tp f Hn Htp) as HP. rewrite Hlin, Ef, H2 in HP. replace (1 / 2) with (/ 2) by lra. exact HP.
  - intros f' [F1 F2]. eexists. split; [apply (filter_power n tp f' Hn Htp)|]. rewrite Hlin.
    assert ((f' * c) ^ 2 < (f * c) ^ 2) as Hlt. { rewrite !Rpow_mult_distr. apply Rmult_lt_compat_r; [apply pow_lt, Hc|]. cbn [pow]. rewrite !Rmult_1_r. apply Rmult_le_0_lt_compat; assumption. }
    pose proof (pow2_ge_0 (f' * c)) as H0. set (y := 1 + (f' * c) ^ 2) in *. assert (1 <= y < x) as [Y1 Y2] by (unfold y; lra). assert (1 <= y ^ S n) as P1 by (rewrite <- (pow1 (S n)); apply pow_incr; lra).
    assert (y ^ S n < 2) as P2. { rewrite <- H2. clear - Y1 Y2. generalize n. intros m. induction m as [|m IH]; [rewrite !pow_1; exact Y2|]. change (y ^ S (S m)) with (y * y ^ S m). change (x ^ S (S m)) with (x * x ^ S m). assert (0 < y ^ S m) by (apply pow_lt; lra). apply Rmult_gt_0_lt_compat; lra. }
    split; [replace (1 / 2) with (/ 2) by lra; apply Rinv_lt_contravar; [apply Rmult_lt_0_compat; lra|exact P2]|]. rewrite <- Rinv_1. apply Rinv_le_contravar; lra.
  - intros f' F. eexists. split; [apply (filter_power n tp f' Hn Htp)|]. rewrite Hlin.
    assert ((f * c) ^ 2 < (f' * c) ^ 2) as Hlt. { rewrite !Rpow_mult_distr. apply Rmult_lt_compat_r; [apply pow_lt, Hc|]. cbn [pow]. rewrite !Rmult_1_r. apply Rmult_le_0_lt_compat; lra. }
    set (y := 1 + (f' * c) ^ 2) in *. assert (x < y) as Y by (unfold y; lra).
    assert (2 < y ^ S n) as P. { rewrite <- H2. clear - Y H1. generalize n. intros m. induction m as [|m IH]; [rewrite !pow_1; exact Y|]. change (y ^ S (S m)) with (y * y ^ S m). change (x ^ S (S m)) with (x * x ^ S m). assert (0 < x ^ S m) by (apply pow_lt; lra). apply Rmult_gt_0_lt_compat; lra. }
    split; [apply Rinv_0_lt_compat; lra|]. replace (1 / 2) with (/ 2) by lra. apply Rinv_lt_contravar; [lra|exact P].
Qed.

(** The steps: [os] samples per half period of that frequency in time, and per half wave length in the medium in space; in one step of space the wave moves on for one step of time. *)
Theorem C66_steps n tp eta os : (0 < n)%nat -> 0 < tp -> 0 < eta -> 0 < os -> exists f dt dp, fmax n tp = Some f /\ delta_t n tp os = Some dt /\ delta_pos n tp eta os = Some dp /\
  0 < dt /\ 0 < dp /\ 2 * os * dt = 1 / f /\ 2 * os * dp = (1 / eta) / f /\ dp = (1 / eta) * dt.
Proof.
  intros Hn Htp Heta Hos. destruct (C66_bandwidth n tp Hn Htp) as (f & Ef & Hf & _). assert (0 < f * os) as H1 by (apply Rmult_lt_0_compat; assumption). assert (0 < f * eta) as H2 by (apply Rmult_lt_0_compat; assumption).
  exists f, (1 / (2 * f * os)), (1 / (f * eta) / (2 * os)). split; [exact Ef|]. unfold delta_t, delta_pos. rewrite Ef. rewrite !odiv_ok by lra.
  assert (0 < 2 * f * os) as H3 by lra. assert (0 < 2 * os) as H4 by lra. split; [reflexivity|]. split; [reflexivity|]. split; [apply Rmult_lt_0_compat; [lra|apply Rinv_0_lt_compat, H3]|].
  split; [apply Rmult_lt_0_compat; [apply Rmult_lt_0_compat; [lra|apply Rinv_0_lt_compat, H2]|apply Rinv_0_lt_compat, H4]|]. repeat split; field; repeat split; lra.
Qed.

(** A filter of order zero, or an oversampling factor of zero, leads to a division by zero. *)
Theorem C66_zero_refuted n tp eta os : n = O \/ os = 0 -> delta_t n tp os = None /\ delta_pos n tp eta os = None.
Proof.
  intros H. unfold delta_t, delta_pos. destruct (fmax n tp) as [f|] eqn:E; [|split; reflexivity]. assert (forall x y, y = 0 -> odiv x y = None) as H0. { intros x y ->. unfold odiv. destruct (Req_EM_T 0 0); [reflexivity|congruence]. }
  destruct H as [-> | ->].
  - assert (f = 0) as ->. { unfold fmax in E. destruct (odiv (INR 0) _) as [q|] eqn:Eq; [|discriminate]. injection E as <-. unfold odiv in Eq. destruct (Req_EM_T _ 0); [discriminate|]. injection Eq as <-. cbn. unfold Rdiv. ring. }
    rewrite (H0 1 (2 * 0 * os)) by ring. rewrite (H0 1 (0 * eta)) by ring. split; reflexivity.
  - rewrite (H0 1 (2 * f * 0)) by ring. split; [reflexivity|]. destruct (odiv 1 (f * eta)); [apply H0; ring|reflexivity].
Qed.
Print Assumptions C66_bandwidth.
Print Assumptions C66_steps.

(** * The hypotheses are met: the values of the example program shower_profile (order 6, peaking time 1, index 1.78, oversampling 5). *)
Example C66_hypotheses_nonvacuous : (0 < 6)%nat /\ 0 < 1 /\ 0 < 178 / 100 /\ 0 < 5.
Proof. repeat split; try lia; lra. Qed.
