(** C65: the field of the analytic calculator. *)
From Coq Require Import Reals Lra Lia Arith.
From Coquelicot Require Import Coquelicot.
From Verif Require Import GammaModel GammaSpec GammaProofs GammaProofs2 GammaProps DipoleModel DipoleSpec DipoleProofs.
Local Open Scope R_scope.

(** ** The filter *)
(** The filtered pulse of the calculator is the impulse response; its derivative (except at time 0) is the filtered derivative; its integral, the filtered step, goes from 0 to 1; it is
    greatest at the given time. *)
Theorem C65_filter lg n tp : log_gamma lg -> (0 < n)%nat -> 0 < tp ->
  (forall t, filtered_delta lg n tp t = impulse_response n tp t) /\
  (forall t, t <> 0 -> is_derive (filtered_delta lg n tp) t (filtered_delta_prime lg n tp t)) /\
  (forall t, is_RInt (filtered_delta lg n tp) 0 t (step_response n tp t)) /\
  (forall t, t <= 0 -> step_response n tp t = 0) /\ is_lim (step_response n tp) p_infty 1 /\
  (forall t, filtered_delta lg n tp t <= filtered_delta lg n tp tp).
Proof.
  intros Hlg Hn Htp. assert (forall t, filtered_delta lg n tp t = impulse_response n tp t) as Hd by (intros t; apply (delta_eq n tp Hn Htp lg Hlg)).
  assert (0 < INR n) as Hn' by (apply lt_0_INR, Hn). pose proof (fact_pos n) as Hf. pose proof (w_pos n tp Hn Htp) as Hw.
  split; [exact Hd|]. split; [|split; [|split; [|split]]].
  - intros t Ht. apply (is_derive_ext (impulse_response n tp)); [intros s; symmetry; apply Hd|]. apply (delta_prime_derive n tp Hn Htp lg Hlg t Ht).
  - intros t. rewrite (step_response_eq n tp Hn Htp). apply (is_RInt_ext (impulse_response n tp)); [intros s _; symmetry; apply Hd|]. apply (impulse_integral n tp Hn Htp).
  - intros t Ht. rewrite (step_response_eq n tp Hn Htp). unfold filtered_step. destruct (Rle_dec t 0); [reflexivity|lra].
  - apply (is_lim_ext_loc (smooth_step n tp)).
    + exists 0. intros t Ht. rewrite (step_response_eq n tp Hn Htp). unfold filtered_step. destruct (Rle_dec t 0); [lra|reflexivity].
    + unfold smooth_step. apply (is_lim_minus (fun _ => 1) (fun t => gam n (INR n / tp * t) / INR (fact n)) p_infty 1 0 1); [apply is_lim_const| |unfold is_Rbar_minus, is_Rbar_plus; cbn; do 2 f_equal; ring].
      apply (is_lim_ext (fun t => / INR (fact n) * gam n (INR n / tp * t))); [intros t; apply Rmult_comm|]. replace (Finite 0) with (Rbar_mult (/ INR (fact n)) 0) by (cbn; f_equal; ring). apply is_lim_scal_l.
      apply (is_lim_comp (gam n) (fun t => INR n / tp * t) p_infty 0 p_infty); [apply gam_limit| |exists 0; intros; discriminate].
      replace p_infty with (Rbar_mult (INR n / tp) p_infty) at 2. 2: { apply is_Rbar_mult_unique. apply (is_Rbar_mult_sym p_infty). apply is_Rbar_mult_p_infty_pos. exact Hw. } apply is_lim_scal_l, is_lim_id.
  - intros t. rewrite !Hd. unfold impulse_response. destruct (Rle_dec tp 0); [lra|]. set (c := (INR n / tp) ^ S n / INR (fact n)). assert (0 < c) as Hc by (apply Rmult_lt_0_compat; [apply pow_lt, Hw|apply Rinv_0_lt_compat, Hf]).
    assert (0 < c * tp ^ n * exp (- (INR n * tp / tp))) as Hp. { apply Rmult_lt_0_compat; [apply Rmult_lt_0_compat; [exact Hc|apply pow_lt, Htp]|apply exp_pos]. }
    destruct (Rle_dec t 0) as [Ht|Ht]; [lra|]. rewrite !Rmult_assoc. apply Rmult_le_compat_l; [lra|]. assert (exists x, t = tp * x /\ 0 < x) as (x & Et & Hx). { exists (t / tp). split; [field; lra|]. apply Rmult_lt_0_compat; [lra|apply Rinv_0_lt_compat, Htp]. } rewrite Et.
    replace (INR n * (tp * x) / tp) with (INR n * x) by (field; lra). replace (INR n * tp / tp) with (INR n) by (field; lra). rewrite Rpow_mult_distr, Rmult_assoc. apply Rmult_le_compat_l; [apply pow_le; lra|].
    assert (x <= exp (x - 1)) as Hxe. { destruct (Req_dec x 1) as [->|Hne]; [rewrite Rminus_eq_0, exp_0; lra|]. pose proof (exp_ineq1 (x - 1) ltac:(lra)). lra. }
    assert (x ^ n <= exp (INR n * (x - 1))) as Hpow.
    { replace (exp (INR n * (x - 1))) with (exp (x - 1) ^ n). { apply pow_incr. lra. } clear. induction n as [|m IH]; [cbn; rewrite Rmult_0_l, exp_0; reflexivity|]. cbn [pow]. rewrite IH, <- exp_plus, S_INR. f_equal. ring. }
    apply Rle_trans with (exp (INR n * (x - 1)) * exp (- (INR n * x))); [apply Rmult_le_compat_r; [apply Rlt_le, exp_pos|exact Hpow]|]. rewrite <- exp_plus. right. f_equal. ring.
Qed.
Print Assumptions C65_filter.

(** ** The field *)
Section field.
Context (lg : R -> R) (n : nat) (tp eta r_min : R).
Local Notation dist r z := (sqrt (r ^ 2 + z ^ 2)).
Local Notation Erxy := (E_rxy lg n tp eta r_min).
Local Notation Ez := (E_z lg n tp eta r_min).

Lemma distance_abs r z : distance (Rabs r) z = dist r z.
Proof using. clear. unfold distance. f_equal. rewrite <- Rabs_mult, Rabs_pos_eq by (apply Rle_0_sqr). ring. Qed.
Lemma dist_pos r z : 0 < r ^ 2 + z ^ 2 -> 0 < dist r z.
Proof using. clear. apply sqrt_lt_R0. Qed.

Lemma components fuel t r z th : 0 < r ^ 2 + z ^ 2 -> r_min <= dist r z -> filtered_theta lg n tp fuel (t - dist r z * eta) = Some th ->
  let d := dist r z in let A := th + d * eta * filtered_delta lg n tp (t - d * eta) in let B := A + (d * eta) ^ 2 * filtered_delta_prime lg n tp (t - d * eta) in
  Erxy fuel t r z = Some (Some (- (2) * factor eta * (z / d) / d ^ 3 * A * (Rabs r / d) + - factor eta * (Rabs r / d) / d ^ 3 * B * (z / d))) /\
  Ez fuel t r z = Some (Some (- (2) * factor eta * (z / d) / d ^ 3 * A * (z / d) - - factor eta * (Rabs r / d) / d ^ 3 * B * (Rabs r / d))).
Proof using.
  intros Hp Hr Hth d A B. pose proof (dist_pos _ _ Hp) as Hd. fold d in Hd, Hth, Hr. unfold E_rxy, E_z, E_r, E_theta. rewrite !Rabs_Rabsolu, !distance_abs. fold d.
  destruct (Rlt_dec d r_min); [lra|]. destruct (Req_EM_T d 0); [lra|]. rewrite Hth. cbn [combine]. split; reflexivity.
Qed.

(** At every point outside [r_min] and every time except the arrival of the front, the calculation ends, and its result is the field of the dipole with the (negative) filtered step as
    moment, up to the tolerance of the incomplete gamma function. *)
Theorem C65_field t r z : log_gamma lg -> (0 < n)%nat -> 0 < tp -> 0 < eta -> 0 <= r -> 0 < r ^ 2 + z ^ 2 -> r_min <= dist r z -> t <> eta * dist r z ->
  exists N er ez xr xz, (forall fuel, (N <= fuel)%nat -> Erxy fuel t r z = Some (Some er) /\ Ez fuel t r z = Some (Some ez)) /\
    electric_field (hertz (fun s => - step_response n tp s) eta) eta r z t xr xz /\
    let bound := 2 / (4 * PI * eta ^ 2 * dist r z ^ 3) * (default_tol * (INR n + 2)) in Rabs (er - xr) <= bound /\ Rabs (ez - xz) <= bound.
Proof using.
  intros Hlg Hn Htp Heta Hr Hrz Hmin Ht. pose proof (dist_pos _ _ Hrz) as Hd. set (d := dist r z) in *.
  destruct (theta_close n tp Hn Htp lg Hlg (t - d * eta)) as (N & th & Hth & Hc & _). exists N.
  set (u := t - eta * d) in *. replace (t - d * eta) with u in * by (unfold u; ring). set (P := step_response n tp u) in *. set (D := filtered_delta lg n tp u). set (D' := filtered_delta_prime lg n tp u).
  assert (forall s, is_derive (fun s => - step_response n tp s) s (- impulse_response n tp s)) as H1. { intros s. apply (is_derive_opp (step_response n tp)), (step_response_derive n tp Hn Htp). }
  assert (is_derive (fun s => - impulse_response n tp s) u (- D')) as H2. { apply (is_derive_opp (impulse_response n tp)), (delta_prime_derive n tp Hn Htp lg Hlg). unfold u. lra. }
  pose proof (hertz_field (fun s => - step_response n tp s) (fun s => - impulse_response n tp s) eta H1 r z t (- D') Heta Hrz H2) as HF. cbv beta zeta in HF. fold d u P in HF. rewrite <- (delta_eq n tp Hn Htp lg Hlg u) in HF. fold D in HF.
  set (A := th + d * eta * D). set (B := A + (d * eta) ^ 2 * D').
  exists (- (2) * factor eta * (z / d) / d ^ 3 * A * (Rabs r / d) + - factor eta * (Rabs r / d) / d ^ 3 * B * (z / d)), (- (2) * factor eta * (z / d) / d ^ 3 * A * (z / d) - - factor eta * (Rabs r / d) / d ^ 3 * B * (Rabs r / d)).
  eexists. eexists. split; [|split; [exact HF|]].
  { intros fuel Hf. pose proof (components fuel t r z th Hrz Hmin) as HC. cbv zeta in HC. fold d in HC. replace (t - d * eta) with u in HC by (unfold u; ring). exact (HC (Hth fuel Hf)). }
  cbv zeta. clear HF H1 H2 Hth. rewrite (Rabs_pos_eq r) by exact Hr. pose proof PI_RGT_0 as Hpi. assert (0 < eta ^ 2) as He2 by (apply pow_lt, Heta). assert (0 < d ^ 3) as Hd3 by (apply pow_lt, Hd).
  assert (d ^ 2 = r ^ 2 + z ^ 2) as Ed by (unfold d; apply pow2_sqrt; lra). set (k := / (4 * PI * eta ^ 2)). assert (0 < k) as Hk. { apply Rinv_0_lt_compat. apply Rmult_lt_0_compat; lra. }
  assert (factor eta = k) as ->. { unfold factor, k. field. lra. }
  assert (2 / (4 * PI * eta ^ 2 * d ^ 3) = 2 * (k / d ^ 3)) as ->. { unfold k. field. repeat split; lra. }
  set (bd := default_tol * (INR n + 2)) in *. clearbody k bd D D' d. assert (0 < k / d ^ 3) as Hkd by (apply Rmult_lt_0_compat; [exact Hk|apply Rinv_0_lt_compat, Hd3]).
  assert (forall x, Rabs x <= 2 * d ^ 2 -> Rabs (- (k / d ^ 5 * x * (th - P))) <= 2 * (k / d ^ 3) * bd) as Hbound.
  { intros x Hx. rewrite Rabs_Ropp, Rabs_mult. apply Rmult_le_compat; [apply Rabs_pos|apply Rabs_pos| |exact Hc]. rewrite Rabs_mult. assert (0 < k / d ^ 5) as Hk5 by (apply Rmult_lt_0_compat; [exact Hk|apply Rinv_0_lt_compat, pow_lt, Hd]).
    rewrite (Rabs_pos_eq (k / d ^ 5)) by lra. replace (2 * (k / d ^ 3)) with (k / d ^ 5 * (2 * d ^ 2)) by (field; lra). apply Rmult_le_compat_l; lra. }
  split.
  - match goal with |- Rabs ?x <= _ => replace x with (- (k / d ^ 5 * (3 * (r * z)) * (th - P))) by (unfold B, A; field; lra) end. apply Hbound. rewrite Rabs_mult, (Rabs_pos_eq 3) by lra.
    assert (Rabs (r * z) <= (r ^ 2 + z ^ 2) / 2); [|lra]. apply Rabs_le. pose proof (Rle_0_sqr (r - z)). pose proof (Rle_0_sqr (r + z)). unfold Rsqr in *. lra.
  - match goal with |- Rabs ?x <= _ => replace x with (- (k / d ^ 5 * (2 * z ^ 2 - r ^ 2) * (th - P))) by (unfold B, A; field; lra) end. apply Hbound. apply Rabs_le. pose proof (pow2_ge_0 r). pose proof (pow2_ge_0 z). lra.
Qed.

(** Nothing before the front, at any distance (exactly zero). *)
Theorem C65_causal fuel t r z : 0 < r ^ 2 + z ^ 2 -> r_min <= dist r z -> t <= eta * dist r z -> Erxy fuel t r z = Some (Some 0) /\ Ez fuel t r z = Some (Some 0).
Proof using.
  intros Hrz Hmin Ht. pose proof (dist_pos _ _ Hrz) as Hd. destruct (components fuel t r z 0 Hrz Hmin) as [E1 E2].
  - unfold filtered_theta. destruct (Rle_dec _ 0); [reflexivity|lra].
  - cbv zeta in E1, E2. rewrite E1, E2. unfold filtered_delta_prime, filtered_delta. destruct (Rle_dec _ 0); [|lra]. split; do 2 f_equal; field; lra.
Qed.
(** The components are even in the radius, and the radial one vanishes on the axis. *)
Theorem C65_mirror fuel t r z : Erxy fuel t (- r) z = Erxy fuel t r z /\ Ez fuel t (- r) z = Ez fuel t r z.
Proof using. unfold E_rxy, E_z. rewrite Rabs_Ropp. split; reflexivity. Qed.
Theorem C65_axis t z : log_gamma lg -> (0 < n)%nat -> 0 < tp -> 0 <> z -> r_min <= Rabs z -> exists N, forall fuel, (N <= fuel)%nat -> Erxy fuel t 0 z = Some (Some 0).
Proof using.
  intros Hlg Hn Htp Hz Hmin. assert (0 ^ 2 + z ^ 2 = Rsqr z) as E by (unfold Rsqr; ring). assert (0 < 0 ^ 2 + z ^ 2) as Hp by (rewrite E; apply Rsqr_pos_lt; intros X; apply Hz; symmetry; exact X). assert (dist 0 z = Rabs z) as Ed by (rewrite E; apply sqrt_Rsqr_abs).
  pose proof (dist_pos _ _ Hp) as Hd. destruct (theta_close n tp Hn Htp lg Hlg (t - dist 0 z * eta)) as (N & th & Hth & _). exists N. intros fuel Hf.
  destruct (components fuel t 0 z th Hp) as [E1 _]; [rewrite Ed; exact Hmin|exact (Hth fuel Hf)|]. rewrite E1. rewrite Rabs_R0, !zero_div, !Rmult_0_r, !zero_div. do 2 f_equal. ring.
Qed.
(** Inside [r_min] the result is not a number. *)
Theorem C65_inside fuel t r z : dist r z < r_min -> Erxy fuel t r z = Some None /\ Ez fuel t r z = Some None.
Proof using. intros H. unfold E_rxy, E_z, E_r, E_theta. rewrite !Rabs_Rabsolu, !distance_abs. destruct (Rlt_dec _ r_min); [split; reflexivity|contradiction]. Qed.
End field.
Print Assumptions C65_field.
Print Assumptions C65_causal.

(** A filter of order zero is accepted, but gives no field at all. *)
Theorem C65_order_zero_refuted lg tp eta r_min t r z : log_gamma lg -> 0 < tp -> 0 < r ^ 2 + z ^ 2 -> r_min <= sqrt (r ^ 2 + z ^ 2) ->
  exists N, forall fuel, (N <= fuel)%nat -> E_rxy lg 0 tp eta r_min fuel t r z = Some (Some 0) /\ E_z lg 0 tp eta r_min fuel t r z = Some (Some 0).
Proof.
  intros Hlg Htp Hrz Hmin. pose proof (dist_pos _ _ Hrz) as Hd. exists 1%nat. intros [|fuel] Hf; [lia|]. destruct (components lg 0 tp eta r_min (S fuel) t r z 0 Hrz Hmin) as [E1 E2].
  - unfold filtered_theta. destruct (Rle_dec _ 0); [reflexivity|]. replace (INR 0 * (t - sqrt (r ^ 2 + z ^ 2) * eta) / tp) with 0 by (cbn; field; lra).
    change (INR (0 + 1)) with 1. unfold incomplete_gamma. destruct (Rlt_dec 1 0); [lra|]. destruct (Rlt_dec 0 0); [lra|]. destruct (Rle_dec 0 1); [|lra].
    unfold series_expansion. cbn [series_loop]. rewrite odiv_ok by lra. rewrite zero_div, Rmult_0_r, Rplus_0_r. rewrite odiv_ok by lra. rewrite zero_div. unfold default_tol at 1. destruct (Rlt_dec _ 0); [lra|].
    unfold exp_log. destruct (Req_EM_T 0 0); [|lra]. f_equal. assert (lg 1 = 0) as ->. { pose proof (Hlg 0%nat) as E. change (INR (0 + 1)) with 1 in E. rewrite E. cbn [fact]. change (INR 1) with 1. apply ln_1. } rewrite exp_0. field.
  - cbv zeta in E1, E2. rewrite E1, E2. unfold filtered_delta_prime, filtered_delta. destruct (Rle_dec _ 0) as [H|H]; split; do 2 f_equal; field; try (cbn; lra); repeat split; lra.
Qed.
Print Assumptions C65_order_zero_refuted.

(** * The hypotheses are met. *)
Example C65_hypotheses_nonvacuous : exists N er ez xr xz, (forall fuel, (N <= fuel)%nat -> E_rxy lg0 4 2 (17 / 10) (1 / 10) fuel 10 3 4 = Some (Some er) /\ E_z lg0 4 2 (17 / 10) (1 / 10) fuel 10 3 4 = Some (Some ez)) /\
    electric_field (hertz (fun s => - step_response 4 2 s) (17 / 10)) (17 / 10) 3 4 10 xr xz /\
    let bound := 2 / (4 * PI * (17 / 10) ^ 2 * sqrt (3 ^ 2 + 4 ^ 2) ^ 3) * (default_tol * (INR 4 + 2)) in Rabs (er - xr) <= bound /\ Rabs (ez - xz) <= bound.
Proof.
  assert (sqrt (3 ^ 2 + 4 ^ 2) = 5) as E. { replace (3 ^ 2 + 4 ^ 2) with (5 * 5) by ring. apply sqrt_square. lra. }
  apply C65_field; [exact C64_hypotheses_nonvacuous|lia|lra|lra|lra|lra| |]; rewrite E; lra.
Qed.
