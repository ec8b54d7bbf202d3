(** C78: the ice and the antenna of the dipole_ice example. *)
From Coq Require Import Reals Lra Lia.
From Coquelicot Require Import Coquelicot.
From Verif Require Import GammaSpec GammaModel GammaProofs DipoleSpec DipoleProofs IceModel.
Local Open Scope R_scope.

(** * The permittivity *)
Lemma exp_le x y : x <= y -> exp x <= exp y.
Proof. intros [H| ->]; [left; apply exp_increasing, H|right; reflexivity]. Qed.
Lemma exp_nonpos x : x <= 0 -> 0 < exp x <= 1.
Proof. intros H. split; [apply exp_pos|]. rewrite <- exp_0. apply exp_le, H. Qed.
Lemma density_range z : z <= 0 -> 323 / 1000 <= ice_density z < 917 / 1000.
Proof. intros H. unfold ice_density. destruct (Rlt_dec _ _) as [L|L]; [pose proof (exp_nonpos (z / (308 / 10)) ltac:(lra))|pose proof (exp_nonpos ((z + 149 / 10) / (405 / 10)) ltac:(lra))]; lra. Qed.
Lemma square_le x y : 0 <= x <= y -> x ^ 2 <= y ^ 2. Proof. intros H. apply pow_incr, H. Qed.
Lemma square_lt x y : 0 <= x < y -> x ^ 2 < y ^ 2. Proof. intros H. destruct H. simpl. nra. Qed.
(** Above the surface the permittivity is 1; below it is between the squares of the indices of refraction 1.27 at the surface and 1.775 of compact ice. *)
Theorem C78_range r z : (0 < z -> ice_eps r z = 1) /\ (z <= 0 -> (1 + 845 / 1000 * (323 / 1000)) ^ 2 <= ice_eps r z < (1 + 845 / 1000 * (917 / 1000)) ^ 2).
Proof.
  unfold ice_eps. split; intros H; destruct (Rlt_dec 0 (z * (3 / 10))) as [L|L]; try lra. pose proof (density_range (z * (3 / 10)) ltac:(lra)). split; [apply square_le; lra|apply square_lt; lra].
Qed.
(** In each of the two layers, above and below 14.9 m of depth, it grows with depth. *)
Theorem C78_deeper r z1 z2 : z1 < z2 -> z2 <= 0 -> z2 * (3 / 10) <= - 149 / 10 \/ - 149 / 10 < z1 * (3 / 10) -> ice_eps r z2 < ice_eps r z1.
Proof.
  intros H1 H2 H. unfold ice_eps. destruct (Rlt_dec 0 (z1 * (3 / 10))); [lra|]. destruct (Rlt_dec 0 (z2 * (3 / 10))); [lra|]. pose proof (density_range (z2 * (3 / 10)) ltac:(lra)) as D. apply square_lt. assert (ice_density (z2 * (3 / 10)) < ice_density (z1 * (3 / 10))); [|lra]. unfold ice_density.
  destruct (Rlt_dec (- 149 / 10) (z1 * (3 / 10))), (Rlt_dec (- 149 / 10) (z2 * (3 / 10))); try lra.
  - pose proof (exp_increasing (z1 * (3 / 10) / (308 / 10)) (z2 * (3 / 10) / (308 / 10)) ltac:(lra)). lra.
  - pose proof (exp_increasing ((z1 * (3 / 10) + 149 / 10) / (405 / 10)) ((z2 * (3 / 10) + 149 / 10) / (405 / 10)) ltac:(lra)). lra.
Qed.
(** But it does not between the layers: just above 14.9 m of depth it is larger than at this depth. *)
Lemma exp_step : 594 / 1000 * exp (- 1489 / 100 / (308 / 10)) < 367 / 1000.
Proof.
  set (x := 1489 / 100 / (308 / 10)). assert (1003775 / 1000000 < exp (x / 128)) as H0. { pose proof (exp_ineq1 (x / 128) ltac:(unfold x; lra)). unfold x in *. lra. }
  assert (forall k a b, 0 < a -> b <= a * a -> a < exp k -> b < exp (2 * k)) as Hs. { intros k a b Ha Hb Hk. replace (2 * k) with (k + k) by ring. rewrite exp_plus. apply Rle_lt_trans with (a * a); [exact Hb|]. apply Rmult_gt_0_lt_compat; lra. }
  pose proof (Hs _ (1003775 / 1000000) (1007564 / 1000000) ltac:(lra) ltac:(lra) H0) as H1. pose proof (Hs _ (1007564 / 1000000) (1015185 / 1000000) ltac:(lra) ltac:(lra) H1) as H2. pose proof (Hs _ (1015185 / 1000000) (1030600 / 1000000) ltac:(lra) ltac:(lra) H2) as H3. pose proof (Hs _ (1030600 / 1000000) (1062136 / 1000000) ltac:(lra) ltac:(lra) H3) as H4.
  pose proof (Hs _ (1062136 / 1000000) (1128132 / 1000000) ltac:(lra) ltac:(lra) H4) as H5. pose proof (Hs _ (1128132 / 1000000) (1272680 / 1000000) ltac:(lra) ltac:(lra) H5) as H6. pose proof (Hs _ (1272680 / 1000000) (1619700 / 1000000) ltac:(lra) ltac:(lra) H6) as H7.
  replace (2 * (2 * (2 * (2 * (2 * (2 * (2 * (x / 128)))))))) with x in H7 by field. replace (- 1489 / 100 / (308 / 10)) with (- x) by (unfold x; field). rewrite exp_Ropp. apply Rmult_lt_reg_r with (exp x); [apply exp_pos|]. rewrite Rmult_assoc, Rinv_l by (pose proof (exp_pos x); lra). lra.
Qed.
Theorem C78_layers_refuted r : exists z1 z2, z1 < z2 < 0 /\ ice_eps r z1 < ice_eps r z2.
Proof.
  exists (- 149 / 3), (- 1489 / 30). split; [lra|]. unfold ice_eps. destruct (Rlt_dec 0 (- 149 / 3 * (3 / 10))); [lra|]. destruct (Rlt_dec 0 (- 1489 / 30 * (3 / 10))); [lra|]. pose proof (density_range (- 149 / 3 * (3 / 10)) ltac:(lra)) as D. apply square_lt. split; [lra|].
  unfold ice_density in *. destruct (Rlt_dec (- 149 / 10) (- 149 / 3 * (3 / 10))); [lra|]. destruct (Rlt_dec (- 149 / 10) (- 1489 / 30 * (3 / 10))); [|lra]. replace ((- 149 / 3 * (3 / 10) + 149 / 10) / (405 / 10)) with 0 by field. rewrite exp_0.
  replace (- 1489 / 30 * (3 / 10) / (308 / 10)) with (- 1489 / 100 / (308 / 10)) by field. pose proof exp_step. lra.
Qed.

(** * The impulse response *)
(** It is the filter of the analytic calculator (C65) of the same order and peaking time. *)
Theorem C78_filter lg N tp t : log_gamma lg -> (0 < N)%nat -> 0 < tp -> ice_response lg N tp t = impulse_response N tp t.
Proof.
  intros Hlg HN Htp. unfold ice_response, impulse_response. destruct (Rle_dec t 0) as [|Ht]; [reflexivity|]. destruct N as [|n]; [lia|]. replace (INR (S n)) with (INR (n + 1)) by (f_equal; lia). rewrite Hlg, exp_ln by apply fact_pos. pose proof (fact_pos n) as Hf.
  rewrite fact_simpl, mult_INR. replace (INR (n + 1)) with (INR (S n)) by (f_equal; lia). assert (0 < INR (S n)) as HS by (apply lt_0_INR; lia). replace (- t / tp * INR (S n)) with (- (INR (S n) * t / tp)) by (field; lra).
  replace (t / tp * INR (S n)) with (INR (S n) / tp * t) by (field; lra). rewrite Rpow_mult_distr. set (a := INR (S n)) in *. set (e := exp _). change ((a / tp) ^ S (S n)) with (a / tp * (a / tp) ^ S n). field. lra.
Qed.
Lemma filter_peak N tp t : (0 < N)%nat -> 0 < tp -> 0 <= impulse_response N tp t <= impulse_response N tp tp.
Proof.
  intros HN Htp. pose proof (fact_pos N) as Hf. assert (0 < INR N) as HI by (apply lt_0_INR; exact HN). assert (0 < (INR N / tp) ^ S N / INR (fact N)) as Hc. { apply Rmult_lt_0_compat; [apply pow_lt, Rmult_lt_0_compat; [exact HI|apply Rinv_0_lt_compat, Htp]|apply Rinv_0_lt_compat, Hf]. }
  assert (forall s, 0 < s -> impulse_response N tp s = (INR N / tp) ^ S N / INR (fact N) * (s ^ N * exp (- (INR N * s / tp)))) as E. { intros s Hs. unfold impulse_response. destruct (Rle_dec s 0); [lra|]. ring. }
  assert (forall s, 0 < s -> 0 < s ^ N * exp (- (INR N * s / tp))) as Hpos. { intros s Hs. apply Rmult_lt_0_compat; [apply pow_lt, Hs|apply exp_pos]. }
  destruct (Rle_dec t 0) as [L|L].
  - replace (impulse_response N tp t) with 0 by (unfold impulse_response; destruct (Rle_dec t 0); [reflexivity|lra]). split; [lra|]. rewrite E by exact Htp. left. apply Rmult_lt_0_compat; [exact Hc|apply Hpos, Htp].
  - assert (0 < t) as Ht by lra. rewrite !E by assumption. split; [left; apply Rmult_lt_0_compat; [exact Hc|apply Hpos, Ht]|]. apply Rmult_le_compat_l; [lra|].
    assert (forall s, s ^ N * exp (- (INR N * s / tp)) = (s * exp (- (s / tp))) ^ N) as Ep. { intros s. rewrite Rpow_mult_distr. f_equal. clear. induction N as [|n IH]; [simpl; rewrite <- exp_0; f_equal; unfold Rdiv; ring|]. cbn [pow]. rewrite <- IH, <- exp_plus. f_equal. rewrite S_INR. unfold Rdiv. ring. }
    rewrite !Ep. apply pow_incr. split; [left; apply Rmult_lt_0_compat; [exact Ht|apply exp_pos]|]. replace (tp / tp) with 1 by (field; lra).
    assert (t / tp <= exp (t / tp - 1)) as Hx. { destruct (Req_dec (t / tp - 1) 0) as [Z|Z]; [rewrite Z, exp_0; lra|]. pose proof (exp_ineq1 _ Z). lra. }
    replace (t / tp - 1) with (t / tp + - (1)) in Hx by ring. rewrite exp_plus in Hx. apply Rmult_le_reg_r with (exp (t / tp)); [apply exp_pos|]. rewrite Rmult_assoc, <- exp_plus. replace (- (t / tp) + t / tp) with 0 by ring. rewrite exp_0, Rmult_1_r.
    replace t with (tp * (t / tp)) at 1 by (field; lra). rewrite (Rmult_assoc tp). apply Rmult_le_compat_l; [lra|]. rewrite (Rmult_comm (exp (- (1)))). exact Hx.
Qed.
Lemma filter_unit N tp : (0 < N)%nat -> 0 < tp -> is_lim (step_response N tp) p_infty 1.
Proof.
  intros HN Htp. apply (is_lim_ext_loc (fun t => 1 - / INR (fact N) * gam N (INR N / tp * t))). { exists 0. intros t Ht. rewrite (step_response_eq N tp HN Htp). unfold filtered_step, smooth_step. destruct (Rle_dec t 0); [lra|]. set (g := gam N _). unfold Rdiv. ring. }
  pose proof (w_pos N tp HN Htp) as Hw. assert (is_lim (fun t => gam N (INR N / tp * t)) p_infty 0) as Hg. { apply (is_lim_comp (gam N) (fun t => INR N / tp * t) p_infty 0 p_infty); [apply gam_limit| |exists 0; intros; discriminate]. 
    apply is_lim_spec. intros M. exists (M / (INR N / tp)). intros x Hx. apply Rmult_lt_reg_r with (/ (INR N / tp)); [apply Rinv_0_lt_compat, Hw|]. replace (INR N / tp * x * / (INR N / tp)) with x; [exact Hx|]. field. assert (0 < INR N) by (apply lt_0_INR; exact HN). split; lra. }
  evar_last; [apply (is_lim_minus (fun _ => 1) (fun t => / INR (fact N) * gam N (INR N / tp * t)) p_infty 1 (Rbar_mult (/ INR (fact N)) 0) 1)|]; [apply is_lim_const|apply is_lim_scal_l, Hg| |reflexivity].
  cbn. unfold is_Rbar_minus, is_Rbar_plus. cbn. f_equal. f_equal. ring.
Qed.
(** It is never negative and largest at its peaking time. *)
Theorem C78_peak lg N tp t : log_gamma lg -> (0 < N)%nat -> 0 < tp -> 0 <= ice_response lg N tp t <= ice_response lg N tp tp.
Proof. intros Hlg HN Htp. rewrite !C78_filter by assumption. apply filter_peak; assumption. Qed.
(** Its integral is 1. *)
Theorem C78_unit lg N tp : log_gamma lg -> (0 < N)%nat -> 0 < tp -> is_lim (fun t => RInt (ice_response lg N tp) 0 t) p_infty 1.
Proof. intros Hlg HN Htp. apply (is_lim_ext (step_response N tp)); [|apply filter_unit; assumption]. intros t. apply RInt_ext. intros x _. symmetry. apply C78_filter; assumption. Qed.
Example C78_nonvacuous : (exists lg, log_gamma lg) /\ (0 < ice_order)%nat /\ 0 < ice_peak.
Proof. unfold ice_order, ice_peak. split; [|split; [lia|lra]]. exists (fun x => ln (INR (fact (Z.to_nat (up x - 2))))). intros k. do 3 f_equal. assert (up (INR (k + 1)) = Z.of_nat (k + 2)) as ->; [|lia]. symmetry. apply tech_up; rewrite <- INR_IZR_INZ, !plus_INR; simpl; lra. Qed.
(** The impulse response of the example: 4/3 t^4 exp(-2 t). *)
Theorem C78_example lg t : log_gamma lg -> ice_response lg ice_order ice_peak t = if Rle_dec t 0 then 0 else 4 / 3 * t ^ 4 * exp (- (2 * t)).
Proof.
  intros Hlg. rewrite C78_filter by (exact Hlg || (unfold ice_order, ice_peak; lia || lra)). unfold impulse_response, ice_order, ice_peak. destruct (Rle_dec t 0); [reflexivity|]. replace (- (INR 4 * t / 2)) with (- (2 * t)) by (simpl; field). replace ((INR 4 / 2) ^ 5 / INR (fact 4)) with (4 / 3); [reflexivity|]. simpl. field.
Qed.
