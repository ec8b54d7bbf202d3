(** Proofs about the field of the analytic calculator (C65). *)
From Coq Require Import Reals Lra Lia Arith.
From Coquelicot Require Import Coquelicot.
From Verif Require Import GammaModel GammaSpec GammaProofs GammaProofs2 GammaProps DipoleModel DipoleSpec.
Local Open Scope R_scope.

(** * Functions that are glued together at zero *)
Lemma glued_derive (f f' : R -> R) : (forall t, is_derive f t (f' t)) -> f 0 = 0 -> f' 0 = 0 ->
  forall t, is_derive (fun t => if Rle_dec t 0 then 0 else f t) t (if Rle_dec t 0 then 0 else f' t).
Proof.
  intros Hd H0 H0' t. destruct (Rle_dec t 0) as [Ht|Ht]; [destruct (Req_dec t 0) as [->|Hne]|].
  - apply is_derive_Reals. intros eps He. pose proof (proj1 (is_derive_Reals _ _ _) (Hd 0)) as H. destruct (H eps He) as [delta Hdel]. exists delta. intros h Hh Hs.
    destruct (Rle_dec 0 0) as [_|Hc]; [|lra]. destruct (Rle_dec (0 + h) 0) as [Hl|Hl]; [replace ((0 - 0) / h - 0) with 0 by (field; exact Hh); rewrite Rabs_R0; exact He|].
    specialize (Hdel h Hh Hs). rewrite H0, H0' in Hdel. exact Hdel.
  - apply (is_derive_ext_loc (fun _ => 0)); [|apply (is_derive_const 0)]. assert (0 < - t) as Hp by lra. exists (mkposreal _ Hp). intros y Hy. apply Rabs_lt_between' in Hy. cbn in Hy. destruct (Rle_dec y 0); [reflexivity|lra].
  - apply (is_derive_ext_loc f); [|apply Hd]. assert (0 < t) as Hp by lra. exists (mkposreal _ Hp). intros y Hy. apply Rabs_lt_between' in Hy. cbn in Hy. destruct (Rle_dec y 0); [lra|reflexivity].
Qed.
Lemma glued_continuous (f : R -> R) : (forall t, continuous f t) -> f 0 = 0 -> forall t, continuous (fun t => if Rle_dec t 0 then 0 else f t) t.
Proof.
  intros Hc H0 t. apply (continuous_ext (fun t => f (Rmax t 0))).
  - intros x. destruct (Rle_dec x 0) as [H|H]; [rewrite Rmax_right by lra; exact H0|rewrite Rmax_left by lra; reflexivity].
  - apply (continuous_comp (fun t => Rmax t 0) f); [|apply Hc]. apply (continuous_ext (fun t => (t + 0 + Rabs (t - 0)) / 2)).
    + intros x. unfold Rmax, Rabs. destruct (Rle_dec x 0), (Rcase_abs (x - 0)); lra.
    + apply (continuous_mult (fun t => t + 0 + Rabs (t - 0)) (fun _ => / 2)); [|apply continuous_const]. apply (continuous_plus (fun t => t + 0) (fun t => Rabs (t - 0))).
      * apply (continuous_plus (fun t : R => t) (fun _ => 0)); [apply continuous_id|apply continuous_const].
      * apply (continuous_comp (fun t => t - 0) Rabs); [|apply continuous_Rabs]. apply (continuous_minus (fun t : R => t) (fun _ => 0)); [apply continuous_id|apply continuous_const].
Qed.

Section filter.
Context (n : nat) (tp : R) (Hn : (0 < n)%nat) (Htp : 0 < tp).
Local Notation w := (INR n / tp).

Definition kern (t : R) : R := w ^ S n / INR (fact n) * t ^ n * exp (- (INR n * t / tp)).
Definition smooth_step (t : R) : R := 1 - gam n (w * t) / INR (fact n).
Definition filtered_step (t : R) : R := if Rle_dec t 0 then 0 else smooth_step t.

Lemma w_pos : 0 < w.
Proof using Hn Htp. apply Rmult_lt_0_compat; [apply lt_0_INR, Hn|apply Rinv_0_lt_compat, Htp]. Qed.
Lemma smooth_derive t : is_derive smooth_step t (kern t).
Proof using Htp.
  unfold smooth_step, kern. pose proof (fact_pos n) as Hf. 
  assert (Derive (fun x => gam n x) (w * t) = - ((w * t) ^ n * exp (- (w * t)))) as HD by (apply is_derive_unique, gam_derive).
  auto_derive; [exists (- ((w * t) ^ n * exp (- (w * t)))); apply gam_derive|]. rewrite HD.
  replace (INR n * t / tp) with (w * t) by (field; lra). rewrite Rpow_mult_distr. cbn [pow]. field. lra.
Qed.
Lemma kern_0 : kern 0 = 0.
Proof using Hn. unfold kern. rewrite pow_i by exact Hn. ring. Qed.
Lemma smooth_0 : smooth_step 0 = 0.
Proof using. unfold smooth_step. rewrite Rmult_0_r, gam_at_0. pose proof (fact_pos n). field. lra. Qed.
Lemma impulse_kern t : impulse_response n tp t = if Rle_dec t 0 then 0 else kern t.
Proof using. reflexivity. Qed.
Lemma step_derive t : is_derive filtered_step t (impulse_response n tp t).
Proof using Hn Htp. rewrite impulse_kern. apply (glued_derive smooth_step kern smooth_derive smooth_0 kern_0). Qed.
Lemma kern_derive t : t <> 0 -> is_derive kern t (kern t * (tp - t) * INR n / (tp * t)).
Proof using Hn Htp.
  intros Ht. unfold kern. pose proof (fact_pos n) as Hf. destruct n as [|m] eqn:En; [lia|]. rewrite <- En in *. set (c := w ^ S n / INR (fact n)). clearbody c.
  auto_derive; [exact I|]. replace (pred n) with m by lia. replace (t ^ n) with (t * t ^ m) by (rewrite En; reflexivity). unfold Rdiv at 1. set (e := exp _). clearbody e. field. lra.
Qed.
Lemma impulse_continuous t : continuous (impulse_response n tp) t.
Proof using Hn Htp.
  apply (glued_continuous kern); [|exact kern_0]. intros x. apply (@ex_derive_continuous R_AbsRing R_NormedModule kern). unfold kern. auto_derive. exact I.
Qed.
Lemma impulse_integral t : is_RInt (impulse_response n tp) 0 t (filtered_step t).
Proof using Hn Htp.
  replace (filtered_step t) with (minus (filtered_step t) (filtered_step 0)).
  - apply (is_RInt_derive filtered_step); intros x _; [apply step_derive|apply impulse_continuous].
  - unfold minus, plus, opp. cbn. unfold filtered_step at 2. destruct (Rle_dec 0 0); [|lra]. ring.
Qed.
Lemma step_response_eq t : step_response n tp t = filtered_step t.
Proof using Hn Htp. apply is_RInt_unique, impulse_integral. Qed.
Lemma step_response_derive t : is_derive (step_response n tp) t (impulse_response n tp t).
Proof using Hn Htp. apply (is_derive_ext filtered_step); [intros s; symmetry; apply step_response_eq|apply step_derive]. Qed.

Context (lg : R -> R) (Hlg : log_gamma lg).
Lemma delta_eq t : filtered_delta lg n tp t = impulse_response n tp t.
Proof using Hn Htp Hlg.
  unfold filtered_delta, impulse_response. destruct (Rle_dec t 0); [reflexivity|]. destruct n as [|m] eqn:En; [lia|]. rewrite <- En in *. assert (exp (lg (INR n)) = INR (fact m)) as ->.
  { replace n with (m + 1)%nat by lia. rewrite Hlg. apply exp_ln, fact_pos. }
  replace (- t / tp * INR n) with (- (INR n * t / tp)) by (field; lra). assert (INR (fact n) = INR n * INR (fact m)) as -> by (rewrite En; apply fact_S_R). pose proof (fact_pos m) as Hf. assert (0 < INR n) as Hnp by (apply lt_0_INR; lia).
  replace (t / tp * INR n) with (w * t) by (field; lra). rewrite Rpow_mult_distr. cbn [pow]. set (W := w ^ n). field. lra.
Qed.
Lemma delta_prime_derive t : t <> 0 -> is_derive (impulse_response n tp) t (filtered_delta_prime lg n tp t).
Proof using Hn Htp Hlg.
  intros Ht. unfold filtered_delta_prime. rewrite delta_eq. unfold impulse_response at 2. destruct (Rle_dec t 0) as [H|H].
  - apply (is_derive_ext_loc (fun _ => 0)); [|apply (is_derive_const 0)]. assert (0 < - t) as Hp by lra. exists (mkposreal _ Hp). intros y Hy. apply Rabs_lt_between' in Hy. cbn in Hy. unfold impulse_response. destruct (Rle_dec y 0); [reflexivity|lra].
  - apply (is_derive_ext_loc kern); [|apply kern_derive, Ht]. assert (0 < t) as Hp by lra. exists (mkposreal _ Hp). intros y Hy. apply Rabs_lt_between' in Hy. cbn in Hy. unfold impulse_response. destruct (Rle_dec y 0); [lra|reflexivity].
Qed.
Lemma theta_close t : exists N th, (forall fuel, (N <= fuel)%nat -> filtered_theta lg n tp fuel t = Some th) /\ Rabs (th - step_response n tp t) <= default_tol * (INR n + 2) /\ (t <= 0 -> th = 0).
Proof using Hn Htp Hlg.
  rewrite step_response_eq. unfold filtered_theta, filtered_step. pose proof (pos_INR n). unfold default_tol. destruct (Rle_dec t 0) as [H'|H'].
  - exists 0%nat, 0. split; [reflexivity|]. split; [rewrite Rminus_0_r, Rabs_R0; lra|reflexivity].
  - destruct (C64_error lg n (INR n * t / tp) (1 / 1000000) Hlg) as (N & v & g & Hv & Hg & He); [|lra|].
    { apply Rmult_le_pos; [apply Rmult_le_pos; lra|apply Rlt_le, Rinv_0_lt_compat, Htp]. }
    pose proof (fact_pos n) as Hf. exists N, (1 - v / INR (fact n)). split; [|split; [|lra]].
    + intros fuel Hfu. rewrite (Hv fuel Hfu). rewrite Hlg, exp_ln by exact Hf. reflexivity.
    + rewrite (upper_gamma_unique n _ g _ Hg (gam_integral n _)) in He. unfold smooth_step. replace (w * t) with (INR n * t / tp) by (field; lra). set (x := gam n _) in *.
      replace (1 - v / INR (fact n) - (1 - x / INR (fact n))) with (- ((v - x) * / INR (fact n))) by (field; lra). rewrite Rabs_Ropp, Rabs_mult, (Rabs_pos_eq (/ _)) by (apply Rlt_le, Rinv_0_lt_compat, Hf).
      apply Rmult_le_reg_r with (INR (fact n)); [exact Hf|]. rewrite Rmult_assoc, Rinv_l by lra. lra.
Qed.
End filter.

Lemma div_div (a b c : R) : / a * (b / c) = b / (a * c).
Proof. unfold Rdiv. rewrite Rinv_mult. ring. Qed.

(** * The derivatives of the Hertz vector *)
Section hertz.
Context (p p' : R -> R) (eta : R) (Hp : forall t, is_derive p t (p' t)).
Local Notation k := (/ (4 * PI * eta ^ 2)).

Lemma distance_derive r z : 0 < r ^ 2 + z ^ 2 -> is_derive (fun y => sqrt (r ^ 2 + y ^ 2)) z (z / sqrt (r ^ 2 + z ^ 2)).
Proof using.
  clear. intros H. auto_derive; [replace (r * (r * 1) + z * (z * 1)) with (r ^ 2 + z ^ 2) by ring; exact H|]. replace (r * (r * 1) + z * (z * 1)) with (r ^ 2 + z ^ 2) by ring.
  pose proof (sqrt_lt_R0 _ H). field. lra.
Qed.
Lemma distance_derive_l r z : 0 < r ^ 2 + z ^ 2 -> is_derive (fun x => sqrt (x ^ 2 + z ^ 2)) r (r / sqrt (r ^ 2 + z ^ 2)).
Proof using.
  clear. intros H. apply (is_derive_ext (fun x => sqrt (z ^ 2 + x ^ 2))); [intros x; f_equal; ring|]. rewrite (Rplus_comm (r ^ 2)). apply distance_derive. lra.
Qed.
Lemma delay_derive (q q' : R -> R) t d : is_derive q (t - eta * d) (q' (t - eta * d)) -> is_derive (fun d => q (t - eta * d)) d (- eta * q' (t - eta * d)).
Proof using. clear. intros H. apply (is_derive_comp q (fun d => t - eta * d) d (q' (t - eta * d)) (- eta)); [exact H|]. auto_derive; [exact I|]. ring. Qed.

(** p(t - eta d) / d, and p / d^3 + eta p' / d^2, as functions of the distance. *)
Lemma wave_derive t d : 0 < d -> is_derive (fun d => p (t - eta * d) / d) d (- (p (t - eta * d) / d ^ 2 + eta * p' (t - eta * d) / d)).
Proof using Hp.
  intros Hd. replace (- (p (t - eta * d) / d ^ 2 + eta * p' (t - eta * d) / d)) with ((- eta * p' (t - eta * d)) * / d + p (t - eta * d) * (- / d ^ 2)) by (field; lra).
  apply (is_derive_mult (fun d => p (t - eta * d)) (fun d => / d)); [apply delay_derive, Hp| |intros; apply Rmult_comm]. auto_derive; [lra|]. field. lra.
Qed.
Lemma wave_derive2 t d p2 : 0 < d -> is_derive p' (t - eta * d) p2 ->
  is_derive (fun d => p (t - eta * d) / d ^ 3 + eta * p' (t - eta * d) / d ^ 2) d (- (3 * p (t - eta * d) / d ^ 4 + 3 * eta * p' (t - eta * d) / d ^ 3 + eta ^ 2 * p2 / d ^ 2)).
Proof using Hp.
  intros Hd H2. set (u := t - eta * d) in *.
  assert (is_derive (fun d => p (t - eta * d) / d ^ 3) d ((- eta * p' u) * / d ^ 3 + p u * (- (3) / d ^ 4))) as D1.
  { apply (is_derive_mult (fun d => p (t - eta * d)) (fun d => / d ^ 3)); [apply delay_derive, Hp| |intros; apply Rmult_comm]. auto_derive; [repeat (apply Rmult_integral_contrapositive_currified; [lra|]); lra|]. field. lra. }
  assert (is_derive (fun d => eta * p' (t - eta * d) / d ^ 2) d ((eta * (- eta * p2)) * / d ^ 2 + (eta * p' u) * (- (2) / d ^ 3))) as D2.
  { apply (is_derive_mult (fun d => eta * p' (t - eta * d)) (fun d => / d ^ 2)); [| |intros; apply Rmult_comm].
    - apply is_derive_scal. apply (delay_derive p' (fun _ => p2)). exact H2.
    - auto_derive; [repeat (apply Rmult_integral_contrapositive_currified; [lra|]); lra|]. field. lra. }
  pose proof (is_derive_plus _ _ _ _ _ D1 D2) as H. eapply (is_derive_ext_loc _ _ _ _ (filter_forall _ (fun x => eq_refl))) in H. 
  replace (- (3 * p u / d ^ 4 + 3 * eta * p' u / d ^ 3 + eta ^ 2 * p2 / d ^ 2)) with (plus (- eta * p' u * / d ^ 3 + p u * (- (3) / d ^ 4)) (eta * (- eta * p2) * / d ^ 2 + eta * p' u * (- (2) / d ^ 3))); [exact H|].
  unfold plus. cbn. field. lra.
Qed.

Lemma hertz_field r z t p2 : 0 < eta -> 0 < r ^ 2 + z ^ 2 -> let d := sqrt (r ^ 2 + z ^ 2) in let u := t - eta * d in is_derive p' u p2 ->
  let A := p u + eta * d * p' u in let B := A + (eta * d) ^ 2 * p2 in
  electric_field (hertz p eta) eta r z t (k * (r * z / d ^ 5) * (2 * A + B)) (k / d ^ 5 * (2 * z ^ 2 * A - r ^ 2 * B)).
Proof using Hp.
  intros Heta Hrz d u H2 A B. assert (0 < d) as Hd by (apply sqrt_lt_R0, Hrz). assert (d ^ 2 = r ^ 2 + z ^ 2) as Ed by (unfold d; apply pow2_sqrt; lra).
  pose proof PI_RGT_0 as Hpi. assert (4 * PI * eta ^ 2 <> 0) as Hk. { apply Rgt_not_eq. apply Rmult_lt_0_compat; [lra|apply pow_lt, Heta]. }
  set (Q := fun (x y : R) => let d := sqrt (x ^ 2 + y ^ 2) in p (t - eta * d) / d ^ 3 + eta * p' (t - eta * d) / d ^ 2).
  assert (forall x y, 0 < x ^ 2 + y ^ 2 -> is_derive (fun y => hertz p eta x y t) y (- k * (y * Q x y))) as HPz.
  { intros x y Hxy. pose proof (sqrt_lt_R0 _ Hxy) as He. unfold hertz, Q. cbv zeta. set (e := sqrt (x ^ 2 + y ^ 2)) in *.
    apply (is_derive_ext (fun y => k * ((fun d => p (t - eta * d) / d) (sqrt (x ^ 2 + y ^ 2))))). { intros y'. apply div_div. }
    replace (- k * (y * (p (t - eta * e) / e ^ 3 + eta * p' (t - eta * e) / e ^ 2))) with (k * ((y / e) * (- (p (t - eta * e) / e ^ 2 + eta * p' (t - eta * e) / e)))) by (field; lra).
    apply is_derive_scal. apply (is_derive_comp (fun d => p (t - eta * d) / d) (fun y => sqrt (x ^ 2 + y ^ 2))); [apply wave_derive, He|apply distance_derive, Hxy]. }
  pose proof (wave_derive2 t d p2 Hd H2) as HQ. fold u in HQ. set (q := - (3 * p u / d ^ 4 + 3 * eta * p' u / d ^ 3 + eta ^ 2 * p2 / d ^ 2)) in *.
  assert (is_derive (fun x => Q x z) r (r / d * q)) as HQr.
  { apply (is_derive_comp (fun d => p (t - eta * d) / d ^ 3 + eta * p' (t - eta * d) / d ^ 2) (fun x => sqrt (x ^ 2 + z ^ 2))); [exact HQ|apply distance_derive_l, Hrz]. }
  assert (is_derive (fun y => Q r y) z (z / d * q)) as HQz.
  { apply (is_derive_comp (fun d => p (t - eta * d) / d ^ 3 + eta * p' (t - eta * d) / d ^ 2) (fun y => sqrt (r ^ 2 + y ^ 2))); [exact HQ|apply distance_derive, Hrz]. }
  exists (fun x y => - k * (y * Q x y)), (fun s => k * (p' (s - eta * d) / d)), (- k * (1 * Q r z + z * (z / d * q))), (k * (p2 / d)).
  split; [exact HPz|]. split; [|split; [|split; [|split]]].
  - intros s. unfold hertz. cbv zeta. fold d. apply (is_derive_ext (fun s => k * (p (s - eta * d) * / d))). { intros s'. apply div_div. }
    apply is_derive_scal. replace (p' (s - eta * d) / d) with (p' (s - eta * d) * / d) by reflexivity. apply (is_derive_scal_l (fun s => p (s - eta * d)) s (p' (s - eta * d)) (/ d)).
    replace (p' (s - eta * d)) with (scal 1 (p' (s - eta * d))) by (unfold scal; cbn; unfold mult; cbn; ring). apply (is_derive_comp p (fun s => s - eta * d)); [apply Hp|]. auto_derive; [exact I|ring].
  - replace (k * (r * z / d ^ 5) * (2 * A + B)) with (- k * (z * (r / d * q))). 2: { unfold q, B, A. field. lra. }
    apply is_derive_scal, is_derive_scal. exact HQr.
  - apply is_derive_scal. apply (is_derive_mult (fun y => y) (fun y => Q r y)); [apply (is_derive_id z)|exact HQz|intros; apply Rmult_comm].
  - apply is_derive_scal. apply (is_derive_scal_l (fun s => p' (s - eta * d)) t p2 (/ d)).
    replace p2 with (scal 1 p2) by (unfold scal; cbn; unfold mult; cbn; ring). apply (is_derive_comp p' (fun s => s - eta * d)); [exact H2|]. auto_derive; [exact I|ring].
  - unfold Q. cbv zeta. fold d u. unfold q, B, A. replace (r ^ 2) with (d ^ 2 - z ^ 2) by lra. field. lra.
Qed.
End hertz.
