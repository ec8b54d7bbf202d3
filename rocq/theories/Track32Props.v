(** C76: the positions, currents and weights of the integration points in 32-bit floats. *)
From stdpp Require Import base list list_numbers numbers option.
From Coq Require Import Reals ZArith Bool Lra Lia Psatz.
From Flocq Require Import Core IEEE754.BinarySingleNaN.
From Verif Require Import NDArrayModel BBoxModel ChunkMetaModel InterpModel SignalModel AntennaModel AntennaSpec AntennaProps DiscreteModel DiscreteSpec DiscreteProps.
From Verif Require Import Interp32Model Interp32Spec Interp32Weights Interp32Props Signal32Model Signal32Spec Signal32Props Signal32Whole Signal32Error Signal32Any Signal32Stops Chunk32Props Chunk32Signal.
Local Open Scope R_scope.
Local Notation fexp32 := (FLT_exp (-149) 24).
Local Notation rnd32 := (round radix2 fexp32 ZnearestE).
Local Notation u := (/ 16777216).

(** * Errors that are relative to the exact value, up to an absolute one *)
Definition rel (v X k r : R) : Prop := Rabs (v - X) <= k * Rabs X + r.
Lemma rel_size v X k r : rel v X k r -> Rabs v <= (1 + k) * Rabs X + r.
Proof. unfold rel. intros H. replace v with (v - X + X) by ring. eapply Rle_trans; [apply Rabs_triang|]. lra. Qed.
Lemma rel_weaken v X k r k' r' : k <= k' -> r <= r' -> rel v X k r -> rel v X k' r'.
Proof. unfold rel. intros Hk Hr H. pose proof (Rabs_pos X) as P. pose proof (Rmult_le_compat_r _ _ _ P Hk). lra. Qed.
Lemma rel_round v X k r : 0 <= k -> 0 <= r -> rel v X k r -> rel (rnd32 v) X (k + u + k * u) (r + r * u + eta).
Proof.
  intros Hk Hr H. pose proof (rel_size _ _ _ _ H) as HS. unfold rel in *. pose proof (rnd_err v) as HE. replace (rnd32 v - X) with ((rnd32 v - v) + (v - X)) by ring. eapply Rle_trans; [apply Rabs_triang|].
  assert (Rabs v * u <= ((1 + k) * Rabs X + r) * u) by (apply Rmult_le_compat_r; lra). lra.
Qed.
Lemma rel_scale c v X k r : rel v X k r -> rel (c * v) (c * X) k (Rabs c * r).
Proof. unfold rel. intros H. rewrite <- Rmult_minus_distr_l, !Rabs_mult. pose proof (Rabs_pos c) as P. pose proof (Rmult_le_compat_l _ _ _ P H). lra. Qed.
Lemma rel_mult v w X Y k l r : 0 <= l -> rel v X k r -> rel w Y l 0 -> rel (v * w) (X * Y) (k + l + k * l) (r * (1 + l) * Rabs Y).
Proof.
  intros Hl H1 H2. pose proof (rel_size _ _ _ _ H2) as HS. unfold rel in *. replace (v * w - X * Y) with ((v - X) * w + X * (w - Y)) by ring. eapply Rle_trans; [apply Rabs_triang|]. rewrite !Rabs_mult.
  pose proof (Rabs_pos X) as PX. pose proof (Rabs_pos Y) as PY. pose proof (Rabs_pos w) as Pw. pose proof (Rabs_pos (v - X)) as Pv.
  assert (Rabs (v - X) * Rabs w <= (k * Rabs X + r) * ((1 + l) * Rabs Y)) as A1 by (apply Rmult_le_compat; lra). assert (Rabs X * Rabs (w - Y) <= Rabs X * (l * Rabs Y)) as A2 by (apply Rmult_le_compat_l; lra). lra.
Qed.
Lemma rel_inv b D : 0 < D -> rel b D u 0 -> 0 < b /\ rel (/ b) (/ D) (u * (1001 / 1000)) 0.
Proof.
  unfold rel. intros HD H. rewrite (Rabs_pos_eq D) in H by lra. apply Rabs_le_inv in H. assert (0 < b) as Hb by lra. split; [exact Hb|]. assert (0 < / D) as Hi by (by apply Rinv_0_lt_compat). assert (0 < / b) as Hib by (by apply Rinv_0_lt_compat).
  replace (/ b - / D) with ((D - b) * / b * / D) by (field; lra). rewrite !Rabs_mult, (Rabs_pos_eq (/ D)), (Rabs_pos_eq (/ b)) by lra. rewrite Rplus_0_r. apply Rmult_le_compat_r; [lra|].
  apply Rmult_le_reg_r with b; [exact Hb|]. rewrite Rmult_assoc, Rinv_l, Rmult_1_r by lra. apply Rabs_le. lra.
Qed.

(** * Constants *)
Lemma big_bounds : 2 ^ 40 = 1099511627776 /\ 2 ^ 24 = 16777216 /\ 2 ^ 50 = 1125899906842624 /\ IZR (2 ^ 100) <= bpow radix2 127 /\ eta * 2 ^ 76 <= u /\ 16777216 * eta <= / 8 * / 2 ^ 120 /\ 0 < eta /\ eta <= / 2 ^ 140 * / 50.
Proof.
  split; [simpl pow; lra|]. split; [simpl pow; lra|]. split; [simpl pow; lra|]. split; [change (IZR (2 ^ 100)) with (bpow radix2 100); apply bpow_le; lia|].
  split. { unfold eta. replace (2 ^ 150) with (2 ^ 74 * 2 ^ 76) by (rewrite <- pow_add; f_equal). rewrite Rinv_mult. rewrite Rmult_assoc, Rinv_l by (apply Rgt_not_eq, pow_lt; lra). rewrite Rmult_1_r. apply Rinv_le_contravar; [lra|]. apply Rle_trans with (2 ^ 24); [simpl pow; lra|apply Rle_pow; [lra|lia]]. }
  split; [apply eta_many|]. split; [apply eta_small|]. pose proof eta_50. lra.
Qed.

(** * One component of the track *)
Section component.
Context (t0 t1 : f32) (n : nat) (F0 : is_finite t0 = true) (F1 : is_finite t1 = true).
Let D := B2R t1 - B2R t0.
Context (HD : / 2 ^ 50 <= D <= 2 ^ 24) (Hint : num_intervals32 t0 t1 = Some (N.of_nat n)).
Let step := itgr_step32 t0 t1 (N.of_nat n).

Lemma D_bounds : / 1125899906842624 <= D <= 16777216.
Proof. destruct big_bounds as (_ & E24 & E50 & _). clear - HD E24 E50. rewrite E24, E50 in HD. exact HD. Qed.
Lemma intervals : (0 < n)%nat /\ 1 <= INR n <= 16777216 /\ D * (1 - u) <= INR n.
Proof.
  pose proof D_bounds as HB. destruct big_bounds as (_ & E24 & _). destruct (C75_intervals t0 t1 F0 F1) as (m & Hm & Hm0 & Hm1 & Hm2); [unfold D in HB; lra|rewrite E24; unfold D in HB; lra|]. rewrite Hint in Hm. injection Hm as Hm. apply Nat2N.inj in Hm. subst m. rewrite E24 in Hm1. fold D in Hm2.
  split; [exact Hm0|]. split; [split; [apply (le_INR 1); lia|exact Hm1]|lra].
Qed.
(** The duration of the track. *)
Lemma duration : is_finite (Bminus mode_NE t1 t0) = true /\ rel (B2R (Bminus mode_NE t1 t0)) D u 0 /\ 0 < B2R (Bminus mode_NE t1 t0).
Proof.
  pose proof D_bounds as HB. destruct big_bounds as (_ & _ & _ & B127 & _). destruct (minus_value t1 t0 F1 F0) as [F V]; [fold D; rewrite Rabs_pos_eq by lra; lra|]. pose proof (diff_err t1 t0) as HE. rewrite <- V in HE. fold D in HE.
  assert (rel (B2R (Bminus mode_NE t1 t0)) D u 0) as Hr. { unfold rel. lra. } split; [exact F|]. split; [exact Hr|]. apply (rel_inv _ D); [lra|exact Hr].
Qed.
(** A component of the velocity. *)
Lemma velocity_component (s e : f32) : is_finite s = true -> is_finite e = true -> Rabs (B2R s) <= 2 ^ 40 -> Rabs (B2R e) <= 2 ^ 40 ->
  let v := Bdiv mode_NE (Bminus mode_NE e s) (Bminus mode_NE t1 t0) in is_finite v = true /\ rel (B2R v) ((B2R e - B2R s) / D) (4 * u) eta.
Proof.
  intros Fs Fe Hs He v. pose proof D_bounds as HB. destruct big_bounds as (E40 & _ & _ & B127 & _ & _ & He0 & _). rewrite E40 in Hs, He. destruct duration as (Fb & Rb & Pb). set (b := Bminus mode_NE t1 t0) in *.
  set (d := B2R e - B2R s). assert (Rabs d <= 2199023255552) as Hd. { unfold d, Rminus. eapply Rle_trans; [apply Rabs_triang|]. rewrite Rabs_Ropp. lra. }
  destruct (minus_value e s Fe Fs) as [Fa Va]; [fold d; lra|]. pose proof (diff_err e s) as Ea. rewrite <- Va in Ea. fold d in Ea. set (a := Bminus mode_NE e s) in *. assert (rel (B2R a) d u 0) as Ra by (unfold rel; lra).
  destruct (rel_inv _ D ltac:(lra) Rb) as [_ Ri]. assert (0 <= u * (1001 / 1000)) as Pu by lra. pose proof (rel_mult _ _ _ _ _ _ _ Pu Ra Ri) as Rq. fold (B2R a / B2R b) in Rq. fold (d / D) in Rq.
  assert (rel (B2R a / B2R b) (d / D) (u * (2002 / 1000)) 0) as Rq'. { eapply rel_weaken; [| |exact Rq]; [lra|]. rewrite !Rmult_0_l. lra. }
  assert (Rabs (d / D) <= 2199023255552 * 1125899906842624) as Hq. { unfold Rdiv. rewrite Rabs_mult. apply Rmult_le_compat; [apply Rabs_pos|apply Rabs_pos|exact Hd|]. rewrite Rabs_pos_eq by (left; apply Rinv_0_lt_compat; lra). replace 1125899906842624 with (/ / 1125899906842624) by (rewrite Rinv_inv; reflexivity). apply Rinv_le_contravar; lra. }
  destruct (div_value32 a b Fa) as [Fv Vv]; [unfold f32 in *; lra|pose proof (rel_size _ _ _ _ Rq'); lra|]. split; [exact Fv|]. unfold v. rewrite Vv. eapply rel_weaken; [| |apply rel_round; [| |exact Rq']]; lra.
Qed.
(** The step. *)
Lemma step_component : is_finite step = true /\ rel (B2R step) (D / INR n) (4 * u) 0 /\ 0 < D / INR n <= 1001 / 1000.
Proof.
  pose proof D_bounds as HB. destruct big_bounds as (_ & _ & _ & B127 & He76 & _ & He0 & _). destruct duration as (Fb & Rb & Pb). destruct intervals as (Hn0 & Hn & HDn). destruct (count_value n) as [Fn Vn]; [lra|].
  assert (0 < / INR n) as Hi by (apply Rinv_0_lt_compat; lra). assert (rel (B2R (Bminus mode_NE t1 t0) / INR n) (D / INR n) u 0) as Rq. { unfold Rdiv. rewrite !(Rmult_comm _ (/ INR n)). rewrite <- (Rmult_0_r (Rabs (/ INR n))). by apply rel_scale. }
  assert (0 < D / INR n <= 1001 / 1000) as Hq. { split; [apply Rdiv_lt_0_compat; lra|]. apply Rmult_le_reg_r with (INR n); [lra|]. unfold Rdiv. rewrite Rmult_assoc, Rinv_l, Rmult_1_r by lra. lra. }
  pose proof (rel_size _ _ _ _ Rq) as Sq. rewrite (Rabs_pos_eq (D / INR n)) in Sq by lra.
  unfold step, itgr_step32. destruct (div_value32 (Bminus mode_NE t1 t0) (of_size (N.of_nat n)) Fb) as [Fs Vs]; [unfold f32 in *; rewrite Vn; lra|unfold f32 in *; rewrite Vn; lra|]. unfold f32 in *. rewrite Vn in Vs. split; [exact Fs|]. rewrite Vs. split; [|exact Hq].
  assert (0 <= u) as Pu by lra. pose proof (rel_round _ _ _ _ Pu (Rle_refl 0) Rq) as Rs. unfold rel in *. eapply Rle_trans; [exact Rs|]. rewrite (Rabs_pos_eq (D / INR n)) by lra.
  assert (/ 2 ^ 76 <= D / INR n) as Hlow. { apply Rle_trans with (/ 1125899906842624 * / 16777216).
    - rewrite <- Rinv_mult. apply Rinv_le_contravar; [lra|]. apply Rle_trans with (2 ^ 75); [simpl pow; lra|apply Rle_pow; [lra|lia]].
    - unfold Rdiv. apply Rmult_le_compat; [lra|lra|lra|]. apply Rinv_le_contravar; lra. }
  assert (eta <= u * (D / INR n)) as He. { apply Rle_trans with (eta * 2 ^ 76 * / 2 ^ 76); [rewrite Rmult_assoc, Rinv_r by (apply Rgt_not_eq, pow_lt; lra); lra|]. apply Rmult_le_compat; [apply Rmult_le_pos; [lra|apply pow_le; lra]|left; apply Rinv_0_lt_compat, pow_lt; lra|exact He76|exact Hlow]. }
  lra.
Qed.
(** A component of the position of point [p]. *)
Lemma position_component (s e : f32) p : is_finite s = true -> is_finite e = true -> Rabs (B2R s) <= 2 ^ 40 -> Rabs (B2R e) <= 2 ^ 40 -> (p <= n)%nat ->
  within (Bplus mode_NE s (Bmult mode_NE (of_size (N.of_nat p)) (Bmult mode_NE (Bdiv mode_NE (Bminus mode_NE e s) (Bminus mode_NE t1 t0)) step)))
    (B2R s + INR p / INR n * (B2R e - B2R s)) (17 * (Rabs (B2R s) + Rabs (B2R e)) / 2 ^ 24 + / 2 ^ 120).
Proof.
  intros Fs Fe Hs He Hp. destruct (velocity_component s e Fs Fe Hs He) as [Fv Rv]. destruct step_component as (Fst & Rst & Hq). destruct intervals as (Hn0 & Hn & _). pose proof D_bounds as HB.
  destruct big_bounds as (E40 & E24 & _ & B127 & _ & Hem & He0 & _). rewrite E40 in Hs, He. rewrite E24. set (v := Bdiv mode_NE _ _) in *. set (d := B2R e - B2R s) in *.
  assert (0 < / 2 ^ 120) as P120 by (apply Rinv_0_lt_compat, pow_lt; lra). assert (/ 2 ^ 120 <= 1) as Q120. { rewrite <- Rinv_1. apply Rinv_le_contravar; [lra|]. apply Rle_trans with (2 ^ 0); [simpl; lra|apply Rle_pow; [lra|lia]]. }
  assert (Rabs d <= Rabs (B2R s) + Rabs (B2R e)) as Hd. { unfold d, Rminus. eapply Rle_trans; [apply Rabs_triang|]. rewrite Rabs_Ropp. lra. }
  assert (0 <= 4 * u) as Pu by lra. pose proof (rel_mult _ _ _ _ _ _ _ Pu Rv Rst) as Rm. replace (d / D * (D / INR n)) with (d / INR n) in Rm by (field; lra). rewrite (Rabs_pos_eq (D / INR n)) in Rm by lra.
  assert (rel (B2R v * B2R step) (d / INR n) (9 * u) (2 * eta)) as Rm'. { eapply rel_weaken; [| |exact Rm]; [lra|]. assert (eta * (1 + 4 * u) * (D / INR n) <= eta * (1 + 4 * u) * (1001 / 1000)) by (apply Rmult_le_compat_l; [apply Rmult_le_pos; lra|lra]). lra. }
  assert (Rabs (d / INR n) <= Rabs d) as Hdn. { unfold Rdiv. rewrite Rabs_mult, (Rabs_pos_eq (/ INR n)) by (left; apply Rinv_0_lt_compat; lra). rewrite <- (Rmult_1_r (Rabs d)) at 2. apply Rmult_le_compat_l; [apply Rabs_pos|]. rewrite <- Rinv_1. apply Rinv_le_contravar; lra. }
  destruct (mult_value32 v step Fv Fst) as [Fm Vm]; [pose proof (rel_size _ _ _ _ Rm'); lra|]. assert (rel (B2R (Bmult mode_NE v step)) (d / INR n) (11 * u) (4 * eta)) as R3. { rewrite Vm. eapply rel_weaken; [| |apply rel_round; [| |exact Rm']]; lra. } set (m := Bmult mode_NE v step) in *.
  pose proof (pos_INR p) as Pp. assert (INR p <= INR n) as Hpn by (by apply le_INR). destruct (count_value p) as [Fp Vp]; [lra|]. pose proof (rel_scale (INR p) _ _ _ _ R3) as R4. replace (INR p * (d / INR n)) with (INR p / INR n * d) in R4 by (field; lra). rewrite (Rabs_pos_eq (INR p)) in R4 by lra.
  set (X := INR p / INR n * d) in *. assert (0 <= INR p / INR n <= 1) as Hpq. { split; [apply Rmult_le_pos; [lra|left; apply Rinv_0_lt_compat; lra]|]. apply Rmult_le_reg_r with (INR n); [lra|]. unfold Rdiv. rewrite Rmult_assoc, Rinv_l, Rmult_1_r by lra. lra. }
  assert (Rabs X <= Rabs d) as HX. { unfold X. rewrite Rabs_mult, Rabs_pos_eq by lra. rewrite <- (Rmult_1_l (Rabs d)) at 2. apply Rmult_le_compat_r; [apply Rabs_pos|lra]. }
  assert (INR p * (4 * eta) <= / 2 * / 2 ^ 120) as Hpe. { assert (INR p * (4 * eta) <= 16777216 * (4 * eta)) by (apply Rmult_le_compat_r; lra). lra. }
  destruct (mult_value32 (of_size (N.of_nat p)) m Fp Fm) as [Fx Vx]; [unfold f32 in *; rewrite Vp; pose proof (rel_size _ _ _ _ R4); lra|]. unfold f32 in *. rewrite Vp in Vx.
  assert (0 <= INR p * (4 * eta)) as Hpe0 by (apply Rmult_le_pos; lra).
  assert (rel (B2R (Bmult mode_NE (of_size (N.of_nat p)) m)) X (13 * u) (6 / 10 * / 2 ^ 120)) as R5. { rewrite Vx. eapply rel_weaken; [| |apply rel_round; [| |exact R4]]; lra. } set (x := Bmult mode_NE (of_size (N.of_nat p)) m) in *.
  pose proof (rel_size _ _ _ _ R5) as Sx. assert (Rabs (B2R s + B2R x) <= Rabs (B2R s) + Rabs (B2R x)) as St by apply Rabs_triang. 
  destruct (plus_value s x Fs Fx) as [Fr Vr]; [lra|]. split; [exact Fr|]. pose proof (sum_err s x) as Es. rewrite <- Vr in Es. unfold rel in R5. 
  assert (Rabs (B2R s + X) <= Rabs (B2R s) + Rabs (B2R e)) as Hc. { unfold X, d. replace (B2R s + INR p / INR n * (B2R e - B2R s)) with ((1 - INR p / INR n) * B2R s + INR p / INR n * B2R e) by ring. eapply Rle_trans; [apply Rabs_triang|]. rewrite !Rabs_mult, (Rabs_pos_eq (1 - INR p / INR n)), (Rabs_pos_eq (INR p / INR n)) by lra. pose proof (Rabs_pos (B2R s)) as A1. pose proof (Rabs_pos (B2R e)) as A2. assert (0 <= INR p / INR n * Rabs (B2R s)) as A3 by (apply Rmult_le_pos; lra). assert (0 <= (1 - INR p / INR n) * Rabs (B2R e)) as A4 by (apply Rmult_le_pos; lra). lra. }
  assert (Rabs (B2R s + B2R x) <= Rabs (B2R s + X) + Rabs (B2R x - X)) as St2. { replace (B2R s + B2R x) with ((B2R s + X) + (B2R x - X)) by ring. apply Rabs_triang. }
  replace (B2R (Bplus mode_NE s x) - (B2R s + X)) with ((B2R (Bplus mode_NE s x) - (B2R s + B2R x)) + (B2R x - X)) by ring. eapply Rle_trans; [apply Rabs_triang|].
  pose proof (Rabs_pos (B2R s)). pose proof (Rabs_pos (B2R e)). lra.
Qed.
End component.

(** * Distances from the axis *)
Lemma sqrt_eta : sqrt (4 * eta) = / 2 ^ 74.
Proof.
  assert (0 < 2 ^ 74) as P by (apply pow_lt; lra). replace (4 * eta) with (/ 2 ^ 74 * / 2 ^ 74); [apply sqrt_square; left; by apply Rinv_0_lt_compat|]. unfold eta. replace (2 ^ 150) with (2 ^ 2 * (2 ^ 74 * 2 ^ 74)) by (rewrite <- !pow_add; f_equal). rewrite !Rinv_mult. replace (4 * (/ 2 ^ 2 * (/ 2 ^ 74 * / 2 ^ 74))) with ((4 * / 2 ^ 2) * (/ 2 ^ 74 * / 2 ^ 74)) by ring. replace (4 * / 2 ^ 2) with 1 by (simpl pow; lra). ring.
Qed.
Lemma sqrt_sum a b : 0 <= a -> 0 <= b -> sqrt (a + b) <= sqrt a + sqrt b.
Proof.
  intros Ha Hb. pose proof (sqrt_pos a) as Pa. pose proof (sqrt_pos b) as Pb. apply Rsqr_incr_0; [|apply sqrt_pos|lra]. rewrite Rsqr_sqrt by lra. unfold Rsqr. pose proof (sqrt_sqrt a Ha). pose proof (sqrt_sqrt b Hb). pose proof (Rmult_le_pos _ _ Pa Pb). lra.
Qed.
Lemma sqrt_rel S S' : 0 <= S -> 0 <= S' -> Rabs (S' - S) <= 3 * u * S + 4 * eta -> Rabs (sqrt S' - sqrt S) <= 3 * u * sqrt S + / 2 ^ 74.
Proof.
  intros H H' HE. apply Rabs_le_inv in HE. assert (0 < eta) as He0 by apply eta_small. rewrite <- sqrt_eta. pose proof (sqrt_pos S) as P. pose proof (sqrt_pos S') as P'. pose proof (sqrt_sqrt S H) as Q.
  assert (sqrt (S * ((1 + 3 * u) * (1 + 3 * u))) = sqrt S * (1 + 3 * u)) as E1. { rewrite sqrt_mult by lra. rewrite sqrt_square by lra. reflexivity. }
  assert (sqrt (S * ((1 - 3 * u) * (1 - 3 * u))) = sqrt S * (1 - 3 * u)) as E2. { rewrite sqrt_mult by lra. rewrite sqrt_square by lra. reflexivity. }
  apply Rabs_le. split.
  - assert (sqrt (S * ((1 - 3 * u) * (1 - 3 * u))) <= sqrt S' + sqrt (4 * eta)) as A. { eapply Rle_trans; [apply (sqrt_le_1_alt _ (S' + 4 * eta)); lra|]. apply sqrt_sum; lra. } lra.
  - assert (sqrt S' <= sqrt (S * ((1 + 3 * u) * (1 + 3 * u))) + sqrt (4 * eta)) as A. { eapply Rle_trans; [apply (sqrt_le_1_alt _ (S * ((1 + 3 * u) * (1 + 3 * u)) + 4 * eta)); lra|]. apply sqrt_sum; lra. } lra.
Qed.
Lemma radius_value (x y : f32) : is_finite x = true -> is_finite y = true -> Rabs (B2R x) <= 2 ^ 45 -> Rabs (B2R y) <= 2 ^ 45 ->
  let R := sqrt (B2R x * B2R x + B2R y * B2R y) in is_finite (radius32 x y) = true /\ 0 <= B2R (radius32 x y) /\ Rabs (B2R (radius32 x y) - R) <= 5 * u * R + / 2 ^ 73.
Proof.
  intros Fx Fy Hx Hy R. destruct big_bounds as (_ & _ & _ & B127 & _ & _ & He0 & _). assert (2 ^ 45 = 35184372088832) as E45 by (simpl pow; lra). rewrite E45 in Hx, Hy.
  assert (forall z : f32, Rabs (B2R z) <= 35184372088832 -> 0 <= B2R z * B2R z <= 35184372088832 * 35184372088832) as Hsq. { intros z Hz. rewrite <- (Rabs_pos_eq (B2R z * B2R z)) by apply Rle_0_sqr. rewrite Rabs_mult. pose proof (Rabs_pos (B2R z)). split; [apply Rmult_le_pos; lra|apply Rmult_le_compat; lra]. }
  pose proof (Hsq x Hx) as Sx. pose proof (Hsq y Hy) as Sy.
  destruct (mult_value32 x x Fx Fx) as [Fa Va]; [rewrite Rabs_pos_eq by lra; lra|]. destruct (mult_value32 y y Fy Fy) as [Fb Vb]; [rewrite Rabs_pos_eq by lra; lra|].
  unfold radius32. set (a := Bmult mode_NE x x) in *. set (b := Bmult mode_NE y y) in *. pose proof (rnd_err (B2R x * B2R x)) as Ea. pose proof (rnd_err (B2R y * B2R y)) as Eb. rewrite <- Va in Ea. rewrite <- Vb in Eb. rewrite (Rabs_pos_eq (B2R x * B2R x)) in Ea by lra.
  rewrite (Rabs_pos_eq (B2R y * B2R y)) in Eb by lra.
  assert (0 <= B2R a) as Pa by (rewrite Va; apply rnd_pos; lra). assert (0 <= B2R b) as Pb by (rewrite Vb; apply rnd_pos; lra). clear Va Vb. set (xx := B2R x * B2R x) in *. set (yy := B2R y * B2R y) in *.
  apply Rabs_le_inv in Ea, Eb. assert (eta <= 1) as He1. { pose proof eta_small. lra. }
  destruct (plus_value a b Fa Fb) as [Fs Vs]; [rewrite Rabs_pos_eq by lra; lra|]. pose proof (sum_err a b) as Es. rewrite <- Vs in Es. rewrite (Rabs_pos_eq (B2R a + B2R b)) in Es by lra. apply Rabs_le_inv in Es. assert (0 <= B2R (Bplus mode_NE a b)) as Ps by (rewrite Vs; apply rnd_pos; lra). clear Vs. set (s := Bplus mode_NE a b) in *.
  pose proof (Bsqrt_correct 24 128 _ _ mode_NE s) as (V & F & _). change (round_mode mode_NE) with ZnearestE in V. change (SpecFloat.fexp 24 128) with fexp32 in V.
  split. { rewrite F. destruct s as [?|?| |[|] ? ? ?]; try done. exfalso. assert (B2R (B754_finite true m e e0) < 0) as Hneg; [|lra]. simpl. unfold F2R. simpl. apply Ropp_lt_cancel. rewrite Ropp_0, Ropp_mult_distr_l. apply Rmult_lt_0_compat; [|apply bpow_gt_0]. rewrite <- opp_IZR. apply (IZR_lt 0). lia. }
  unfold f32 in *. rewrite V. pose proof (sqrt_pos (B2R s)) as Pq. split; [by apply rnd_pos|]. assert (0 <= R) as PR by apply sqrt_pos.
  assert (Rabs (sqrt (B2R s) - R) <= 3 * u * R + / 2 ^ 74) as HQ. { apply sqrt_rel; [lra|lra|]. apply Rabs_le. lra. }
  pose proof (rnd_err (sqrt (B2R s))) as Er. rewrite (Rabs_pos_eq (sqrt (B2R s))) in Er by lra. apply Rabs_le_inv in Er, HQ.
  assert (0 < / 2 ^ 74) as P74 by (apply Rinv_0_lt_compat, pow_lt; lra). assert (/ 2 ^ 73 = 2 * / 2 ^ 74) as ->. { change (2 ^ 74) with (2 * 2 ^ 73). rewrite Rinv_mult. assert (0 < 2 ^ 73) by (apply pow_lt; lra). field. }
  assert (eta <= / 2 * / 2 ^ 74) as He. { unfold eta. replace (2 ^ 150) with (2 ^ 76 * 2 ^ 74) by (rewrite <- pow_add; f_equal). rewrite Rinv_mult. apply Rmult_le_compat_r; [lra|]. apply Rinv_le_contravar; [lra|]. change (2 ^ 76) with (2 * 2 ^ 75). assert (1 <= 2 ^ 75); [|lra]. apply Rle_trans with (2 ^ 0); [simpl; lra|apply Rle_pow; [lra|lia]]. }
  clearbody R. apply Rabs_le. lra.
Qed.
Lemma radius_zero (x y : f32) : is_finite x = true -> is_finite y = true -> B2R x = 0 -> B2R y = 0 -> B2R (radius32 x y) = 0.
Proof.
  intros Fx Fy X0 Y0. assert (rnd32 0 = 0) as R0 by (apply round_0; typeclasses eauto). assert (0 <= bpow radix2 127) as P by apply bpow_ge_0.
  destruct (mult_value32 x x Fx Fx) as [Fa Va]; [rewrite X0, Rmult_0_r, Rabs_R0; exact P|]. destruct (mult_value32 y y Fy Fy) as [Fb Vb]; [rewrite Y0, Rmult_0_r, Rabs_R0; exact P|]. rewrite X0, Rmult_0_r, R0 in Va. rewrite Y0, Rmult_0_r, R0 in Vb.
  destruct (plus_value _ _ Fa Fb) as [Fs Vs]; [unfold f32 in *; rewrite Va, Vb, Rplus_0_r, Rabs_R0; exact P|]. unfold f32 in *. rewrite Va, Vb, Rplus_0_r, R0 in Vs. unfold radius32.
  pose proof (Bsqrt_correct 24 128 _ _ mode_NE (Bplus mode_NE (Bmult mode_NE x x) (Bmult mode_NE y y))) as (V & _). unfold f32 in *. rewrite V, Vs, sqrt_0. apply round_0. typeclasses eauto.
Qed.
Lemma distance_change x y X Y : Rabs (sqrt (x * x + y * y) - sqrt (X * X + Y * Y)) <= Rabs (x - X) + Rabs (y - Y).
Proof.
  assert (forall x y X Y, sqrt (x * x + y * y) <= sqrt (X * X + Y * Y) + (Rabs (x - X) + Rabs (y - Y))) as H.
  { clear. intros x y X Y. set (Q := sqrt (X * X + Y * Y)). assert (0 <= X * X + Y * Y) as P by (pose proof (Rle_0_sqr X); pose proof (Rle_0_sqr Y); unfold Rsqr in *; lra). assert (0 <= Q) as PQ by apply sqrt_pos. pose proof (sqrt_sqrt _ P) as EQ. fold Q in EQ.
    set (a := Rabs (x - X)). set (b := Rabs (y - Y)). assert (0 <= a) as Pa by apply Rabs_pos. assert (0 <= b) as Pb by apply Rabs_pos.
    assert (Rabs X <= Q /\ Rabs Y <= Q) as [HX HY]. { split; (apply Rsqr_incr_0; [|apply Rabs_pos|exact PQ]); rewrite <- Rsqr_abs; unfold Rsqr; rewrite EQ; pose proof (Rle_0_sqr X); pose proof (Rle_0_sqr Y); unfold Rsqr in *; lra. }
    apply Rsqr_incr_0; [|apply sqrt_pos|lra]. rewrite Rsqr_sqrt by (pose proof (Rle_0_sqr x); pose proof (Rle_0_sqr y); unfold Rsqr in *; lra). unfold Rsqr.
    assert (x * x <= X * X + 2 * Q * a + a * a) as H1. { replace (x * x) with (X * X + 2 * X * (x - X) + (x - X) * (x - X)) by ring. assert ((x - X) * (x - X) = a * a) as -> by (unfold a; rewrite <- Rabs_mult, Rabs_pos_eq; [reflexivity|apply Rle_0_sqr]). assert (X * (x - X) <= Q * a); [|lra]. eapply Rle_trans; [apply Rle_abs|]. rewrite Rabs_mult. apply Rmult_le_compat_r; assumption. }
    assert (y * y <= Y * Y + 2 * Q * b + b * b) as H2. { replace (y * y) with (Y * Y + 2 * Y * (y - Y) + (y - Y) * (y - Y)) by ring. assert ((y - Y) * (y - Y) = b * b) as -> by (unfold b; rewrite <- Rabs_mult, Rabs_pos_eq; [reflexivity|apply Rle_0_sqr]). assert (Y * (y - Y) <= Q * b); [|lra]. eapply Rle_trans; [apply Rle_abs|]. rewrite Rabs_mult. apply Rmult_le_compat_r; assumption. }
    pose proof (Rmult_le_pos _ _ Pa Pb). lra. }
  pose proof (H x y X Y) as H1. pose proof (H X Y x y) as H2. rewrite (Rabs_minus_sym X x), (Rabs_minus_sym Y y) in H2. apply Rabs_le. lra.
Qed.
Lemma distance_bound x y : sqrt (x * x + y * y) <= Rabs x + Rabs y.
Proof. pose proof (distance_change x y 0 0) as H. rewrite Rmult_0_l, Rplus_0_l, sqrt_0, !Rminus_0_r in H. apply Rabs_le_inv in H. lra. Qed.

(** * The track *)
(** A coordinate of point [p] of a track with [n] intervals, from [s] to [e]. *)
Definition on_track (s e : f32) (n p : nat) : R := B2R s + INR p / INR n * (B2R e - B2R s).
(** The track: its coordinates are at most 2^40, it lasts between 2^-50 and 2^24 and has [n] intervals. *)
Record usual_track (seg : segment32) (n : nat) : Prop := {
  ut_coordinates : let '(a, b, c) := s32_start seg in let '(d, e, f) := s32_end seg in Forall (fun x : f32 => is_finite x = true /\ Rabs (B2R x) <= 2 ^ 40) [a; b; c; d; e; f];
  ut_times : is_finite (s32_t0 seg) = true /\ is_finite (s32_t1 seg) = true;
  ut_duration : / 2 ^ 50 <= B2R (s32_t1 seg) - B2R (s32_t0 seg) <= 2 ^ 24;
  ut_intervals : num_intervals32 (s32_t0 seg) (s32_t1 seg) = Some (N.of_nat n)
}.

(** The cylindrical coordinates of a point are those of the exact point of the track, up to the error. *)
Theorem C76_place seg n p : usual_track seg n -> (p <= n)%nat ->
  let '(ax, ay, az) := s32_start seg in let '(bx, by_, bz) := s32_end seg in
  let '(r, z) := coord_cyl32 (position32 seg (itgr_step32 (s32_t0 seg) (s32_t1 seg) (N.of_nat n)) p) in
  let X := on_track ax bx n p in let Y := on_track ay by_ n p in
  within r (sqrt (X * X + Y * Y)) (24 * (Rabs (B2R ax) + Rabs (B2R bx) + Rabs (B2R ay) + Rabs (B2R by_)) / 2 ^ 24 + / 2 ^ 70) /\
  within z (on_track az bz n p) (17 * (Rabs (B2R az) + Rabs (B2R bz)) / 2 ^ 24 + / 2 ^ 120).
Proof.
  intros [HC [F0 F1] HD HI] Hp. unfold position32, velocity32, coord_cyl32, vzip32, vmap32. destruct (s32_start seg) as [[ax ay] az]. destruct (s32_end seg) as [[bx by_] bz].
  repeat match goal with HF : Forall _ _ |- _ => inversion_clear HF end. repeat match goal with HF : is_finite _ = true /\ _ |- _ => destruct HF end.
  pose proof (fun s e Fs Fe Hs He => position_component (s32_t0 seg) (s32_t1 seg) n F0 F1 HD HI s e p Fs Fe Hs He Hp) as PC. cbv beta in PC.
  destruct (PC ax bx) as [Fx Ex]; [assumption..|]. destruct (PC ay by_) as [Fy Ey]; [assumption..|]. split; [|apply PC; assumption]. fold (on_track ax bx n p) in Ex. fold (on_track ay by_ n p) in Ey.
  set (x := Bplus mode_NE ax _) in *. set (y := Bplus mode_NE ay _) in *. set (X := on_track ax bx n p) in *. set (Y := on_track ay by_ n p) in *.
  destruct (intervals (s32_t0 seg) (s32_t1 seg) n F0 F1 HD HI) as (Hn0 & Hn & _). destruct big_bounds as (E40 & E24 & _). rewrite E24 in *. rewrite E40 in *.
  assert (forall s e : f32, Rabs (on_track s e n p) <= Rabs (B2R s) + Rabs (B2R e)) as HT.
  { intros s e. unfold on_track. pose proof (pos_INR p) as Pp. assert (INR p <= INR n) as Hpn by (by apply le_INR). assert (0 <= INR p / INR n <= 1) as Hpq. { split; [apply Rmult_le_pos; [lra|left; apply Rinv_0_lt_compat; lra]|]. apply Rmult_le_reg_r with (INR n); [lra|]. unfold Rdiv. rewrite Rmult_assoc, Rinv_l, Rmult_1_r by lra. lra. }
    replace (B2R s + INR p / INR n * (B2R e - B2R s)) with ((1 - INR p / INR n) * B2R s + INR p / INR n * B2R e) by ring. eapply Rle_trans; [apply Rabs_triang|]. rewrite !Rabs_mult, (Rabs_pos_eq (1 - INR p / INR n)), (Rabs_pos_eq (INR p / INR n)) by lra. pose proof (Rabs_pos (B2R s)) as A1. pose proof (Rabs_pos (B2R e)) as A2. assert (0 <= INR p / INR n * Rabs (B2R s)) as A3 by (apply Rmult_le_pos; lra). assert (0 <= (1 - INR p / INR n) * Rabs (B2R e)) as A4 by (apply Rmult_le_pos; lra). lra. }
  pose proof (HT ax bx) as TX. pose proof (HT ay by_) as TY. fold X in TX. fold Y in TY. clearbody X Y.
  assert (0 < / 2 ^ 120) as P120 by (apply Rinv_0_lt_compat, pow_lt; lra). assert (/ 2 ^ 120 <= / 16 * / 2 ^ 70) as Q120. { rewrite <- Rinv_mult. apply Rinv_le_contravar; [apply Rmult_lt_0_compat; [lra|apply pow_lt; lra]|]. change 120%nat with (50 + 70)%nat. rewrite pow_add. apply Rmult_le_compat_r; [apply pow_le; lra|simpl pow; lra]. }
  assert (/ 2 ^ 70 <= 1) as Q70. { rewrite <- Rinv_1. apply Rinv_le_contravar; [lra|]. apply Rle_trans with (2 ^ 0); [simpl; lra|apply Rle_pow; [lra|lia]]. }
  assert (/ 2 ^ 73 = / 8 * / 2 ^ 70) as E73. { rewrite <- Rinv_mult. f_equal. change 73%nat with (3 + 70)%nat. rewrite pow_add. simpl (2 ^ 3). ring. } set (i70 := / 2 ^ 70) in *. set (i120 := / 2 ^ 120) in *. clearbody i120.
  assert (forall a A, Rabs a <= Rabs A + Rabs (a - A)) as Htri. { intros a A. replace a with (A + (a - A)) at 1 by ring. apply Rabs_triang. }
  pose proof (Htri (B2R x) X) as Sx. pose proof (Htri (B2R y) Y) as Sy. assert (2 ^ 45 = 35184372088832) as E45 by (simpl pow; lra).
  destruct (radius_value x y Fx Fy) as (Fr & _ & Er); [rewrite E45; lra|rewrite E45; lra|]. split; [exact Fr|]. pose proof (distance_change (B2R x) (B2R y) X Y) as DC. pose proof (distance_bound (B2R x) (B2R y)) as DB. rewrite E73 in Er.
  set (R := sqrt (B2R x * B2R x + B2R y * B2R y)) in *. set (R' := sqrt (X * X + Y * Y)) in *.
  replace (B2R (radius32 x y) - R') with ((B2R (radius32 x y) - R) + (R - R')) by ring. eapply Rle_trans; [apply Rabs_triang|]. clearbody R R' i70.
  pose proof (Rabs_pos (B2R ax)). pose proof (Rabs_pos (B2R bx)). pose proof (Rabs_pos (B2R ay)). pose proof (Rabs_pos (B2R by_)). lra.
Qed.

(** The weight of a point: minus the weight of the trapezoidal rule times the step times the weight of the track. *)
Definition trapezoid_weight (n p : nat) : R := if ((p =? 0) || (p =? n))%nat then 1 / 2 else 1.
Theorem C76_weight seg n p (w : f32) : usual_track seg n -> is_finite w = true -> Rabs (B2R w) <= 2 ^ 60 ->
  let exact := - (trapezoid_weight n p * ((B2R (s32_t1 seg) - B2R (s32_t0 seg)) / INR n) * B2R w) in
  within (point_weight32 (trapezoid32 n p) (itgr_step32 (s32_t0 seg) (s32_t1 seg) (N.of_nat n)) w) exact (8 * Rabs exact / 2 ^ 24 + / 2 ^ 80).
Proof.
  intros [_ [F0 F1] HD HI] Fw Hw exact. destruct (step_component (s32_t0 seg) (s32_t1 seg) n F0 F1 HD HI) as (Fs & Rs & Hq). destruct big_bounds as (_ & E24 & _ & B127 & _ & _ & He0 & He1). rewrite E24.
  set (q := (B2R (s32_t1 seg) - B2R (s32_t0 seg)) / INR n) in *. set (step := itgr_step32 _ _ _) in *. assert (2 ^ 60 = 1152921504606846976) as E60 by (simpl pow; lra). rewrite E60 in Hw. set (ww := B2R w) in *.
  assert (has_value (trapezoid32 n p) (trapezoid_weight n p) /\ 0 <= trapezoid_weight n p <= 1) as [[Ft Vt] Ht]. { unfold trapezoid32, trapezoid_weight. destruct (_ || _); split; try apply half_value; try apply one_value; lra. } set (t := trapezoid_weight n p) in *.
  pose proof (rel_scale t _ _ _ _ Rs) as R1. rewrite Rmult_0_r in R1. assert (0 <= t * q <= 1001 / 1000) as Htq. { split; [apply Rmult_le_pos; lra|]. apply Rle_trans with (1 * (1001 / 1000)); [apply Rmult_le_compat; lra|lra]. }
  unfold point_weight32. destruct (mult_value32 (trapezoid32 n p) step Ft Fs) as [Fa Va]; [rewrite Vt; pose proof (rel_size _ _ _ _ R1) as S1; rewrite (Rabs_pos_eq (t * q)) in S1 by lra; lra|]. rewrite Vt in Va. set (a := Bmult mode_NE (trapezoid32 n p) step) in *.
  assert (rel (B2R a) (t * q) (6 * u) eta) as R2. { rewrite Va. eapply rel_weaken; [| |apply rel_round; [| |exact R1]]; lra. }
  pose proof (rel_scale ww _ _ _ _ R2) as R3. rewrite !(Rmult_comm ww) in R3.
  assert (Rabs (t * q * ww) <= 1001 / 1000 * 1152921504606846976) as Hx. { rewrite Rabs_mult. apply Rmult_le_compat; [apply Rabs_pos|apply Rabs_pos|rewrite Rabs_pos_eq by lra; lra|exact Hw]. }
  assert (Rabs ww * eta <= 1152921504606846976 * eta) as Hwe by (apply Rmult_le_compat_r; lra). assert (0 <= Rabs ww * eta) as Hwe0 by (apply Rmult_le_pos; [apply Rabs_pos|lra]).
  assert (4 * 1152921504606846976 * eta <= / 2 ^ 80) as He. { unfold eta. replace (4 * 1152921504606846976) with (2 ^ 62) by (simpl pow; lra). assert (0 < 2 ^ 62) as P62 by (apply pow_lt; lra). assert (0 < 2 ^ 88) as P88 by (apply pow_lt; lra). replace (2 ^ 150) with (2 ^ 62 * 2 ^ 88) by (rewrite <- pow_add; f_equal). rewrite Rinv_mult, <- Rmult_assoc, Rinv_r, Rmult_1_l by lra. apply Rinv_le_contravar; [apply pow_lt; lra|apply Rle_pow; [lra|lia]]. }
  assert (/ 2 ^ 80 <= 1) as Q80. { rewrite <- Rinv_1. apply Rinv_le_contravar; [lra|]. apply Rle_trans with (2 ^ 0); [simpl; lra|apply Rle_pow; [lra|lia]]. }
  destruct (mult_value32 a w Fa Fw) as [Fb Vb]; [fold ww; pose proof (rel_size _ _ _ _ R3); lra|]. fold ww in Vb. set (b := Bmult mode_NE a w) in *.
  assert (rel (B2R b) (t * q * ww) (8 * u) (/ 2 ^ 80)) as R4. { rewrite Vb. eapply rel_weaken; [| |apply rel_round; [| |exact R3]]; lra. }
  destruct (times_minus_one b Fb) as [Fc Vc]. change minus_one with (lit (-1) 0) in Fc, Vc.
  destruct (to_float_round _ Fc) as [Fd Vd]. { rewrite Vc, round_NE_opp, Rabs_Ropp. rewrite rnd32_float. eapply Rle_lt_trans; [apply (rel_size _ _ _ _ R4)|]. apply Rle_lt_trans with (bpow radix2 127); [lra|apply bpow_lt; lia]. }
  split; [exact Fd|]. unfold f32 in *. rewrite Vd, Vc, round_NE_opp, rnd32_float. unfold exact. rewrite Rabs_Ropp. unfold rel in R4. replace (- B2R b - - (t * q * ww)) with (- (B2R b - t * q * ww)) by ring. rewrite Rabs_Ropp. lra.
Qed.

(** The current: the charge times the velocity. *)
Theorem C76_current seg n : usual_track seg n -> is_finite (s32_charge seg) = true -> Rabs (B2R (s32_charge seg)) <= 2 ^ 30 ->
  let '(ax, ay, az) := s32_start seg in let '(bx, by_, bz) := s32_end seg in let '(jx, jy, jz) := source32 seg in
  let exact (a b : f32) := (B2R b - B2R a) / (B2R (s32_t1 seg) - B2R (s32_t0 seg)) * B2R (s32_charge seg) in
  within jx (exact ax bx) (6 * Rabs (exact ax bx) / 2 ^ 24 + / 2 ^ 110) /\ within jy (exact ay by_) (6 * Rabs (exact ay by_) / 2 ^ 24 + / 2 ^ 110) /\ within jz (exact az bz) (6 * Rabs (exact az bz) / 2 ^ 24 + / 2 ^ 110).
Proof.
  intros [HC [F0 F1] HD HI] Fq Hq. unfold source32, velocity32, vzip32, vmap32. destruct (s32_start seg) as [[ax ay] az]. destruct (s32_end seg) as [[bx by_] bz]. cbv zeta.
  repeat match goal with HF : Forall _ _ |- _ => inversion_clear HF end. repeat match goal with HF : is_finite _ = true /\ _ |- _ => destruct HF end.
  assert (forall a b : f32, is_finite a = true -> is_finite b = true -> Rabs (B2R a) <= 2 ^ 40 -> Rabs (B2R b) <= 2 ^ 40 ->
    let x := (B2R b - B2R a) / (B2R (s32_t1 seg) - B2R (s32_t0 seg)) * B2R (s32_charge seg) in
    within (Bmult mode_NE (Bdiv mode_NE (Bminus mode_NE b a) (Bminus mode_NE (s32_t1 seg) (s32_t0 seg))) (s32_charge seg)) x (6 * Rabs x / 2 ^ 24 + / 2 ^ 110)) as HX; [|split_and!; apply HX; assumption].
  clear - F0 F1 HD HI Fq Hq. intros a b Fa Fb Ha Hb x. destruct (velocity_component (s32_t0 seg) (s32_t1 seg) F0 F1 HD a b Fa Fb Ha Hb) as [Fv Rv]. set (v := Bdiv mode_NE _ _) in *. set (q := B2R (s32_charge seg)) in *.
  pose proof (D_bounds (s32_t0 seg) (s32_t1 seg) HD) as HB. destruct big_bounds as (E40 & E24 & _ & _ & _ & _ & He0 & He1). rewrite E40 in *. rewrite E24. assert (2 ^ 30 = 1073741824) as E30 by (simpl pow; lra). rewrite E30 in Hq. set (D := B2R (s32_t1 seg) - B2R (s32_t0 seg)) in *.
  assert (IZR (2 ^ 126) <= bpow radix2 127) as B127 by (change (IZR (2 ^ 126)) with (bpow radix2 126); apply bpow_le; lia).
  pose proof (rel_scale q _ _ _ _ Rv) as R1. rewrite !(Rmult_comm q) in R1. fold x in R1.
  assert (Rabs x <= 2199023255552 * 1125899906842624 * 1073741824) as Hx. { unfold x. rewrite Rabs_mult. apply Rmult_le_compat; [apply Rabs_pos|apply Rabs_pos| |exact Hq]. unfold Rdiv. rewrite Rabs_mult. apply Rmult_le_compat; [apply Rabs_pos|apply Rabs_pos| |].
    - unfold Rminus. eapply Rle_trans; [apply Rabs_triang|]. rewrite Rabs_Ropp. lra.
    - rewrite Rabs_pos_eq by (left; apply Rinv_0_lt_compat; lra). replace 1125899906842624 with (/ / 1125899906842624) by (rewrite Rinv_inv; reflexivity). apply Rinv_le_contravar; lra. }
  assert (Rabs q * eta <= 1073741824 * eta) as Hqe by (apply Rmult_le_compat_r; lra). assert (0 <= Rabs q * eta) as Hqe0 by (apply Rmult_le_pos; [apply Rabs_pos|lra]).
  assert (4 * 1073741824 * eta <= / 2 ^ 110) as He. { unfold eta. replace (4 * 1073741824) with (2 ^ 32) by (simpl pow; lra). assert (0 < 2 ^ 32) as P62 by (apply pow_lt; lra). assert (0 < 2 ^ 118) as P88 by (apply pow_lt; lra). replace (2 ^ 150) with (2 ^ 32 * 2 ^ 118) by (rewrite <- pow_add; f_equal). rewrite Rinv_mult, <- Rmult_assoc, Rinv_r, Rmult_1_l by lra. apply Rinv_le_contravar; [apply pow_lt; lra|apply Rle_pow; [lra|lia]]. }
  assert (/ 2 ^ 110 <= 1) as Q110. { rewrite <- Rinv_1. apply Rinv_le_contravar; [lra|]. apply Rle_trans with (2 ^ 0); [simpl; lra|apply Rle_pow; [lra|lia]]. }
  destruct (mult_value32 v (s32_charge seg) Fv Fq) as [Fb' Vb]; [fold q; pose proof (rel_size _ _ _ _ R1); lra|]. fold q in Vb. split; [exact Fb'|]. rewrite Vb.
  assert (rel (rnd32 (B2R v * q)) x (6 * u) (/ 2 ^ 110)) as R4. { eapply rel_weaken; [| |apply rel_round; [| |exact R1]]; lra. } unfold rel in R4. lra.
Qed.

(** The radial component of a vector [f] at the position [p]. *)
Theorem C76_radial (f p : f32 * f32 * f32) : let '(fx, fy, fz) := f in let '(x, y, z) := p in
  is_finite fx = true -> is_finite fy = true -> Rabs (B2R fx) <= 2 ^ 122 -> Rabs (B2R fy) <= 2 ^ 122 -> is_finite x = true -> is_finite y = true -> Rabs (B2R x) <= 2 ^ 45 -> Rabs (B2R y) <= 2 ^ 45 ->
  let R := sqrt (B2R x * B2R x + B2R y * B2R y) in
  (field_cyl32 f p).2 = fz /\ (/ 2 ^ 40 <= R -> within (field_cyl32 f p).1 ((B2R fx * B2R x + B2R fy * B2R y) / R) (10 * (Rabs (B2R fx) + Rabs (B2R fy)) / 2 ^ 24 + / 2 ^ 140)) /\
  (B2R x = 0 -> B2R y = 0 -> has_value (field_cyl32 f p).1 0).
Proof.
  destruct f as [[fx fy] fz]. destruct p as [[x y] z]. intros Ffx Ffy Hfx Hfy Fx Fy Hx Hy R. unfold field_cyl32. destruct (radius_value x y Fx Fy Hx Hy) as (Fr & Pr & Er). fold R in Er. set (r := radius32 x y) in *.
  destruct big_bounds as (_ & E24 & _ & _ & _ & _ & He0 & He1). rewrite E24. split; [by destruct (Bltb zero32 r)|]. split.
  - intros HR. assert (0 < / 2 ^ 40) as P40 by (apply Rinv_0_lt_compat, pow_lt; lra).
    assert (/ 2 ^ 73 <= u * R) as H73. { apply Rle_trans with (u * / 2 ^ 40); [|apply Rmult_le_compat_l; lra]. rewrite <- Rinv_mult. apply Rinv_le_contravar; [apply Rmult_lt_0_compat; [lra|apply pow_lt; lra]|]. change 73%nat with (33 + 40)%nat. rewrite pow_add. apply Rmult_le_compat_r; [apply pow_le; lra|simpl pow; lra]. }
    apply Rabs_le_inv in Er. assert (0 < B2R r) as Hr by lra. assert (Bltb zero32 r = true) as ->. { unfold f32 in *. rewrite Bltb_correct by (reflexivity || assumption). by apply Rlt_bool_true. }
    cbn [fst]. assert (0 < / R) as HiR by (apply Rinv_0_lt_compat; lra).
    assert (forall a : f32, Rabs (B2R a) <= R -> is_finite a = true -> is_finite (Bdiv mode_NE a r) = true /\ Rabs (B2R a / R) <= 1 /\ Rabs (B2R (Bdiv mode_NE a r) - B2R a / R) <= 71 / 10 * u) as HD.
    { intros a Ha Fa. assert (Rabs (B2R a / R) <= 1) as A1. { unfold Rdiv. rewrite Rabs_mult, (Rabs_pos_eq (/ R)) by lra. apply Rmult_le_reg_r with R; [lra|]. rewrite Rmult_assoc, Rinv_l, Rmult_1_r by lra. lra. }
      assert (Rabs (B2R a / B2R r - B2R a / R) <= 601 / 100 * u) as A2. { replace (B2R a / B2R r - B2R a / R) with (B2R a / R * ((R - B2R r) / B2R r)) by (field; lra). rewrite Rabs_mult. rewrite <- (Rmult_1_l (601 / 100 * u)). apply Rmult_le_compat; [apply Rabs_pos|apply Rabs_pos|exact A1|]. unfold Rdiv. rewrite Rabs_mult, (Rabs_pos_eq (/ B2R r)) by (left; by apply Rinv_0_lt_compat). apply Rmult_le_reg_r with (B2R r); [exact Hr|]. rewrite Rmult_assoc, Rinv_l, Rmult_1_r by lra. apply Rabs_le. lra. }
      assert (Rabs (B2R a / B2R r) <= 1 + 601 / 100 * u) as A3. { replace (B2R a / B2R r) with (B2R a / R + (B2R a / B2R r - B2R a / R)) by ring. eapply Rle_trans; [apply Rabs_triang|]. lra. }
      destruct (div_value32 a r Fa) as [Fd Vd]; [lra|apply Rle_trans with 2; [lra|]; change 2 with (bpow radix2 1); apply bpow_le; lia|]. split; [exact Fd|]. split; [exact A1|]. unfold f32 in *. rewrite Vd. pose proof (rnd_err (B2R a / B2R r)) as A4. replace (rnd32 (B2R a / B2R r) - B2R a / R) with ((rnd32 (B2R a / B2R r) - B2R a / B2R r) + (B2R a / B2R r - B2R a / R)) by ring. eapply Rle_trans; [apply Rabs_triang|]. pose proof eta_small. lra. }
    assert (Rabs (B2R x) <= R /\ Rabs (B2R y) <= R) as [Rx Ry]. { pose proof (Rle_0_sqr (B2R x)) as A1. pose proof (Rle_0_sqr (B2R y)) as A2. split; (apply Rsqr_incr_0; [|apply Rabs_pos|lra]); rewrite <- Rsqr_abs; unfold R; rewrite Rsqr_sqrt by (unfold Rsqr in *; lra); unfold Rsqr in *; lra. }
    destruct (HD x Rx Fx) as (Fc & Bc & Ec). destruct (HD y Ry Fy) as (Fs & Bs & Es). set (c := Bdiv mode_NE x r) in *. set (s := Bdiv mode_NE y r) in *.
    assert (8 * 2 ^ 122 <= bpow radix2 127) as B127. { rewrite (pow_IZR 2 122). change (bpow radix2 127) with (IZR (2 ^ 127)). change (2 ^ Z.of_nat 122)%Z with (2 ^ 122)%Z. rewrite <- mult_IZR. apply IZR_le. lia. } assert (1 <= 2 ^ 122) as P122. { apply Rle_trans with (2 ^ 0); [simpl; lra|apply Rle_pow; [lra|lia]]. }
    assert (forall (f c : f32) C, is_finite f = true -> is_finite c = true -> Rabs (B2R f) <= 2 ^ 122 -> Rabs C <= 1 -> Rabs (B2R c - C) <= 71 / 10 * u -> is_finite (Bmult mode_NE f c) = true /\ Rabs (B2R (Bmult mode_NE f c) - B2R f * C) <= 82 / 10 * u * Rabs (B2R f) + eta) as HM.
    { clear - P122 B127. intros f c C Ff Fc Hf HC Hc. pose proof (Rabs_pos (B2R f)) as Pf. assert (Rabs (B2R f * B2R c - B2R f * C) <= Rabs (B2R f) * (71 / 10 * u)) as A1. { rewrite <- Rmult_minus_distr_l, Rabs_mult. apply Rmult_le_compat_l; lra. }
      assert (Rabs (B2R f * B2R c) <= Rabs (B2R f) * (1 + 71 / 10 * u)) as A2. { rewrite Rabs_mult. apply Rmult_le_compat_l; [lra|]. replace (B2R c) with (C + (B2R c - C)) by ring. eapply Rle_trans; [apply Rabs_triang|]. lra. }
      destruct (mult_value32 f c Ff Fc) as [Fm Vm]; [lra|]. split; [exact Fm|]. rewrite Vm. pose proof (rnd_err (B2R f * B2R c)) as A3. replace (rnd32 (B2R f * B2R c) - B2R f * C) with ((rnd32 (B2R f * B2R c) - B2R f * B2R c) + (B2R f * B2R c - B2R f * C)) by ring. eapply Rle_trans; [apply Rabs_triang|]. lra. }
    destruct (HM fx c _ Ffx Fc Hfx Bc Ec) as [Fa Ea]. destruct (HM fy s _ Ffy Fs Hfy Bs Es) as [Fb Eb]. set (a := Bmult mode_NE fx c) in *. set (b := Bmult mode_NE fy s) in *.
    assert (Rabs (B2R fx * (B2R x / R)) <= Rabs (B2R fx)) as Ca. { rewrite Rabs_mult. apply Rle_trans with (Rabs (B2R fx) * 1); [|lra]. apply Rmult_le_compat_l; [apply Rabs_pos|exact Bc]. } assert (Rabs (B2R fy * (B2R y / R)) <= Rabs (B2R fy)) as Cb. { rewrite Rabs_mult. apply Rle_trans with (Rabs (B2R fy) * 1); [|lra]. apply Rmult_le_compat_l; [apply Rabs_pos|exact Bs]. }
    replace ((B2R fx * B2R x + B2R fy * B2R y) / R) with (B2R fx * (B2R x / R) + B2R fy * (B2R y / R)) by (field; lra). set (A := B2R fx * (B2R x / R)) in *. set (B := B2R fy * (B2R y / R)) in *.
    assert (Rabs (B2R a + B2R b - (A + B)) <= 82 / 10 * u * (Rabs (B2R fx) + Rabs (B2R fy)) + 2 * eta) as A1. { replace (B2R a + B2R b - (A + B)) with ((B2R a - A) + (B2R b - B)) by ring. eapply Rle_trans; [apply Rabs_triang|]. lra. }
    assert (Rabs (B2R a + B2R b) <= Rabs A + Rabs B + Rabs (B2R a + B2R b - (A + B))) as A2. { replace (B2R a + B2R b) with ((A + B) + (B2R a + B2R b - (A + B))) at 1 by ring. eapply Rle_trans; [apply Rabs_triang|]. pose proof (Rabs_triang A B). lra. }
    pose proof (Rabs_pos (B2R fx)) as Pfx. pose proof (Rabs_pos (B2R fy)) as Pfy. destruct (plus_value a b Fa Fb) as [Fp Vp]; [pose proof eta_small; lra|]. split; [exact Fp|]. pose proof (sum_err a b) as Ep. rewrite <- Vp in Ep.
    replace (B2R (Bplus mode_NE a b) - (A + B)) with ((B2R (Bplus mode_NE a b) - (B2R a + B2R b)) + (B2R a + B2R b - (A + B))) by ring. eapply Rle_trans; [apply Rabs_triang|]. lra.
  - intros X0 Y0. assert (B2R r = 0) as R0 by (by apply radius_zero). assert (Bltb zero32 r = false) as ->. { unfold f32 in *. rewrite Bltb_correct by (reflexivity || assumption). apply Rlt_bool_false. simpl. lra. } cbn [fst].
    assert (forall f : f32, is_finite f = true -> has_value (Bmult mode_NE f zero32) 0) as H0. { clear. intros f Ff. destruct (mult_value32 f zero32 Ff eq_refl) as [F V]; [simpl (B2R zero32); rewrite Rmult_0_r, Rabs_R0; apply bpow_ge_0|]. split; [exact F|]. rewrite V. simpl (B2R zero32). rewrite Rmult_0_r. apply round_0. typeclasses eauto. }
    destruct (H0 fx Ffx) as [Fa Va]. destruct (H0 fy Ffy) as [Fb Vb]. destruct (plus_value _ _ Fa Fb) as [Fp Vp]; [rewrite Va, Vb, Rplus_0_r, Rabs_R0; apply bpow_ge_0|]. split; [exact Fp|]. rewrite Vp, Va, Vb, Rplus_0_r. apply round_0. typeclasses eauto.
Qed.
