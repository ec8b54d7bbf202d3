(** C76: the value of a sample of the signal, as the sum of the exact contributions. *)
From stdpp Require Import base list list_numbers numbers option.
From Coq Require Import Reals ZArith Bool Lra Lia Psatz.
From Flocq Require Import Core IEEE754.BinarySingleNaN Relative Plus_error.
From Verif Require Import NDArrayModel BBoxModel ChunkMetaModel InterpModel SignalModel AntennaModel AntennaSpec AntennaProps DiscreteModel DiscreteSpec DiscreteProps DiscreteTimes.
From Verif Require Import Interp32Model Interp32Spec Interp32Weights Interp32Props Signal32Model Signal32Spec Signal32Props Signal32Whole Signal32Error Signal32Any Chunk32Spec Chunk32Props Chunk32Loop Chunk32Contrib Chunk32Signal Track32Props Track32Signal.
Local Open Scope R_scope.
Local Notation fexp32 := (FLT_exp (-149) 24).
Local Notation rnd32 := (round radix2 fexp32 ZnearestE).
Local Notation u := (/ 16777216).

(** * The size of interpolated values *)
Lemma total_abs n g : Rabs (total n g) <= total n (fun i => Rabs (g i)).
Proof. induction n as [|n IH]; cbn [total]; [rewrite Rabs_R0; lra|]. eapply Rle_trans; [apply Rabs_triang|]. lra. Qed.
Lemma total_le n g h : (forall i, g i <= h i) -> total n g <= total n h.
Proof. intros H. induction n as [|n IH]; cbn [total]; [lra|]. pose proof (H n). lra. Qed.
Lemma total_scale n c g : total n (fun i => g i * c) = total n g * c.
Proof. induction n as [|n IH]; cbn [total]; [lra|]. rewrite IH. ring. Qed.
Lemma total_ext n g h : (forall i, g i = h i) -> total n g = total n h.
Proof. intros H. induction n as [|n IH]; cbn [total]; [reflexivity|]. by rewrite IH, H. Qed.
Definition weight_sum (n : nat) (weight : R -> nat -> R) (f : R) : R := total n (fun i => Rabs (weight f i)).
Lemma value_bound n weight f1 f2 f3 v M : 0 <= M -> (forall i j k, Rabs (v i j k) <= M) -> Rabs (exact_value n weight f1 f2 f3 v) <= weight_sum n weight f1 * (weight_sum n weight f2 * (weight_sum n weight f3 * M)).
Proof.
  intros HM Hv. unfold exact_value. eapply Rle_trans; [apply total_abs|]. unfold weight_sum. rewrite <- total_scale. apply total_le. intros i. eapply Rle_trans; [apply total_abs|].
  rewrite (Rmult_comm (Rabs (weight f1 i))). rewrite <- (total_scale n (total n (fun k => Rabs (weight f3 k)) * M)). rewrite <- total_scale. apply total_le. intros j. eapply Rle_trans; [apply total_abs|].
  replace (Rabs (weight f2 j) * (total n (fun k => Rabs (weight f3 k)) * M) * Rabs (weight f1 i)) with (total n (fun k => Rabs (weight f3 k)) * (Rabs (weight f2 j) * M * Rabs (weight f1 i))) by ring. rewrite <- total_scale. apply total_le. intros k.
  rewrite !Rabs_mult. replace (Rabs (weight f3 k) * (Rabs (weight f2 j) * M * Rabs (weight f1 i))) with (Rabs (weight f1 i) * Rabs (weight f2 j) * Rabs (weight f3 k) * M) by ring. apply Rmult_le_compat_l; [|apply Hv]. repeat (apply Rmult_le_pos; try apply Rabs_pos).
Qed.
Lemma fraction_bounds x : 0 <= fraction x < 1.
Proof. unfold fraction. pose proof (Zfloor_lb x). pose proof (Zfloor_ub x). lra. Qed.
Lemma weights_bound K sup weight tol f : kernel_of K sup weight tol -> 0 <= f < 1 -> 0 <= weight_sum (2 * sup) weight f <= 5 / 4.
Proof.
  intros HK Hf. assert (0 <= f * (1 - f) <= / 4) as Hq. { split; [apply Rmult_le_pos; lra|]. pose proof (Rle_0_sqr (f - 1 / 2)). unfold Rsqr in *. lra. }
  assert (0 <= f * f * (1 - f)) as H1 by (apply Rmult_le_pos; [apply Rmult_le_pos|]; lra). assert (0 <= f * ((1 - f) * (1 - f))) as H2 by (apply Rmult_le_pos; [|apply Rmult_le_pos]; lra).
  destruct HK; unfold weight_sum; cbn [Nat.mul Nat.add total keys_weight linear_weight].
  - assert (0 <= f * f * f) as H3 by (repeat apply Rmult_le_pos; lra). assert (0 <= (1 - f) * (1 - f) * (1 - f)) as H4 by (repeat apply Rmult_le_pos; lra). 
    rewrite (Rabs_left1 (- (f * f * f) / 2 + f * f - f / 2)) by lra. rewrite (Rabs_left1 (f * f * f / 2 - f * f / 2)) by lra. rewrite (Rabs_pos_eq (3 * (f * f * f) / 2 - 5 * (f * f) / 2 + 1)) by lra. rewrite (Rabs_pos_eq (- (3 * (f * f * f)) / 2 + 2 * (f * f) + f / 2)) by lra. lra.
  - rewrite (Rabs_pos_eq (1 - f)), (Rabs_pos_eq f) by lra. lra.
Qed.
(** An interpolated value is at most twice the largest stored one. *)
Lemma interpolated_bound K sup weight tol g M r z t c : kernel_of K sup weight tol -> 0 <= M -> grid_bounded M g -> Rabs (interpolated sup weight g r z t c) <= 2 * M.
Proof.
  intros HK HM Hg. unfold interpolated. eapply Rle_trans; [apply (value_bound _ _ _ _ _ _ M HM); intros; apply Hg|].
  pose proof (weights_bound K sup weight tol (fraction r) HK (fraction_bounds r)) as A. pose proof (weights_bound K sup weight tol (fraction z) HK (fraction_bounds z)) as B. pose proof (weights_bound K sup weight tol (fraction t) HK (fraction_bounds t)) as C.
  set (a := weight_sum _ _ _) in *. set (b := weight_sum _ _ (fraction z)) in *. set (c0 := weight_sum _ _ (fraction t)) in *. clearbody a b c0.
  assert (0 <= c0 * M <= 5 / 4 * M) as Q1 by (split; [apply Rmult_le_pos; lra|apply Rmult_le_compat_r; lra]).
  assert (0 <= b * (c0 * M) <= 5 / 4 * (5 / 4 * M)) as Q2 by (split; [apply Rmult_le_pos; lra|apply Rmult_le_compat; lra]).
  assert (a * (b * (c0 * M)) <= 5 / 4 * (5 / 4 * (5 / 4 * M))) as Q3 by (apply Rmult_le_compat; lra). lra.
Qed.

(** * The value of one contribution *)
(** The error of a contribution: stored values at most [M] that are interpolated with the error [tol], a source of size at most [S], a weight of size at most [W]. *)
Definition product_error (tol M S W : R) : R := (101 / 100 * tol + 7 * M / 2 ^ 24) * S * W + (W + 1) / 2 ^ 140.
(** The exact contribution at a position: the product of the field, of the source and of the weight. *)
Definition exact_contribution (sup : nat) (weight : R -> nat -> R) (g : grid) (r z t : R) (source : f32 * f32) (w : f32) : R :=
  (interpolated sup weight g r z t 0 * B2R source.1 + interpolated sup weight g r z t 1 * B2R source.2) * B2R w.

Theorem C76_product K sup weight tol g M S W er et r z t source (w x : f32) : kernel_of K sup weight tol -> 0 <= M <= 2 ^ 30 -> grid_bounded M g ->
  is_finite source.1 = true -> is_finite source.2 = true -> Rabs (B2R source.1) + Rabs (B2R source.2) <= S -> S <= 2 ^ 30 -> is_finite w = true -> Rabs (B2R w) <= W -> W <= 2 ^ 30 ->
  contribution sup weight g (tol M) er et r z t source w x ->
  exists r' z' t', Rabs (r' - r) <= er /\ Rabs (z' - z) <= er /\ Rabs (t' - t) <= et /\ within x (exact_contribution sup weight g r' z' t' source w) (product_error (tol M) M S W) /\ Rabs (exact_contribution sup weight g r' z' t' source w) <= 2 * M * S * W.
Proof.
  intros HK [HM0 HM] Hg Fs0 Fs1 HS HS30 Fw HW HW30 (r' & z' & t' & v0 & v1 & Hr & Hz & Ht & [Fv0 Hv0] & [Fv1 Hv1] & Hx). exists r', z', t'. split; [exact Hr|]. split; [exact Hz|]. split; [exact Ht|].
  unfold exact_contribution. pose proof (interpolated_bound K sup weight tol g M r' z' t' 0 HK HM0 Hg) as B0. pose proof (interpolated_bound K sup weight tol g M r' z' t' 1 HK HM0 Hg) as B1.
  set (I0 := interpolated sup weight g r' z' t' 0) in *. set (I1 := interpolated sup weight g r' z' t' 1) in *. destruct source as [s0 s1]. cbn [fst snd] in *. set (a0 := B2R s0) in *. set (a1 := B2R s1) in *. set (ww := B2R w) in *.
  assert (0 <= tol M <= M / 65536 + / 2 ^ 140) as Htol. { assert (0 < / 2 ^ 140) by (apply Rinv_0_lt_compat, pow_lt; lra). assert (2 ^ 16 = 65536) as E16 by (simpl pow; lra). assert (2 ^ 20 = 1048576) as E20 by (simpl pow; lra). destruct HK; rewrite ?E16, ?E20; lra. }
  set (e := tol M) in *. clearbody I0 I1 e. clear Hg HK Hr Hz Ht.
  assert (2 ^ 30 = 1073741824) as E30 by (simpl pow; lra). assert (2 ^ 24 = 16777216) as E24 by (simpl pow; lra). rewrite E30 in *.
  destruct big_bounds as (_ & _ & _ & B127 & _ & _ & He0 & He1). assert (0 < / 2 ^ 140 <= / 1000000) as P140. { split; [apply Rinv_0_lt_compat, pow_lt; lra|]. apply Rinv_le_contravar; [lra|]. apply Rle_trans with (2 ^ 20); [simpl; lra|apply Rle_pow; [lra|lia]]. }
  pose proof (Rabs_pos a0) as Pa0. pose proof (Rabs_pos a1) as Pa1. pose proof (Rabs_pos ww) as Pw.
  (* one product *)
  assert (forall (v s : f32) (I : R), is_finite v = true -> is_finite s = true -> Rabs (B2R v - I) <= e -> Rabs I <= 2 * M -> Rabs (B2R s) <= 1073741824 ->
    is_finite (Bmult mode_NE v s) = true /\ Rabs (B2R (Bmult mode_NE v s) - I * B2R s) <= (e + u * (2 * M + e)) * Rabs (B2R s) + eta) as HP.
  { clear - HM0 HM Htol P140 B127 He0. intros v s I Fv Fs Hv HI Hs. pose proof (Rabs_pos (B2R s)) as Ps. assert (Rabs (B2R v) <= 2 * M + e) as Sv. { replace (B2R v) with (I + (B2R v - I)) by ring. eapply Rle_trans; [apply Rabs_triang|]. lra. }
    assert (Rabs (B2R v * B2R s) <= (2 * M + e) * Rabs (B2R s)) as A1. { rewrite Rabs_mult. apply Rmult_le_compat_r; lra. }
    assert ((2 * M + e) * Rabs (B2R s) <= 3 * 1073741824 * 1073741824) as A2 by (apply Rmult_le_compat; lra).
    destruct (mult_value32 v s Fv Fs) as [Fm Vm]; [lra|]. split; [exact Fm|]. rewrite Vm. pose proof (rnd_err (B2R v * B2R s)) as A3.
    assert (Rabs (B2R v * B2R s - I * B2R s) <= e * Rabs (B2R s)) as A4. { rewrite <- Rmult_minus_distr_r, Rabs_mult. apply Rmult_le_compat_r; lra. }
    replace (rnd32 (B2R v * B2R s) - I * B2R s) with ((rnd32 (B2R v * B2R s) - B2R v * B2R s) + (B2R v * B2R s - I * B2R s)) by ring. eapply Rle_trans; [apply Rabs_triang|]. lra. }
  destruct (HP v0 s0 I0 Fv0 Fs0 Hv0 B0) as [Fm0 Em0]; [fold a0; lra|]. destruct (HP v1 s1 I1 Fv1 Fs1 Hv1 B1) as [Fm1 Em1]; [fold a1; lra|]. clear HP. fold a0 in Em0. fold a1 in Em1. set (m0 := Bmult mode_NE v0 s0) in *. set (m1 := Bmult mode_NE v1 s1) in *.
  (* the sum *)
  set (X := I0 * a0 + I1 * a1). set (c := e + u * (2 * M + e)) in *. assert (0 <= c <= 1000000) as Hc by (unfold c; lra).
  assert (Rabs X <= 2 * M * S) as HX. { unfold X. eapply Rle_trans; [apply Rabs_triang|]. rewrite !Rabs_mult. apply Rle_trans with (2 * M * Rabs a0 + 2 * M * Rabs a1); [apply Rplus_le_compat; apply Rmult_le_compat_r; lra|]. rewrite <- Rmult_plus_distr_l. apply Rmult_le_compat_l; lra. }
  assert (0 <= 2 * M * S <= 2 * 1073741824 * 1073741824) as HMS by (split; [apply Rmult_le_pos; lra|apply Rmult_le_compat; lra]).
  assert (c * Rabs a0 + c * Rabs a1 <= c * S) as HcS by (rewrite <- Rmult_plus_distr_l; apply Rmult_le_compat_l; lra). assert (0 <= c * S <= 1000000 * 1073741824) as HcS2 by (split; [apply Rmult_le_pos; lra|apply Rmult_le_compat; lra]).
  assert (Rabs (B2R m0 + B2R m1 - X) <= c * S + 2 * eta) as Es. { unfold X. replace (B2R m0 + B2R m1 - (I0 * a0 + I1 * a1)) with ((B2R m0 - I0 * a0) + (B2R m1 - I1 * a1)) by ring. eapply Rle_trans; [apply Rabs_triang|]. lra. }
  assert (Rabs (B2R m0 + B2R m1) <= 2 * M * S + (c * S + 2 * eta)) as Ss. { replace (B2R m0 + B2R m1) with (X + (B2R m0 + B2R m1 - X)) by ring. eapply Rle_trans; [apply Rabs_triang|]. lra. }
  destruct (plus_value m0 m1 Fm0 Fm1) as [Fq Vq]; [lra|]. pose proof (sum_err m0 m1) as Eq. rewrite <- Vq in Eq. set (q := Bplus mode_NE m0 m1) in *.
  assert (Rabs (B2R q - X) <= (c * S + 2 * eta) * (1 + u) + u * (2 * M * S)) as EqX. { replace (B2R q - X) with ((B2R q - (B2R m0 + B2R m1)) + (B2R m0 + B2R m1 - X)) by ring. eapply Rle_trans; [apply Rabs_triang|]. lra. }
  set (d := (c * S + 2 * eta) * (1 + u) + u * (2 * M * S)) in *. assert (0 <= d <= 1000000000000000000) as Hd by (unfold d; lra).
  assert (Rabs (B2R q) <= 2 * M * S + d) as Sq. { replace (B2R q) with (X + (B2R q - X)) by ring. eapply Rle_trans; [apply Rabs_triang|]. lra. }
  (* times the weight *)
  assert (Rabs (B2R q * ww) <= (2 * M * S + d) * W) as Sqw. { rewrite Rabs_mult. apply Rmult_le_compat; [apply Rabs_pos|lra|lra|lra]. } assert ((2 * M * S + d) * W <= 1000000000000000000000 * 1073741824) as Sqw2 by (apply Rmult_le_compat; lra).
  destruct (mult_value32 q w Fq Fw) as [Fx Vx]; [fold ww; lra|]. fold ww in Vx. pose proof (rnd_err (B2R q * ww)) as Ex. rewrite <- Vx in Ex. unfold f32 in *. rewrite <- Hx in Fx, Ex.
  assert (Rabs (X * ww) <= 2 * M * S * W) as HXW. { rewrite Rabs_mult. apply Rmult_le_compat; [apply Rabs_pos|lra|lra|lra]. } split; [|exact HXW].
  split; [exact Fx|]. assert (Rabs (B2R q * ww - X * ww) <= d * W) as Eqw. { rewrite <- Rmult_minus_distr_r, Rabs_mult. apply Rmult_le_compat; [apply Rabs_pos|lra|lra|lra]. }
  replace (B2R x - X * ww) with ((B2R x - B2R q * ww) + (B2R q * ww - X * ww)) by ring. eapply Rle_trans; [apply Rabs_triang|]. unfold product_error. rewrite E24.
  apply Rle_trans with (u * ((2 * M * S + d) * W) + eta + d * W); [lra|]. unfold d, c. set (h := / 2 ^ 140) in *. assert (0 <= W) as PW by lra. assert (0 <= S) as PS by lra.
  assert (0 <= M * S * W) as Q1 by (repeat apply Rmult_le_pos; lra). assert (0 <= e * S * W) as Q2 by (repeat apply Rmult_le_pos; lra). assert (0 <= eta * W) as Q3 by (apply Rmult_le_pos; lra). assert (eta * W <= h * / 50 * W) as Q4 by (apply Rmult_le_compat_r; lra). unfold Rdiv. fold h. clearbody h. clear - Q1 Q2 Q3 Q4 He0 He1 PW PS P140 HM0. lra.
Qed.

(** * The sum *)
(** Adding to a sample: the result is rounded with the relative error [v]. *)
Definition adds {A} (plus : A -> f32 -> A) (val : A -> R) (fin : A -> Prop) (v : R) : Prop := forall y x, fin y -> is_finite x = true -> Rabs (val y + B2R x) <= 2 ^ 120 -> fin (plus y x) /\ Rabs (val (plus y x) - (val y + B2R x)) <= v * Rabs (val y + B2R x).
Lemma adds_float : adds plus_float B2R (fun y => is_finite y = true) (/ 2 ^ 24).
Proof.
  intros y x Fy Fx Hb. assert (2 ^ 120 <= bpow radix2 127) as B127. { rewrite (pow_IZR 2 120). change (bpow radix2 127) with (IZR (2 ^ 127)). apply IZR_le. change (2 ^ Z.of_nat 120)%Z with (2 ^ 120)%Z. lia. }
  destruct (plus_value y x Fy Fx) as [F V]; [lra|]. split; [exact F|]. unfold plus_float. rewrite V. pose proof (sum_err y x). assert (2 ^ 24 = 16777216) as -> by (simpl pow; lra). lra.
Qed.
Lemma adds_double : adds plus_double B2R (fun y => is_finite y = true) (/ 2 ^ 53).
Proof.
  intros y x Fy Fx Hb. destruct (to_double_value x Fx) as [Fd Vd]. assert (2 ^ 120 <= bpow radix2 1000) as B. { apply Rle_trans with (bpow radix2 120); [|apply bpow_le; lia]. rewrite (pow_IZR 2 120). change (bpow radix2 120) with (IZR (2 ^ 120)). apply IZR_le. change (2 ^ Z.of_nat 120)%Z with (2 ^ 120)%Z. lia. }
  destruct (plus_value64 y (to_double x) Fy Fd) as [F V]; [rewrite Vd; lra|]. split; [exact F|]. unfold plus_double. rewrite V, Vd.
  assert (generic_format radix2 (FLT_exp (3 - 1024 - 53) 53) (B2R y)) as G1 by (apply (generic_format_B2R 53 1024)). assert (generic_format radix2 (FLT_exp (3 - 1024 - 53) 53) (B2R (to_double x))) as G2 by (apply (generic_format_B2R 53 1024)). rewrite Vd in G2.
  set (s := B2R y + B2R x) in *. change (3 - 1024 - 53)%Z with (-1074)%Z in *.
  destruct (Rle_or_lt (bpow radix2 (-1074 + 53 - 1)) (Rabs s)) as [H|H].
  - pose proof (relative_error_N_FLT radix2 (-1074) 53 eq_refl (fun x => negb (Z.even x)) s H) as HE. rewrite Rmult_comm. eapply Rle_trans; [exact HE|]. rewrite Rmult_comm. apply Rmult_le_compat_l; [apply Rabs_pos|]. change (bpow radix2 (- (53) + 1)) with (bpow radix2 (-52)). rewrite bpow_neg. change (2 ^ 52)%Z with 4503599627370496%Z. assert (2 ^ 53 = 9007199254740992) as -> by (simpl pow; lra). lra.
  - rewrite round_generic; [rewrite Rminus_eq_0, Rabs_R0; apply Rmult_le_pos; [left; apply Rinv_0_lt_compat, pow_lt; lra|apply Rabs_pos]|typeclasses eauto|]. apply FLT_format_plus_small; [reflexivity|assumption|assumption|]. left. eapply Rlt_le_trans; [exact H|]. apply bpow_le. lia.
Qed.
Definition sum (l : list R) : R := foldr Rplus 0 l.
Lemma sum_snoc l x : sum (l ++ [x]) = sum l + x.
Proof. induction l as [|y l IH]; cbn [sum foldr app] in *; [lra|]. fold (sum (l ++ [x])). fold (sum l). rewrite IH. lra. Qed.
Lemma sum_bound l B : Forall (fun e => Rabs e <= B) l -> Rabs (sum l) <= INR (length l) * B.
Proof. induction 1 as [|x l Hx _ IH]; [simpl; rewrite Rabs_R0; lra|]. cbn [length]. rewrite S_INR. unfold sum. cbn [foldr]. fold (sum l). eapply Rle_trans; [apply Rabs_triang|]. lra. Qed.
Lemma fold_error {A} (plus : A -> f32 -> A) val fin v y N B pe X : adds plus val fin v -> 0 <= v <= / 2 ^ 24 -> fin y -> INR N <= 2 ^ 20 -> 0 <= B -> 0 <= pe -> Rabs (val y) + INR N * (B + pe) <= X -> X <= 2 ^ 119 ->
  forall xs es, Forall2 (fun x e => within x e pe /\ Rabs e <= B) xs es -> (length xs <= N)%nat ->
  fin (foldl plus y xs) /\ Rabs (val (foldl plus y xs) - (val y + sum es)) <= INR (length xs) * (pe + 11 / 10 * v * X).
Proof.
  intros HA Hv Hy HN HB Hpe HX HX2. assert (2 ^ 20 = 1048576) as E20 by (simpl pow; lra). assert (2 ^ 24 = 16777216) as E24 by (simpl pow; lra). rewrite E20 in HN. rewrite E24 in Hv. pose proof (Rabs_pos (val y)) as Py. assert (0 <= INR N * (B + pe)) as PN by (apply Rmult_le_pos; [apply pos_INR|lra]).
  assert (2 ^ 120 = 2 * 2 ^ 119) as E120 by (change 120%nat with (S 119); reflexivity).
  intros xs. induction xs as [|x xs IH] using rev_ind; intros es HF Hl.
  - inversion HF. subst es. simpl. rewrite Rplus_0_r, Rminus_eq_0, Rabs_R0, Rmult_0_l. split; [exact Hy|lra].
  - apply Forall2_app_inv_l in HF as (es1 & es2 & HF1 & HF2 & ->). inversion HF2 as [|? e ? ? [[Fx Ex] He] HF3]; subst. inversion HF3; subst. rewrite app_length in Hl. cbn [length] in Hl. destruct (IH es1 HF1 ltac:(lia)) as [Fs Es]. rewrite foldl_app, sum_snoc, app_length. cbn [foldl length]. set (s := foldl plus y xs) in *.
    assert (INR (length xs) + 1 <= INR N) as Hk. { rewrite <- S_INR. apply le_INR. lia. } rewrite plus_INR. change (INR 1) with 1. set (k := INR (length xs)) in *. assert (0 <= k) as Pk by apply pos_INR.
    assert (Rabs (sum es1) <= k * B) as Hs. { unfold k. rewrite (Forall2_length _ _ _ HF1). apply sum_bound. clear - HF1. induction HF1 as [|? ? ? ? [_ H] _ IHF]; constructor; assumption. }
    assert ((k + 1) * (B + pe) <= INR N * (B + pe)) as H1 by (apply Rmult_le_compat_r; lra). assert (0 <= v * X <= / 16777216 * X) as HvX by (split; [apply Rmult_le_pos; lra|apply Rmult_le_compat_r; lra]). assert (k * (v * X) <= 1048576 * (/ 16777216 * X)) as H2 by (apply Rmult_le_compat; lra).
    assert (Rabs (val s + B2R x - (val y + (sum es1 + e))) <= k * (pe + 11 / 10 * v * X) + pe) as H3. { replace (val s + B2R x - (val y + (sum es1 + e))) with ((val s - (val y + sum es1)) + (B2R x - e)) by ring. eapply Rle_trans; [apply Rabs_triang|]. lra. }
    assert (Rabs (val y + (sum es1 + e)) <= Rabs (val y) + k * B + B) as H4. { eapply Rle_trans; [apply Rabs_triang|]. pose proof (Rabs_triang (sum es1) e). lra. }
    assert (Rabs (val s + B2R x) <= 11 / 10 * X) as H5. { replace (val s + B2R x) with ((val y + (sum es1 + e)) + (val s + B2R x - (val y + (sum es1 + e)))) by ring. eapply Rle_trans; [apply Rabs_triang|]. lra. }
    destruct (HA s x Fs Fx) as [F' E']; [lra|]. split; [exact F'|]. assert (v * Rabs (val s + B2R x) <= v * (11 / 10 * X)) as H6 by (apply Rmult_le_compat_l; lra).
    replace (val (plus s x) - (val y + (sum es1 + e))) with ((val (plus s x) - (val s + B2R x)) + (val s + B2R x - (val y + (sum es1 + e)))) by ring. eapply Rle_trans; [apply Rabs_triang|]. lra.
Qed.

(** * The samples *)
(** The terms [es] of the points [ps] at the time [t]: each one is the exact contribution at a position near to the exact point of the track. *)
Definition near_terms (sup : nat) (weight : R -> nat -> R) (g : grid) (seg : segment32) (n : nat) (w : f32) (er et : R) (r z t : nat -> R) (ps : list nat) (es : list R) : Prop :=
  Forall2 (fun p e => exists r' z' t', Rabs (r' - r p) <= er /\ Rabs (z' - z p) <= er /\ Rabs (t' - t p) <= et /\
    e = exact_contribution sup weight g r' z' t' (field_cyl32 (source32 seg) (position32 seg (itgr_step32 (s32_t0 seg) (s32_t1 seg) (N.of_nat n)) p)) (point_weight32 (trapezoid32 n p) (itgr_step32 (s32_t0 seg) (s32_t1 seg) (N.of_nat n)) w)) ps es.

(** If the calculation of the signal of a track returns, then each sample is its old value plus the sum of the exact contributions, each at a position near to the exact point of the track, of all the
    points that are not later than the sample (up to the error of the times), with an error that grows with the number of points. *)
Theorem C76_sample {A} (plus : A -> f32 -> A) val fin v ib sb G K sup weight tol g M S W P len seg (ts dt : f32) num n w signal s' :
  adds plus val fin v -> 0 <= v <= / 2 ^ 24 ->
  (1 <= ib)%nat -> (1 <= sb)%nat -> kernel_of K sup weight tol -> library32 G sup g len -> 0 <= M <= 2 ^ 30 -> grid_bounded M g ->
  any_times (s32_t0 seg) (s32_t1 seg) ts dt n num -> usual_track seg n -> INR (n + 1) <= 2 ^ 20 ->
  let '(r0, z0, t0) := h_start G in let '(dr, dz, dtG) := h_interval G in
  let step := itgr_step32 (s32_t0 seg) (s32_t1 seg) (N.of_nat n) in
  let pt := point_time (B2R (s32_t0 seg)) ((B2R (s32_t1 seg) - B2R (s32_t0 seg)) / INR n) in
  let st := sample_time (B2R ts) (B2R dt) in
  let E := any_error (B2R (s32_t0 seg)) (B2R (s32_t1 seg)) (B2R ts) (B2R dt) num in
  let T := (Rabs (B2R (s32_t0 seg)) + Rabs (B2R (s32_t1 seg)) + Rabs (B2R ts) + (INR num + 1) * B2R dt + E - B2R t0) / B2R dtG in
  let er := space_error len P + place_error seg / B2R dr + place_error seg / B2R dz in
  let et := time_error len T + E / B2R dtG in
  Forall (fun x : f32 => is_finite x = true /\ Rabs (B2R x) <= 2 ^ 90) [r0; z0; t0; dr; dz; dtG] -> 0 < B2R dr -> 0 < B2R dz -> 0 < B2R dtG -> B2R t0 <= 0 -> / 2 ^ 100 <= B2R dt / B2R dtG -> T <= 2 ^ 20 -> P <= 2 ^ 21 ->
  (forall p, (p <= n)%nat -> B2R r0 + place_error seg <= exact_r seg n p <= B2R r0 + P * B2R dr - place_error seg /\ B2R z0 + place_error seg <= exact_z seg n p <= B2R z0 + P * B2R dz - place_error seg) ->
  (forall p, (p <= n)%nat -> let s := field_cyl32 (source32 seg) (position32 seg step p) in let wp := point_weight32 (trapezoid32 n p) step w in
    is_finite s.1 = true /\ is_finite s.2 = true /\ Rabs (B2R s.1) + Rabs (B2R s.2) <= S /\ is_finite wp = true /\ Rabs (B2R wp) <= W) -> S <= 2 ^ 30 -> W <= 2 ^ 30 ->
  apply_accumulate32 plus ib sb G K false seg ts dt num w signal = Some s' ->
  exists c : nat -> nat,
    (forall p, (p <= n)%nat -> pt p - E <= st (c p) /\ ((0 < c p)%nat -> st (c p) < pt p + B2R dt + E)) /\ length s' = length signal /\
    forall j y, signal !! j = Some y -> exists y', s' !! j = Some y' /\ ((num <= j)%nat -> y' = y) /\
      ((j < num)%nat -> fin y -> Rabs (val y) <= 2 ^ 110 ->
        let points := filter (fun p => (c p <= j)%nat) (seq 0 (n + 1)) in
        exists es, near_terms sup weight g seg n w er et (fun p => (exact_r seg n p - B2R r0) / B2R dr) (fun p => (exact_z seg n p - B2R z0) / B2R dz) (fun p => (st j - pt p - B2R t0) / B2R dtG) points es /\ fin y' /\
          Rabs (val y' - (val y + sum es)) <= INR (length points) * (product_error (tol M) M S W + 11 / 10 * v * (Rabs (val y) + INR (n + 1) * (2 * M * S * W + product_error (tol M) M S W)))).
Proof.
  intros HA Hv Hib Hsb HK HL HM Hg Ht Hu Hn. assert (2 ^ 30 = 1073741824) as E30 by (simpl pow; lra). assert (0 <= M <= 2 ^ 100) as HM100. { split; [lra|]. apply Rle_trans with (2 ^ 30); [lra|apply Rle_pow; [lra|lia]]. }
  pose proof (C76_track_signal plus ib sb G K sup weight tol g M P len seg ts dt num n w signal s' Hib Hsb HK HL HM100 Hg Ht Hu) as HS.
  destruct (h_start G) as [[r0 z0] t0]. destruct (h_interval G) as [[dr dz] dtG]. intros step pt st E T er et HF Hdr Hdz Hdt Ht0 Hq HT HP Hplace Hsrc HS30 HW30 H. cbv zeta in HS. fold step in HS.
  destruct (HS HF Hdr Hdz Hdt Ht0 Hq HT HP Hplace H) as (c & xs & A1 & A2 & A3 & A4). clear HS. exists c. split; [exact A1|]. subst s'. split; [apply imap_length|]. intros j y Hy. exists (foldl plus y (xs j)).
  split; [unfold changed; rewrite list_lookup_imap, Hy; reflexivity|]. split; [intros Hj; by rewrite (A3 j Hj)|]. intros Hj Hfin Hval points. specialize (A4 j Hj). fold points in A4.
  assert (forall p, p ∈ points -> (p <= n)%nat) as Hpts. { intros p Hin. apply elem_of_list_filter in Hin as [_ Hin]. apply elem_of_seq in Hin as [_ Hin]. lia. }
  assert (length points <= n + 1)%nat as Hlen. { unfold points. rewrite <- (seq_length (n + 1) 0) at 2. apply filter_length. }
  assert (0 <= S /\ 0 <= W) as [PS PW]. { destruct (Hsrc 0%nat ltac:(lia)) as (_ & _ & Q1 & _ & Q2). pose proof (Rabs_pos (B2R (field_cyl32 (source32 seg) (position32 seg step 0)).1)). pose proof (Rabs_pos (B2R (field_cyl32 (source32 seg) (position32 seg step 0)).2)). pose proof (Rabs_pos (B2R (point_weight32 (trapezoid32 n 0) step w))). lra. }
  set (pe := product_error (tol M) M S W). set (B := 2 * M * S * W).
  assert (0 <= B /\ 0 <= pe /\ INR (n + 1) * (B + pe) <= 2 ^ 118) as (PB & Ppe & Hsize).
  { assert (0 < / 2 ^ 140 <= / 1000000) as P140. { split; [apply Rinv_0_lt_compat, pow_lt; lra|]. apply Rinv_le_contravar; [lra|]. apply Rle_trans with (2 ^ 20); [simpl; lra|apply Rle_pow; [lra|lia]]. }
    assert (0 <= tol M <= M / 65536 + / 2 ^ 140) as Htol. { assert (2 ^ 16 = 65536) as E16 by (simpl pow; lra). assert (2 ^ 20 = 1048576) as E20 by (simpl pow; lra). destruct HK; rewrite ?E16, ?E20; lra. }
    assert (2 ^ 20 = 1048576) as E20 by (simpl pow; lra). assert (2 ^ 24 = 16777216) as E24 by (simpl pow; lra). rewrite E30 in *. rewrite E20 in Hn. unfold B, pe, product_error. rewrite E24.
    assert (0 <= M * S <= 1073741824 * 1073741824) as Q1 by (split; [apply Rmult_le_pos; lra|apply Rmult_le_compat; lra]). assert (0 <= M * S * W <= 1073741824 * 1073741824 * 1073741824) as Q2 by (split; [apply Rmult_le_pos; lra|apply Rmult_le_compat; lra]).
    assert (0 <= 101 / 100 * tol M + 7 * M / 16777216 <= 1000000) as Q3 by lra. set (cc := 101 / 100 * tol M + 7 * M / 16777216) in *. assert (0 <= cc * S <= 1000000 * 1073741824) as Q4 by (split; [apply Rmult_le_pos; lra|apply Rmult_le_compat; lra]). assert (0 <= cc * S * W <= 1000000 * 1073741824 * 1073741824) as Q5 by (split; [apply Rmult_le_pos; lra|apply Rmult_le_compat; lra]).
    assert (0 <= (W + 1) / 2 ^ 140 <= 1073741825 * / 1000000) as Q6 by (split; [apply Rmult_le_pos; lra|apply Rmult_le_compat; lra]).
    split; [lra|]. split; [lra|]. set (z := 2 * M * S * W + (cc * S * W + (W + 1) / 2 ^ 140)). assert (0 <= z <= 4000000000000000000000000000) as Q7 by (unfold z; lra). pose proof (pos_INR (n + 1)). apply Rle_trans with (1048576 * 4000000000000000000000000000); [apply Rmult_le_compat; lra|]. apply Rle_trans with (2 ^ 113); [|apply Rle_pow; [lra|lia]]. rewrite (pow_IZR 2 113). rewrite <- mult_IZR. apply IZR_le. vm_compute. discriminate. }
  assert (exists es, Forall2 (fun p e => exists r' z' t', Rabs (r' - (exact_r seg n p - B2R r0) / B2R dr) <= er /\ Rabs (z' - (exact_z seg n p - B2R z0) / B2R dz) <= er /\ Rabs (t' - (st j - pt p - B2R t0) / B2R dtG) <= et /\
      e = exact_contribution sup weight g r' z' t' (field_cyl32 (source32 seg) (position32 seg step p)) (point_weight32 (trapezoid32 n p) step w)) points es /\ Forall2 (fun x e => within x e pe /\ Rabs e <= B) (xs j) es) as (es & He & Hx).
  { clear A3 Hlen. clearbody points. revert Hpts. induction A4 as [|p x ps xl Hc _ IH]; intros Hpts; [exists []; split; constructor|]. destruct IH as (es & He & Hx). { intros q Hin. apply Hpts. by right. }
    destruct (Hsrc p) as (Q1 & Q2 & Q3 & Q4 & Q5); [apply Hpts; left|]. destruct (C76_product K sup weight tol g M S W _ _ _ _ _ _ _ _ HK HM Hg Q1 Q2 Q3 HS30 Q4 Q5 HW30 Hc) as (r' & z' & t' & R1 & R2 & R3 & R4 & R5).
    exists (exact_contribution sup weight g r' z' t' (field_cyl32 (source32 seg) (position32 seg step p)) (point_weight32 (trapezoid32 n p) step w) :: es). split; [constructor; [|exact He]; exists r', z', t'; split_and!; auto|]. constructor; [split; assumption|exact Hx]. }
  exists es. split; [exact He|]. rewrite (Forall2_length _ _ _ A4).
  apply (fold_error plus val fin v y (n + 1) B pe); [exact HA|exact Hv|exact Hfin|exact Hn|exact PB|exact Ppe|apply Rle_refl| |exact Hx|]; [|rewrite <- (Forall2_length _ _ _ A4); exact Hlen].
  assert (2 ^ 119 = 2 * 2 ^ 118) as -> by reflexivity. assert (2 ^ 110 <= 2 ^ 118) by (apply Rle_pow; [lra|lia]). lra.
Qed.
