(** Proofs about the loops of the incomplete gamma function (C64). *)
From Coq Require Import Reals Lra Lia Arith.
From Coquelicot Require Import Coquelicot.
From Verif Require Import GammaModel GammaSpec GammaProofs.
Local Open Scope R_scope.

(** * The series *)
Section series.
Context (n : nat) (z tol : R) (Hz : 0 < z) (Hs : z <= 1 \/ z < INR (n + 1)) (Htol : 0 < tol).
Local Notation a := (INR (n + 1)).
Local Notation q := (a / (a + 1)).

Record turn (k : nat) (C accum den : R) : Prop := {
  tu_den : den = INR (n + 1 + k);
  tu_pos : 0 < C <= q ^ k;
  tu_one : 1 <= accum;
  tu_C : C * term (n + 1) z = term (n + 1 + k) z;
  tu_accum : accum * term (n + 1) z = expo (n + 1 + k) z - expo n z }.

Lemma a_pos : 1 <= a.
Proof using. clear -n. rewrite plus_INR. change (INR 1) with 1. pose proof (pos_INR n). lra. Qed.
Lemma q_lt : 0 < q < 1.
Proof using.
  clear -n. pose proof a_pos. split; [apply Rmult_lt_0_compat; [lra|apply Rinv_0_lt_compat; lra]|]. apply Rmult_lt_reg_r with (a + 1); [lra|]. unfold Rdiv. rewrite Rmult_assoc, Rinv_l by lra. lra.
Qed.
Lemma turn_0 : turn 0 1 1 a.
Proof using Hz.
  split; [rewrite Nat.add_0_r; reflexivity|cbn; lra|lra|rewrite Nat.add_0_r; lra|]. rewrite Nat.add_0_r, Rmult_1_l. replace (n + 1)%nat with (S n) by lia. rewrite expo_S. lra.
Qed.
Lemma ratio_le (d : R) : a + 1 <= d -> 0 < z / d <= q.
Proof using Hz Hs.
  intros Hd. pose proof a_pos as Ha. split; [apply Rmult_lt_0_compat; [lra|apply Rinv_0_lt_compat; lra]|].
  apply Rmult_le_reg_r with (d * (a + 1)); [apply Rmult_lt_0_compat; lra|]. replace (z / d * (d * (a + 1))) with (z * (a + 1)) by (field; lra). replace (q * (d * (a + 1))) with (a * d) by (field; lra).
  destruct Hs; nra.
Qed.
Lemma turn_S k C accum den : turn k C accum den -> turn (S k) (C * (z / (den + 1))) (accum + C * (z / (den + 1))) (den + 1).
Proof using Hz Hs.
  intros [-> [H1 H2] H3 H4 H5]. assert (INR (n + 1 + k) + 1 = INR (n + 1 + S k)) as E by (rewrite (Nat.add_succ_r (n + 1) k), S_INR; reflexivity). rewrite E.
  assert (0 < z / INR (n + 1 + S k) <= q) as [R1 R2]. { apply ratio_le. rewrite <- S_INR. apply le_INR. lia. }
  assert (C * (z / INR (n + 1 + S k)) * term (n + 1) z = term (n + 1 + S k) z) as EC.
  { rewrite (Nat.add_succ_r (n + 1) k), term_S, <- H4. ring. }
  split; [reflexivity| | |exact EC|].
  - split; [apply Rmult_lt_0_compat; assumption|]. cbn [pow]. rewrite Rmult_comm. apply Rmult_le_compat; lra.
  - pose proof (Rmult_lt_0_compat _ _ H1 R1). lra.
  - rewrite Rmult_plus_distr_r, H5, EC. rewrite (Nat.add_succ_r (n + 1) k), expo_S. ring.
Qed.

Lemma series_ends : exists N k C accum den, turn (S k) C accum den /\ C / accum <= tol /\ forall fuel, (N <= fuel)%nat -> series_loop fuel z tol 1 1 a = Some accum.
Proof using Hz Hs Htol.
  destruct (pow_lt_1_zero q) with (y := tol) as [K HK]; [rewrite Rabs_pos_eq; pose proof q_lt; lra|lra|].
  assert (forall d k C accum den, (K <= S k + d)%nat -> turn k C accum den -> exists N k' C' accum' den', turn (S k') C' accum' den' /\ C' / accum' <= tol /\
    forall fuel, (N <= fuel)%nat -> series_loop fuel z tol C accum den = Some accum') as H.
  { induction d as [|d IH]; intros k C accum den Hk Ht.
    - pose proof (turn_S _ _ _ _ Ht) as Ht'. exists 1%nat, k, (C * (z / (den + 1))), (accum + C * (z / (den + 1))), (den + 1). 
      assert (C * (z / (den + 1)) / (accum + C * (z / (den + 1))) <= tol) as Hc.
      { destruct Ht' as [_ [P1 P2] P3 _ _]. specialize (HK (S k) ltac:(lia)). rewrite Rabs_pos_eq in HK by (apply pow_le; pose proof q_lt; lra).
        apply Rle_trans with (C * (z / (den + 1))); [|lra]. set (x := C * _) in *. set (y := accum + x) in *. apply Rmult_le_reg_r with y; [lra|]. unfold Rdiv. rewrite Rmult_assoc, Rinv_l by lra. nra. }
      split; [exact Ht'|]. split; [exact Hc|]. intros [|fuel] Hf; [lia|]. cbn [series_loop]. destruct Ht as [Hden _ _ _ _]. rewrite odiv_ok by (rewrite Hden; pose proof (pos_INR (n + 1 + k)); lra).
      rewrite odiv_ok by (destruct Ht'; lra). destruct (Rlt_dec _ _); [lra|reflexivity].
    - pose proof (turn_S _ _ _ _ Ht) as Ht'. destruct (Rlt_dec tol (C * (z / (den + 1)) / (accum + C * (z / (den + 1))))) as [Hc|Hc].
      + destruct (IH (S k) _ _ _ ltac:(lia) Ht') as (N & k' & C' & accum' & den' & R1 & R2 & R3). exists (S N), k', C', accum', den'. split; [exact R1|]. split; [exact R2|].
        intros [|fuel] Hf; [lia|]. cbn [series_loop]. destruct Ht as [Hden _ _ _ _]. rewrite odiv_ok by (rewrite Hden; pose proof (pos_INR (n + 1 + k)); lra).
        rewrite odiv_ok by (destruct Ht'; lra). destruct (Rlt_dec _ _); [|lra]. apply R3. lia.
      + exists 1%nat, k, (C * (z / (den + 1))), (accum + C * (z / (den + 1))), (den + 1). split; [exact Ht'|]. split; [lra|].
        intros [|fuel] Hf; [lia|]. cbn [series_loop]. destruct Ht as [Hden _ _ _ _]. rewrite odiv_ok by (rewrite Hden; pose proof (pos_INR (n + 1 + k)); lra).
        rewrite odiv_ok by (destruct Ht'; lra). destruct (Rlt_dec _ _); [lra|reflexivity]. }
  destruct (H K 0%nat 1 1 a ltac:(lia) turn_0) as (N & k & C & accum & den & H1 & H2 & H3). exists N, k, C, accum, den. auto.
Qed.

Lemma exp_ln_pow m : exp (INR m * ln z) = z ^ m.
Proof using Hz. rewrite <- Rpower_pow by exact Hz. unfold Rpower. reflexivity. Qed.

Lemma series_value lg : log_gamma lg -> exists N v, (forall fuel, (N <= fuel)%nat -> series_expansion lg fuel a z tol = Some v) /\
  0 <= v - gam n z <= tol * (a / 2) * (INR (fact n) - gam n z).
Proof using Hz Hs Htol.
  intros Hlg. destruct series_ends as (N & k & C & accum & den & [Hden [P1 P2] P3 HC HA] & Hstop & Hrun).
  exists N, (exp (lg a) * (1 - exp_log a z (lg (a + 1) + z) * accum)). split. { intros fuel Hf. unfold series_expansion. rewrite (Hrun fuel Hf). reflexivity. }
  assert (exp (lg a) = INR (fact n)) as E1. { rewrite Hlg. apply exp_ln, fact_pos. }
  assert (exp_log a z (lg (a + 1) + z) = exp (- z) * term (n + 1) z) as E2.
  { unfold exp_log. destruct (Req_EM_T z 0); [lra|]. rewrite <- S_INR. replace (S (n + 1)) with (n + 1 + 1)%nat by lia. rewrite Hlg.
    replace (a * ln z - (ln (INR (fact (n + 1))) + z)) with (- z + (a * ln z + - ln (INR (fact (n + 1))))) by ring. rewrite !exp_plus, exp_Ropp, exp_Ropp, exp_ln by apply fact_pos. rewrite exp_ln_pow. unfold term. ring. }
  rewrite E1, E2. set (M := (n + 1 + S k)%nat) in *. set (T := term (n + 1) z) in *.
  assert (0 < T) as HT by (apply term_pos, Hz). pose proof (fact_pos n) as Hf. pose proof (exp_pos (- z)) as He. assert (exp (- z) * exp z = 1) as Hee by (rewrite <- exp_plus; replace (- z + z) with 0 by ring; apply exp_0).
  assert (INR (fact n) * (1 - exp (- z) * T * accum) - gam n z = INR (fact n) * (exp (- z) * (exp z - expo M z))) as Ev.
  { unfold gam. replace (exp (- z) * T * accum) with (exp (- z) * (accum * T)) by ring. rewrite HA. replace (INR (fact n) * (exp (- z) * (exp z - expo M z))) with (INR (fact n) * (exp (- z) * exp z - exp (- z) * expo M z)) by ring. rewrite Hee. ring. }
  assert (INR (fact n) - gam n z = INR (fact n) * (exp (- z) * (exp z - expo n z))) as Eg.
  { unfold gam. replace (INR (fact n) * (exp (- z) * (exp z - expo n z))) with (INR (fact n) * (exp (- z) * exp z - exp (- z) * expo n z)) by ring. rewrite Hee. ring. }
  rewrite Ev, Eg. pose proof (expo_le z M Hz) as Hle. split; [apply Rmult_le_pos; [lra|]; apply Rmult_le_pos; lra|].
  assert (exp z - expo M z <= tol * (a / 2) * (exp z - expo n z)) as Hb; [|].
  2: { replace (tol * (a / 2) * (INR (fact n) * (exp (- z) * (exp z - expo n z)))) with (INR (fact n) * (exp (- z) * (tol * (a / 2) * (exp z - expo n z)))) by ring.
       apply Rmult_le_compat_l; [lra|]. apply Rmult_le_compat_l; lra. }
  assert (a + 1 <= INR M) as HM. { rewrite <- S_INR. apply le_INR. lia. } pose proof a_pos as Ha.
  assert (z < INR M + 1) as HzM by (destruct Hs; lra). pose proof (expo_tail z M (conj Hz HzM)) as Ht.
  assert (term M z <= tol * (exp z - expo n z)) as Hterm.
  { rewrite <- HC. apply Rle_trans with (tol * accum * T). - apply Rmult_le_compat_r; [lra|]. apply Rmult_le_reg_r with (/ accum); [apply Rinv_0_lt_compat; lra|]. rewrite Rmult_assoc, Rinv_r by lra. unfold Rdiv in Hstop. lra.
    - rewrite Rmult_assoc, HA. apply Rmult_le_compat_l; lra. }
  assert (0 < z / (INR M + 1 - z) <= a / 2) as [Q1 Q2].
  { split; [apply Rmult_lt_0_compat; [lra|apply Rinv_0_lt_compat; lra]|]. apply Rmult_le_reg_r with (2 * (INR M + 1 - z)); [lra|]. replace (z / (INR M + 1 - z) * (2 * (INR M + 1 - z))) with (2 * z) by (field; lra).
    replace (a / 2 * (2 * (INR M + 1 - z))) with (a * (INR M + 1 - z)) by field. destruct Hs; nra. }
  pose proof (term_pos M z Hz) as Htp. apply Rle_trans with (term M z * (z / (INR M + 1 - z))); [exact Ht|]. replace (tol * (a / 2) * (exp z - expo n z)) with (tol * (exp z - expo n z) * (a / 2)) by ring.
  apply Rmult_le_compat; lra.
Qed.
End series.

Lemma zero_div x : 0 / x = 0.
Proof. unfold Rdiv. ring. Qed.

(** * The continued fraction *)
Section fraction.
Context (z : R) (Hz : 0 < z).

(** The integral of s^k (1 + s)^m exp(- z s) from 0 to infinity. *)
Fixpoint J (m k : nat) : R := match m with O => INR (fact k) / z ^ S k | S m => J m k + J m (S k) end.
Lemma J_pos m k : 0 < J m k.
Proof using Hz. revert k. induction m as [|m IH]; intros k; cbn [J]; [apply Rmult_lt_0_compat; [apply fact_pos|apply Rinv_0_lt_compat, pow_lt, Hz]|]. pose proof (IH k). pose proof (IH (S k)). lra. Qed.
Lemma J_0 m : z * J m 0 = 1 + INR m * J (m - 1) 0 /\ forall k, z * J m (S k) = INR (S k) * J m k + INR m * J (m - 1) (S k).
Proof using Hz.
  induction m as [|m [IH0 IHS]].
  - split; [cbn; field; lra|]. intros k. cbn [J]. rewrite fact_S_R. change (INR 0) with 0. assert (z ^ k <> 0) by (apply pow_nonzero; lra). cbn [pow]. set (y := INR (S k)). clearbody y. field. split; [assumption|lra].
  - replace (S m - 1)%nat with m by lia. assert (forall k, INR m * (J (m - 1) k + J (m - 1) (S k)) = INR m * J m k) as E.
    { intros k. destruct m as [|m']; [change (INR 0) with 0; ring|]. replace (S m' - 1)%nat with m' by lia. reflexivity. }
    rewrite S_INR. split.
    + cbn [J]. rewrite Rmult_plus_distr_l, IH0, (IHS 0%nat). change (INR 1) with 1. specialize (E 0%nat). lra.
    + intros k. cbn [J]. rewrite Rmult_plus_distr_l, (IHS k), (IHS (S k)). specialize (E (S k)). rewrite (S_INR (S k)). lra.
Qed.
Lemma J_gam n : exp (- z) * z ^ S n * J n 0 = gam n z.
Proof using Hz.
  induction n as [|n IH]; [rewrite gam_0; cbn; field; lra|]. rewrite gam_S, <- IH. destruct (J_0 (S n)) as [E _]. replace (S n - 1)%nat with n in E by lia.
  replace (exp (- z) * z ^ S (S n) * J (S n) 0) with (exp (- z) * z ^ S n * (z * J (S n) 0)) by (cbn [pow]; ring). rewrite E. ring.
Qed.

Context (n : nat) (tol : R) (Hn : INR n + 1 <= z) (Htol : 0 < tol <= 1).
Local Notation a := (INR (n + 1)).
Local Notation S_ := (J n 0).

(** n (n - 1) ... (n - j + 1) *)
Fixpoint falling (j : nat) : R := match j with O => 1 | S j => falling j * (INR n - INR j) end.
Lemma falling_pos j : (j <= n)%nat -> 0 < falling j.
Proof using. clear -n. induction j as [|j IH]; intros Hj; cbn [falling]; [lra|]. apply Rmult_lt_0_compat; [apply IH; lia|]. apply lt_INR in Hj. lra. Qed.
Lemma falling_0 j : (n < j)%nat -> falling j = 0.
Proof using. clear -n. induction j as [|j IH]; intros Hj; [lia|]. cbn [falling]. destruct (Nat.eq_dec n j) as [->|Hne]; [ring|]. rewrite IH by lia. ring. Qed.
(** What remains: S_ B - A in the j-th step. *)
Definition rest (j : nat) : R := (-1) ^ j * falling j * J (n - j) j.

Lemma rest_rec k : (1 <= k <= n + 1)%nat -> rest (S k) = (z - INR n + 2 * INR k) * rest k + INR k * (INR n + 1 - INR k) * rest (k - 1).
Proof using Hz Hn.
  intros [H1 H2]. destruct k as [|k]; [lia|]. replace (S k - 1)%nat with k by lia. unfold rest. 
  destruct (Nat.eq_dec k n) as [->|Hne].
  - rewrite (falling_0 (S (S n))), (falling_0 (S n)) by lia. rewrite S_INR. ring.
  - destruct (J_0 (n - S k)) as [_ E]. specialize (E k). assert (n - k = S (n - S k))%nat as Ek by lia. rewrite Ek. assert (INR n = INR k + 1 + INR (n - S k)) as En. { rewrite minus_INR, S_INR by lia. ring. }
    destruct (n - S k)%nat as [|m] eqn:Em.
    + rewrite (falling_0 (S (S k))) by lia. cbn [falling pow J]. change (INR 0) with 0 in *. rewrite En. rewrite !S_INR in *. cbn [J] in E.
      set (P := (-1) ^ k). set (Q := falling k). set (X := INR (fact k) / _) in *. set (Y := INR (fact (S k)) / _) in *. set (x := INR k) in *. clearbody P Q X Y x.
      replace ((z - (x + 1 + 0) + 2 * (x + 1)) * (-1 * P * (Q * (x + 1 + 0 - x)) * Y) + (x + 1) * (x + 1 + 0 + 1 - (x + 1)) * (P * Q * (X + Y))) with (P * Q * (- (z * Y) + (x + 1) * X)) by ring. rewrite E. ring.
    + replace (n - S (S k))%nat with m by lia. cbn [falling pow]. replace (S m - 1)%nat with m in E by lia.
      replace (J (S (S m)) k) with (J (S m) k + J (S m) (S k)) by reflexivity. assert (J (S m) (S k) = J m (S k) + J m (S (S k))) as E2 by reflexivity.
      rewrite En. rewrite !S_INR in *. set (P := (-1) ^ k). set (Q := falling k). set (X := J (S m) (S k)) in *. set (Y := J m (S (S k))) in *. set (W := J m (S k)) in *. set (V := J (S m) k) in *. clearbody P Q X Y W V.
      set (x := INR k) in *. set (y := INR m) in *. clearbody x y.
      replace (-1 * (-1 * P) * (Q * (x + 1 + (y + 1) - x) * (x + 1 + (y + 1) - (x + 1))) * Y) with (P * Q * (y + 2) * ((y + 1) * Y)) by ring.
      replace ((z - (x + 1 + (y + 1)) + 2 * (x + 1)) * (-1 * P * (Q * (x + 1 + (y + 1) - x)) * X) + (x + 1) * (x + 1 + (y + 1) + 1 - (x + 1)) * (P * Q * (V + X))) with
        (P * Q * (y + 2) * (- (z * X) + (x + 1) * V + (y + 1) * X)) by ring. rewrite E. f_equal. rewrite E2. ring.
Qed.
Lemma rest_0 : rest 0 = S_.
Proof using. unfold rest. cbn [falling pow]. rewrite Nat.sub_0_r. ring. Qed.
Lemma rest_1 : rest 1 = S_ * (z - INR n) - 1.
Proof using Hz Hn.
  unfold rest. cbn [falling pow]. change (INR 0) with 0. destruct (J_0 n) as [E _]. replace (S_ * (z - INR n) - 1) with (z * S_ - INR n * S_ - 1) by ring. rewrite E.
  destruct n as [|m]; [change (INR 0) with 0; ring|]. replace (S m - 1)%nat with m by lia. cbn [J]. ring.
Qed.

(** The state of the loop at the beginning of turn [k]. *)
Record step (k : nat) (An2 An1 Bn2 Bn1 an bn : R) : Prop := {
  st_A2 : 0 <= An2; st_A1 : 0 < An1; st_B2 : 0 < Bn2; st_B1 : 0 < Bn1;
  st_a : an = INR k * (INR n + 1 - INR k); st_b : bn = z - INR n + 2 * INR k;
  st_R2 : S_ * Bn2 - An2 = rest (k - 1); st_R1 : S_ * Bn1 - An1 = rest k }.
Lemma a_eq : a = INR n + 1.
Proof using. rewrite plus_INR. reflexivity. Qed.
Lemma step_1 : step 1 0 1 1 (z - a + 1) (a - 1) (z - a + 1 + 2).
Proof using Hz Hn.
  rewrite a_eq. split; change (INR 1) with 1; try lra. - rewrite Nat.sub_diag, rest_0. ring. - rewrite rest_1. ring.
Qed.
Lemma step_S k An2 An1 Bn2 Bn1 an bn : (1 <= k <= n + 1)%nat -> step k An2 An1 Bn2 Bn1 an bn ->
  0 < bn * An1 + an * An2 /\ 0 < bn * Bn1 + an * Bn2 /\ S_ * (bn * Bn1 + an * Bn2) - (bn * An1 + an * An2) = rest (S k) /\
  step (S k) An1 (bn * An1 + an * An2) Bn1 (bn * Bn1 + an * Bn2) (an + (a - 2 * INR k - 1)) (bn + 2).
Proof using Hz Hn.
  intros Hk [A2 A1 B2 B1 Ea Eb R2 R1]. assert (INR k <= INR n + 1) as Hk2. { rewrite <- a_eq. apply le_INR. lia. } pose proof (pos_INR k).
  assert (0 <= an) as Han by (rewrite Ea; apply Rmult_le_pos; lra). assert (0 < bn) as Hbn by (rewrite Eb; lra).
  assert (0 < bn * An1 + an * An2) as P1. { pose proof (Rmult_lt_0_compat _ _ Hbn A1). pose proof (Rmult_le_pos _ _ Han A2). lra. }
  assert (0 < bn * Bn1 + an * Bn2) as P2. { pose proof (Rmult_lt_0_compat _ _ Hbn B1). pose proof (Rmult_le_pos _ _ Han (Rlt_le _ _ B2)). lra. }
  assert (S_ * (bn * Bn1 + an * Bn2) - (bn * An1 + an * An2) = rest (S k)) as HR.
  { rewrite rest_rec by exact Hk. rewrite <- R1, <- R2, <- Ea, <- Eb. ring. }
  split; [exact P1|]. split; [exact P2|]. split; [exact HR|]. split; try assumption; try lra.
  - rewrite Ea, a_eq, S_INR. ring.
  - rewrite Eb, S_INR. ring.
  - replace (S k - 1)%nat with k by lia. exact R1.
Qed.

(** The sign of what remains. *)
Lemma rest_sign k : rest k * rest (S k) <= 0.
Proof using Hz Hn.
  unfold rest. destruct (Nat.le_gt_cases (S k) n) as [Hk|Hk]; [|rewrite (falling_0 (S k)) by lia; right; ring].
  pose proof (falling_pos k ltac:(lia)) as F1. pose proof (falling_pos (S k) Hk) as F2. pose proof (J_pos (n - k) k) as J1. pose proof (J_pos (n - S k) (S k)) as J2. cbn [pow]. set (P := (-1) ^ k).
  replace (P * falling k * J (n - k) k * (-1 * P * falling (S k) * J (n - S k) (S k))) with (- ((P * P) * ((falling k * J (n - k) k) * (falling (S k) * J (n - S k) (S k))))) by ring.
  pose proof (Rmult_lt_0_compat _ _ F1 J1) as X1. pose proof (Rmult_lt_0_compat _ _ F2 J2) as X2. pose proof (Rmult_lt_0_compat _ _ X1 X2) as X3. pose proof (Rle_0_sqr P) as X4. unfold Rsqr in X4. pose proof (Rmult_le_pos _ _ X4 (Rlt_le _ _ X3)). lra.
Qed.

(** The convergents enclose the value. *)
Lemma enclosed A1 B1 A2 B2 s : 0 < B1 -> 0 < B2 -> (s * B1 - A1) * (s * B2 - A2) <= 0 -> Rabs (s - A2 / B2) <= Rabs (A2 / B2 - A1 / B1).
Proof using.
  clear -s. intros H1 H2 H. assert ((s - A1 / B1) * (s - A2 / B2) <= 0) as H'.
  { replace (s * B1 - A1) with (B1 * (s - A1 / B1)) in H by (field; lra). replace (s * B2 - A2) with (B2 * (s - A2 / B2)) in H by (field; lra). pose proof (Rmult_lt_0_compat _ _ H1 H2) as H3.
    replace (B1 * (s - A1 / B1) * (B2 * (s - A2 / B2))) with (B1 * B2 * ((s - A1 / B1) * (s - A2 / B2))) in H by ring.
    apply Rmult_le_reg_l with (B1 * B2); [exact H3|]. lra. }
  set (u := A1 / B1) in *. set (w := A2 / B2) in *. clearbody u w. unfold Rabs. destruct (Rcase_abs (s - w)), (Rcase_abs (w - u)); nra.
Qed.

Lemma fraction_from d : forall k An2 An1 Bn2 Bn1 an bn, (2 <= k)%nat -> (k + d = n + 1)%nat -> step k An2 An1 Bn2 Bn1 an bn ->
  exists N v, (forall fuel, (N <= fuel)%nat -> fraction_loop fuel a tol An2 An1 Bn2 Bn1 an bn k (An1 / Bn1) = Some v) /\ 0 < v /\ Rabs (S_ - v) <= tol * v.
Proof using Hz Hn Htol.
  induction d as [|d IH]; intros k An2 An1 Bn2 Bn1 an bn H2 Hk Hst; destruct (step_S k An2 An1 Bn2 Bn1 an bn ltac:(lia) Hst) as (P1 & P2 & HR & Hst');
    set (An := bn * An1 + an * An2) in *; set (Bn := bn * Bn1 + an * Bn2) in *; assert (0 < An / Bn) as Pq by (apply Rmult_lt_0_compat; [exact P1|apply Rinv_0_lt_compat, P2]).
  - exists 1%nat, (An / Bn). assert (An / Bn = An1 / Bn1) as E.
    { destruct Hst as [_ A1 _ B1 Ea Eb _ _]. replace k with (n + 1)%nat in Ea by lia. rewrite a_eq in Ea. assert (an = 0) as -> by lra. unfold An, Bn. rewrite !Rmult_0_l, !Rplus_0_r. assert (bn <> 0). { intros E0. unfold An in P1. rewrite E0 in P1. lra. } field. split; [lra|assumption]. }
    split; [|split; [exact Pq|]].
    + intros [|fuel] Hf; [lia|]. cbn [fraction_loop]. fold An Bn. rewrite odiv_ok by lra. rewrite odiv_ok by lra. rewrite <- E. replace (An / Bn - An / Bn) with 0 by ring. rewrite Rabs_R0. rewrite zero_div. destruct (Rlt_dec 0 tol); [reflexivity|lra].
    + assert (rest (S k) = 0) as E0. { unfold rest. rewrite falling_0 by lia. ring. } rewrite E0 in HR. replace S_ with (An / Bn). 2: { apply Rmult_eq_reg_r with Bn; [|lra]. replace (An / Bn * Bn) with An by (field; lra). lra. }
      replace (An / Bn - An / Bn) with 0 by ring. rewrite Rabs_R0. apply Rmult_le_pos; lra.
  - assert (Rabs (S_ - An / Bn) <= Rabs (An / Bn - An1 / Bn1)) as He.
    { apply enclosed; [apply (st_B1 _ _ _ _ _ _ _ Hst)|exact P2|]. rewrite HR, (st_R1 _ _ _ _ _ _ _ Hst). apply rest_sign. }
    destruct (Rlt_dec (Rabs (An / Bn - An1 / Bn1) / (An / Bn)) tol) as [Hl|Hl].
    + exists 1%nat, (An / Bn). split; [|split; [exact Pq|]].
      * intros [|fuel] Hf; [lia|]. cbn [fraction_loop]. fold An Bn. rewrite odiv_ok by lra. rewrite odiv_ok by lra. destruct (Rlt_dec _ tol); [reflexivity|contradiction].
      * eapply Rle_trans; [exact He|]. apply Rmult_le_reg_r with (/ (An / Bn)); [apply Rinv_0_lt_compat, Pq|]. rewrite Rmult_assoc, Rinv_r by lra. unfold Rdiv at 1 in Hl. lra.
    + destruct (IH (S k) _ _ _ _ _ _ ltac:(lia) ltac:(lia) Hst') as (N & v & Hv & R1 & R2). exists (S N), v. split; [|split; [exact R1|exact R2]].
      intros [|fuel] Hf; [lia|]. cbn [fraction_loop]. fold An Bn. rewrite odiv_ok by lra. rewrite odiv_ok by lra. destruct (Rlt_dec _ tol); [contradiction|]. replace (k + 1)%nat with (S k) by lia. apply Hv. lia.
Qed.
Lemma fraction_ends : exists N v, (forall fuel, (N <= fuel)%nat -> fraction_loop fuel a tol 0 1 1 (z - a + 1) (a - 1) (z - a + 1 + 2) 1 0 = Some v) /\ 0 < v /\ Rabs (S_ - v) <= tol * v.
Proof using Hz Hn Htol.
  destruct (step_S 1 0 1 1 (z - a + 1) (a - 1) (z - a + 1 + 2) ltac:(lia) step_1) as (P1 & P2 & HR & Hst).
  set (An := (z - a + 1 + 2) * 1 + (a - 1) * 0) in *. set (Bn := (z - a + 1 + 2) * (z - a + 1) + (a - 1) * 1) in *. assert (0 < An / Bn) as Pq by (apply Rmult_lt_0_compat; [exact P1|apply Rinv_0_lt_compat, P2]).
  assert (Rabs (An / Bn - 0) / (An / Bn) = 1) as Ee. { rewrite Rminus_0_r, Rabs_pos_eq by lra. unfold Rdiv at 1. apply Rinv_r. lra. }
  destruct (Nat.eq_dec n 0) as [->|Hne].
  - change (INR 0) with 0 in Hn. change (INR (0 + 1)) with 1 in *. assert (An / Bn = / z) as Eq by (unfold An, Bn; field; repeat split; nra). exists 2%nat, (/ z). split; [|split].
    + intros [|[|fuel]] Hf; [lia|lia|]. cbn [fraction_loop]. fold An Bn. rewrite odiv_ok by lra. rewrite odiv_ok by lra. rewrite Ee. destruct (Rlt_dec 1 tol); [lra|]. change (INR 1) with 1.
      assert (0 < z * z + 6 * z + 6) as Hp by nra.
      assert ((z - 1 + 1 + 2 + 2) * An + (1 - 1 + (1 - 2 * 1 - 1)) * 1 = z * z + 6 * z + 6) as E1 by (unfold An; ring).
      assert ((z - 1 + 1 + 2 + 2) * Bn + (1 - 1 + (1 - 2 * 1 - 1)) * (z - 1 + 1) = z * (z * z + 6 * z + 6)) as E2 by (unfold Bn; ring). rewrite E1, E2.
      rewrite odiv_ok by (apply Rgt_not_eq, Rmult_lt_0_compat; lra). assert ((z * z + 6 * z + 6) / (z * (z * z + 6 * z + 6)) = / z) as E3 by (field; split; lra). rewrite E3, Eq. assert (0 < / z) by (apply Rinv_0_lt_compat, Hz).
      rewrite odiv_ok by lra. replace (/ z - / z) with 0 by ring. rewrite Rabs_R0. rewrite zero_div. destruct (Rlt_dec 0 tol); [reflexivity|lra].
    + apply Rinv_0_lt_compat, Hz.
    + cbn [J]. replace (INR (fact 0) / z ^ 1 - / z) with 0 by (cbn; field; lra). rewrite Rabs_R0. apply Rmult_le_pos; [lra|]. apply Rlt_le, Rinv_0_lt_compat, Hz.
  - destruct (fraction_from (n - 1) 2 _ _ _ _ _ _ ltac:(lia) ltac:(lia) Hst) as (N & v & Hv & R1 & R2). exists (S N), v. split; [|split; [exact R1|exact R2]].
    intros [|fuel] Hf; [lia|]. cbn [fraction_loop]. fold An Bn. rewrite odiv_ok by lra. rewrite odiv_ok by lra. rewrite Ee. destruct (Rlt_dec 1 tol); [lra|]. replace (1 + 1)%nat with 2%nat by lia. apply Hv. lia.
Qed.
Lemma fraction_value : exists N v, (forall fuel, (N <= fuel)%nat -> continued_fraction fuel a z tol = Some v) /\ 0 < v /\ Rabs (v - gam n z) <= tol * v.
Proof using Hz Hn Htol.
  destruct fraction_ends as (N & c & Hc & R1 & R2). assert (exp_log a z z = exp (- z) * z ^ S n) as E.
  { unfold exp_log. destruct (Req_EM_T z 0); [lra|]. replace (a * ln z - z) with (- z + a * ln z) by ring. rewrite exp_plus, exp_ln_pow by exact Hz. replace (n + 1)%nat with (S n) by lia. reflexivity. }
  exists N, (exp_log a z z * c). split. { intros fuel Hf. unfold continued_fraction. rewrite (Hc fuel Hf). reflexivity. }
  rewrite E. assert (0 < exp (- z) * z ^ S n) as P. { apply Rmult_lt_0_compat; [apply exp_pos|apply pow_lt, Hz]. } set (w := exp (- z) * z ^ S n) in *. split; [apply Rmult_lt_0_compat; assumption|].
  rewrite <- J_gam. fold w. replace (w * c - w * S_) with (- (w * (S_ - c))) by ring. rewrite Rabs_Ropp, Rabs_mult, (Rabs_pos_eq w) by lra. replace (tol * (w * c)) with (w * (tol * c)) by ring. apply Rmult_le_compat_l; lra.
Qed.
End fraction.
