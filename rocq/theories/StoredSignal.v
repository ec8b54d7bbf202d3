(** C65: signals from the stored field of the analytic calculator. *)
From stdpp Require Import base list list_numbers numbers option gmap countable.
From Coq Require Import Reals Lra Lia NArith ZArith.
From Flocq Require Import Core IEEE754.BinarySingleNaN IEEE754.Binary IEEE754.Bits.
From Verif Require Import NDArrayModel CodecModel StreamerModel StreamerProps KernelModel KernelProps BBoxModel RTreeModel RTreeInsert RTreeProps ChunkMetaModel ChunkCacheModel ChunkCacheSpec LibraryModel LibrarySpec LibraryProofs
  RebuildModel InterpProps SignalModel SignalProps ReadModel ReadSpec ReadProofs ReadAnalytic AnalyticModel AnalyticSpec AnalyticProofs AnalyticProps GammaModel GammaSpec GammaProofs GammaProps DipoleModel DipoleSpec DipoleProofs DipoleProps SamplingModel SamplingProps
  StoredModel StoredSpec StoredProps StoredSignalSpec LibrarySpec ReadSpec.
Local Open Scope R_scope.

(** * The field is bounded *)
Lemma pulse_bound lg n tp u T : log_gamma lg -> (0 < n)%nat -> 0 < tp -> tp <= T -> u <= T -> let c := (INR n / tp) ^ S n / INR (fact n) * T ^ n in
  0 <= filtered_delta lg n tp u <= c /\ Rabs (filtered_delta_prime lg n tp u) <= c * (INR n / tp).
Proof.
  intros Hlg Hn Htp HT Hu c. rewrite (delta_eq n tp Hn Htp lg Hlg u). unfold filtered_delta_prime, impulse_response. rewrite (delta_eq n tp Hn Htp lg Hlg u). unfold impulse_response. pose proof (w_pos n tp Hn Htp) as Hw. pose proof (fact_pos n) as Hf.
  set (k := (INR n / tp) ^ S n / INR (fact n)) in *. assert (0 < k) as Hk. { apply Rmult_lt_0_compat; [apply pow_lt, Hw|apply Rinv_0_lt_compat, Hf]. }
  assert (0 <= c) as Hc. { apply Rmult_le_pos; [lra|]. apply pow_le. lra. }
  destruct (Rle_dec u 0) as [H|H]; [rewrite Rabs_R0; split; [lra|]; apply Rmult_le_pos; lra|]. assert (0 < u) as Hu0 by lra.
  assert (exp (- (INR n * u / tp)) <= 1) as He. { rewrite <- exp_0. assert (0 <= INR n * u / tp) as H0. { apply Rmult_le_pos; [apply Rmult_le_pos; [apply pos_INR|lra]|apply Rlt_le, Rinv_0_lt_compat, Htp]. } destruct (Req_dec (INR n * u / tp) 0) as [E|E]; [rewrite E, Ropp_0; lra|]. apply Rlt_le, exp_increasing. lra. }
  pose proof (exp_pos (- (INR n * u / tp))) as He0. set (e := exp _) in *. clearbody e. assert (0 < u ^ n) as Hun by (apply pow_lt; lra). assert (u ^ n <= T ^ n) as HuT by (apply pow_incr; lra). split.
  - split; [apply Rmult_le_pos; [apply Rmult_le_pos; lra|lra]|]. unfold c. rewrite Rmult_assoc. apply Rmult_le_compat_l; [lra|]. apply Rle_trans with (u ^ n * 1); [apply Rmult_le_compat_l; lra|lra].
  - destruct n as [|m] eqn:En; [lia|]. rewrite <- En in *. assert (u ^ n = u * u ^ m) as Eu by (rewrite En; reflexivity). assert (T ^ n = T * T ^ m) as ET by (rewrite En; reflexivity).
    replace (k * u ^ n * e * (tp - u) * INR n / (tp * u)) with (INR n / tp * (k * (u ^ m * e * (tp - u)))) by (rewrite Eu; field; lra). rewrite Rabs_mult, (Rabs_pos_eq (INR n / tp)) by lra. rewrite (Rmult_comm c). apply Rmult_le_compat_l; [lra|].
    rewrite Rabs_mult, (Rabs_pos_eq k) by lra. unfold c. apply Rmult_le_compat_l; [lra|]. assert (0 < u ^ m) as Hum by (apply pow_lt; lra). assert (u ^ m <= T ^ m) as HmT by (apply pow_incr; lra).
    rewrite Rabs_mult, (Rabs_pos_eq (u ^ m * e)) by (apply Rmult_le_pos; lra). change (T ^ S m) with (T * T ^ m). rewrite (Rmult_comm T). apply Rmult_le_compat; [apply Rmult_le_pos; lra|apply Rabs_pos| |apply Rabs_le; lra].
    apply Rle_trans with (u ^ m * 1); [apply Rmult_le_compat_l; lra|lra].
Qed.
Lemma step_bounds n tp u : (0 < n)%nat -> 0 < tp -> 0 <= step_response n tp u <= 1.
Proof.
  intros Hn Htp. rewrite (step_response_eq n tp Hn Htp). unfold filtered_step. destruct (Rle_dec u 0) as [H|H]; [lra|]. unfold smooth_step. pose proof (fact_pos n) as Hf. pose proof (w_pos n tp Hn Htp) as Hw.
  assert (0 < INR n / tp * u) as Hx by (apply Rmult_lt_0_compat; lra). pose proof (gam_pos n _ Hx) as G1. pose proof (gam_le n _ Hx) as G2. set (x := gam n _) in *. clearbody x.
  assert (0 <= x / INR (fact n) <= 1); [|lra]. split; [apply Rmult_le_pos; [lra|apply Rlt_le, Rinv_0_lt_compat, Hf]|]. apply Rmult_le_reg_r with (INR (fact n)); [exact Hf|]. unfold Rdiv. rewrite Rmult_assoc, Rinv_l by lra. lra.
Qed.
Lemma inv_le a b : 0 < a -> a <= b -> / b <= / a.
Proof. intros. apply Rinv_le_contravar; lra. Qed.
Lemma field_small lg n tp eta r_min T t r z : log_gamma lg -> (0 < n)%nat -> 0 < tp -> 0 < eta -> 0 < r_min -> tp <= T -> t <= T -> r_min <= sqrt (r ^ 2 + z ^ 2) ->
  exists N er ez, (forall fuel, (N <= fuel)%nat -> E_rxy lg n tp eta r_min fuel t r z = Some (Some er) /\ E_z lg n tp eta r_min fuel t r z = Some (Some ez)) /\
    Rabs er <= largest_field n tp eta r_min T /\ Rabs ez <= largest_field n tp eta r_min T.
Proof.
  intros Hlg Hn Htp Heta Hrm HT Ht Hd. set (d := sqrt (r ^ 2 + z ^ 2)) in *. assert (0 < d) as Hd0 by lra.
  assert (0 < r ^ 2 + z ^ 2) as Hrz. { pose proof (pow2_ge_0 r). pose proof (pow2_ge_0 z). destruct (Req_dec (r ^ 2 + z ^ 2) 0) as [E|E]; [|lra]. unfold d in Hd0. rewrite E, sqrt_0 in Hd0. lra. }
  destruct (theta_close n tp Hn Htp lg Hlg (t - d * eta)) as (N & th & Hth & Hc & _). exists N. eexists. eexists. split.
  { intros fuel Hf. exact (components lg n tp eta r_min fuel t r z th Hrz Hd (Hth fuel Hf)). }
  fold d. set (u := t - d * eta) in *. assert (u <= T) as Hu. { unfold u. assert (0 < d * eta) by (apply Rmult_lt_0_compat; lra). lra. }
  pose proof (pulse_bound lg n tp u T Hlg Hn Htp HT Hu) as HPB. cbv zeta in HPB. destruct HPB as [HD HD']. pose proof (step_bounds n tp u Hn Htp) as HP. unfold largest_field. set (c := (INR n / tp) ^ S n / INR (fact n) * T ^ n) in *.
  set (D := filtered_delta lg n tp u) in *. set (D' := filtered_delta_prime lg n tp u) in *. unfold default_tol in Hc. set (tl := 1 / 1000000 * (INR n + 2)) in *. set (P := step_response n tp u) in *.
  assert (Rabs th <= 1 + tl) as Hth'. { replace th with (P + (th - P)) by ring. eapply Rle_trans; [apply Rabs_triang|]. rewrite (Rabs_pos_eq P) by lra. lra. }
  clear Hth Hc. clearbody u D D' tl P c. clear Hlg. pose proof PI_RGT_0 as Hpi. assert (0 < eta ^ 2) as He2 by (apply pow_lt, Heta). set (k := / (4 * PI * eta ^ 2)). assert (0 < k) as Hk. { apply Rinv_0_lt_compat. apply Rmult_lt_0_compat; lra. }
  assert (factor eta = k) as ->. { unfold factor, k. field. lra. }
  assert (d ^ 2 = r ^ 2 + z ^ 2) as Ed by (unfold d; apply pow2_sqrt; lra). clearbody d. set (M := c * (INR n / tp)) in *. 
  assert (0 <= M) as HM by (eapply Rle_trans; [apply Rabs_pos|exact HD']). assert (0 <= 1 + tl) as Htl by (eapply Rle_trans; [apply Rabs_pos|exact Hth']). assert (0 <= c) as Hc0 by lra.
  match goal with |- Rabs ?x <= ?b /\ Rabs ?y <= ?b => set (X := x); set (Y := y); set (B := b) end.
  assert (B = k * (2 * (1 + tl) * / r_min ^ 3 + 2 * eta * c * / r_min ^ 2 + eta ^ 2 * M * / r_min)) as EB. { unfold B, k, M. unfold Rdiv. ring. }
  assert (forall s, Rabs s <= 2 -> forall s', Rabs s' <= 1 -> Rabs (k * / d ^ 3 * (s * (th + d * eta * D) + s' * ((d * eta) ^ 2 * D'))) <= B) as Hb.
  { intros s Hs s' Hs'. rewrite EB, Rmult_assoc, Rabs_mult, (Rabs_pos_eq k) by lra. apply Rmult_le_compat_l; [lra|]. assert (0 < d ^ 3) as Hd3 by (apply pow_lt, Hd0).
    replace (/ d ^ 3 * (s * (th + d * eta * D) + s' * ((d * eta) ^ 2 * D'))) with (s * (th * / d ^ 3) + s * (eta * D * / d ^ 2) + s' * (eta ^ 2 * D' * / d)) by (field; lra).
    assert (forall q x a y b, Rabs q <= a -> Rabs x <= y -> 0 < b -> b <= d -> forall m, Rabs (q * (x * / d ^ m)) <= a * y * / b ^ m) as Hterm.
    { intros q x a y b H1 H2 H3 H4 m. rewrite !Rabs_mult. rewrite Rmult_assoc. apply Rmult_le_compat; [apply Rabs_pos|apply Rmult_le_pos; apply Rabs_pos|exact H1|]. apply Rmult_le_compat; [apply Rabs_pos|apply Rabs_pos|exact H2|].
      assert (0 < d ^ m) as Hdm by (apply pow_lt, Hd0). rewrite Rabs_pos_eq by (apply Rlt_le, Rinv_0_lt_compat, Hdm). apply inv_le; [apply pow_lt, H3|]. apply pow_incr. lra. }
    pose proof (Hterm s th 2 (1 + tl) r_min Hs Hth' Hrm Hd 3%nat) as T1.
    assert (Rabs (eta * D) <= eta * c) as HeD. { rewrite Rabs_mult, (Rabs_pos_eq eta), (Rabs_pos_eq D) by lra. apply Rmult_le_compat_l; lra. }
    assert (Rabs (eta ^ 2 * D') <= eta ^ 2 * M) as HeD'. { rewrite Rabs_mult, (Rabs_pos_eq (eta ^ 2)) by lra. apply Rmult_le_compat_l; lra. }
    pose proof (Hterm s (eta * D) 2 (eta * c) r_min Hs HeD Hrm Hd 2%nat) as T2. pose proof (Hterm s' (eta ^ 2 * D') 1 (eta ^ 2 * M) r_min Hs' HeD' Hrm Hd 1%nat) as T3. rewrite !pow_1 in T3.
    eapply Rle_trans; [apply Rabs_triang|]. eapply Rle_trans; [apply Rplus_le_compat_r, Rabs_triang|]. lra. }
  pose proof (pow2_ge_0 r) as Q1. pose proof (pow2_ge_0 z) as Q2. assert (0 < d ^ 2) as Hd2 by lra. assert (forall x a, Rabs x <= a * d ^ 2 -> Rabs (x / d ^ 2) <= a) as Hdiv.
  { intros x a Hx. unfold Rdiv. rewrite Rabs_mult, (Rabs_pos_eq (/ d ^ 2)) by (apply Rlt_le, Rinv_0_lt_compat, Hd2). apply Rmult_le_reg_r with (d ^ 2); [exact Hd2|]. rewrite Rmult_assoc, Rinv_l by lra. lra. }
  assert (Rabs (Rabs r * z) <= (r ^ 2 + z ^ 2) / 2) as Hq. { pose proof (Rle_0_sqr (Rabs r - z)) as S1. pose proof (Rle_0_sqr (Rabs r + z)) as S2. unfold Rsqr in S1, S2. assert (Rabs r * Rabs r = r ^ 2) as Er by (rewrite <- Rabs_mult, Rabs_pos_eq by (apply Rle_0_sqr); ring). apply Rabs_le. lra. }
  split.
  - assert (X = k * / d ^ 3 * ((- (3) * (Rabs r * z) / d ^ 2) * (th + d * eta * D) + (- (Rabs r * z) / d ^ 2) * ((d * eta) ^ 2 * D'))) as ->. { unfold X. field. lra. }
    apply Hb; apply Hdiv; [rewrite Rabs_mult, (Rabs_left (- (3))) by lra; lra|rewrite Rabs_Ropp; lra].
  - assert (Y = k * / d ^ 3 * (((Rabs r * Rabs r - 2 * z ^ 2) / d ^ 2) * (th + d * eta * D) + ((Rabs r * Rabs r) / d ^ 2) * ((d * eta) ^ 2 * D'))) as ->. { unfold Y. field. lra. }
    assert (Rabs r * Rabs r = r ^ 2) as Er by (rewrite <- Rabs_mult, Rabs_pos_eq by (apply Rle_0_sqr); ring). rewrite Er. apply Hb; apply Hdiv; apply Rabs_le; lra.
Qed.

(** * The signal *)
Lemma grid_choice (P : nat -> nat -> nat -> nat -> Prop) (nr nz nt : nat) : (forall i j k, (i <= nr)%nat -> (j <= nz)%nat -> (k <= nt)%nat -> exists N, forall fuel, (N <= fuel)%nat -> P i j k fuel) ->
  exists N, forall fuel, (N <= fuel)%nat -> forall i j k, (i <= nr)%nat -> (j <= nz)%nat -> (k <= nt)%nat -> P i j k fuel.
Proof.
  intros H. destruct (bounded_choice (fun i fuel => forall j k, (j <= nz)%nat -> (k <= nt)%nat -> P i j k fuel) nr) as (N & HN).
  { intros i Hi. destruct (bounded_choice (fun j fuel => forall k, (k <= nt)%nat -> P i j k fuel) nz) as (N & HN).
    { intros j Hj. destruct (bounded_choice (fun k fuel => P i j k fuel) nt) as (N & HN); [intros k Hk; by apply H|]. exists N. intros fuel Hf k Hk. by apply HN. }
    exists N. intros fuel Hf j k Hj Hk. by apply HN. }
  exists N. intros fuel Hf i j k Hi Hj Hk. by apply HN.
Qed.

Theorem C65_signal lg n tp eta r_min os dp dt junk L ar az br bz t_end nr nz nt max_pts uuids uuids2 ord size2 cs2 K ignore ib sb seg t0 samp weight num m signal :
  log_gamma lg -> (0 < n)%nat -> 0 < tp -> 0 < eta -> 0 <= ar -> 0 < r_min -> largest_field n tp eta r_min (Rmax tp t_end) <= 2 ^ 127 -> delta_pos n tp eta os = Some dp -> delta_t n tp os = Some dt ->
  lib_ok L -> (junk < 2 ^ 32)%N -> (forall F, (forall r z t, length (F r z t) = 2%nat /\ Forall (fun b => b < 2 ^ 32)%N (F r z t)) -> ok_dipole 2 F ar az br bz t_end dp dp dt nr nz nt max_pts uuids uuids2) ->
  (forall k, ord k ≡ₚ k) -> acceptable_chunk 3 cs2 -> K = linear \/ K = keys ->
  (1 <= ib)%nat -> (1 <= sb)%nat -> 0 < samp -> s_t0 seg < s_t1 seg -> INR m - 1 < s_t1 seg - s_t0 seg <= INR m ->
  (forall p, (p <= m)%nat -> - (2 ^ 31) <= (time_at seg m p - t0) / samp <= 2 ^ 31 - 1) ->
  let start := (ar, az, 0) in let interval := ((br - ar) / INR nr, (bz - az) / INR nz, (t_end - 0) / INR nt) in
  (forall p j, (p <= m)%nat -> (j < num)%nat -> time_at seg m p <= t0 + INR j * samp ->
    let G := coords start interval in let s := t0 + INR j * samp - time_at seg m p in
    ar <= radius (along seg m p) <= br /\ az <= (along seg m p).2 <= bz /\ s <= t_end /\
    uses K (fun r z t => determined nr nz nt r z t /\ away r_min ar az br bz nr nz nt r z t) (ind_r G seg m p) (ind_z G seg m p) (ind_t G s) /\
    (k_support K = 1%nat \/ forall k, (0 < k <= nt)%nat -> ind_t G s <> INR k)) ->
  (num <= length signal)%nat ->
  exists N, forall fuel, (N <= fuel)%nat -> exists g d l l', dipole_samples n tp eta r_min ar az br bz t_end nr nz nt g /\
    electric_dipole 2 junk L (field_bits lg n tp eta r_min fuel) ar az br bz t_end dp dp dt max_pts uuids uuids2 ord = Done (d, (start, (br, bz, t_end), interval)) /\
    lib_open 2 3 junk L size2 cs2 d = Done l /\
    apply_accumulate_on junk start interval ib sb K ignore seg t0 samp num weight signal l =
      Done (imap (fun j y => y + if (j <? num)%nat then direct_sum (coords start interval) (grid_field K g) seg m weight (t0 + INR j * samp) else 0) signal, l').
Proof.
  intros Hlg Hn Htp Heta Har Hrm Hlf Hdp Hdt HL Hj Hok Hord Hcs HK Hib Hsb Hsamp Hseg Hm Hrange start interval Hcov Hlen.
  destruct (Hok (fun _ _ _ => [0; 0]%N)) as [(Fr & Fz & Ft) _ _ _ _ _]. { intros. split; [reflexivity|]. repeat constructor. }
  apply steps_fit_pos in Fr as (A1 & N1 & D1). apply steps_fit_pos in Fz as (A2 & N2 & D2). apply steps_fit_pos in Ft as (A3 & N3 & D3).
  assert (forall i, 0 <= coord ar br nr (Z.of_nat i)) as Hpos. { intros i. unfold coord. rewrite <- INR_IZR_INZ. pose proof (pos_INR i) as Hi. pose proof (Rmult_le_pos _ _ Hi (Rlt_le _ _ D1)). lra. }
  assert (forall k, (k <= nt)%nat -> coord 0 t_end nt (Z.of_nat k) <= t_end) as Htime.
  { intros k Hk. unfold coord. rewrite <- INR_IZR_INZ. apply le_INR in Hk. assert (0 < INR nt) by (by apply lt_0_INR). apply Rle_trans with (0 + INR nt * ((t_end - 0) / INR nt)); [|right; field; lra]. apply Rplus_le_compat_l, Rmult_le_compat_r; lra. }
  destruct (grid_choice (fun i j k fuel => let r := coord ar br nr (Z.of_nat i) in let z := coord az bz nz (Z.of_nat j) in let t := coord 0 t_end nt (Z.of_nat k) in
    dipole_sample n tp eta r_min r z t (field_bits lg n tp eta r_min fuel r z t) /\
    (r_min <= sqrt (r ^ 2 + z ^ 2) -> Forall (fun b => is_finite 24 128 (b32_of_bits (Z.of_N b)) = true) (field_bits lg n tp eta r_min fuel r z t))) nr nz nt) as (N & HN).
  { intros i j k Hi Hj' Hk. cbv zeta. set (r := coord ar br nr (Z.of_nat i)). set (z := coord az bz nz (Z.of_nat j)). set (t := coord 0 t_end nt (Z.of_nat k)). specialize (Htime k Hk). specialize (Hpos i). fold t in Htime. fold r in Hpos.
    destruct (sample_point lg n tp eta r_min r z t Hlg Hn Htp Heta Hpos) as (M1 & H1). destruct (Rle_dec r_min (sqrt (r ^ 2 + z ^ 2))) as [Hd|Hd].
    - destruct (field_small lg n tp eta r_min (Rmax tp t_end) t r z Hlg Hn Htp Heta Hrm (Rmax_l _ _) (Rle_trans _ _ _ Htime (Rmax_r _ _)) Hd) as (M2 & er & ez & H2 & B1 & B2).
      exists (Nat.max M1 M2). intros fuel Hf. split; [apply H1; lia|]. intros _. destruct (H2 fuel ltac:(lia)) as [E1 E2]. unfold field_bits. rewrite E1, E2. constructor; [|constructor; [|constructor]]; apply nearest_is; lra.
    - exists M1. intros fuel Hf. split; [by apply H1|]. intros Hx. contradiction. }
  exists N. intros fuel Hf. specialize (HN fuel Hf). cbv zeta in HN. set (F := field_bits lg n tp eta r_min fuel) in *.
  assert (ok_dipole 2 F ar az br bz t_end dp dp dt nr nz nt max_pts uuids uuids2) as Hok'.
  { apply Hok. intros r' z' t'. split; [reflexivity|]. assert (forall x, (stored_bits x < 2 ^ 32)%N) as Hs. { intros [[x|]|]; [apply nearest_range|reflexivity|reflexivity]. } repeat constructor; apply Hs. }
  destruct (analytic_signal junk L F ar az br bz t_end dp dp dt nr nz nt max_pts uuids uuids2 ord size2 cs2 K ignore ib sb seg t0 samp weight num m signal) as (d & l & l' & E1 & E2 & E3); try assumption.
  - intros p j Hp Hjn Ht. destruct (Hcov p j Hp Hjn Ht) as (B1 & B2 & B3 & Hu & Ho). cbv zeta. split; [exact B1|]. split; [exact B2|]. split; [exact B3|]. split; [|exact Ho].
    intros j1 j2 j3 T1 T2 T3. destruct (Hu j1 j2 j3 T1 T2 T3) as [U1 U2]. split; [exact U1|]. intros R1 R2 R3. specialize (U2 R1 R2 R3).
    destruct (HN (Z.to_nat (Z.abs j1)) (Z.to_nat j2) (Z.to_nat j3) ltac:(lia) ltac:(lia) ltac:(lia)) as [_ H]. rewrite !Z2Nat.id in H by lia. exact (H U2).
  - exists (samples F ar az br bz t_end nr nz nt), d, l, l'. split; [|exact (conj E1 (conj E2 E3))]. clear E1 E2 E3 Hcov. split.
    + intros r z t R1 R2 R3. destruct (HN (Z.to_nat (Z.abs r)) (Z.to_nat z) (Z.to_nat t) ltac:(lia) ltac:(lia) ltac:(lia)) as [H _]. rewrite !Z2Nat.id in H by lia.
      unfold samples. rewrite !decide_True by exact (conj R1 (conj R2 R3)). eexists. eexists. split; [exact H|]. split; reflexivity.
    + intros r z t i Hout. unfold samples. by rewrite decide_False.
Qed.
Print Assumptions C65_signal.

(** * The hypotheses are met: order 1, peaking time 1, index 1, oversampling 1; a region of 3 by 2 steps from one step off the axis, for 4 steps of time; a radial track. *)
Lemma example_step : exists d, delta_pos 1 1 1 1 = Some d /\ delta_t 1 1 1 = Some d /\ 3 <= d <= 8.
Proof.
  destruct (C66_steps 1 1 1 1 ltac:(lia) ltac:(lra) ltac:(lra) ltac:(lra)) as (f & dt & dp & Ef & E1 & E2 & P1 & P2 & T1 & _ & Ed). assert (dp = dt) as -> by lra. exists dt. split; [exact E2|]. split; [exact E1|].
  destruct (Rpower_root 1) as [X1 X2]. unfold fmax in Ef. set (x := Rpower 2 (1 / INR (1 + 1))) in *. pose proof PI_4 as Q1. pose proof PI2_3_2 as Q2. unfold PI2 in Q2.
  rewrite odiv_ok in Ef by lra. injection Ef as Ef. assert (x ^ 2 = 2) as Ex by exact X2. clear X2. assert (5 / 4 <= x <= 2) as Hx by nra.
  assert (1 / 2 <= sqrt (x - 1) <= 1) as Hs. { split; [rewrite <- (sqrt_Rsqr (1 / 2)) by lra; apply sqrt_le_1_alt; unfold Rsqr; lra|]. rewrite <- sqrt_1 at 2. apply sqrt_le_1_alt. lra. }
  set (s := sqrt (x - 1)) in *. clearbody s. clear E1 E2 Hx Ex X1. clearbody x. change (INR 1) with 1 in Ef.
  assert (0 < 2 * PI * 1) as Hp by lra. assert (f * (2 * PI) = s) as Efs. { rewrite <- Ef. field. lra. } assert (0 < f) as Hf. { destruct (Rlt_le_dec 0 f) as [H|H]; [exact H|]. exfalso. nra. }
  assert (1 / f * f = 1) as Einv by (field; lra). assert (2 * dt * f = 1) as Edt by (rewrite <- Einv, <- T1; ring). split; nra.
Qed.
Definition rs_seg (d : R) : segment := Segment (2 * d, 0, d) (3 * d, 0, d) 0 2 1.
Example C65_signal_nonvacuous (size2 : nat) : exists (dd : R) (N : nat), forall fuel, (N <= fuel)%nat -> exists g (d : dir) (c : (R * R * R) * (R * R * R) * (R * R * R)) (l l' : clib),
  delta_pos 1 1 1 1 = Some dd /\ delta_t 1 1 1 = Some dd /\ dipole_samples 1 1 1 1 dd 0 (4 * dd) (2 * dd) (4 * dd) 3 2 4 g /\
  electric_dipole 2 0 lib0 (field_bits lg0 1 1 1 1 fuel) dd 0 (4 * dd) (2 * dd) (4 * dd) dd dd dd 2 an_names an_names2 (fun k => k) = Done (d, c) /\ lib_open 2 3 0 lib0 size2 [2; 2; 2]%nat d = Done l /\
  apply_accumulate_on 0 c.1.1 c.2 2 2 linear false (rs_seg dd) 0 1 3 1 [0; 0; 0; 5] l =
    Done (imap (fun j y => y + if (j <? 3)%nat then direct_sum (coords c.1.1 c.2) (grid_field linear g) (rs_seg dd) 2 1 (0 + INR j * 1) else 0) [0; 0; 0; 5], l').
Proof.
  destruct example_step as (dd & E1 & E2 & Hd1 & Hd2). exists dd. pose proof PI_4 as Q1. pose proof PI2_3_2 as Q2. unfold PI2 in Q2.
  assert (INR 3 = 3 /\ INR (3 + 1) = 4 /\ INR 2 = 2 /\ INR (2 + 1) = 3 /\ INR 4 = 4 /\ INR (4 + 1) = 5) as (I1 & I2 & I3 & I4 & I5 & I6) by (cbn; lra).
  destruct (C65_signal lg0 1 1 1 1 1 dd dd 0 lib0 dd 0 (4 * dd) (2 * dd) (4 * dd) 3 2 4 2 an_names an_names2 (fun k => k) size2 [2; 2; 2]%nat linear false 2 2 (rs_seg dd) 0 1 1 3 2 [0; 0; 0; 5]) as (N & HN).
  - exact C64_hypotheses_nonvacuous.
  - lia.
  - lra.
  - lra.
  - lra.
  - lra.
  - unfold largest_field. change (INR (fact 1)) with 1. change (INR 1) with 1. rewrite !pow1, !pow_1. replace ((1 / 1) ^ 2) with 1 by (cbn; field). rewrite Rmax_right by lra. apply Rle_trans with 100.
    + apply Rmult_le_reg_r with (4 * PI * 1); [lra|]. unfold Rdiv. rewrite (Rmult_assoc _ (/ _)), Rinv_l by lra. lra.
    + apply Rle_trans with (2 ^ 7); [cbn; lra|]. apply Rle_pow; [lra|lia].
  - exact E1.
  - exact E2.
  - exact lib0_ok.
  - done.
  - intros F HF. destruct C62_hypotheses_nonvacuous as [_ _ H3 H4 H5 H6]. split; [|exact HF|exact H3|exact H4|exact H5|exact H6]. unfold steps_fit. rewrite I1, I2, I3, I4, I5, I6. split_and!; try lia; lra.
  - done.
  - split; [done|]. split; [repeat constructor; lia|]. constructor. done.
  - by left.
  - lia.
  - lia.
  - lra.
  - cbn. lra.
  - cbn. lra.
  - intros p Hp. unfold time_at. cbn [rs_seg s_t0 s_t1]. apply le_INR in Hp. pose proof (pos_INR p). rewrite I3 in *. lra.
  - intros p j Hp Hj _. assert (INR p <= 2) as Hp2 by (rewrite <- I3; by apply le_INR). pose proof (pos_INR p). assert (INR j <= 2) as Hj2 by (rewrite <- I3; apply le_INR; lia). pose proof (pos_INR j). cbv zeta.
    assert (2 * dd <= radius (along (rs_seg dd) 2 p) <= 3 * dd) as Hr.
    { unfold radius, along. cbn [rs_seg s_start s_end fst snd]. rewrite I3. set (q := INR p) in *. clearbody q. match goal with |- _ <= sqrt ?e <= _ => assert (e = Rsqr (2 * dd + q / 2 * dd)) as -> by (unfold Rsqr; lra) end.
      rewrite sqrt_Rsqr by nra. nra. }
    split; [lra|]. unfold along, time_at. cbn [rs_seg s_start s_end s_t0 s_t1 fst snd]. rewrite I3. split; [lra|]. split; [lra|]. split; [|by left].
    intros j1 j2 j3 (H1 & H1') _ _. cbn [linear k_support] in H1. split.
    + left. match type of H1' with (_ <= Int_part ?e + _)%Z => assert (0 <= Int_part e)%Z; [|lia] end. apply Int_part_bound. unfold ind_r. cbn [coords g_start g_interval fst snd]. rewrite I1.
      apply Rmult_le_pos; [lra|]. apply Rlt_le, Rinv_0_lt_compat. lra.
    + intros _ _ _. apply Rle_trans with dd; [lra|]. rewrite <- (sqrt_Rsqr dd) at 1 by lra. apply sqrt_le_1_alt. unfold coord. rewrite I1. replace ((4 * dd - dd) / 3) with dd by lra. assert (0 <= IZR (Z.abs j1)) as Hj1 by (apply IZR_le; lia).
      pose proof (pow2_ge_0 (0 + IZR j2 * ((2 * dd - 0) / INR 2))) as Hq. set (y := (0 + _) ^ 2) in *. set (x := IZR (Z.abs j1)) in *. clearbody x y. unfold Rsqr. nra.
  - cbn. lia.
  - exists N. intros fuel Hf. destruct (HN fuel Hf) as (g & d & l & l' & H1 & H2 & H3 & H4). eexists g, d, _, l, l'. split; [exact E1|]. split; [exact E2|]. split; [exact H1|]. split; [exact H2|]. split; [exact H3|exact H4].
Qed.
