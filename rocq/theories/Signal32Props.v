(** C75: the times of a signal calculation in 32-bit floats. *)
From stdpp Require Import base list numbers option.
From Coq Require Import Reals ZArith Bool Lra Lia.
From Flocq Require Import Core IEEE754.BinarySingleNaN.
From Verif Require Import NDArrayModel BBoxModel ChunkMetaModel InterpModel SignalModel AntennaModel AntennaSpec AntennaProps DiscreteModel DiscreteSpec DiscreteProps.
From Verif Require Import Interp32Model Interp32Spec Interp32Weights Signal32Model Signal32Spec.
Local Open Scope R_scope.
Local Notation fexp32 := (FLT_exp (-149) 24).
Local Notation rnd32 := (round radix2 fexp32 ZnearestE).
Local Instance valid32'' : Valid_exp fexp32. Proof. apply FLT_exp_valid. reflexivity. Qed.
Local Notation u := (/ 16777216).

(** * Numbers on a grid *)
Lemma reach_small k : time_grid k -> reach k <= bpow radix2 127. Proof. intros H. unfold reach. apply bpow_le. unfold time_grid in H. lia. Qed.
Lemma reach_value k : reach k = 16777216 * bpow radix2 k. Proof. unfold reach. rewrite bpow_plus. reflexivity. Qed.
Lemma multiple_plus k x y : multiple k x -> multiple k y -> multiple k (x + y). Proof. intros (a & ->) (b & ->). exists (a + b)%Z. rewrite plus_IZR. ring. Qed.
Lemma multiple_minus k x y : multiple k x -> multiple k y -> multiple k (x - y). Proof. intros (a & ->) (b & ->). exists (a - b)%Z. rewrite minus_IZR. ring. Qed.
Lemma multiple_times k n x : multiple k x -> multiple k (INR n * x). Proof. intros (a & ->). exists (Z.of_nat n * a)%Z. rewrite mult_IZR, <- INR_IZR_INZ. ring. Qed.
Lemma grid_format k x : time_grid k -> multiple k x -> Rabs x <= reach k -> rnd32 x = x.
Proof. intros Hk Hm Hr. apply round_generic; [typeclasses eauto|]. apply (multiple_format k); [unfold time_grid in Hk; lia|exact Hm|exact Hr]. Qed.
Lemma plus_grid k (x y : f32) : time_grid k -> is_finite x = true -> is_finite y = true -> multiple k (B2R x) -> multiple k (B2R y) -> Rabs (B2R x + B2R y) <= reach k -> has_value (Bplus mode_NE x y) (B2R x + B2R y).
Proof.
  intros Hk Fx Fy Mx My Hr. destruct (plus_value x y Fx Fy) as [F V]; [pose proof (reach_small k Hk); lra|]. split; [exact F|]. rewrite V. apply (grid_format k); [exact Hk|apply multiple_plus; assumption|exact Hr].
Qed.
Lemma minus_grid k (x y : f32) : time_grid k -> is_finite x = true -> is_finite y = true -> multiple k (B2R x) -> multiple k (B2R y) -> Rabs (B2R x - B2R y) <= reach k -> has_value (Bminus mode_NE x y) (B2R x - B2R y).
Proof.
  intros Hk Fx Fy Mx My Hr. destruct (minus_value x y Fx Fy) as [F V]; [pose proof (reach_small k Hk); lra|]. split; [exact F|]. rewrite V. apply (grid_format k); [exact Hk|apply multiple_minus; assumption|exact Hr].
Qed.
Lemma count_value n : INR n <= 16777216 -> has_value (of_size (N.of_nat n)) (INR n).
Proof.
  intros H. assert (N.of_nat n <= 2 ^ 24)%N as HN. { rewrite INR_IZR_INZ in H. apply le_IZR in H. lia. } destruct (of_size_value _ HN) as [F V]. split; [exact F|]. rewrite V. unfold real. rewrite nat_N_Z, <- INR_IZR_INZ. reflexivity.
Qed.
Lemma count_grid k n (x : f32) : time_grid k -> INR n <= 16777216 -> is_finite x = true -> multiple k (B2R x) -> Rabs (INR n * B2R x) <= reach k -> has_value (Bmult mode_NE (of_size (N.of_nat n)) x) (INR n * B2R x).
Proof.
  intros Hk Hn Fx Mx Hr. destruct (count_value n Hn) as [Fn Vn]. destruct (mult_value32 _ x Fn Fx) as [F V]; [rewrite Vn; pose proof (reach_small k Hk); lra|]. split; [exact F|]. rewrite V, Vn.
  apply (grid_format k); [exact Hk|apply multiple_times; assumption|exact Hr].
Qed.
Lemma positive_multiple k x : multiple k x -> 0 < x -> bpow radix2 k <= x.
Proof.
  intros (a & ->) H. pose proof (bpow_gt_0 radix2 k) as B. assert (0 < a)%Z as Ha. { apply lt_IZR. apply (Rmult_lt_reg_r (bpow radix2 k)); lra. } assert (1 <= IZR a) by (apply (IZR_le 1); lia).
  rewrite <- (Rmult_1_l (bpow radix2 k)) at 1. apply Rmult_le_compat_r; lra.
Qed.
Lemma div_value32 (x y : f32) : is_finite x = true -> B2R y <> 0 -> Rabs (B2R x / B2R y) <= bpow radix2 127 -> has_value (Bdiv mode_NE x y) (rnd32 (B2R x / B2R y)).
Proof.
  intros Fx Hy Hb. pose proof (Bdiv_correct 24 128 _ _ mode_NE x y Hy) as HB. change (round_mode mode_NE) with ZnearestE in HB. change (SpecFloat.fexp 24 128) with fexp32 in HB.
  rewrite Rlt_bool_true in HB by (apply below_32; exact Hb). destruct HB as (E & F & _). rewrite Fx in F. split; assumption.
Qed.
Lemma ceil_value (x : f32) : is_finite x = true -> has_value (ceil32 x) (IZR (Zceil (B2R x))).
Proof. intros Hf. unfold ceil32. destruct (Bnearbyint_correct 24 128 _ mode_UP x) as (E & F & _). rewrite round_FIX_IZR in E. change (round_mode mode_UP) with Zceil in E. rewrite Hf in F. split; assumption. Qed.
Lemma int_value (x : f32) z : has_value x (IZR z) -> (- 2 ^ 31 <= z < 2 ^ 31)%Z -> to_int32 x = Some z.
Proof.
  intros [Hf Hv] Hz. unfold to_int32. rewrite Hf. cbv zeta. pose proof (Btrunc_correct 24 128 _ x) as HB. rewrite round_FIX_IZR, Hv, Ztrunc_IZR in HB. apply eq_IZR in HB. rewrite HB.
  rewrite (proj2 (Z.leb_le _ _)) by lia. rewrite (proj2 (Z.ltb_lt _ _)) by lia. reflexivity.
Qed.
Lemma size_value (x : f32) z : has_value x (IZR z) -> (0 <= z < 2 ^ 64)%Z -> to_size32 x = Some (Z.to_N z).
Proof.
  intros [Hf Hv] Hz. unfold to_size32. rewrite Hf. cbv zeta. pose proof (Btrunc_correct 24 128 _ x) as HB. rewrite round_FIX_IZR, Hv, Ztrunc_IZR in HB. apply eq_IZR in HB. rewrite HB.
  rewrite (proj2 (Z.leb_le _ _)) by lia. rewrite (proj2 (Z.ltb_lt _ _)) by lia. reflexivity.
Qed.

(** The quotient of two numbers on a grid rounds to an integer only if it is that integer. *)
Lemma quotient_ceil k x y c : time_grid k -> multiple k x -> multiple k y -> 0 < y <= reach k -> Rabs x < reach k -> rounded_up (x / y) c ->
  Zceil (rnd32 (x / y)) = c /\ Rabs (x / y) <= 16777216 /\ (- 2 ^ 24 <= c <= 2 ^ 24)%Z.
Proof.
  intros Hk (a & ->) (b & ->) [Hy0 Hy1] Hx [C0 C1]. rewrite reach_value in *. pose proof (bpow_gt_0 radix2 k) as B. set (g := bpow radix2 k) in *. clearbody g.
  assert (IZR b > 0) as Hb0. { apply (Rmult_lt_reg_r g); lra. } assert (IZR b <= 16777216) as Hb1. { apply (Rmult_le_reg_r g); lra. }
  assert (Rabs (IZR a) <= 16777215) as Ha. { rewrite Rabs_mult, (Rabs_pos_eq g) in Hx by lra. apply Rmult_lt_reg_r in Hx; [|lra]. rewrite <- abs_IZR in *. apply lt_IZR in Hx. apply IZR_le. lia. }
  assert (IZR a * g / (IZR b * g) = IZR a / IZR b) as Eq by (field; lra). rewrite Eq in *. clear Eq Hx Hy0 Hy1.
  assert (1 <= IZR b) as Hb by (apply (IZR_le 1); apply Rgt_lt, lt_IZR in Hb0; lia).
  set (q := IZR a / IZR b) in *. assert (Eq : IZR a = q * IZR b) by (unfold q; field; lra).
  assert (Rabs q * IZR b <= 16777215) as Hq. { rewrite <- (Rabs_pos_eq (IZR b)) by lra. rewrite <- Rabs_mult, <- Eq. exact Ha. }
  assert (Rabs q <= 16777215) as Hq'. { pose proof (Rabs_pos q). nra. }
  assert (-16777216 <= c <= 16777216)%Z as Hc. { apply Rabs_le_inv in Hq'. split; [apply le_IZR; lra|]. assert (c < 16777217)%Z; [|lia]. apply lt_IZR. lra. }
  assert (generic_format radix2 fexp32 (IZR c)) as Gc by (apply integer_format32; lia).
  split; [|split; [lra|lia]].
  apply Zceil_imp. split.
  - rewrite minus_IZR. assert (IZR c - 1 <= rnd32 q) as H1.
    { destruct (Z_le_gt_dec (-16777215) c) as [Hc'|Hc']. - apply round_ge_generic; [typeclasses eauto|typeclasses eauto| |lra]. rewrite <- minus_IZR. apply integer_format32. lia.
      - assert (rnd32 (-16777216) <= rnd32 q) as H. { apply round_le; [typeclasses eauto|typeclasses eauto|]. apply Rabs_le_inv in Hq'. lra. } rewrite round_generic in H; [|typeclasses eauto|apply (integer_format32 (-16777216)); lia]. assert (IZR c < -16777215) by (apply IZR_lt; lia). lra. }
    destruct H1 as [H1|H1]; [exact H1|]. exfalso.
    (* rounded onto the integer below *)
    pose proof (round_error q) as HE. rewrite ulp32_value in HE. fold eta in HE. rewrite <- H1 in HE. pose proof eta_small as E1.
    assert (IZR c - 1 + / IZR b <= q) as Hgap.
    { apply (Rmult_le_reg_r (IZR b)); [lra|]. rewrite Rmult_plus_distr_r, Rinv_l, <- Eq by lra. assert ((IZR c - 1) * IZR b < IZR a) as Hlt. { rewrite Eq. apply Rmult_lt_compat_r; lra. }
      rewrite <- minus_IZR, <- mult_IZR in *. apply lt_IZR in Hlt. rewrite <- plus_IZR. apply IZR_le. lia. }
    set (ib := / IZR b) in *. assert (0 < ib) as Hib by (apply Rinv_0_lt_compat; lra). assert (ib * IZR b = 1) as Hib' by (unfold ib; field; lra).
    rewrite Rabs_minus_sym in HE. rewrite (Rabs_pos_eq (q - _)) in HE by lra.
    assert (Rabs q <= 16777215 * ib) as Hqi. { apply (Rmult_le_reg_r (IZR b)); [lra|]. rewrite Rmult_assoc, Hib'. lra. }
    assert (u <= ib) as Hibu. { unfold ib. apply Rinv_le_contravar; lra. }
    assert (ib <= 16777215 * ib * u + eta) as Hfin by lra. assert (eta < ib * u) as Heta. { apply Rlt_le_trans with (u * u); [pose proof eta_value as E2; simpl pow in E2; lra|]. apply Rmult_le_compat_r; lra. } lra.
  - apply round_le_generic; [typeclasses eauto|typeclasses eauto|exact Gc|lra].
Qed.

(** * The first sample that an integration point contributes to *)
(** If the times are multiples of a power of two (and fewer than 2^24 of them), it is the first sample that is not earlier than the point, exactly. *)
Theorem C75_first_sample k (t_p ts dt : f32) c : time_grid k -> on_grid k t_p -> on_grid k ts -> on_grid k dt -> 0 < B2R dt -> Rabs (B2R t_p - B2R ts) < reach k ->
  rounded_up ((B2R t_p - B2R ts) / B2R dt) c -> causal_sample32 t_p ts dt = Some (Z.to_nat c).
Proof.
  intros Hk (Fp & Mp & Rp) (Fs & Ms & Rs) (Fd & Md & Rd) Hd Hb Hc. unfold causal_sample32. rewrite (Rabs_pos_eq (B2R dt)) in Rd by lra.
  destruct (minus_grid k t_p ts Hk Fp Fs Mp Ms) as [F1 V1]; [lra|].
  assert (multiple k (B2R t_p - B2R ts)) as Mx by (apply multiple_minus; assumption).
  destruct (quotient_ceil k _ _ c Hk Mx Md (conj Hd Rd) Hb Hc) as (Ec & Bq & Bc).
  destruct (div_value32 (Bminus mode_NE t_p ts) dt F1) as [F2 V2]; [lra|rewrite V1; eapply Rle_trans; [exact Bq|]; change 16777216 with (bpow radix2 24); apply bpow_le; lia|]. rewrite V1 in V2.
  pose proof (ceil_value _ F2) as HC. rewrite V2, Ec in HC. rewrite (int_value _ c HC) by lia. cbn [mbind option_bind]. f_equal. lia.
Qed.
(** The time since the point, at which the Green's function is evaluated: exactly the difference, and not negative. *)
Theorem C75_time_since_point k (t_p ts dt : f32) (s : nat) : time_grid k -> on_grid k t_p -> on_grid k ts -> on_grid k dt -> 0 < B2R dt -> Rabs (B2R t_p) + Rabs (B2R ts) + INR s * B2R dt <= reach k ->
  has_value (conv_start32 t_p ts dt s) (sample_time (B2R ts) (B2R dt) s - B2R t_p) /\ (Bleb zero32 (conv_start32 t_p ts dt s) = true <-> B2R t_p <= sample_time (B2R ts) (B2R dt) s).
Proof.
  intros Hk (Fp & Mp & Rp) (Fs & Ms & Rs) (Fd & Md & Rd) Hd Hb. pose proof (pos_INR s) as H0.
  assert (0 <= INR s * B2R dt) as H1 by (apply Rmult_le_pos; lra). pose proof (Rabs_pos (B2R t_p)) as Ap. pose proof (Rabs_pos (B2R ts)) as As.
  assert (INR s <= 16777216) as Hn. { pose proof (positive_multiple k _ Md Hd) as HP. pose proof (bpow_gt_0 radix2 k) as B. rewrite reach_value in Hb. apply (Rmult_le_reg_r (bpow radix2 k)); [lra|]. apply Rle_trans with (INR s * B2R dt); [apply Rmult_le_compat_l; lra|lra]. }
  unfold conv_start32, sample_time. destruct (count_grid k s dt Hk Hn Fd Md) as [F1 V1]; [rewrite Rabs_pos_eq; lra|].
  assert (Rabs (INR s * B2R dt + B2R ts) <= Rabs (B2R ts) + INR s * B2R dt) as A1. { eapply Rle_trans; [apply Rabs_triang|]. rewrite (Rabs_pos_eq (INR s * _)) by lra. lra. }
  destruct (plus_grid k (Bmult mode_NE (of_size (N.of_nat s)) dt) ts Hk F1 Fs) as [F2 V2]; [rewrite V1; apply multiple_times; exact Md|exact Ms|rewrite V1; lra|]. rewrite V1 in V2.
  assert (Rabs (INR s * B2R dt + B2R ts - B2R t_p) <= reach k) as A2. { eapply Rle_trans; [apply Rabs_triang|]. rewrite Rabs_Ropp. lra. }
  destruct (minus_grid k (Bplus mode_NE (Bmult mode_NE (of_size (N.of_nat s)) dt) ts) t_p Hk F2 Fp) as [F3 V3]; [rewrite V2; apply multiple_plus; [apply multiple_times; exact Md|exact Ms]|exact Mp|rewrite V2; exact A2|]. rewrite V2 in V3.
  split; [split; [exact F3|rewrite V3; ring]|]. rewrite Bleb_correct by (exact F3 || reflexivity). change (B2R zero32) with 0. rewrite V3.
  split; [intros H; destruct (Rle_bool_spec 0 (INR s * B2R dt + B2R ts - B2R t_p)); [lra|discriminate]|intros H; apply Rle_bool_true; lra].
Qed.
(** The times of the integration points: exact as well. *)
Theorem C75_point_times k (t0 step : f32) (p : nat) : time_grid k -> on_grid k t0 -> on_grid k step -> INR p <= 2 ^ 24 -> Rabs (B2R t0) + Rabs (INR p * B2R step) <= reach k ->
  has_value (itgr_time32 t0 step p) (point_time (B2R t0) (B2R step) p) /\ on_grid k (itgr_time32 t0 step p).
Proof.
  intros Hk (F0 & M0 & R0) (Fs & Ms & Rs) Hp Hb. pose proof (Rabs_pos (B2R t0)). pose proof (Rabs_pos (INR p * B2R step)). assert (2 ^ 24 = 16777216) as E24 by (simpl pow; lra). rewrite E24 in Hp.
  unfold itgr_time32, point_time. destruct (count_grid k p step Hk Hp Fs Ms) as [F1 V1]; [lra|].
  assert (Rabs (INR p * B2R step + B2R t0) <= reach k) as A1 by (eapply Rle_trans; [apply Rabs_triang|]; lra).
  destruct (plus_grid k (Bmult mode_NE (of_size (N.of_nat p)) step) t0 Hk F1 F0) as [F2 V2]; [rewrite V1; apply multiple_times; exact Ms|exact M0|rewrite V1; exact A1|]. rewrite V1 in V2.
  split; [split; [exact F2|rewrite V2; ring]|]. split; [exact F2|]. rewrite V2. split; [apply multiple_plus; [apply multiple_times; exact Ms|exact M0]|exact A1].
Qed.
(** A track that lasts a whole number [n] of time units is cut into [n] steps of exactly 1. *)
Theorem C75_whole_track k (t0 t1 : f32) (n : nat) : time_grid k -> on_grid k t0 -> on_grid k t1 -> (0 < n)%nat -> INR n <= 2 ^ 24 -> INR n <= reach k -> B2R t1 - B2R t0 = INR n ->
  num_intervals32 t0 t1 = Some (N.of_nat n) /\ has_value (itgr_step32 t0 t1 (N.of_nat n)) 1.
Proof.
  intros Hk (F0 & M0 & R0) (F1 & M1 & R1) Hn Hn' Hr Hd. assert (2 ^ 24 = 16777216) as E24 by (simpl pow; lra). rewrite E24 in Hn'. pose proof (lt_0_INR n Hn) as Hp.
  destruct (minus_grid k t1 t0 Hk F1 F0 M1 M0) as [Fm Vm]; [rewrite Hd, Rabs_pos_eq by lra; exact Hr|]. rewrite Hd in Vm.
  assert (16777216 <= bpow radix2 127) as B127 by (change 16777216 with (bpow radix2 24); apply bpow_le; lia). destruct one_value as [Fo Vo]. unfold f32 in *.
  destruct (count_value n Hn') as [Fn Vn]. assert (rnd32 (INR n) = INR n) as Rn. { rewrite <- Vn. apply rnd32_float. } split.
  - unfold num_intervals32. destruct (div_value32 (Bminus mode_NE t1 t0) one32 Fm) as [Fq Vq]; [lra|rewrite Vm, Vo; unfold Rdiv; rewrite Rinv_1, Rmult_1_r, Rabs_pos_eq by lra; lra|]. rewrite Vm, Vo in Vq; unfold Rdiv in Vq; rewrite Rinv_1, Rmult_1_r, Rn in Vq.
    pose proof (ceil_value _ Fq) as HC. rewrite Vq, INR_IZR_INZ, Zceil_IZR in HC. rewrite INR_IZR_INZ in Hn'. apply le_IZR in Hn'. rewrite (size_value _ _ HC) by lia. f_equal. lia.
  - unfold itgr_step32. destruct (div_value32 (Bminus mode_NE t1 t0) (of_size (N.of_nat n)) Fm) as [Fq Vq]; [lra|rewrite Vm, Vn; unfold Rdiv; rewrite Rinv_r, Rabs_R1 by lra; lra|].
    split; [exact Fq|]. rewrite Vq, Vm, Vn. unfold Rdiv. rewrite Rinv_r by lra. apply round_generic; [typeclasses eauto|]. apply (integer_format32 1). lia.
Qed.
Print Assumptions C75_whole_track.
