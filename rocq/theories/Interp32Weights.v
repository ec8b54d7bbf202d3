(** C74: the weights of the interpolation in 32-bit floats. *)
From stdpp Require Import base list numbers option.
From Coq Require Import Reals ZArith Bool Lra Lia.
From Flocq Require Import Core IEEE754.BinarySingleNaN Relative Plus_error.
From Verif Require Import NDArrayModel AntennaModel AntennaSpec AntennaProps DiscreteModel DiscreteSpec DiscreteProps DiscreteTimes Interp32Model Interp32Spec.
Local Open Scope R_scope.
Local Notation fexp32 := (FLT_exp (-149) 24).
Local Notation fexp64 := (FLT_exp (-1074) 53).
Local Notation rnd32 := (round radix2 fexp32 ZnearestE).
Local Notation rnd64 := (round radix2 fexp64 ZnearestE).
Local Instance valid32 : Valid_exp fexp32. Proof. apply FLT_exp_valid. reflexivity. Qed.
Local Instance valid64 : Valid_exp fexp64. Proof. apply FLT_exp_valid. reflexivity. Qed.

(** * Operations with errors *)
(** [x] is a number within [e] of [a]. *)
Definition near_to (x : f32) (a e : R) : Prop := is_finite x = true /\ Rabs (B2R x - a) <= e.
Definition eta : R := / 2 ^ 150.
Lemma eta_value : 0 < eta <= / 2 ^ 60. Proof. exact tiny_value. Qed.
Lemma pow60 : / 2 ^ 60 <= / 16777216 * / 1000000. Proof. simpl pow. lra. Qed.
Lemma eta_small : 0 < eta <= / 16777216 * / 1000000. Proof. pose proof eta_value. pose proof pow60. lra. Qed.
Lemma bpow127_big : 2 ^ 110 <= bpow radix2 127.
Proof. rewrite bpow_powerRZ. unfold powerRZ. change (Pos.to_nat 127) with 127%nat. change (IZR radix2) with 2. apply Rle_pow; [lra|lia]. Qed.
Lemma pow110 : 1000 <= 2 ^ 110. Proof. apply Rle_trans with (2 ^ 10); [simpl pow; lra|apply Rle_pow; [lra|lia]]. Qed.

Lemma mult_value32 (x y : f32) : is_finite x = true -> is_finite y = true -> Rabs (B2R x * B2R y) <= bpow radix2 127 -> has_value (Bmult mode_NE x y) (rnd32 (B2R x * B2R y)).
Proof.
  intros Hx Hy Hb. pose proof (Bmult_correct 24 128 _ _ mode_NE x y) as HB. change (round_mode mode_NE) with ZnearestE in HB. change (SpecFloat.fexp 24 128) with fexp32 in HB.
  rewrite Rlt_bool_true in HB by exact (below_32 _ Hb). destruct HB as (E & F & _). rewrite Hx, Hy in F. exact (conj F E).
Qed.
Lemma mult_near (x y : f32) : is_finite x = true -> is_finite y = true -> Rabs (B2R x * B2R y) <= 2 ^ 110 ->
  near_to (Bmult mode_NE x y) (B2R x * B2R y) (Rabs (B2R x * B2R y) * / 16777216 + eta).
Proof.
  intros Hx Hy Hb. destruct (mult_value32 x y Hx Hy) as [F V]; [pose proof bpow127_big; lra|]. split; [exact F|]. rewrite V, <- ulp32_value. apply round_error.
Qed.
Lemma plus_near (x y : f32) : is_finite x = true -> is_finite y = true -> Rabs (B2R x + B2R y) <= 2 ^ 110 ->
  near_to (Bplus mode_NE x y) (B2R x + B2R y) (Rabs (B2R x + B2R y) * / 16777216).
Proof.
  intros Hx Hy Hb. destruct (plus_value x y Hx Hy) as [F V]; [pose proof bpow127_big; lra|]. split; [exact F|]. rewrite V, <- ulp32_value. apply plus32; apply format32.
Qed.
Lemma minus_near (x y : f32) : is_finite x = true -> is_finite y = true -> Rabs (B2R x - B2R y) <= 2 ^ 110 ->
  near_to (Bminus mode_NE x y) (B2R x - B2R y) (Rabs (B2R x - B2R y) * / 16777216).
Proof.
  intros Hx Hy Hb. destruct (minus_value x y Hx Hy) as [F V]; [pose proof bpow127_big; lra|]. split; [exact F|]. rewrite V, <- ulp32_value. apply plus32; [apply format32|]. apply generic_format_opp, format32.
Qed.
Lemma abs_within x a e A : Rabs (x - a) <= e -> Rabs a <= A -> Rabs x <= A + e.
Proof. intros H1 H2. replace x with (a + (x - a)) by ring. eapply Rle_trans; [apply Rabs_triang|]. lra. Qed.
Lemma product_error x y a b ea eb A B : Rabs (x - a) <= ea -> Rabs (y - b) <= eb -> Rabs a <= A -> Rabs b <= B -> Rabs (x * y - a * b) <= A * eb + B * ea + ea * eb.
Proof.
  intros H1 H2 H3 H4. replace (x * y - a * b) with (a * (y - b) + b * (x - a) + (x - a) * (y - b)) by ring.
  pose proof (Rabs_pos (x - a)). pose proof (Rabs_pos (y - b)). pose proof (Rabs_pos a). pose proof (Rabs_pos b).
  eapply Rle_trans; [apply Rabs_triang|]. apply Rplus_le_compat; [eapply Rle_trans; [apply Rabs_triang|]; apply Rplus_le_compat|]; rewrite Rabs_mult; apply Rmult_le_compat; lra.
Qed.
Lemma mult_error (x y : f32) a b ea eb A B e : near_to x a ea -> near_to y b eb -> Rabs a <= A -> Rabs b <= B -> (A + ea) * (B + eb) <= 1000 ->
  A * eb + B * ea + ea * eb + (A + ea) * (B + eb) * / 16777216 + eta <= e -> near_to (Bmult mode_NE x y) (a * b) e.
Proof.
  intros [Fx Hx] [Fy Hy] HA HB Hs He. pose proof (product_error _ _ _ _ _ _ _ _ Hx Hy HA HB) as HP.
  assert (Rabs (B2R x * B2R y) <= (A + ea) * (B + eb)) as Hxy. { rewrite Rabs_mult. apply Rmult_le_compat; [apply Rabs_pos|apply Rabs_pos|exact (abs_within _ _ _ _ Hx HA)|exact (abs_within _ _ _ _ Hy HB)]. }
  destruct (mult_near x y Fx Fy) as [F V]; [pose proof pow110; lra|]. split; [exact F|].
  replace (B2R (Bmult mode_NE x y) - a * b) with ((B2R (Bmult mode_NE x y) - B2R x * B2R y) + (B2R x * B2R y - a * b)) by ring.
  eapply Rle_trans; [apply Rabs_triang|]. lra.
Qed.
Lemma minus_error (x y : f32) a b ea eb A e : near_to x a ea -> near_to y b eb -> Rabs (a - b) <= A -> A + (ea + eb) <= 1000 ->
  ea + eb + (A + (ea + eb)) * / 16777216 <= e -> near_to (Bminus mode_NE x y) (a - b) e.
Proof.
  intros [Fx Hx] [Fy Hy] HA Hs He.
  assert (Rabs ((B2R x - B2R y) - (a - b)) <= ea + eb) as HP. { replace ((B2R x - B2R y) - (a - b)) with ((B2R x - a) + - (B2R y - b)) by ring. eapply Rle_trans; [apply Rabs_triang|]. rewrite Rabs_Ropp. lra. }
  pose proof (abs_within _ _ _ _ HP HA) as Hxy. destruct (minus_near x y Fx Fy) as [F V]; [pose proof pow110; lra|]. split; [exact F|].
  replace (B2R (Bminus mode_NE x y) - (a - b)) with ((B2R (Bminus mode_NE x y) - (B2R x - B2R y)) + ((B2R x - B2R y) - (a - b))) by ring.
  eapply Rle_trans; [apply Rabs_triang|]. lra.
Qed.
Lemma near_self (x : f32) : is_finite x = true -> near_to x (B2R x) 0.
Proof. intros H. split; [exact H|]. rewrite Rminus_diag_eq by reflexivity. rewrite Rabs_R0. lra. Qed.

(** Operations in doubles. *)
Lemma round_error64 x : Rabs (rnd64 x - x) <= Rabs x * / 2 ^ 52 + eta.
Proof.
  destruct (error_N_FLT radix2 (-1074) 53 ltac:(lia) (fun z => negb (Z.even z)) x) as (eps & et & He & Ht & _ & ->).
  replace (x * (1 + eps) + et - x) with (x * eps + et) by ring. eapply Rle_trans; [apply Rabs_triang|]. apply Rplus_le_compat.
  - rewrite Rabs_mult. apply Rmult_le_compat_l; [apply Rabs_pos|]. eapply Rle_trans; [exact He|]. change (- (53) + 1)%Z with (-52)%Z. rewrite bpow_powerRZ. unfold powerRZ. change (Pos.to_nat 52) with 52%nat. change (IZR radix2) with 2. assert (0 < / 2 ^ 52) by (apply Rinv_0_lt_compat, pow_lt; lra). lra.
  - eapply Rle_trans; [exact Ht|]. apply Rle_trans with (bpow radix2 (-1074)). { pose proof (bpow_gt_0 radix2 (-1074)). lra. }
    apply Rle_trans with (bpow radix2 (-150)); [apply bpow_le; lia|]. right. rewrite bpow_powerRZ. unfold powerRZ. change (Pos.to_nat 150) with 150%nat. reflexivity.
Qed.
Lemma pow52 : 0 < / 2 ^ 52 <= / 16777216 * / 100000000. Proof. split; [apply Rinv_0_lt_compat, pow_lt; lra|]. simpl pow. lra. Qed.
Lemma narrow (d : f64) a e A e' : is_finite d = true -> Rabs (B2R d - a) <= e -> Rabs a <= A -> A + e <= 1000 -> e + (A + e) * / 16777216 + eta <= e' -> near_to (to_float d) a e'.
Proof.
  intros Fd Hd HA Hs He. pose proof (abs_within _ _ _ _ Hd HA) as Hb. destruct (to_float_round d Fd) as [F V].
  { apply below_32. pose proof bpow127_big. pose proof pow110. lra. }
  split; [exact F|]. rewrite V. replace (rnd32 (B2R d) - a) with ((rnd32 (B2R d) - B2R d) + (B2R d - a)) by ring. eapply Rle_trans; [apply Rabs_triang|].
  pose proof (round_error (B2R d)) as HR. rewrite ulp32_value in HR. fold eta in HR. lra.
Qed.
Lemma bpow_neg k : bpow radix2 (Z.neg k) = / IZR (2 ^ Z.pos k).
Proof. reflexivity. Qed.
Lemma one64_value : has_value (lit 1 0) 1.
Proof.
  split; [reflexivity|]. rewrite <- (SF2R_B2SF 53 1024). replace (B2SF (lit 1 0)) with (SpecFloat.S754_finite false 4503599627370496 (-52)) by (vm_compute; reflexivity). unfold SF2R, F2R. cbn [Fnum Fexp cond_Zopp]. rewrite bpow_neg. change (2 ^ 52)%Z with 4503599627370496%Z. lra.
Qed.
Lemma half64_value : has_value (lit (-1) (-1)) (- (1 / 2)).
Proof.
  split; [reflexivity|]. rewrite <- (SF2R_B2SF 53 1024). replace (B2SF (lit (-1) (-1))) with (SpecFloat.S754_finite true 4503599627370496 (-53)) by (vm_compute; reflexivity). unfold SF2R, F2R. cbn [Fnum Fexp cond_Zopp]. rewrite bpow_neg. change (2 ^ 53)%Z with 9007199254740992%Z. change (- (4503599627370496))%Z with (-4503599627370496)%Z. lra.
Qed.
Lemma small_1000 : 1000 <= bpow radix2 1000. Proof. apply Rle_trans with (bpow radix2 10); [|apply bpow_le; lia]. change (bpow radix2 10) with (IZR (2 ^ 10)). apply IZR_le. lia. Qed.
Lemma minus_one_near (f : f32) : is_finite f = true -> 0 <= B2R f < 1 -> near_to (to_float (Bminus mode_NE (to_double f) (lit 1 0))) (B2R f - 1) (/ 16777216 * (1001 / 1000)).
Proof.
  intros Ff Hf. destruct (to_double_value f Ff) as [F1 V1]. destruct one64_value as [F2 V2].
  pose proof (Bminus_correct 53 1024 _ _ mode_NE (to_double f) (lit 1 0) F1 F2) as HB. change (round_mode mode_NE) with ZnearestE in HB. change (SpecFloat.fexp 53 1024) with fexp64 in HB.
  rewrite V1, V2 in HB. assert (Rabs (B2R f - 1) <= 1) as Ha by (apply Rabs_le; lra). pose proof small_1000.
  rewrite Rlt_bool_true in HB by (apply below_64; lra). destruct HB as (E & F & _). pose proof eta_small. pose proof pow52.
  apply (narrow _ _ (/ 2 ^ 52 + eta) 1); [exact F| |exact Ha|lra|lra].
  rewrite E. eapply Rle_trans; [apply round_error64|]. pose proof (Rmult_le_compat_r (/ 2 ^ 52) _ _ (Rlt_le _ _ (proj1 pow52)) Ha). lra.
Qed.
Lemma minus_half_near (f : f32) : is_finite f = true -> 0 <= B2R f < 1 -> near_to (to_float (Bmult mode_NE (lit (-1) (-1)) (to_double f))) (- (1 / 2) * B2R f) (/ 16777216 * (501 / 1000)).
Proof.
  intros Ff Hf. destruct (to_double_value f Ff) as [F1 V1]. destruct half64_value as [F2 V2].
  pose proof (Bmult_correct 53 1024 _ _ mode_NE (lit (-1) (-1)) (to_double f)) as HB. change (round_mode mode_NE) with ZnearestE in HB. change (SpecFloat.fexp 53 1024) with fexp64 in HB.
  rewrite V1, V2 in HB. assert (Rabs (- (1 / 2) * B2R f) <= 1 / 2) as Ha by (apply Rabs_le; lra). pose proof small_1000.
  rewrite Rlt_bool_true in HB by (apply below_64; lra). destruct HB as (E & F & _). rewrite F1, F2 in F. pose proof eta_small. pose proof pow52.
  apply (narrow _ _ (/ 2 ^ 52 + eta) (1 / 2)); [exact F| |exact Ha|lra|lra].
  rewrite E. eapply Rle_trans; [apply round_error64|]. pose proof (Rmult_le_compat_r (/ 2 ^ 52) _ _ (Rlt_le _ _ (proj1 pow52)) Ha). lra.
Qed.

(** * The constants *)
Lemma sqrt7_bounds : 26457513110 / 10000000000 < sqrt 7 < 26457513111 / 10000000000.
Proof. assert (0 <= sqrt 7) by apply sqrt_pos. assert (sqrt 7 * sqrt 7 = 7) by (apply sqrt_sqrt; lra). split; nra. Qed.
Lemma c2_1_near : near_to c2_1 ((1 - sqrt 7) / 3) (/ 16777216 * / 2).
Proof.
  split; [reflexivity|]. assert (B2R c2_1 = -9203708 * / 16777216) as ->.
  { rewrite <- (SF2R_B2SF 24 128). replace (B2SF c2_1) with (SpecFloat.S754_finite true 9203708 (-24)) by (vm_compute; reflexivity). unfold SF2R, F2R. cbn [Fnum Fexp cond_Zopp]. rewrite bpow_neg. reflexivity. }
  pose proof sqrt7_bounds. apply Rabs_le. lra.
Qed.
Lemma c2_2_near : near_to c2_2 ((1 + sqrt 7) / 3) (/ 16777216).
Proof.
  split; [reflexivity|]. assert (B2R c2_2 = 10194260 * / 8388608) as ->.
  { rewrite <- (SF2R_B2SF 24 128). replace (B2SF c2_2) with (SpecFloat.S754_finite false 10194260 (-23)) by (vm_compute; reflexivity). unfold SF2R, F2R. cbn [Fnum Fexp cond_Zopp]. rewrite bpow_neg. reflexivity. }
  pose proof sqrt7_bounds. apply Rabs_le. lra.
Qed.
Lemma c3_1_near : near_to c3_1 ((2 - sqrt 7) / 3) (/ 16777216 * / 2).
Proof.
  split; [reflexivity|]. assert (B2R c3_1 = -14445212 * / 67108864) as ->.
  { rewrite <- (SF2R_B2SF 24 128). replace (B2SF c3_1) with (SpecFloat.S754_finite true 14445212 (-26)) by (vm_compute; reflexivity). unfold SF2R, F2R. cbn [Fnum Fexp cond_Zopp]. rewrite bpow_neg. reflexivity. }
  pose proof sqrt7_bounds. apply Rabs_le. lra.
Qed.
Lemma c3_2_near : near_to c3_2 ((2 + sqrt 7) / 3) (/ 16777216).
Proof.
  split; [reflexivity|]. assert (B2R c3_2 = 12990462 * / 8388608) as ->.
  { rewrite <- (SF2R_B2SF 24 128). replace (B2SF c3_2) with (SpecFloat.S754_finite false 12990462 (-23)) by (vm_compute; reflexivity). unfold SF2R, F2R. cbn [Fnum Fexp cond_Zopp]. rewrite bpow_neg. reflexivity. }
  pose proof sqrt7_bounds. apply Rabs_le. lra.
Qed.
Lemma c2_5_value : has_value c2_5 (3 / 2).
Proof.
  split; [reflexivity|]. rewrite <- (SF2R_B2SF 24 128). replace (B2SF c2_5) with (SpecFloat.S754_finite false 12582912 (-23)) by (vm_compute; reflexivity). unfold SF2R, F2R. cbn [Fnum Fexp cond_Zopp]. rewrite bpow_neg. change (2 ^ 23)%Z with 8388608%Z. lra.
Qed.
Lemma c3_4_value : has_value c3_4 (- (3 / 2)).
Proof.
  split; [reflexivity|]. rewrite <- (SF2R_B2SF 24 128). replace (B2SF c3_4) with (SpecFloat.S754_finite true 12582912 (-23)) by (vm_compute; reflexivity). unfold SF2R, F2R. cbn [Fnum Fexp cond_Zopp]. rewrite bpow_neg. change (2 ^ 23)%Z with 8388608%Z. change (- (12582912))%Z with (-12582912)%Z. lra.
Qed.
Lemma c4_3_value : has_value c4_3 (1 / 2).
Proof.
  split; [reflexivity|]. rewrite <- (SF2R_B2SF 24 128). replace (B2SF c4_3) with (SpecFloat.S754_finite false 8388608 (-24)) by (vm_compute; reflexivity). unfold SF2R, F2R. cbn [Fnum Fexp cond_Zopp]. rewrite bpow_neg. change (2 ^ 24)%Z with 16777216%Z. lra.
Qed.

(** * The weights *)
Lemma frac_ok32_spec (f : f32) : is_finite f = true -> frac_ok32 f = true <-> 0 <= B2R f < 1.
Proof.
  intros Ff. unfold frac_ok32. destruct one_value as [F1 V1]. rewrite Bleb_correct by (exact Ff || reflexivity). rewrite Bltb_correct by assumption. rewrite V1. change (B2R zero32) with 0.
  destruct (Rle_bool_spec 0 (B2R f)), (Rlt_bool_spec (B2R f) 1); cbn [andb]; split; intros; try discriminate; try reflexivity; lra.
Qed.
Local Notation u := (/ 16777216).
(** The weights of the linear kernel: the second is exact, the first is the nearest float. *)
Theorem C74_linear_weights (f : f32) : is_finite f = true -> 0 <= B2R f < 1 ->
  exists o0, k32_kern linear32 f = Some [o0; f] /\ is_finite o0 = true /\ Rabs (B2R o0 - linear_weight (B2R f) 0) <= / 2 ^ 24 /\ B2R f = linear_weight (B2R f) 1.
Proof.
  intros Ff Hf. exists (Bminus mode_NE one32 f). cbn [k32_kern linear32]. rewrite (proj2 (frac_ok32_spec f Ff) Hf). split; [reflexivity|]. destruct one_value as [F1 V1].
  destruct (minus_near one32 f F1 Ff) as [F H]; rewrite V1 in *. { rewrite Rabs_pos_eq by lra. pose proof pow110. lra. }
  split; [exact F|]. split; [|reflexivity]. cbn [linear_weight]. rewrite (Rabs_pos_eq (1 - B2R f)) in H by lra. eapply Rle_trans; [exact H|]. assert (/ 2 ^ 24 = u) as -> by (simpl pow; lra). lra.
Qed.
(** The weights of Keys' kernel: small multiples of the precision of floats away from the exact ones. *)
Theorem C74_keys_weights (f : f32) : is_finite f = true -> 0 <= B2R f < 1 ->
  exists o0 o1 o2 o3, k32_kern keys32 f = Some [o0; o1; o2; o3] /\
    is_finite o0 = true /\ is_finite o1 = true /\ is_finite o2 = true /\ is_finite o3 = true /\
    Rabs (B2R o0 - keys_weight (B2R f) 0) <= 2 / 2 ^ 24 /\ Rabs (B2R o1 - keys_weight (B2R f) 1) <= 21 / 2 ^ 24 /\
    Rabs (B2R o2 - keys_weight (B2R f) 2) <= 14 / 2 ^ 24 /\ Rabs (B2R o3 - keys_weight (B2R f) 3) <= 3 / 2 ^ 24.
Proof.
  intros Ff Hf. cbn [k32_kern keys32]. rewrite (proj2 (frac_ok32_spec f Ff) Hf). cbv zeta.
  pose proof (minus_one_near f Ff Hf) as P1. pose proof (minus_half_near f Ff Hf) as P2. pose proof (near_self f Ff) as P3.
  set (m1 := to_float (Bminus mode_NE (to_double f) (lit 1 0))) in *. set (mh := to_float (Bmult mode_NE (lit (-1) (-1)) (to_double f))) in *.
  set (x := B2R f) in *. clearbody x m1 mh. pose proof eta_small as HE. pose proof sqrt7_bounds as H7. assert (sqrt 7 * sqrt 7 = 7) as E7 by (apply sqrt_sqrt; lra).
  pose proof (near_self c2_5 (proj1 c2_5_value)) as K5. rewrite (proj2 c2_5_value) in K5.
  pose proof (near_self c3_4 (proj1 c3_4_value)) as K4. rewrite (proj2 c3_4_value) in K4.
  pose proof (near_self c4_3 (proj1 c4_3_value)) as K3. rewrite (proj2 c4_3_value) in K3.
  set (q := sqrt 7) in *. pose proof c2_1_near as KA. pose proof c2_2_near as KB. pose proof c3_1_near as KC. pose proof c3_2_near as KD. fold q in KA, KB, KC, KD. clearbody q.
  assert (0 <= (x - 1 / 2) * (x - 1 / 2)) as S1 by apply Rle_0_sqr. assert (0 <= x * (1 - x)) as S2 by (apply Rmult_le_pos; lra). assert (0 <= (1 - x) * (1 - x)) as S3 by apply Rle_0_sqr.
  assert (0 <= (x - 2 / 3) * (x - 2 / 3)) as S4 by apply Rle_0_sqr. assert (0 <= q * (1 - x)) as S5 by (apply Rmult_le_pos; lra). assert (0 <= q * x) as S6 by (apply Rmult_le_pos; lra). assert (0 <= x * x) as S7 by apply Rle_0_sqr.
  assert (q * (1 - x) <= 26457513111 / 10000000000 * (1 - x)) as S8 by (apply Rmult_le_compat_r; lra).
  (* first *)
  assert (near_to (Bmult mode_NE mh m1) (- (1 / 2) * x * (x - 1)) (u * (1510 / 1000))) as A1.
  { apply (mult_error _ _ _ _ _ _ (1 / 2) 1 _ P2 P1); [apply Rabs_le; lra|apply Rabs_le; lra|lra|lra]. }
  assert (near_to (Bmult mode_NE (Bmult mode_NE mh m1) m1) (- (1 / 2) * x * (x - 1) * (x - 1)) (u * 2)) as A2.
  { apply (mult_error _ _ _ _ _ _ (1 / 8) 1 _ A1 P1); [apply Rabs_le; lra|apply Rabs_le; lra|lra|lra]. }
  (* second *)
  assert (near_to (Bminus mode_NE f c2_1) (x - (1 - q) / 3) (u * (2050 / 1000))) as B1.
  { apply (minus_error _ _ _ _ _ _ (1549 / 1000) _ P3 KA); [apply Rabs_le; lra|lra|lra]. }
  assert (near_to (Bminus mode_NE f c2_2) (x - (1 + q) / 3) (u * (2220 / 1000))) as B2.
  { apply (minus_error _ _ _ _ _ _ (1216 / 1000) _ P3 KB); [apply Rabs_le; lra|lra|lra]. }
  assert (near_to (Bmult mode_NE (Bminus mode_NE f c2_2) m1) ((x - (1 + q) / 3) * (x - 1)) (u * (4660 / 1000))) as B3.
  { apply (mult_error _ _ _ _ _ _ (1216 / 1000) 1 _ B2 P1); [apply Rabs_le; lra|apply Rabs_le; lra|lra|lra]. }
  assert (near_to (Bmult mode_NE c2_5 (Bminus mode_NE f c2_1)) (3 / 2 * (x - (1 - q) / 3)) (u * (5410 / 1000))) as B4.
  { apply (mult_error _ _ _ _ _ _ (3 / 2) (1549 / 1000) _ K5 B1); [apply Rabs_le; lra|apply Rabs_le; lra|lra|lra]. }
  assert (near_to (Bmult mode_NE (Bmult mode_NE c2_5 (Bminus mode_NE f c2_1)) (Bmult mode_NE (Bminus mode_NE f c2_2) m1)) (3 / 2 * (x - (1 - q) / 3) * ((x - (1 + q) / 3) * (x - 1))) (u * 21)) as B5.
  { apply (mult_error _ _ _ _ _ _ (2324 / 1000) (1216 / 1000) _ B4 B3); [apply Rabs_le; lra|apply Rabs_le; lra|lra|lra]. }
  (* third *)
  assert (near_to (Bminus mode_NE f c3_1) (x - (2 - q) / 3) (u * (1720 / 1000))) as D1.
  { apply (minus_error _ _ _ _ _ _ (1216 / 1000) _ P3 KC); [apply Rabs_le; lra|lra|lra]. }
  assert (near_to (Bminus mode_NE f c3_2) (x - (2 + q) / 3) (u * (2550 / 1000))) as D2.
  { apply (minus_error _ _ _ _ _ _ (1549 / 1000) _ P3 KD); [apply Rabs_le; lra|lra|lra]. }
  assert (near_to (Bmult mode_NE (Bminus mode_NE f c3_1) (Bminus mode_NE f c3_2)) ((x - (2 - q) / 3) * (x - (2 + q) / 3)) (u * (7660 / 1000))) as D3.
  { apply (mult_error _ _ _ _ _ _ (1216 / 1000) (1549 / 1000) _ D1 D2); [apply Rabs_le; lra|apply Rabs_le; lra|lra|lra]. }
  assert (near_to (Bmult mode_NE f c3_4) (x * - (3 / 2)) (u * (1510 / 1000))) as D4.
  { apply (mult_error _ _ _ _ _ _ 1 (3 / 2) _ P3 K4); [apply Rabs_le; lra|apply Rabs_le; lra|lra|lra]. }
  assert (near_to (Bmult mode_NE (Bmult mode_NE (Bminus mode_NE f c3_1) (Bminus mode_NE f c3_2)) (Bmult mode_NE f c3_4)) ((x - (2 - q) / 3) * (x - (2 + q) / 3) * (x * - (3 / 2))) (u * 14)) as D5.
  { apply (mult_error _ _ _ _ _ _ (780 / 1000) (3 / 2) _ D3 D4); [apply Rabs_le; lra|apply Rabs_le; lra|lra|lra]. }
  (* fourth *)
  assert (near_to (Bmult mode_NE f f) (x * x) (u * (1001 / 1000))) as G1.
  { apply (mult_error _ _ _ _ _ _ 1 1 _ P3 P3); [apply Rabs_le; lra|apply Rabs_le; lra|lra|lra]. }
  assert (near_to (Bmult mode_NE m1 c4_3) ((x - 1) * (1 / 2)) (u * (1010 / 1000))) as G2.
  { apply (mult_error _ _ _ _ _ _ 1 (1 / 2) _ P1 K3); [apply Rabs_le; lra|apply Rabs_le; lra|lra|lra]. }
  assert (near_to (Bmult mode_NE (Bmult mode_NE m1 c4_3) (Bmult mode_NE f f)) ((x - 1) * (1 / 2) * (x * x)) (u * (2100 / 1000))) as G3.
  { apply (mult_error _ _ _ _ _ _ (1 / 2) 1 _ G2 G1); [apply Rabs_le; lra|apply Rabs_le; lra|lra|lra]. }
  eexists _, _, _, _. split; [reflexivity|]. assert (2 ^ 24 = 16777216) as -> by (simpl pow; lra).
  split; [exact (proj1 A2)|]. split; [exact (proj1 B5)|]. split; [exact (proj1 D5)|]. split; [exact (proj1 G3)|]. cbn [keys_weight].
  assert (- (1 / 2) * x * (x - 1) * (x - 1) = - (x * x * x) / 2 + x * x - x / 2) as W0 by field.
  assert (3 / 2 * (x - (1 - q) / 3) * ((x - (1 + q) / 3) * (x - 1)) = 3 * (x * x * x) / 2 - 5 * (x * x) / 2 + 1) as W1.
  { replace (3 / 2 * (x - (1 - q) / 3) * ((x - (1 + q) / 3) * (x - 1))) with (3 / 2 * (x * x - 2 / 3 * x + (1 - q * q) / 9) * (x - 1)) by field. rewrite E7. field. }
  assert ((x - (2 - q) / 3) * (x - (2 + q) / 3) * (x * - (3 / 2)) = - (3 * (x * x * x)) / 2 + 2 * (x * x) + x / 2) as W2.
  { replace ((x - (2 - q) / 3) * (x - (2 + q) / 3) * (x * - (3 / 2))) with ((x * x - 4 / 3 * x + (4 - q * q) / 9) * (x * - (3 / 2))) by field. rewrite E7. field. }
  assert ((x - 1) * (1 / 2) * (x * x) = x * x * x / 2 - x * x / 2) as W3 by field.
  rewrite W0 in A2. rewrite W1 in B5. rewrite W2 in D5. rewrite W3 in G3. destruct A2 as [_ A2], B5 as [_ B5], D5 as [_ D5], G3 as [_ G3].
  split; [lra|]. split; [lra|]. split; lra.
Qed.
