(** C71: the current of the antenna, and the coordinates of the geometry. *)
From Coq Require Import Reals ZArith Bool Lra Lia.
From Flocq Require Import Core IEEE754.BinarySingleNaN Relative Plus_error.
From Verif Require Import AntennaModel AntennaSpec.
Local Open Scope R_scope.
Local Notation fexp32 := (FLT_exp (-149) 24).
Local Notation fexp64 := (FLT_exp (-1074) 53).
Local Notation rnd32 := (round radix2 fexp32 ZnearestE).
Local Notation rnd64 := (round radix2 fexp64 ZnearestE).
Local Instance valid32 : Valid_exp fexp32. Proof. apply FLT_exp_valid. reflexivity. Qed.
Local Instance valid64 : Valid_exp fexp64. Proof. apply FLT_exp_valid. reflexivity. Qed.

(** * Rounding *)
Lemma format32 (x : f32) : generic_format radix2 fexp32 (B2R x).
Proof. exact (generic_format_B2R 24 128 x). Qed.
Lemma format64 (x : f64) : generic_format radix2 fexp64 (B2R x).
Proof. exact (generic_format_B2R 53 1024 x). Qed.
Lemma format32_64 x : generic_format radix2 fexp32 x -> generic_format radix2 fexp64 x.
Proof. apply generic_inclusion_mag. intros _. unfold FLT_exp. lia. Qed.
Lemma below_32 x : Rabs x <= bpow radix2 127 -> Rabs (rnd32 x) < bpow radix2 128.
Proof.
  intros H. apply Rle_lt_trans with (bpow radix2 127); [|apply bpow_lt; lia]. apply abs_round_le_generic; [typeclasses eauto|typeclasses eauto| |exact H].
  apply generic_format_bpow. unfold FLT_exp. lia.
Qed.
Lemma below_64 x : Rabs x <= bpow radix2 1000 -> Rabs (rnd64 x) < bpow radix2 1024.
Proof.
  intros H. apply Rle_lt_trans with (bpow radix2 1000); [|apply bpow_lt; lia]. apply abs_round_le_generic; [typeclasses eauto|typeclasses eauto| |exact H].
  apply generic_format_bpow. unfold FLT_exp. lia.
Qed.
Lemma finite_below (x : f32) : Rabs (B2R x) < bpow radix2 128.
Proof. exact (abs_B2R_lt_emax 24 128 x). Qed.

Lemma to_float_round (x : f64) : is_finite x = true -> Rabs (rnd32 (B2R x)) < bpow radix2 128 -> has_value (to_float x) (rnd32 (B2R x)).
Proof.
  intros Hf Hb. destruct x as [s|s| |s m e He]; try discriminate.
  - cbn [B2R to_float convert] in *. split; [reflexivity|]. rewrite round_0; [reflexivity|typeclasses eauto].
  - unfold to_float, convert. pose proof (binary_normalize_correct 24 128 _ _ mode_NE (cond_Zopp s (Z.pos m)) e s) as HN.
    change (round_mode mode_NE) with ZnearestE in HN. change (SpecFloat.fexp 24 128) with fexp32 in HN. cbn zeta in HN.
    change (F2R (Float radix2 (cond_Zopp s (Z.pos m)) e)) with (B2R (B754_finite s m e He)) in HN. rewrite Rlt_bool_true in HN by exact Hb. destruct HN as (H1 & H2 & _). exact (conj H2 H1).
Qed.
Lemma to_double_value (x : f32) : is_finite x = true -> has_value (to_double x) (B2R x).
Proof.
  intros Hf. destruct x as [s|s| |s m e He]; try discriminate.
  - split; reflexivity.
  - unfold to_double, convert. pose proof (binary_normalize_correct 53 1024 _ _ mode_NE (cond_Zopp s (Z.pos m)) e s) as HN.
    change (round_mode mode_NE) with ZnearestE in HN. change (SpecFloat.fexp 53 1024) with fexp64 in HN. cbn zeta in HN.
    change (F2R (Float radix2 (cond_Zopp s (Z.pos m)) e)) with (B2R (B754_finite s m e He)) in HN.
    assert (rnd64 (B2R (B754_finite s m e He)) = B2R (B754_finite s m e He)) as ER. { apply round_generic; [typeclasses eauto|]. apply format32_64, format32. }
    rewrite ER, Rlt_bool_true in HN; [destruct HN as (H1 & H2 & _); exact (conj H2 H1)|].
    eapply Rlt_trans; [apply finite_below|]. apply bpow_lt. lia.
Qed.
Lemma back_and_forth (x : f32) : to_float (to_double x) = x.
Proof.
  destruct x as [s|s| |s m e He] eqn:E; try reflexivity. rewrite <- E. assert (is_finite x = true) as Hf by (rewrite E; reflexivity).
  destruct (to_double_value x Hf) as [H1 H2].
  assert (rnd32 (B2R x) = B2R x) as ER. { apply round_generic; [typeclasses eauto|apply format32]. }
  destruct (to_float_round (to_double x) H1) as [H3 H4]; [rewrite H2, ER; apply finite_below|]. rewrite H2, ER in H4.
  apply B2R_inj; [|rewrite E; reflexivity|exact H4].
  destruct (to_float (to_double x)) as [s'|s'| |s' m' e' He'] eqn:E'; try discriminate; [|reflexivity].
  exfalso. rewrite E in H4. cbn [B2R] in H4. symmetry in H4. apply eq_0_F2R in H4. destruct s; discriminate.
Qed.

Lemma round_nearest x : Rabs (rnd32 x) < bpow radix2 128 -> nearest_float x (rnd32 x).
Proof.
  intros Hb. split.
  - set (mx := ZnearestE (scaled_mantissa radix2 fexp32 x)). set (ex := cexp radix2 fexp32 x).
    assert (F2R (Float radix2 mx ex) = rnd32 x) as EF by reflexivity.
    assert (rnd32 (F2R (Float radix2 mx ex)) = rnd32 x) as ER. { rewrite EF. apply round_generic; [typeclasses eauto|]. apply generic_format_round; typeclasses eauto. }
    pose proof (binary_normalize_correct 24 128 _ _ mode_NE mx ex false) as HN. change (round_mode mode_NE) with ZnearestE in HN. change (SpecFloat.fexp 24 128) with fexp32 in HN. cbn zeta in HN.
    rewrite ER, Rlt_bool_true in HN by exact Hb. destruct HN as (H1 & H2 & _). eexists. exact (conj H2 H1).
  - intros w (f & _ & <-). destruct (round_N_pt radix2 fexp32 (fun z => negb (Z.even z)) x) as [_ H]. exact (H _ (format32 f)).
Qed.
Lemma round_error x : Rabs (rnd32 x - x) <= Rabs x * ulp32 + / 2 ^ 150.
Proof.
  destruct (error_N_FLT radix2 (-149) 24 ltac:(lia) (fun z => negb (Z.even z)) x) as (eps & eta & He & Ht & _ & ->).
  replace (x * (1 + eps) + eta - x) with (x * eps + eta) by ring. eapply Rle_trans; [apply Rabs_triang|]. apply Rplus_le_compat.
  - rewrite Rabs_mult. apply Rmult_le_compat_l; [apply Rabs_pos|]. eapply Rle_trans; [exact He|]. unfold ulp32. change (- (24) + 1)%Z with (-23)%Z. rewrite bpow_powerRZ. unfold powerRZ. change (Pos.to_nat 23) with 23%nat. change (IZR radix2) with 2. right. change (2 ^ 24) with (2 * 2 ^ 23). set (x2 := 2 ^ 23). assert (0 < x2) by (apply pow_lt; lra). field. lra.
  - eapply Rle_trans; [exact Ht|]. rewrite bpow_powerRZ. unfold powerRZ. change (Pos.to_nat 149) with 149%nat. change (IZR radix2) with 2. right. change (2 ^ 150) with (2 * 2 ^ 149). set (x2 := 2 ^ 149). assert (0 < x2) by (apply pow_lt; lra). field. lra.
Qed.
(** A nearest float is near. *)
Lemma nearest_near x v : Rabs x <= bpow radix2 127 -> nearest_float x v -> Rabs (v - x) <= Rabs x * ulp32 + / 2 ^ 150.
Proof.
  intros Hx [_ H]. eapply Rle_trans; [|apply round_error]. apply H. exact (proj1 (round_nearest x (below_32 x Hx))).
Qed.

Lemma le_value (x y : f32) : is_finite x = true -> is_finite y = true -> le32 x y = true <-> B2R x <= B2R y.
Proof.
  intros Hx Hy. unfold le32. rewrite Bleb_correct by assumption. destruct (Rle_bool_spec (B2R x) (B2R y)); split; intros; try discriminate; try reflexivity; lra.
Qed.

(** * The current *)
Lemma minus_one_value : has_value minus_one (-1).
Proof. split; [reflexivity|]. unfold minus_one. cbn. unfold F2R. cbn. lra. Qed.
Lemma times_minus_one (x : f32) : is_finite x = true -> has_value (Bmult mode_NE (to_double x) minus_one) (- B2R x).
Proof.
  intros Hf. destruct (to_double_value x Hf) as [H1 H2]. destruct minus_one_value as [M1 M2].
  pose proof (Bmult_correct 53 1024 _ _ mode_NE (to_double x) minus_one) as HB. change (round_mode mode_NE) with ZnearestE in HB. change (SpecFloat.fexp 53 1024) with fexp64 in HB.
  rewrite H2, M2 in HB. replace (B2R x * -1) with (- B2R x) in HB by ring.
  assert (rnd64 (- B2R x) = - B2R x) as ER. { apply round_generic; [typeclasses eauto|]. apply generic_format_opp, format32_64, format32. }
  rewrite ER, Rlt_bool_true in HB; [|rewrite Rabs_Ropp; eapply Rlt_trans; [apply finite_below|apply bpow_lt; lia]].
  destruct HB as (E & F & _). split; [|exact E]. rewrite F, H1, M1. reflexivity.
Qed.

(** During the window, start and end included, the current is the negative of the response at the float [x] nearest to the time, scaled (to the
    nearest float). *)
Theorem C71_current_inside a t : is_finite (an_start a) = true -> is_finite (an_end a) = true -> is_finite t = true ->
  B2R (an_start a) <= B2R t <= B2R (an_end a) ->
  exists x : f32, is_finite x = true /\ nearest_float (B2R t) (B2R x) /\ B2R (an_start a) <= B2R x <= B2R (an_end a) /\
    forall s v, has_value (an_scale a) s -> has_value (an_response a x) v -> Rabs (s * v) <= 2 ^ 127 ->
      exists c, has_value (current a t) (- c) /\ nearest_float (s * v) c /\ Rabs (c - s * v) <= Rabs (s * v) * ulp32 + / 2 ^ 150.
Proof.
  intros Hs He Ht [H1 H2].
  assert (B2R (an_start a) <= rnd32 (B2R t)) as R1. { apply round_ge_generic; [typeclasses eauto|typeclasses eauto|apply format32|exact H1]. }
  assert (rnd32 (B2R t) <= B2R (an_end a)) as R2. { apply round_le_generic; [typeclasses eauto|typeclasses eauto|apply format32|exact H2]. }
  assert (Rabs (rnd32 (B2R t)) < bpow radix2 128) as Hb.
  { pose proof (finite_below (an_start a)) as B1. pose proof (finite_below (an_end a)) as B2. apply Rabs_def2 in B1, B2. apply Rabs_def1; lra. }
  destruct (to_float_round t Ht Hb) as [F1 F2]. exists (to_float t). rewrite F2. split; [exact F1|]. split; [exact (round_nearest _ Hb)|]. split; [split; assumption|].
  intros s v [S1 S2] [V1 V2] Hsv. assert (bpow radix2 127 = 2 ^ 127) as E127. { rewrite bpow_powerRZ. unfold powerRZ. change (Pos.to_nat 127) with 127%nat. reflexivity. }
  rewrite <- E127 in Hsv. pose proof (below_32 _ Hsv) as Hb2. exists (rnd32 (s * v)).
  pose proof (Bmult_correct 24 128 _ _ mode_NE (an_scale a) (an_response a (to_float t))) as HB. change (round_mode mode_NE) with ZnearestE in HB. change (SpecFloat.fexp 24 128) with fexp32 in HB.
  rewrite S2, V2, Rlt_bool_true in HB by exact Hb2. destruct HB as (E & F & _). rewrite S1, V1 in F.
  split; [|split; [exact (round_nearest _ Hb2)|apply round_error]].
  unfold current. rewrite (proj2 (le_value _ _ Hs F1)) by (rewrite F2; exact R1). rewrite (proj2 (le_value _ _ F1 He)) by (rewrite F2; exact R2). cbn [andb].
  rewrite <- E. apply times_minus_one. exact F.
Qed.
(** Before and after the window it is zero, as soon as there is a float between the time and the window. *)
Theorem C71_current_before a t (y : f32) : is_finite (an_start a) = true -> is_finite t = true -> is_finite y = true -> B2R t <= B2R y -> B2R y < B2R (an_start a) -> has_value (current a t) 0.
Proof.
  intros Hs Ht Hy H1 H2. unfold current. assert (le32 (an_start a) (to_float t) = false) as ->; [|split; reflexivity].
  destruct (Rlt_or_le (Rabs (rnd32 (B2R t))) (bpow radix2 128)) as [Hb|Hb].
  - destruct (to_float_round t Ht Hb) as [F1 F2]. destruct (le32 (an_start a) (to_float t)) eqn:El; [|reflexivity]. apply le_value in El; [|assumption..].
    rewrite F2 in El. pose proof (round_le_generic radix2 fexp32 ZnearestE _ _ (format32 y) H1). lra.
  - pose proof (round_le_generic radix2 fexp32 ZnearestE _ _ (format32 y) H1) as R1. pose proof (finite_below y) as By. apply Rabs_def2 in By.
    destruct t as [s|s| |s m e Hme]; try discriminate.
    { cbn [B2R] in Hb. rewrite round_0, Rabs_R0 in Hb by typeclasses eauto. pose proof (bpow_gt_0 radix2 128). lra. }
    unfold to_float, convert. pose proof (binary_normalize_correct 24 128 _ _ mode_NE (cond_Zopp s (Z.pos m)) e s) as HN.
    change (round_mode mode_NE) with ZnearestE in HN. change (SpecFloat.fexp 24 128) with fexp32 in HN. cbn zeta in HN.
    change (F2R (Float radix2 (cond_Zopp s (Z.pos m)) e)) with (B2R (B754_finite s m e Hme)) in HN. rewrite Rlt_bool_false in HN by exact Hb.
    assert (B2R (B754_finite s m e Hme) < 0) as Hneg.
    { destruct (Rlt_or_le (B2R (B754_finite s m e Hme)) 0) as [Hn|Hn]; [exact Hn|]. exfalso.
      assert (0 <= rnd32 (B2R (B754_finite s m e Hme))). { apply round_ge_generic; [typeclasses eauto|typeclasses eauto|apply generic_format_0|exact Hn]. }
      rewrite Rabs_pos_eq in Hb by assumption. lra. }
    rewrite Rlt_bool_true in HN by exact Hneg. set (f := binary_normalize _ _ _ _ _ _ _ _) in *. clearbody f.
    destruct f as [?|[]| |? ? ? ?]; try discriminate. unfold le32, Bleb. destruct (an_start a) as [?|?| |[] ? ? ?]; try discriminate; reflexivity.
Qed.
Theorem C71_current_after a t (y : f32) : is_finite (an_end a) = true -> is_finite t = true -> is_finite y = true -> B2R (an_end a) < B2R y -> B2R y <= B2R t -> has_value (current a t) 0.
Proof.
  intros Hs Ht Hy H2 H1. unfold current. assert (le32 (to_float t) (an_end a) = false) as ->; [|rewrite andb_false_r; split; reflexivity].
  pose proof (round_ge_generic radix2 fexp32 ZnearestE _ _ (format32 y) H1) as R1.
  destruct (Rlt_or_le (Rabs (rnd32 (B2R t))) (bpow radix2 128)) as [Hb|Hb].
  - destruct (to_float_round t Ht Hb) as [F1 F2]. destruct (le32 (to_float t) (an_end a)) eqn:El; [|reflexivity]. apply le_value in El; [|assumption..].
    rewrite F2 in El. lra.
  - pose proof (finite_below y) as By. apply Rabs_def2 in By.
    destruct t as [s|s| |s m e Hme]; try discriminate.
    { cbn [B2R] in Hb. rewrite round_0, Rabs_R0 in Hb by typeclasses eauto. pose proof (bpow_gt_0 radix2 128). lra. }
    unfold to_float, convert. pose proof (binary_normalize_correct 24 128 _ _ mode_NE (cond_Zopp s (Z.pos m)) e s) as HN.
    change (round_mode mode_NE) with ZnearestE in HN. change (SpecFloat.fexp 24 128) with fexp32 in HN. cbn zeta in HN.
    change (F2R (Float radix2 (cond_Zopp s (Z.pos m)) e)) with (B2R (B754_finite s m e Hme)) in HN. rewrite Rlt_bool_false in HN by exact Hb.
    assert (0 <= B2R (B754_finite s m e Hme)) as Hpos.
    { destruct (Rlt_or_le (B2R (B754_finite s m e Hme)) 0) as [Hn|Hn]; [|exact Hn]. exfalso.
      assert (rnd32 (B2R (B754_finite s m e Hme)) <= 0). { apply round_le_generic; [typeclasses eauto|typeclasses eauto|apply generic_format_0|lra]. }
      rewrite Rabs_left1 in Hb by assumption. lra. }
    rewrite Rlt_bool_false in HN by exact Hpos. set (f := binary_normalize _ _ _ _ _ _ _ _) in *. clearbody f.
    destruct f as [?|[]| |? ? ? ?]; try discriminate. unfold le32, Bleb. destruct (an_end a) as [?|?| |[] ? ? ?]; try discriminate; reflexivity.
Qed.
(** Nor is there a current at times that are not numbers. *)
Theorem C71_current_no_time a t : is_finite (an_start a) = true -> is_finite (an_end a) = true -> is_finite t = false -> has_value (current a t) 0.
Proof.
  intros Hs He Ht. unfold current. destruct t as [?|[]| |? ? ? ?]; try discriminate; cbn [to_float convert].
  - replace (le32 (an_start a) (B754_infinity true)) with false; [split; reflexivity|]. destruct (an_start a) as [?|?| |[] ? ? ?]; try discriminate; reflexivity.
  - replace (le32 (B754_infinity false) (an_end a)) with false; [rewrite andb_false_r; split; reflexivity|]. destruct (an_end a) as [?|?| |[] ? ? ?]; try discriminate; reflexivity.
  - replace (le32 (an_start a) B754_nan) with false; [split; reflexivity|]. destruct (an_start a) as [?|?| |[] ? ? ?]; try discriminate; reflexivity.
Qed.
(** meep may drop the source after last_time: the end of the window. *)
Theorem C71_last_time a : is_finite (an_end a) = true -> has_value (last_time a) (B2R (an_end a)).
Proof. apply to_double_value. Qed.

(** Immediately after the end the current may still flow: the window from 0 to 1, time 1 + 2^-30. *)
Definition ex_antenna : antenna := new_antenna (B754_zero false) one32 (B754_zero false) (fun _ => one32).
Definition ex_late : f64 := binary_normalize 53 1024 _ _ mode_NE (2 ^ 30 + 1) (-30) false.
Theorem C71_late_current_refuted : exists a t, is_finite (an_start a) = true /\ is_finite (an_end a) = true /\ is_finite t = true /\ B2R (an_end a) < B2R t /\ has_value (current a t) (-1).
Proof.
  exists ex_antenna, ex_late. split; [reflexivity|]. split; [reflexivity|]. split; [reflexivity|]. split.
  - replace (B2R (an_end ex_antenna)) with (IZR 1).
    2:{ cbn. unfold F2R. cbn. lra. }
    replace (B2R ex_late) with (IZR (2 ^ 30 + 1) * / 1073741824).
    2:{ rewrite <- (SF2R_B2SF 53 1024). replace (B2SF ex_late) with (SpecFloat.S754_finite false (4194304 * 1073741825)%positive (-52)) by (vm_compute; reflexivity). unfold SF2R, F2R. cbn [Fnum Fexp cond_Zopp]. change (bpow radix2 (-52)) with (/ IZR (2 ^ 52)). change (2 ^ 30 + 1)%Z with 1073741825%Z. change (2 ^ 52)%Z with 4503599627370496%Z. change (Z.pos (4194304 * 1073741825)) with 4503599631564800%Z. lra. }
    change (2 ^ 30 + 1)%Z with 1073741825%Z. lra.
  - split; [vm_compute; reflexivity|]. rewrite <- (SF2R_B2SF 53 1024). replace (B2SF (current ex_antenna ex_late)) with (B2SF minus_one) by (vm_compute; reflexivity). rewrite SF2R_B2SF. apply minus_one_value.
Qed.

(** * The scale that the calculator sets: 0.11 times the resolution. *)
Lemma magic_value : has_value magic_number (14763950 * / 134217728).
Proof.
  split; [reflexivity|]. rewrite <- (SF2R_B2SF 24 128). replace (B2SF magic_number) with (SpecFloat.S754_finite false 14763950 (-27)) by (vm_compute; reflexivity). unfold SF2R, F2R. cbn [Fnum Fexp cond_Zopp].
  change (bpow radix2 (-27)) with (/ IZR (2 ^ 27)). change (2 ^ 27)%Z with 134217728%Z. reflexivity.
Qed.
Lemma relative32 x : bpow radix2 (-126) <= Rabs x -> Rabs (rnd32 x - x) <= Rabs x * ulp32.
Proof.
  intros Hx. pose proof (relative_error_N_FLT radix2 (-149) 24 ltac:(lia) (fun z => negb (Z.even z)) x Hx) as H. eapply Rle_trans; [exact H|].
  rewrite Rmult_comm. apply Rmult_le_compat_l; [apply Rabs_pos|]. unfold ulp32. change (- (24) + 1)%Z with (-23)%Z. rewrite bpow_powerRZ. unfold powerRZ. change (Pos.to_nat 23) with 23%nat. change (IZR radix2) with 2. right. change (2 ^ 24) with (2 * 2 ^ 23). set (x2 := 2 ^ 23). assert (0 < x2) by (apply pow_lt; lra). field. lra.
Qed.
Lemma relative64 x : bpow radix2 (-1022) <= Rabs x -> Rabs (rnd64 x - x) <= Rabs x * ulp32.
Proof.
  intros Hx. pose proof (relative_error_N_FLT radix2 (-1074) 53 ltac:(lia) (fun z => negb (Z.even z)) x Hx) as H. eapply Rle_trans; [exact H|].
  rewrite Rmult_comm. apply Rmult_le_compat_l; [apply Rabs_pos|]. unfold ulp32. change (- (53) + 1)%Z with (-52)%Z. change (bpow radix2 (-52)) with (/ IZR (2 ^ 52)). change (2 ^ 52)%Z with 4503599627370496%Z. change (2 ^ 24) with (2 * (2 * (2 * (2 * (2 * (2 * (2 * (2 * (2 ^ 16))))))))). simpl pow. lra.
Qed.
(** Resolutions in a reasonable range. *)
Definition reasonable (a : f64) : Prop := is_finite a = true /\ bpow radix2 (-100) <= B2R a <= bpow radix2 100.
Lemma bpow_half k : bpow radix2 (k - 1) = bpow radix2 k / 2.
Proof. unfold Zminus. rewrite bpow_plus. change (bpow radix2 (- (1))) with (/ 2). reflexivity. Qed.
Theorem C71_scale res : reasonable res -> exists s, has_value (calculator_scale res) s /\ Rabs (s - 11 / 100 * B2R res) <= B2R res / 2 ^ 24.
Proof.
  intros [Hf [H1 H2]]. destruct magic_value as [M1 M2]. destruct (to_double_value magic_number M1) as [D1 D2]. rewrite M2 in D2. set (m := 14763950 * / 134217728) in *.
  assert (0.10999 <= m <= 0.11001) as Hm by (unfold m; lra). set (x := B2R res) in *. pose proof (bpow_gt_0 radix2 (-100)) as Hp.
  pose proof (bpow_half 100) as P100. change (100 - 1)%Z with 99%Z in P100.
  pose proof (bpow_half (-100)) as Pm1. change (-100 - 1)%Z with (-101)%Z in Pm1. pose proof (bpow_half (-101)) as Pm2. change (-101 - 1)%Z with (-102)%Z in Pm2.
  pose proof (bpow_half (-102)) as Pm3. change (-102 - 1)%Z with (-103)%Z in Pm3. pose proof (bpow_half (-103)) as Pm4. change (-103 - 1)%Z with (-104)%Z in Pm4.
  pose proof (bpow_half (-104)) as Pm5. change (-104 - 1)%Z with (-105)%Z in Pm5.
  assert (bpow radix2 (-104) <= x * m <= bpow radix2 99) as [X1 X2]. { set (u := bpow radix2 (-100)) in *. set (v := bpow radix2 100) in *. clearbody u v m x. split; [rewrite Pm4, Pm3, Pm2, Pm1|rewrite P100]; clear -H1 H2 Hm Hp; nra. }
  assert (0 < x * m) as Xp by (pose proof (bpow_gt_0 radix2 (-104)); lra).
  pose proof (Bmult_correct 53 1024 _ _ mode_NE res (to_double magic_number)) as HB. change (round_mode mode_NE) with ZnearestE in HB. change (SpecFloat.fexp 53 1024) with fexp64 in HB.
  fold x in HB. rewrite D2 in HB.
  rewrite Rlt_bool_true in HB.
  2:{ apply below_64. rewrite Rabs_pos_eq by lra. eapply Rle_trans; [exact X2|]. apply bpow_le. lia. }
  destruct HB as (E & F & _). rewrite Hf, D1 in F. cbn [andb] in F.
  pose proof (relative64 (x * m)) as R64. rewrite (Rabs_pos_eq (x * m)) in R64 by lra.
  specialize (R64 ltac:(eapply Rle_trans; [apply bpow_le|exact X1]; lia)). rewrite <- E in R64. set (p := B2R (Bmult mode_NE res (to_double magic_number))) in *.
  assert (ulp32 = / 16777216) as Hu. { unfold ulp32. simpl pow. lra. }
  assert (Rabs (p - x * m) <= x * m * / 16777216) as Hp1 by (rewrite <- Hu; exact R64). clear R64.
  apply Rabs_le_inv in Hp1. assert (bpow radix2 (-105) <= p <= bpow radix2 100) as [Q1 Q2]. { rewrite Pm5. split; [lra|]. rewrite P100 in X2. pose proof (bpow_gt_0 radix2 100). lra. }
  assert (0 < p) as Qp by (pose proof (bpow_gt_0 radix2 (-105)); lra).
  destruct (to_float_round _ F) as [T1 T2]. { fold p. apply below_32. rewrite Rabs_pos_eq by lra. eapply Rle_trans; [exact Q2|]. apply bpow_le. lia. }
  exists (B2R (calculator_scale res)). split; [split; [exact T1|reflexivity]|]. unfold calculator_scale. rewrite T2. fold p.
  pose proof (relative32 p) as R32. rewrite (Rabs_pos_eq p) in R32 by lra. specialize (R32 ltac:(eapply Rle_trans; [apply bpow_le|exact Q1]; lia)). rewrite Hu in R32.
  apply Rabs_le_inv in R32. simpl pow. apply Rabs_le. assert (0 < x) as Hx by nra. assert (Rabs (m - 11 / 100) <= 1 / 1000000000) as Hmm by (apply Rabs_le; unfold m; lra). apply Rabs_le_inv in Hmm.
  split; nra.
Qed.

(** * Coordinates *)
Lemma plus32 x y : generic_format radix2 fexp32 x -> generic_format radix2 fexp32 y -> Rabs (rnd32 (x + y) - (x + y)) <= Rabs (x + y) * ulp32.
Proof.
  intros Hx Hy. destruct (Rle_or_lt (bpow radix2 (-126)) (Rabs (x + y))) as [H|H]; [apply relative32; exact H|].
  rewrite round_generic; [replace (x + y - (x + y)) with 0 by ring; rewrite Rabs_R0; apply Rmult_le_pos; [apply Rabs_pos|]|typeclasses eauto|].
  - unfold ulp32. apply Rlt_le, Rinv_0_lt_compat, pow_lt. lra.
  - apply FLT_format_plus_small; [reflexivity|assumption|assumption|]. apply Rlt_le. eapply Rlt_le_trans; [exact H|]. apply bpow_le. lia.
Qed.
Lemma bpow_126 : bpow radix2 127 = 2 * bpow radix2 126.
Proof. pose proof (bpow_half 127) as H. change (127 - 1)%Z with 126%Z in H. lra. Qed.
Lemma plus_value (x y : f32) : is_finite x = true -> is_finite y = true -> Rabs (B2R x + B2R y) <= bpow radix2 127 -> has_value (Bplus mode_NE x y) (rnd32 (B2R x + B2R y)).
Proof.
  intros Hx Hy Hb. pose proof (Bplus_correct 24 128 _ _ mode_NE x y Hx Hy) as HB. change (round_mode mode_NE) with ZnearestE in HB. change (SpecFloat.fexp 24 128) with fexp32 in HB.
  rewrite Rlt_bool_true in HB by (apply below_32; exact Hb). destruct HB as (E & F & _). exact (conj F E).
Qed.
Lemma minus_value (x y : f32) : is_finite x = true -> is_finite y = true -> Rabs (B2R x - B2R y) <= bpow radix2 127 -> has_value (Bminus mode_NE x y) (rnd32 (B2R x - B2R y)).
Proof.
  intros Hx Hy Hb. pose proof (Bminus_correct 24 128 _ _ mode_NE x y Hx Hy) as HB. change (round_mode mode_NE) with ZnearestE in HB. change (SpecFloat.fexp 24 128) with fexp32 in HB.
  rewrite Rlt_bool_true in HB by (apply below_32; exact Hb). destruct HB as (E & F & _). exact (conj F E).
Qed.

(** A coordinate of reasonable size. *)
Definition coordinate (x : f32) : Prop := is_finite x = true /\ Rabs (B2R x) <= 2 ^ 125.
Lemma bpow_125 : bpow radix2 125 = 2 ^ 125.
Proof. rewrite bpow_powerRZ. unfold powerRZ. change (Pos.to_nat 125) with 125%nat. reflexivity. Qed.
Lemma coordinates_sum x y : Rabs x <= 2 ^ 125 -> Rabs y <= 2 ^ 125 -> Rabs (x + y) <= bpow radix2 126.
Proof.
  rewrite <- bpow_125. intros Hx Hy. pose proof (bpow_half 126) as H. change (126 - 1)%Z with 125%Z in H. eapply Rle_trans; [apply Rabs_triang|]. lra.
Qed.

(** To MEEP: the radius is unchanged, the height is relative to the bottom, rounded to a float. *)
Theorem C71_to_meep z_min r z : coordinate z_min -> is_finite r = true -> coordinate z ->
  exists d, has_value (fst (to_meep z_min (r, z))) (B2R r) /\ has_value (snd (to_meep z_min (r, z))) d /\ nearest_float (B2R z - B2R z_min) d /\
    Rabs (d - (B2R z - B2R z_min)) <= Rabs (B2R z - B2R z_min) * ulp32.
Proof.
  intros [M1 M2] Hr [Z1 Z2]. exists (rnd32 (B2R z - B2R z_min)).
  assert (Rabs (B2R z - B2R z_min) <= bpow radix2 126) as Hd. { unfold Rminus. apply coordinates_sum; [exact Z2|]. rewrite Rabs_Ropp. exact M2. }
  assert (Rabs (B2R z - B2R z_min) <= bpow radix2 127) as Hd'. { eapply Rle_trans; [exact Hd|]. apply bpow_le. lia. }
  destruct (minus_value z z_min Z1 M1 Hd') as [D1 D2]. split; [apply to_double_value; exact Hr|]. split; [cbn [to_meep snd]; rewrite <- D2; apply to_double_value; exact D1|].
  split; [apply round_nearest, below_32; exact Hd'|]. apply (plus32 (B2R z) (- B2R z_min)); [apply format32|apply generic_format_opp, format32].
Qed.

(** There and back: the radius is the same number, the height is the same up to two roundings. *)
Theorem C71_round_trip z_min r z : coordinate z_min -> coordinate z ->
  fst (to_eisvogel z_min (to_meep z_min (r, z))) = r /\
  exists z', has_value (snd (to_eisvogel z_min (to_meep z_min (r, z)))) z' /\ Rabs (z' - B2R z) <= (Rabs (B2R z) + 2 * Rabs (B2R z - B2R z_min)) * ulp32.
Proof.
  intros [M1 M2] [Z1 Z2]. cbn [to_meep to_eisvogel fst snd]. rewrite !back_and_forth. split; [reflexivity|].
  assert (Rabs (B2R z - B2R z_min) <= bpow radix2 126) as Hd. { unfold Rminus. apply coordinates_sum; [exact Z2|]. rewrite Rabs_Ropp. exact M2. }
  assert (Rabs (B2R z - B2R z_min) <= bpow radix2 127) as Hd'. { eapply Rle_trans; [exact Hd|]. apply bpow_le. lia. }
  destruct (minus_value z z_min Z1 M1 Hd') as [D1 D2]. pose proof (plus32 (B2R z) (- B2R z_min) (format32 z) (generic_format_opp _ _ _ (format32 z_min))) as E1. fold (B2R z - B2R z_min) in E1. rewrite <- D2 in E1.
  set (d := Bminus mode_NE z z_min) in *. assert (ulp32 = / 16777216) as Hu. { unfold ulp32. simpl pow. lra. } rewrite Hu in *.
  set (delta := Rabs (B2R z - B2R z_min)) in *. assert (0 <= delta) by apply Rabs_pos.
  assert (Rabs (B2R d + B2R z_min - B2R z) <= delta * / 16777216) as E2. { replace (B2R d + B2R z_min - B2R z) with (B2R d - (B2R z - B2R z_min)) by ring. exact E1. }
  assert (Rabs (B2R d + B2R z_min) <= Rabs (B2R z) + delta * / 16777216) as E3. { replace (B2R d + B2R z_min) with (B2R z + (B2R d + B2R z_min - B2R z)) by ring. eapply Rle_trans; [apply Rabs_triang|]. lra. }
  destruct (plus_value d z_min D1 M1) as [P1 P2]. { rewrite bpow_126. rewrite <- bpow_125 in Z2. pose proof (bpow_half 126) as Hh. change (126 - 1)%Z with 125%Z in Hh. pose proof (bpow_gt_0 radix2 126). lra. }
  exists (rnd32 (B2R d + B2R z_min)). split; [exact (conj P1 P2)|]. pose proof (plus32 _ _ (format32 d) (format32 z_min)) as E4. rewrite Hu in E4.
  replace (rnd32 (B2R d + B2R z_min) - B2R z) with ((rnd32 (B2R d + B2R z_min) - (B2R d + B2R z_min)) + (B2R d + B2R z_min - B2R z)) by ring.
  eapply Rle_trans; [apply Rabs_triang|]. pose proof (Rabs_pos (B2R z)). lra.
Qed.

(** The same height exactly, if the heights are multiples of a power of two and not too many of them. *)
Lemma multiple_format k x : (-149 <= k)%Z -> multiple k x -> Rabs x <= bpow radix2 (24 + k) -> generic_format radix2 fexp32 x.
Proof.
  intros Hk (n & ->) Hb. destruct (Rle_lt_or_eq_dec _ _ Hb) as [Hlt|He].
  - apply generic_format_FLT. exists (Float radix2 n k); [reflexivity| |exact Hk]. cbn [Fnum]. rewrite Rabs_mult, (Rabs_pos_eq (bpow radix2 k)), bpow_plus in Hlt by apply bpow_ge_0.
    apply Rmult_lt_reg_r in Hlt; [|apply bpow_gt_0]. rewrite <- abs_IZR in Hlt. change (bpow radix2 24) with (IZR (2 ^ 24)) in Hlt. apply lt_IZR in Hlt. exact Hlt.
  - assert (generic_format radix2 fexp32 (bpow radix2 (24 + k))) as Hg. { apply generic_format_bpow. unfold FLT_exp. lia. }
    destruct (Rabs_eq_Rabs (IZR n * bpow radix2 k) (bpow radix2 (24 + k))) as [E|E]; [rewrite He; symmetry; apply Rabs_pos_eq, bpow_ge_0|rewrite E; exact Hg|rewrite E; apply generic_format_opp; exact Hg].
Qed.
Theorem C71_round_trip_exact z_min r z k : coordinate z_min -> coordinate z -> (-149 <= k)%Z -> multiple k (B2R z_min) -> multiple k (B2R z) ->
  Rabs (B2R z - B2R z_min) <= bpow radix2 (24 + k) -> exists z', snd (to_eisvogel z_min (to_meep z_min (r, z))) = z' /\ has_value z' (B2R z).
Proof.
  intros [M1 M2] [Z1 Z2] Hk (n1 & E1) (n2 & E2) Hb. cbn [to_meep to_eisvogel fst snd]. rewrite !back_and_forth. eexists. split; [reflexivity|].
  assert (Rabs (B2R z - B2R z_min) <= bpow radix2 126) as Hd. { unfold Rminus. apply coordinates_sum; [exact Z2|]. rewrite Rabs_Ropp. exact M2. }
  assert (Rabs (B2R z - B2R z_min) <= bpow radix2 127) as Hd'. { eapply Rle_trans; [exact Hd|]. apply bpow_le. lia. }
  destruct (minus_value z z_min Z1 M1 Hd') as [D1 D2]. rewrite round_generic in D2; [|typeclasses eauto|].
  2:{ apply (multiple_format k); [exact Hk| |exact Hb]. exists (n2 - n1)%Z. rewrite E1, E2, minus_IZR. ring. }
  set (d := Bminus mode_NE z z_min) in *. assert (B2R d + B2R z_min = B2R z) as Es by (rewrite D2; ring).
  destruct (plus_value d z_min D1 M1) as [P1 P2]. { rewrite Es. eapply Rle_trans; [exact Z2|]. rewrite <- bpow_125. apply bpow_le. lia. }
  split; [exact P1|]. rewrite P2, Es. apply round_generic; [typeclasses eauto|apply format32].
Qed.
(** In general not: the height 0.1 in a geometry whose bottom is at -300 comes back as another number. *)
Definition ex_tenth : f32 := binary_normalize 24 128 _ _ mode_NE 13421773 (-27) false.
Definition ex_bottom : f32 := binary_normalize 24 128 _ _ mode_NE (-300) 0 false.
Theorem C71_round_trip_refuted : exists z_min r z, is_finite z_min = true /\ is_finite r = true /\ is_finite z = true /\
  B2R (snd (to_eisvogel z_min (to_meep z_min (r, z)))) <> B2R z.
Proof.
  exists ex_bottom, one32, ex_tenth. split; [reflexivity|]. split; [reflexivity|]. split; [reflexivity|]. rewrite <- !(SF2R_B2SF 24 128).
  replace (B2SF (snd (to_eisvogel ex_bottom (to_meep ex_bottom (one32, ex_tenth))))) with (SpecFloat.S754_finite false 13422592 (-27)) by (vm_compute; reflexivity).
  replace (B2SF ex_tenth) with (SpecFloat.S754_finite false 13421773 (-27)) by (vm_compute; reflexivity).
  unfold SF2R, F2R. cbn [Fnum Fexp cond_Zopp]. intros E. apply Rmult_eq_reg_r in E; [|apply Rgt_not_eq, bpow_gt_0]. apply eq_IZR in E. discriminate.
Qed.

(** Points of the geometry are in the volume of meep. *)
Theorem C71_in_volume r_max z_min z_max r z : coordinate z_min -> coordinate z_max -> is_finite r_max = true -> is_finite r = true -> coordinate z ->
  0 <= B2R r <= B2R r_max -> B2R z_min <= B2R z <= B2R z_max ->
  exists pr pz vr vz, has_value (fst (to_meep z_min (r, z))) pr /\ has_value (snd (to_meep z_min (r, z))) pz /\
    has_value (fst (meep_volume r_max z_min z_max)) vr /\ has_value (snd (meep_volume r_max z_min z_max)) vz /\ 0 <= pr <= vr /\ 0 <= pz <= vz.
Proof.
  intros [M1 M2] [X1 X2] Hrm Hr [Z1 Z2] H1 [H2 H3].
  assert (forall w : f32, coordinate w -> has_value (to_double (Bminus mode_NE w z_min)) (rnd32 (B2R w - B2R z_min))) as Hm.
  { intros w [W1 W2]. assert (Rabs (B2R w - B2R z_min) <= bpow radix2 127) as Hd. { eapply Rle_trans; [unfold Rminus; apply coordinates_sum; [exact W2|rewrite Rabs_Ropp; exact M2]|]. apply bpow_le. lia. }
    destruct (minus_value w z_min W1 M1 Hd) as [D1 D2]. rewrite <- D2. apply to_double_value. exact D1. }
  exists (B2R r), (rnd32 (B2R z - B2R z_min)), (B2R r_max), (rnd32 (B2R z_max - B2R z_min)).
  split; [apply to_double_value; exact Hr|]. split; [apply Hm; split; assumption|]. split; [apply to_double_value; exact Hrm|]. split; [apply Hm; split; assumption|]. split; [exact H1|]. split.
  - apply round_ge_generic; [typeclasses eauto|typeclasses eauto|apply generic_format_0|lra].
  - apply round_le; [typeclasses eauto|typeclasses eauto|lra].
Qed.
(** The permittivity that meep gets at a point of the geometry is that at the same radius and at the height of C71_round_trip. *)
Theorem C71_permittivity z_min eps_func r z v : coordinate z_min -> coordinate z ->
  exists z', snd (to_eisvogel z_min (to_meep z_min (r, z))) = z' /\ is_finite z' = true /\ Rabs (B2R z' - B2R z) <= (Rabs (B2R z) + 2 * Rabs (B2R z - B2R z_min)) * ulp32 /\
    (has_value (eps_func r z') v -> has_value (eps z_min eps_func (to_meep z_min (r, z))) v).
Proof.
  intros Hm Hz. destruct (C71_round_trip z_min r z Hm Hz) as (Er & z' & [Z1 Z2] & Hb). eexists. split; [reflexivity|]. split; [exact Z1|]. split; [rewrite Z2; exact Hb|].
  intros [V1 V2]. unfold eps. rewrite Er. rewrite <- V2. apply to_double_value. exact V1.
Qed.

(** * The source: 1.5 cells from the axis, at the height of the antenna. *)
Theorem C71_source a z_min an : reasonable a -> coordinate z_min -> coordinate (an_z an) ->
  exists r d, has_value (fst (source_position a z_min an)) r /\ has_value (snd (source_position a z_min an)) d /\
    Rabs (r * B2R a - 3 / 2) <= / 2 ^ 22 /\ Rabs (d - (B2R (an_z an) - B2R z_min)) <= Rabs (B2R (an_z an) - B2R z_min) * ulp32.
Proof.
  intros [Hf [H1 H2]] Hm Hz.
  assert (has_value three_halves (3 / 2)) as [T1 T2]. { split; [reflexivity|]. rewrite <- (SF2R_B2SF 53 1024). replace (B2SF three_halves) with (SpecFloat.S754_finite false 6755399441055744 (-52)) by (vm_compute; reflexivity). unfold SF2R, F2R. cbn [Fnum Fexp cond_Zopp]. change (bpow radix2 (-52)) with (/ IZR (2 ^ 52)). change (2 ^ 52)%Z with 4503599627370496%Z. lra. }
  set (x := B2R a) in *. pose proof (bpow_gt_0 radix2 (-100)) as Hp. assert (0 < x) as Hx by lra.
  assert (bpow radix2 (-100) * bpow radix2 100 = 1) as E1. { rewrite <- bpow_plus. reflexivity. }
  assert (bpow radix2 (-100) <= 3 / 2 / x <= bpow radix2 101) as [X1 X2].
  { assert (bpow radix2 101 = 2 * bpow radix2 100) as E2. { pose proof (bpow_half 101) as H. change (101 - 1)%Z with 100%Z in H. lra. }
    pose proof (bpow_gt_0 radix2 100) as Hp2. set (u := bpow radix2 (-100)) in *. set (v := bpow radix2 100) in *. rewrite E2. clearbody u v x. split.
    - apply Rmult_le_reg_r with x; [exact Hx|]. replace (3 / 2 / x * x) with (3 / 2) by (field; lra). nra.
    - apply Rmult_le_reg_r with x; [exact Hx|]. replace (3 / 2 / x * x) with (3 / 2) by (field; lra). nra. }
  assert (0 < 3 / 2 / x) as Xp by lra.
  pose proof (Bdiv_correct 53 1024 _ _ mode_NE three_halves a) as HB. change (round_mode mode_NE) with ZnearestE in HB. change (SpecFloat.fexp 53 1024) with fexp64 in HB. fold x in HB. rewrite T2 in HB.
  specialize (HB ltac:(lra)). rewrite Rlt_bool_true in HB.
  2:{ apply below_64. rewrite Rabs_pos_eq by lra. eapply Rle_trans; [exact X2|]. apply bpow_le. lia. }
  destruct HB as (E & F & _). rewrite T1 in F. pose proof (relative64 (3 / 2 / x)) as R64. rewrite (Rabs_pos_eq (3 / 2 / x)) in R64 by lra.
  specialize (R64 ltac:(eapply Rle_trans; [apply bpow_le|exact X1]; lia)). rewrite <- E in R64. set (q := Bdiv mode_NE three_halves a) in *.
  assert (ulp32 = / 16777216) as Hu. { unfold ulp32. simpl pow. lra. } rewrite Hu in R64. apply Rabs_le_inv in R64.
  assert (bpow radix2 (-101) <= B2R q <= bpow radix2 102) as [Q1 Q2].
  { pose proof (bpow_half (-100)) as P1. change (-100 - 1)%Z with (-101)%Z in P1. pose proof (bpow_half 102) as P2. change (102 - 1)%Z with 101%Z in P2. lra. }
  assert (0 < B2R q) as Qp by (pose proof (bpow_gt_0 radix2 (-101)); lra).
  destruct (to_float_round q F) as [G1 G2]. { apply below_32. rewrite Rabs_pos_eq by lra. eapply Rle_trans; [exact Q2|]. apply bpow_le. lia. }
  pose proof (relative32 (B2R q)) as R32. rewrite (Rabs_pos_eq (B2R q)) in R32 by lra. specialize (R32 ltac:(eapply Rle_trans; [apply bpow_le|exact Q1]; lia)). rewrite <- G2, Hu in R32. apply Rabs_le_inv in R32.
  destruct (C71_to_meep z_min (to_float q) (an_z an) Hm G1 Hz) as (d & S1 & S2 & _ & S3). exists (B2R (to_float q)), d. split; [exact S1|]. split; [exact S2|]. split; [|exact S3].
  set (r := B2R (to_float q)) in *. set (p := B2R q) in *. clearbody r p x. assert (3 / 2 / x * x = 3 / 2) as Ex by (field; lra). set (y := 3 / 2 / x) in *. clearbody y.
  clear -R64 R32 Ex Hx Xp Qp. simpl pow. apply Rabs_le.
  assert (p <= y * (1 + / 16777216)) by lra. assert (y * (1 - / 16777216) <= p) by lra. assert (r <= p * (1 + / 16777216)) by lra. assert (p * (1 - / 16777216) <= r) by lra.
  assert (r <= y * (1 + 3 * / 16777216)) by lra. assert (y * (1 - 2 * / 16777216) <= r) by lra. split; nra.
Qed.

(** * The antenna of the CORSIKA interface during a calculation: from time 0 to t_end, the current is -0.11 times the resolution times the response,
    up to rounding. *)
Theorem C71_corsika z_ant t_end response res t : reasonable res -> is_finite t_end = true -> is_finite t = true -> 0 <= B2R t <= B2R t_end ->
  exists x : f32, is_finite x = true /\ nearest_float (B2R t) (B2R x) /\ 0 <= B2R x <= B2R t_end /\
    forall v, has_value (response x) v -> B2R res * Rabs v <= 2 ^ 127 ->
      exists c, has_value (current (c8_antenna z_ant t_end response res) t) c /\ Rabs (c + 11 / 100 * B2R res * v) <= B2R res * Rabs v / 2 ^ 23 + / 2 ^ 150.
Proof.
  intros Hres He Ht Hw. set (a := c8_antenna z_ant t_end response res).
  destruct (C71_current_inside a t) as (x & X1 & X2 & X3 & Hx); [reflexivity|exact He|exact Ht|exact Hw|].
  exists x. split; [exact X1|]. split; [exact X2|]. split; [exact X3|]. intros v Hv Hb.
  destruct (C71_scale res Hres) as (s & Hs & Es). destruct Hres as [Rf [R1 R2]]. assert (0 < B2R res) as Hr by (pose proof (bpow_gt_0 radix2 (-100)); lra).
  set (y := B2R res) in *. assert (/ 2 ^ 24 = / 16777216) as E24 by (simpl pow; lra). unfold Rdiv in Es. rewrite E24 in Es. apply Rabs_le_inv in Es.
  assert (Rabs s <= y) as Bs. { apply Rabs_le. lra. }
  assert (Rabs (s * v) <= y * Rabs v) as Bsv. { rewrite Rabs_mult. apply Rmult_le_compat_r; [apply Rabs_pos|exact Bs]. }
  destruct (Hx s v Hs Hv) as (c & C1 & _ & C2); [lra|]. exists (- c). split; [exact C1|].
  replace (- c + 11 / 100 * y * v) with (- (c - s * v) + - (s - 11 / 100 * y) * v) by ring. eapply Rle_trans; [apply Rabs_triang|].
  rewrite Rabs_mult, !Rabs_Ropp. assert (Rabs (s - 11 / 100 * y) <= y * / 16777216) as B2 by (apply Rabs_le; lra).
  unfold ulp32 in C2. rewrite E24 in C2. assert (Rabs (s - 11 / 100 * y) * Rabs v <= y * / 16777216 * Rabs v) as B3. { apply Rmult_le_compat_r; [apply Rabs_pos|exact B2]. }
  assert (/ 2 ^ 23 = / 8388608) as E23 by (simpl pow; lra). unfold Rdiv. rewrite E23. set (w := y * Rabs v) in *. replace (y * / 16777216 * Rabs v) with (w * / 16777216) in B3 by (unfold w; ring).
  set (g := / 2 ^ 150) in *. clearbody g. lra.
Qed.

(** ** Concrete cases: resolution 10, window from 0 to 1, response 1. *)
Definition ex_res : f64 := binary_normalize 53 1024 _ _ mode_NE 10 0 false.
Lemma ex_res_value : has_value ex_res 10.
Proof. split; [reflexivity|]. rewrite <- (SF2R_B2SF 53 1024). replace (B2SF ex_res) with (SpecFloat.S754_finite false 5629499534213120 (-49)) by (vm_compute; reflexivity). unfold SF2R, F2R. cbn [Fnum Fexp cond_Zopp]. change (bpow radix2 (-49)) with (/ IZR (2 ^ 49)). change (2 ^ 49)%Z with 562949953421312%Z. lra. Qed.
Lemma one_value : has_value one32 1.
Proof. split; [reflexivity|]. rewrite <- (SF2R_B2SF 24 128). replace (B2SF one32) with (SpecFloat.S754_finite false 8388608 (-23)) by (vm_compute; reflexivity). unfold SF2R, F2R. cbn [Fnum Fexp cond_Zopp]. change (bpow radix2 (-23)) with (/ IZR (2 ^ 23)). change (2 ^ 23)%Z with 8388608%Z. lra. Qed.
Lemma bottom_value : has_value ex_bottom (-300).
Proof. split; [reflexivity|]. rewrite <- (SF2R_B2SF 24 128). replace (B2SF ex_bottom) with (SpecFloat.S754_finite true 9830400 (-15)) by (vm_compute; reflexivity). unfold SF2R, F2R. cbn [Fnum Fexp cond_Zopp]. change (bpow radix2 (-15)) with (/ IZR (2 ^ 15)). change (2 ^ 15)%Z with 32768%Z. change (- (9830400))%Z with (-9830400)%Z. lra. Qed.
Example C71_nonvacuous : reasonable ex_res /\ is_finite one32 = true /\ is_finite minus_one = true /\ 0 <= B2R (to_double one32) <= B2R one32 /\ B2R ex_res * Rabs (B2R one32) <= 2 ^ 127 /\
  coordinate ex_bottom /\ coordinate one32 /\ multiple 0 (B2R ex_bottom) /\ multiple 0 (B2R one32) /\ Rabs (B2R one32 - B2R ex_bottom) <= bpow radix2 (24 + 0).
Proof.
  destruct ex_res_value as [R1 R2]. destruct one_value as [O1 O2]. destruct bottom_value as [B1 B2]. destruct (to_double_value one32 O1) as [_ D2]. unfold reasonable, coordinate. rewrite D2, R2, O2, B2.
  assert (1024 <= 2 ^ 125) as Hbig. { apply Rle_trans with (2 ^ 10); [simpl; lra|]. apply Rle_pow; [lra|]. apply Nat.leb_le. reflexivity. }
  assert (2 ^ 125 <= 2 ^ 127) as Hbig2. { apply Rle_pow; [lra|]. apply Nat.leb_le. reflexivity. }
  assert (bpow radix2 (-100) <= 1) as Hm. { change 1 with (bpow radix2 0). apply bpow_le. lia. }
  assert (1024 <= bpow radix2 100) as Hp. { change 1024 with (bpow radix2 10). apply bpow_le. lia. }
  rewrite (Rabs_pos_eq 1) by lra. rewrite (Rabs_left (-300)) by lra. set (u := 2 ^ 125) in *. set (v := 2 ^ 127) in *. clearbody u v.
  split; [split; [exact R1|lra]|]. split; [exact O1|]. split; [reflexivity|]. split; [lra|]. split; [lra|]. split; [split; [exact B1|lra]|]. split; [split; [exact O1|lra]|].
  split; [exists (-300)%Z; cbn [bpow]; lra|]. split; [exists 1%Z; cbn [bpow]; lra|]. replace (1 - -300) with 301 by ring. rewrite Rabs_pos_eq by lra. change (24 + 0)%Z with 24%Z. change (bpow radix2 24) with (IZR (2 ^ 24)). change (2 ^ 24)%Z with 16777216%Z. lra.
Qed.

Print Assumptions C71_current_inside.
Print Assumptions C71_late_current_refuted.
Print Assumptions C71_source.
Print Assumptions C71_corsika.
