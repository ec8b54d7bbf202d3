(** C73: an exported signal can be read back. *)
From Coq Require Import Reals ZArith NArith Bool Lra Lia Ascii String List.
From Flocq Require Import Core IEEE754.BinarySingleNaN.
From Verif Require Import AntennaModel AntennaSpec AntennaProps DiscreteModel DiscreteSpec DiscreteProps ExportModel ExportSpec.
Import ListNotations.
Local Open Scope R_scope.

(** * Digits *)
Lemma small_cases d : (0 <= d < 10)%Z -> (d = 0 \/ d = 1 \/ d = 2 \/ d = 3 \/ d = 4 \/ d = 5 \/ d = 6 \/ d = 7 \/ d = 8 \/ d = 9)%Z.
Proof. lia. Qed.
Lemma digit_read d : (0 <= d < 10)%Z -> digit_value (digit d) = Some d.
Proof. intros H. destruct (small_cases d H) as [->|[->|[->|[->|[->|[->|[->|[->|[->| ->]]]]]]]]]; reflexivity. Qed.
Lemma read_digit acc d s : (0 <= d < 10)%Z -> read_digits acc (digit d :: s) = read_digits (10 * acc + d) s.
Proof. intros H. cbn [read_digits]. rewrite digit_read by exact H. reflexivity. Qed.
Lemma div10 q : (q / 10 * 10 + q mod 10 = q)%Z. Proof. rewrite (Z.div_mod q 10) at 3 by lia. lia. Qed.
Lemma read_digits_n n : forall q acc s, (0 <= q < 10 ^ Z.of_nat n)%Z -> read_digits acc (digits n q ++ s) = read_digits (acc * 10 ^ Z.of_nat n + q) s.
Proof.
  induction n as [|n IH]; intros q acc s Hq.
  - cbn [digits app]. cbn in Hq. f_equal. cbn. lia.
  - cbn [digits]. rewrite Nat2Z.inj_succ, Z.pow_succ_r in * by lia. rewrite <- app_assoc. rewrite IH. 2: { split; [apply Z.div_pos; lia|]. apply Z.div_lt_upper_bound; lia. }
    cbn [app]. rewrite read_digit by (apply Z.mod_pos_bound; lia). f_equal. pose proof (div10 q). lia.
Qed.
Lemma read_int_digits fuel : forall q s, (0 <= q < 2 ^ Z.of_nat fuel)%Z -> read_digits 0 (int_digits fuel q ++ s) = read_digits q s.
Proof.
  induction fuel as [|fuel IH]; intros q s Hq.
  - cbn in Hq. assert (q = 0)%Z as -> by lia. reflexivity.
  - cbn [int_digits]. rewrite Nat2Z.inj_succ, Z.pow_succ_r in Hq by lia. destruct (Z.ltb_spec q 10) as [L|L].
    + cbn [app]. rewrite read_digit by lia. reflexivity.
    + rewrite <- app_assoc, IH. 2: { split; [apply Z.div_pos; lia|]. apply Z.div_lt_upper_bound; lia. }
      cbn [app]. rewrite read_digit by (apply Z.mod_pos_bound; lia). f_equal. pose proof (div10 q). lia.
Qed.
Lemma read_decimal q s : (0 <= q)%Z -> read_digits 0 (decimal q ++ s) = read_digits q s.
Proof.
  intros Hq. unfold decimal. apply read_int_digits. split; [exact Hq|]. rewrite Nat2Z.inj_succ, Z2Nat.id by apply Z.log2_nonneg. destruct (Z.eq_dec q 0) as [->|Hn]; [reflexivity|].
  apply Z.log2_spec. lia.
Qed.
(** Characters of numbers. *)
Definition plain (c : ascii) : Prop := digit_value c <> None \/ c = "-"%char \/ c = "."%char \/ c = "e"%char \/ c = "+"%char.
Lemma plain_digit d : (0 <= d < 10)%Z -> plain (digit d). Proof. intros H. left. rewrite digit_read by exact H. discriminate. Qed.
Lemma plain_digits n : forall q, Forall plain (digits n q).
Proof. induction n as [|n IH]; intros q; cbn [digits]; [constructor|]. apply Forall_app. split; [apply IH|]. constructor; [|constructor]. apply plain_digit. apply Z.mod_pos_bound. lia. Qed.
Lemma plain_int fuel : forall q, (0 <= q)%Z -> Forall plain (int_digits fuel q).
Proof.
  induction fuel as [|fuel IH]; intros q Hq; cbn [int_digits]; [constructor|]. destruct (Z.ltb_spec q 10) as [L|L]; [constructor; [apply plain_digit; lia|constructor]|].
  apply Forall_app. split; [apply IH, Z.div_pos; lia|]. constructor; [|constructor]. apply plain_digit. apply Z.mod_pos_bound. lia.
Qed.
Lemma plain_sign s : Forall plain (minus_sign s). Proof. destruct s; [constructor; [right; left; reflexivity|constructor]|constructor]. Qed.
Lemma plain_point p q : (0 <= q)%Z -> Forall plain (point p q).
Proof.
  intros Hq. unfold point. apply Forall_app. split; [apply plain_int, Z.div_pos; [exact Hq|apply Z.pow_pos_nonneg; lia]|]. apply Forall_app. split; [constructor; [right; right; left; reflexivity|constructor]|apply plain_digits].
Qed.
Lemma plain_exponent k : Forall plain (write_exponent k).
Proof.
  unfold write_exponent. apply Forall_app. split; [constructor; [right; right; right; left; reflexivity|constructor]|]. apply Forall_app. split; [|apply plain_digits].
  destruct (k <? 0)%Z; (constructor; [|constructor]); [right; left; reflexivity|right; right; right; right; reflexivity].
Qed.
Lemma split_plain c a b : ~ plain c -> Forall plain a -> split_at c (a ++ c :: b) = Some (a, b).
Proof.
  intros Hc Ha. induction Ha as [|d a Hd Ha IH]; cbn [app split_at]. { rewrite Ascii.eqb_refl. reflexivity. }
  destruct (Ascii.eqb_spec d c) as [->|Hne]; [contradiction|]. rewrite IH. reflexivity.
Qed.
Lemma comma_not_plain : ~ plain ","%char. Proof. intros [H|[H|[H|[H|H]]]]; try discriminate. apply H. reflexivity. Qed.
Lemma newline_not_plain : ~ plain newline. Proof. intros [H|[H|[H|[H|H]]]]; try discriminate. apply H. reflexivity. Qed.

(** * Numbers *)
Lemma pow10 n : IZR (10 ^ Z.of_nat n) = bpow ten (Z.of_nat n).
Proof. rewrite <- IZR_Zpower by lia. reflexivity. Qed.
Lemma digits_length n : forall q, length (digits n q) = n.
Proof. induction n as [|n IH]; intros q; cbn [digits]; [reflexivity|]. rewrite app_length, IH. cbn. lia. Qed.
Definition ends (s : text) : Prop := match s with c :: _ => digit_value c = None | [] => True end.
Lemma read_digits_end acc s : ends s -> read_digits acc s = (acc, s).
Proof. destruct s as [|c s]; cbn [ends read_digits]; [reflexivity|]. intros ->. reflexivity. Qed.
Definition sign_of (s : bool) : Z := if s then (-1)%Z else 1%Z.
Lemma first_digit fuel q : (0 <= q)%Z -> exists d s, int_digits (S fuel) q = digit d :: s /\ (0 <= d < 10)%Z.
Proof.
  revert q. induction fuel as [|fuel IH]; intros q Hq.
  - cbn [int_digits]. destruct (Z.ltb_spec q 10) as [L|L]; [exists q, []; split; [reflexivity|lia]|]. exists (q mod 10)%Z, []. split; [reflexivity|]. apply Z.mod_pos_bound. lia.
  - remember (S fuel) as f. cbn [int_digits]. destruct (Z.ltb_spec q 10) as [L|L]; [exists q, []; split; [reflexivity|lia]|]. subst f.
    destruct (IH (q / 10)%Z ltac:(apply Z.div_pos; lia)) as (d & s & E & Hd). exists d. rewrite E. eexists. split; [reflexivity|exact Hd].
Qed.
Lemma digit_no_sign d : (0 <= d < 10)%Z -> Ascii.eqb (digit d) "-" = false.
Proof. intros H. destruct (small_cases d H) as [->|[->|[->|[->|[->|[->|[->|[->|[->| ->]]]]]]]]]; reflexivity. Qed.
Lemma read_point s p q tail x : (0 <= q)%Z -> ends tail -> read_exponent tail = Some x ->
  read_number (minus_sign s ++ point p q ++ tail) = Some (IZR (sign_of s * q) * bpow ten (x - Z.of_nat p)).
Proof.
  intros Hq Ht Hx. unfold read_number.
  assert (read_sign (minus_sign s ++ point p q ++ tail) = (sign_of s, point p q ++ tail)) as ->.
  { destruct s; cbn [minus_sign app read_sign sign_of]; [reflexivity|]. unfold point, decimal. assert (0 <= q / 10 ^ Z.of_nat p)%Z as Hi by (apply Z.div_pos; [exact Hq|apply Z.pow_pos_nonneg; lia]).
    destruct (first_digit (Z.to_nat (Z.log2 (q / 10 ^ Z.of_nat p))) _ Hi) as (d & r & E & Hd). rewrite E. cbn [app read_sign]. rewrite digit_no_sign by exact Hd. reflexivity. }
  unfold point. rewrite <- !app_assoc. assert (0 < 10 ^ Z.of_nat p)%Z as Hp by (apply Z.pow_pos_nonneg; lia). rewrite read_decimal by (apply Z.div_pos; lia).
  rewrite read_digits_end by reflexivity. cbn [app]. cbn [Ascii.eqb]. change (Ascii.eqb "." ".") with true. cbn iota.
  rewrite read_digits_n by (apply Z.mod_pos_bound; exact Hp). rewrite read_digits_end by exact Ht. rewrite Hx. rewrite app_length, digits_length.
  replace (p + length tail - length tail)%nat with p by lia. replace (q / 10 ^ Z.of_nat p * 10 ^ Z.of_nat p + q mod 10 ^ Z.of_nat p)%Z with q; [reflexivity|].
  rewrite (Z.div_mod q (10 ^ Z.of_nat p)) at 1 by lia. ring.
Qed.
Lemma exponent_ends k : ends (write_exponent k). Proof. reflexivity. Qed.
Lemma exponent_read k : (Z.abs k < 100)%Z -> read_exponent (write_exponent k) = Some k.
Proof.
  intros Hk. unfold write_exponent, read_exponent. cbn [app]. change (Ascii.eqb "e" "e") with true. cbn iota.
  assert (forall c, (if (k <? 0)%Z then ["-"%char] else ["+"%char]) = [c] -> c = (if (k <? 0)%Z then "-"%char else "+"%char)) as Hc by (intros c; destruct (k <? 0)%Z; intros [= <-]; reflexivity).
  destruct (Z.ltb_spec k 0) as [L|L]; cbn [app]; rewrite <- (app_nil_r (digits 2 (Z.abs k))), read_digits_n by (split; [lia|exact Hk]); cbn [read_digits].
  - change (Ascii.eqb "-" "+") with false. change (Ascii.eqb "-" "-") with true. cbn iota. f_equal. lia.
  - change (Ascii.eqb "+" "+") with true. cbn iota. f_equal. lia.
Qed.

(** * Rounding to decimals *)
Lemma round_even_error n d : (0 < d)%Z -> Rabs (IZR (round_even n d) - IZR n / IZR d) <= / 2.
Proof.
  intros Hd. unfold round_even. pose proof (Z.div_mod n d ltac:(lia)) as E. pose proof (Z.mod_pos_bound n d Hd) as [R0 R1]. set (q := (n / d)%Z) in *. set (r := (n mod d)%Z) in *. clearbody q r.
  assert (0 < IZR d) as Hd' by (apply IZR_lt; exact Hd). assert (IZR n / IZR d = IZR q + IZR r / IZR d) as ->. { rewrite E, plus_IZR, mult_IZR. field. lra. }
  assert (0 <= IZR r / IZR d) as Q0. { apply Rmult_le_pos; [apply IZR_le; exact R0|apply Rlt_le, Rinv_0_lt_compat; exact Hd']. } assert (IZR r / IZR d * IZR d = IZR r) as Er by (field; lra).
  assert (forall a b : Z, (2 * a <= b)%Z -> 2 * IZR a <= IZR b) as Hle. { intros a b Hab. rewrite <- mult_IZR. apply IZR_le. exact Hab. }
  set (x := IZR r / IZR d) in *. clearbody x.
  assert ((2 * r <= d)%Z -> x <= / 2) as A1. { intros H. apply Hle in H. apply (Rmult_le_reg_r (IZR d)); lra. }
  assert ((d <= 2 * r)%Z -> / 2 <= x) as A2. { intros H. apply IZR_le in H. rewrite mult_IZR in H. apply (Rmult_le_reg_r (IZR d)); lra. }
  assert (x <= 1) as A3. { apply (Rmult_le_reg_r (IZR d)); [lra|]. assert (IZR r <= IZR d) by (apply IZR_le; lia). lra. }
  destruct (Z.ltb_spec (2 * r) d) as [L|L]; [apply Rabs_le; specialize (A1 ltac:(lia)); lra|]. specialize (A2 L).
  destruct (Z.ltb_spec d (2 * r)) as [L2|L2]; [rewrite plus_IZR; apply Rabs_le; lra|]. specialize (A1 L2). destruct (Z.even q); [|rewrite plus_IZR]; apply Rabs_le; lra.
Qed.
Lemma split_power (b : radix) k : IZR (radix_val b ^ Z.max k 0) / IZR (radix_val b ^ Z.max (- k) 0) = bpow b k.
Proof.
  destruct (Z.le_gt_cases 0 k) as [H|H].
  - rewrite Z.max_l, (Z.max_r (- k)) by lia. rewrite IZR_Zpower by exact H. change (radix_val b ^ 0)%Z with 1%Z. field.
  - rewrite Z.max_r, (Z.max_l (- k)) by lia. change (radix_val b ^ 0)%Z with 1%Z. rewrite IZR_Zpower by lia. rewrite bpow_opp. unfold Rdiv. rewrite Rinv_inv. ring.
Qed.
Lemma den_pos e k : (0 < scaled_den e k)%Z. Proof. unfold scaled_den. apply Z.mul_pos_pos; apply Z.pow_pos_nonneg; lia. Qed.
Lemma scaled_ratio m e k : IZR (scaled_num m e k) / IZR (scaled_den e k) = IZR m * bpow radix2 e * bpow ten k.
Proof.
  rewrite <- (split_power radix2 e), <- (split_power ten k). unfold scaled_num, scaled_den. change (radix_val radix2) with 2%Z. change (radix_val ten) with 10%Z. rewrite !mult_IZR.
  assert (forall a b, (0 < a)%Z -> IZR (a ^ Z.max b 0) <> 0) as Hne. { intros a b Ha. apply not_0_IZR. assert (0 < a ^ Z.max b 0)%Z by (apply Z.pow_pos_nonneg; lia). lia. }
  field. split; apply Hne; lia.
Qed.
Lemma scaled_error m e k : Rabs (IZR (scaled m e k) * bpow ten (- k) - IZR m * bpow radix2 e) <= bpow ten (- k) / 2.
Proof.
  pose proof (round_even_error (scaled_num m e k) (scaled_den e k) (den_pos e k)) as H. rewrite scaled_ratio in H. fold (scaled m e k) in H.
  assert (bpow ten k * bpow ten (- k) = 1) as E by (rewrite <- bpow_plus, Z.add_opp_diag_r; reflexivity). pose proof (bpow_gt_0 ten (- k)) as Hp.
  replace (IZR (scaled m e k) * bpow ten (- k) - IZR m * bpow radix2 e) with ((IZR (scaled m e k) - IZR m * bpow radix2 e * bpow ten k) * bpow ten (- k)).
  2: { transitivity (IZR (scaled m e k) * bpow ten (- k) - IZR m * bpow radix2 e * (bpow ten k * bpow ten (- k))); [ring|rewrite E; ring]. }
  rewrite Rabs_mult, (Rabs_pos_eq (bpow ten (- k))) by lra. replace (bpow ten (- k) / 2) with (/ 2 * bpow ten (- k)) by field. apply Rmult_le_compat_r; [lra|exact H].
Qed.
Lemma scaled_nonneg m e k : (0 <= m)%Z -> (0 <= scaled m e k)%Z.
Proof.
  intros Hm. unfold scaled, round_even. assert (0 <= scaled_num m e k)%Z as Hn. { unfold scaled_num. repeat apply Z.mul_nonneg_nonneg; try exact Hm; apply Z.pow_nonneg; lia. }
  pose proof (Z.div_pos _ _ Hn (den_pos e k)). destruct (_ <? _)%Z; [lia|]. destruct (_ <? _)%Z; [lia|]. destruct (Z.even _); lia.
Qed.
Lemma signed_value s m e H : B2R (B754_finite s m e H : f32) = IZR (sign_of s) * (IZR (Zpos m) * bpow radix2 e).
Proof. cbn [B2R]. unfold F2R. cbn [Fnum Fexp]. destruct s; cbn [cond_Zopp sign_of]; [change (Z.neg m) with (- Z.pos m)%Z; rewrite opp_IZR|]; ring. Qed.
Lemma abs_sign s x : Rabs (IZR (sign_of s) * x) = Rabs x.
Proof. rewrite Rabs_mult. destruct s; cbn [sign_of]; [rewrite Rabs_left by lra|rewrite Rabs_pos_eq by lra]; ring. Qed.

(** A time is written to the nearest decimal. *)
Theorem C73_fixed p x : is_finite x = true -> exists r, read_number (write_fixed p x) = Some r /\ Rabs (r - B2R x) <= bpow ten (- Z.of_nat p) / 2.
Proof.
  intros Hf. destruct x as [s|s| |s m e He]; try discriminate.
  - exists (IZR (sign_of s * 0) * bpow ten (0 - Z.of_nat p)). split; [cbn [write_fixed]; rewrite <- (app_nil_r (point p 0)); apply read_point; [lia|exact I|reflexivity]|].
    rewrite Z.mul_0_r. cbn [B2R]. rewrite Rmult_0_l, Rminus_0_r, Rabs_R0. pose proof (bpow_gt_0 ten (- Z.of_nat p)). lra.
  - eexists. split; [cbn [write_fixed]; rewrite <- (app_nil_r (point p _)); apply read_point; [apply scaled_nonneg; lia|exact I|reflexivity]|].
    rewrite signed_value, mult_IZR, Rmult_assoc, <- Rmult_minus_distr_l, abs_sign. change (0 - Z.of_nat p)%Z with (- Z.of_nat p)%Z. apply scaled_error.
Qed.
Lemma reaches_spec m e k : (0 < m)%Z -> reaches m e k = true <-> bpow ten k <= IZR m * bpow radix2 e.
Proof.
  intros Hm. unfold reaches. rewrite Z.leb_le. pose proof (scaled_ratio m e (- k)) as E. assert (0 < IZR (scaled_den e (- k))) as Hd by (apply IZR_lt, den_pos). pose proof (bpow_gt_0 ten k) as Hk.
  assert (bpow ten (- k) * bpow ten k = 1) as Ek by (rewrite <- bpow_plus, Z.add_opp_diag_l; reflexivity). set (x := IZR m * bpow radix2 e) in *. set (n := scaled_num m e (- k)) in *. set (d := scaled_den e (- k)) in *.
  assert (IZR n = x * bpow ten (- k) * IZR d) as En. { rewrite <- E. field. lra. } pose proof (bpow_gt_0 ten (- k)) as Hmk. split; intros H.
  - apply IZR_le in H. rewrite En in H. assert (1 <= x * bpow ten (- k)) as H1. { apply (Rmult_le_reg_r (IZR d)); lra. }
    apply (Rmult_le_reg_l (bpow ten (- k))); [exact Hmk|]. lra.
  - apply le_IZR. rewrite En. rewrite <- (Rmult_1_l (IZR d)) at 1. apply Rmult_le_compat_r; [lra|]. rewrite <- Ek. rewrite (Rmult_comm x). apply Rmult_le_compat_l; lra.
Qed.
Lemma exponent_ok m e : (0 < m)%Z -> forall fuel k, IZR m * bpow radix2 e < bpow ten (k + 1) -> bpow ten (k - Z.of_nat fuel) <= IZR m * bpow radix2 e ->
  (k - Z.of_nat fuel <= exponent10 fuel m e k <= k)%Z /\ bpow ten (exponent10 fuel m e k) <= IZR m * bpow radix2 e < bpow ten (exponent10 fuel m e k + 1).
Proof.
  intros Hm. induction fuel as [|fuel IH]; intros k Hu Hl.
  - cbn [exponent10]. rewrite Z.sub_0_r in *. split; [lia|]. split; assumption.
  - cbn [exponent10]. destruct (reaches m e k) eqn:Er.
    + apply reaches_spec in Er; [|exact Hm]. split; [lia|]. split; assumption.
    + assert (IZR m * bpow radix2 e < bpow ten k) as Hlt. { apply Rnot_le_lt. intros H. apply (reaches_spec m e k Hm) in H. congruence. }
      destruct (IH (k - 1)%Z) as [H1 H2]. { replace (k - 1 + 1)%Z with k by lia. exact Hlt. } { replace (k - 1 - Z.of_nat fuel)%Z with (k - Z.of_nat (S fuel))%Z by lia. exact Hl. }
      split; [lia|exact H2].
Qed.
Lemma ten_big : bpow radix2 128 <= bpow ten 39.
Proof. rewrite <- !IZR_Zpower by lia. apply IZR_le. vm_compute. discriminate. Qed.
Lemma ten_small : bpow ten (-52) <= bpow radix2 (-149).
Proof. change (-52)%Z with (- (52))%Z. change (-149)%Z with (- (149))%Z. rewrite (bpow_opp ten 52), (bpow_opp radix2 149). apply Rinv_le_contravar; [apply bpow_gt_0|]. rewrite <- !IZR_Zpower by lia. apply IZR_le. vm_compute. discriminate. Qed.
Lemma float_range (s : bool) (m : positive) (e : Z) (H : SpecFloat.bounded 24 128 m e = true) : bpow ten (38 - Z.of_nat 90) <= IZR (Zpos m) * bpow radix2 e < bpow ten (38 + 1).
Proof.
  set (x := B754_finite s m e H : f32). assert (Rabs (B2R x) = IZR (Zpos m) * bpow radix2 e) as E. { unfold x. rewrite signed_value, abs_sign. apply Rabs_pos_eq. apply Rmult_le_pos; [apply IZR_le; lia|apply bpow_ge_0]. }
  rewrite <- E. split.
  - eapply Rle_trans; [exact ten_small|]. apply (abs_B2R_ge_emin 24 128 x). reflexivity.
  - eapply Rlt_le_trans; [apply finite_below|exact ten_big].
Qed.
(** A value is written with [p + 1] significant digits, to the nearest such decimal. *)
Theorem C73_scientific p x : is_finite x = true -> exists r, read_number (write_scientific p x) = Some r /\ Rabs (r - B2R x) <= Rabs (B2R x) * bpow ten (- Z.of_nat p) / 2.
Proof.
  intros Hf. destruct x as [s|s| |s m e He]; try discriminate.
  - exists (IZR (sign_of s * 0) * bpow ten (0 - Z.of_nat p)). split; [apply read_point; [lia|reflexivity|reflexivity]|].
    rewrite Z.mul_0_r. cbn [B2R]. rewrite Rmult_0_l, Rminus_0_r, Rabs_R0. lra.
  - cbn [write_scientific]. pose proof (float_range s m e He) as [Hlo Hhi]. destruct (exponent_ok (Zpos m) e ltac:(lia) 90 38 Hhi Hlo) as [Hk [K1 K2]]. unfold mantissa.
    set (k := exponent10 90 (Z.pos m) e 38) in *. cbv zeta. set (q := scaled (Z.pos m) e (Z.of_nat p - k)).
    pose proof (scaled_error (Z.pos m) e (Z.of_nat p - k)) as HE. fold q in HE. set (v := IZR (Z.pos m) * bpow radix2 e) in *.
    assert (0 <= q)%Z as Hq by (apply scaled_nonneg; lia).
    assert (bpow ten (- (Z.of_nat p - k)) = bpow ten k * bpow ten (- Z.of_nat p)) as Eb by (rewrite <- bpow_plus; f_equal; lia). rewrite Eb in HE.
    pose proof (bpow_gt_0 ten (- Z.of_nat p)) as Bp.
    assert (Rabs (IZR q * (bpow ten k * bpow ten (- Z.of_nat p)) - v) <= v * bpow ten (- Z.of_nat p) / 2) as HF. { eapply Rle_trans; [exact HE|]. assert (bpow ten k * bpow ten (- Z.of_nat p) <= v * bpow ten (- Z.of_nat p)) by (apply Rmult_le_compat_r; lra). lra. }
    assert (0 <= v) as V0 by (apply Rmult_le_pos; [apply IZR_le; lia|apply bpow_ge_0]).
    assert (forall q' k', (0 <= q')%Z -> (Z.abs k' < 100)%Z -> IZR q' * bpow ten k' = IZR q * bpow ten k ->
      exists r, read_number (minus_sign s ++ point p q' ++ write_exponent k') = Some r /\ Rabs (r - B2R (B754_finite s m e He : f32)) <= Rabs (B2R (B754_finite s m e He : f32)) * bpow ten (- Z.of_nat p) / 2) as Hw.
    { intros q' k' Hq' Hk' Heq. eexists. split; [apply read_point; [exact Hq'|apply exponent_ends|apply exponent_read; exact Hk']|].
      rewrite signed_value, mult_IZR, Rmult_assoc, <- Rmult_minus_distr_l, !abs_sign. fold v. rewrite (Rabs_pos_eq v) by exact V0.
      replace (IZR q' * bpow ten (k' - Z.of_nat p)) with (IZR q * (bpow ten k * bpow ten (- Z.of_nat p))); [exact HF|].
      replace (k' - Z.of_nat p)%Z with (k' + - Z.of_nat p)%Z by lia. rewrite bpow_plus, <- !Rmult_assoc, Heq. reflexivity. }
    destruct (Z.eqb_spec q (10 ^ (Z.of_nat p + 1))) as [Eq|Nq].
    + apply Hw; [apply Z.pow_nonneg; lia|lia|]. rewrite Eq. replace (Z.of_nat p + 1)%Z with (Z.of_nat (S p)) by lia. rewrite !pow10, <- !bpow_plus. f_equal. lia.
    + apply Hw; [exact Hq|lia|reflexivity].
Qed.

(** * The file *)
Lemma plain_fixed p x : is_finite x = true -> Forall plain (write_fixed p x).
Proof.
  destruct x as [s|s| |s m e He]; try discriminate; intros _; cbn [write_fixed]; (apply Forall_app; split; [apply plain_sign|apply plain_point]); [lia|apply scaled_nonneg; lia].
Qed.
Lemma plain_scientific p x : is_finite x = true -> Forall plain (write_scientific p x).
Proof.
  destruct x as [s|s| |s m e He]; try discriminate; intros _; cbn [write_scientific].
  - apply Forall_app. split; [apply plain_sign|]. apply Forall_app. split; [apply plain_point; lia|apply plain_exponent].
  - unfold mantissa. cbv zeta. destruct (_ =? _)%Z; (apply Forall_app; split; [apply plain_sign|]; apply Forall_app; split; [apply plain_point|apply plain_exponent]); [apply Z.pow_nonneg; lia|apply scaled_nonneg; lia].
Qed.
Lemma newline_before c a b : Forall (fun d => d <> c) a -> split_at c (a ++ c :: b) = Some (a, b).
Proof.
  intros Ha. induction Ha as [|d a Hd Ha IH]; cbn [app split_at]. { rewrite Ascii.eqb_refl. reflexivity. }
  destruct (Ascii.eqb_spec d c) as [->|Hne]; [contradiction|]. rewrite IH. reflexivity.
Qed.
Lemma plain_line s : Forall plain s -> Forall (fun d => d <> newline) s.
Proof. intros H. eapply Forall_impl; [|exact H]. intros c Hc ->. exact (newline_not_plain Hc). Qed.
Lemma read_written_row tp vp t v rest : is_finite t = true -> is_finite v = true -> exists line r, write_row tp vp t v ++ rest = line ++ newline :: rest /\ split_at newline (line ++ newline :: rest) = Some (line, rest) /\
  read_row line = Some r /\ row_says tp vp t v r.
Proof.
  intros Ft Fv. destruct (C73_fixed tp t Ft) as (x & Ex & Hx). destruct (C73_scientific vp v Fv) as (y & Ey & Hy).
  exists (write_fixed tp t ++ [","; " "]%char ++ write_scientific vp v), (x, y). split; [|split; [|split]].
  - unfold write_row. rewrite <- !app_assoc. reflexivity.
  - apply newline_before. apply Forall_app. split; [apply plain_line, plain_fixed; exact Ft|]. apply Forall_app. split; [|apply plain_line, plain_scientific; exact Fv]. repeat constructor; discriminate.
  - unfold read_row. cbn [app]. rewrite split_plain by (apply comma_not_plain || apply plain_fixed; exact Ft). rewrite Ex. change (skip_space (" "%char :: write_scientific vp v)) with (write_scientific vp v). rewrite Ey. reflexivity.
  - split; assumption.
Qed.
(** Reading the file gives one row for every time, in the same order, with the time and the value to the precision that was asked for. *)
Theorem C73_file tp vp times values : (length times <= length values)%nat -> Forall (fun x => is_finite x = true) times -> Forall (fun x => is_finite x = true) values ->
  exists s rows, export_signal tp vp times values = Some s /\ read_rows (length times) s = Some rows /\ length rows = length times /\
    forall k t v r, nth_error times k = Some t -> nth_error values k = Some v -> nth_error rows k = Some r -> row_says tp vp t v r.
Proof.
  revert values. induction times as [|t times IH]; intros values Hlen Ft Fv.
  - exists [], []. split; [reflexivity|]. split; [reflexivity|]. split; [reflexivity|]. intros [|k] t v r Hk; discriminate.
  - destruct values as [|v values]; [cbn in Hlen; lia|]. cbn [length] in Hlen. inversion Ft as [|? ? Ht Ft']; subst. inversion Fv as [|? ? Hv Fv']; subst.
    destruct (IH values ltac:(lia) Ft' Fv') as (s & rows & E & Er & El & Hr). destruct (read_written_row tp vp t v s Ht Hv) as (line & r & W1 & W2 & W3 & W4).
    exists (line ++ newline :: s), (r :: rows). split; [cbn [export_signal]; rewrite E, W1; reflexivity|]. split.
    { cbn [length read_rows]. destruct (line ++ newline :: s) as [|c s'] eqn:Es; [destruct line; discriminate|]. change (ascii_of_N 10) with newline. rewrite W2, W3, Er. reflexivity. }
    split; [cbn [length]; lia|]. intros [|k] t' v' r' Hk1 Hk2 Hk3; cbn [nth_error] in *; [injection Hk1 as <-; injection Hk2 as <-; injection Hk3 as <-; exact W4|]. exact (Hr k t' v' r' Hk1 Hk2 Hk3).
Qed.
(** Fewer values than times: values are read outside their bounds. *)
Theorem C73_missing_values_refuted tp vp times values : (length values < length times)%nat -> export_signal tp vp times values = None.
Proof.
  revert values. induction times as [|t times IH]; intros [|v values] H; cbn [length] in H; try lia; [reflexivity|]. cbn [export_signal]. rewrite IH by lia. reflexivity.
Qed.

(** * The values can be recovered *)
Lemma format_multiple x k : generic_format radix2 (FLT_exp (-149) 24) x -> (k <= cexp radix2 (FLT_exp (-149) 24) x)%Z -> multiple k x.
Proof.
  intros Hx Hk. unfold generic_format, F2R in Hx. cbn [Fnum Fexp] in Hx. set (c := cexp radix2 (FLT_exp (-149) 24) x) in *. set (z := Ztrunc _) in Hx.
  exists (z * 2 ^ (c - k))%Z. rewrite mult_IZR. change 2%Z with (radix_val radix2) at 1. rewrite IZR_Zpower by lia. rewrite Rmult_assoc, <- bpow_plus. replace (c - k + k)%Z with c by lia. exact Hx.
Qed.
Lemma multiples_apart k x y : multiple k x -> multiple k y -> Rabs (x - y) < bpow radix2 k -> x = y.
Proof.
  intros [a ->] [b ->] H. rewrite <- Rmult_minus_distr_r, Rabs_mult, (Rabs_pos_eq (bpow radix2 k)) in H by apply bpow_ge_0. pose proof (bpow_gt_0 radix2 k) as Hk.
  assert (Rabs (IZR a - IZR b) < 1) as H1. { apply (Rmult_lt_reg_r (bpow radix2 k)); lra. } rewrite <- minus_IZR, <- abs_IZR in H1. apply lt_IZR in H1. replace a with b by lia. reflexivity.
Qed.
Lemma close_floats v w : generic_format radix2 (FLT_exp (-149) 24) v -> generic_format radix2 (FLT_exp (-149) 24) w -> Rabs (w - v) <= Rabs v * / 100000000 -> w = v.
Proof.
  intros Fv Fw H. destruct (Req_dec v 0) as [->|Hv]. { rewrite Rabs_R0, Rmult_0_l, Rminus_0_r in H. destruct (Req_dec w 0) as [Hw|Hw]; [exact Hw|]. apply Rabs_pos_lt in Hw. lra. }
  set (c := cexp radix2 (FLT_exp (-149) 24) v). assert (0 < Rabs v) as Pv by (apply Rabs_pos_lt; exact Hv). pose proof (bpow_mag_le radix2 v Hv) as M1. pose proof (bpow_mag_gt radix2 v) as M2.
  assert (Rabs v / 2 <= Rabs w) as Hw. { pose proof (Rabs_triang_inv v w) as T. rewrite Rabs_minus_sym in T. lra. }
  assert (mag radix2 v - 1 <= mag radix2 w)%Z as M3. { apply mag_ge_bpow. apply Rle_trans with (Rabs v / 2); [|exact Hw]. rewrite bpow_half. lra. }
  assert (c - 1 <= cexp radix2 (FLT_exp (-149) 24) w)%Z as C1. { unfold c, cexp, FLT_exp. lia. }
  apply (multiples_apart (c - 1)).
  - apply format_multiple; [exact Fw|exact C1].
  - apply format_multiple; [exact Fv|]. fold c. lia.
  - eapply Rle_lt_trans; [exact H|]. assert (Rabs v < bpow radix2 (25 + (c - 1))) as Hb. { eapply Rlt_le_trans; [exact M2|]. apply bpow_le. unfold c, cexp, FLT_exp. lia. }
    rewrite bpow_plus in Hb. change (bpow radix2 25) with (IZR (2 ^ 25)) in Hb. change (2 ^ 25)%Z with 33554432%Z in Hb. pose proof (bpow_gt_0 radix2 (c - 1)). lra.
Qed.
(** With 8 or more decimals the float nearest to the number in the file is the value that was written (the default is 15). *)
Theorem C73_values_recovered tp vp times values : (8 <= vp)%nat -> (length times <= length values)%nat -> Forall (fun x => is_finite x = true) times -> Forall (fun x => is_finite x = true) values ->
  exists s rows, export_signal tp vp times values = Some s /\ read_rows (length times) s = Some rows /\ length rows = length times /\
    forall k v r w, nth_error values k = Some v -> nth_error rows k = Some r -> nearest_float (snd r) w -> w = B2R v.
Proof.
  intros Hvp Hlen Ft Fv. destruct (C73_file tp vp times values Hlen Ft Fv) as (s & rows & E & Er & El & Hr). exists s, rows. split; [exact E|]. split; [exact Er|]. split; [exact El|].
  intros k v r w Hv Hk [[f [Ff Vf]] Hn].
  assert (exists t, nth_error times k = Some t) as [t Ht]. { destruct (nth_error times k) as [t|] eqn:Et; [exists t; reflexivity|]. apply nth_error_None in Et. assert (k < length rows)%nat by (apply nth_error_Some; rewrite Hk; discriminate). lia. }
  destruct (Hr k t v r Ht Hv Hk) as [_ H2]. assert (is_finite v = true) as Fv1. { rewrite Forall_forall in Fv. apply Fv. eapply nth_error_In. exact Hv. }
  specialize (Hn (B2R v) ltac:(exists v; split; [exact Fv1|reflexivity])). apply close_floats; [apply format32|rewrite <- Vf; apply format32|].
  assert (bpow ten (- Z.of_nat vp) <= / 100000000) as Hb. { change (/ 100000000) with (/ IZR (10 ^ Z.of_nat 8)). rewrite pow10, <- bpow_opp. apply bpow_le. lia. }
  pose proof (Rabs_pos (B2R v)) as P. assert (Rabs (B2R v) * bpow ten (- Z.of_nat vp) <= Rabs (B2R v) * / 100000000) as Hc by (apply Rmult_le_compat_l; lra).
  replace (w - B2R v) with ((w - snd r) + (snd r - B2R v)) by ring. eapply Rle_trans; [apply Rabs_triang|]. rewrite (Rabs_minus_sym (B2R v) (snd r)) in Hn. lra.
Qed.
(** Times cannot: with the default of 3 decimals different times are written alike. *)
Definition hundred_microseconds : f32 := binary_normalize 24 128 _ _ mode_NE 13743895 (-37) false.
Definition ex_times : list f32 := [zero32; hundred_microseconds].
Definition ex_values : list f32 := [of_size 1; tenth].
Theorem C73_times_refuted : exists x y : f32, is_finite x = true /\ is_finite y = true /\ B2R x <> B2R y /\ write_fixed default_time_prec x = write_fixed default_time_prec y.
Proof.
  exists zero32, hundred_microseconds. split; [reflexivity|]. split; [reflexivity|]. split; [|vm_compute; reflexivity]. cbn [B2R zero32]. intros E.
  assert (is_finite_strict hundred_microseconds = true) as F by reflexivity. pose proof (abs_B2R_ge_emin 24 128 _ F) as H. rewrite <- E, Rabs_R0 in H. pose proof (bpow_gt_0 radix2 (SpecFloat.emin 24 128)). lra.
Qed.
(** Times that are further apart than the last decimal are kept apart and in order. *)
Theorem C73_times_ordered p x y rx ry : is_finite x = true -> is_finite y = true -> B2R x + bpow ten (- Z.of_nat p) < B2R y ->
  read_number (write_fixed p x) = Some rx -> read_number (write_fixed p y) = Some ry -> rx < ry.
Proof.
  intros Fx Fy H Ex Ey. destruct (C73_fixed p x Fx) as (r1 & E1 & H1). destruct (C73_fixed p y Fy) as (r2 & E2 & H2). rewrite Ex in E1. rewrite Ey in E2. injection E1 as <-. injection E2 as <-.
  apply Rabs_le_inv in H1, H2. lra.
Qed.
Example C73_nonvacuous : (length ex_times <= length ex_values)%nat /\ Forall (fun x : f32 => is_finite x = true) ex_times /\ Forall (fun x : f32 => is_finite x = true) ex_values /\ (8 <= default_value_prec)%nat /\
  export_signal default_time_prec default_value_prec ex_times ex_values = Some (list_ascii_of_string ("0.000, 1.000000000000000e+00" ++ String newline ("0.000, 1.000000014901161e-01" ++ String newline ""))).
Proof. split; [cbn; lia|]. split; [repeat constructor|]. split; [repeat constructor|]. split; [apply Nat.leb_le; reflexivity|vm_compute; reflexivity]. Qed.

Print Assumptions C73_fixed.
Print Assumptions C73_scientific.
Print Assumptions C73_file.
Print Assumptions C73_missing_values_refuted.
Print Assumptions C73_values_recovered.
Print Assumptions C73_times_refuted.
Print Assumptions C73_times_ordered.
