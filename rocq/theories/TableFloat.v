(** C77: the interpolation of the tables of the dipole application in floats. *)
From Coq Require Import Reals ZArith Bool Lra Lia Sorting.Sorted.
From stdpp Require Import base list list_numbers numbers option.
From Flocq Require Import Core IEEE754.BinarySingleNaN.
From Verif Require Import AntennaModel AntennaSpec AntennaProps Interp32Weights Interp32Props Signal32Props Signal32Any TableModel TableSpec TableProps TableFloatModel.
Local Open Scope R_scope.
Local Notation fexp32 := (FLT_exp (-149) 24).
Local Notation rnd32 := (round radix2 fexp32 ZnearestE).
Local Notation u := (/ 16777216).

Definition real32 (x : f32) : R := B2R x.
Definition finite_all (l : list f32) : Prop := forall x, x ∈ l -> is_finite x = true.

(** * The rows next to an argument *)
Lemma find32_cons a b rest x : find_bracket32 (a :: b :: rest) x = if Bleb a x && Bltb x b then Some 0%nat else S <$> find_bracket32 (b :: rest) x.
Proof. reflexivity. Qed.
Lemma find32 args (x : f32) : finite_all args -> is_finite x = true -> find_bracket32 args x = find_bracket (real32 <$> args) (real32 x).
Proof.
  intros Ha Fx. induction args as [|a [|b rest] IH]; [done|done|]. rewrite find32_cons, !fmap_cons, find_bracket_cons. assert (is_finite a = true) as Fa by (apply Ha; left). assert (is_finite b = true) as Fb by (apply Ha; right; left).
  rewrite IH by (intros y Hy; apply Ha; right; exact Hy). rewrite fmap_cons. rewrite Bleb_correct, Bltb_correct by assumption. unfold real32. 
  destruct (Rle_dec (B2R a) (B2R x)) as [H1|H1]; [rewrite Rle_bool_true by exact H1|rewrite Rle_bool_false by lra; done]. destruct (Rlt_dec (B2R x) (B2R b)) as [H2|H2]; [rewrite Rlt_bool_true by exact H2|rewrite Rlt_bool_false by lra]; done.
Qed.

(** * The assertions *)
Lemma minus_up (a b : f32) : is_finite a = true -> is_finite b = true -> B2R a <= B2R b ->
  (is_finite (Bminus mode_NE b a) = true /\ B2R (Bminus mode_NE b a) = rnd32 (B2R b - B2R a) /\ rnd32 (B2R b - B2R a) < bpow radix2 128) \/ (Bminus mode_NE b a = B754_infinity false /\ bpow radix2 128 <= rnd32 (B2R b - B2R a)).
Proof.
  intros Fa Fb H. pose proof (Bminus_correct 24 128 _ _ mode_NE b a Fb Fa) as HB. change (round_mode mode_NE) with ZnearestE in HB. change (SpecFloat.fexp 24 128) with fexp32 in HB.
  assert (0 <= rnd32 (B2R b - B2R a)) as Hp by (apply rnd_pos; lra). rewrite Rabs_pos_eq in HB by exact Hp.
  destruct (Rlt_dec (rnd32 (B2R b - B2R a)) (bpow radix2 128)) as [L|L].
  - left. rewrite Rlt_bool_true in HB by exact L. destruct HB as (E & F & _). split_and!; assumption.
  - right. rewrite Rlt_bool_false in HB by lra. destruct HB as [E S]. split; [|lra].
    assert (Bsign b = false) as Sb. { destruct (Bsign b) eqn:Eb; [|done]. exfalso. destruct (Bsign a) eqn:Ea; [done|].
      assert (B2R b <= 0) as Hb. { clear - Eb Fb. unfold f32 in *. destruct b as [s|s| |s m e p]; try done; cbn in *; subst; [lra|]. apply F2R_le_0. simpl. lia. }
      assert (0 <= B2R a) as Ha. { clear - Ea Fa. unfold f32 in *. destruct a as [s|s| |s m e p]; try done; cbn in *; subst; [lra|]. apply F2R_ge_0. simpl. lia. }
      assert (B2R b - B2R a = 0) as E0 by lra. rewrite E0, round_0 in L by typeclasses eauto. pose proof (bpow_gt_0 radix2 128). lra. }
    rewrite Sb in E. apply B2SF_inj. rewrite E. reflexivity.
Qed.
Lemma assertion (a b x : f32) : is_finite a = true -> is_finite b = true -> is_finite x = true -> B2R a <= B2R x -> B2R x <= B2R b -> Bleb (Bminus mode_NE x a) (Bminus mode_NE b a) = true.
Proof.
  intros Fa Fb Fx H1 H2. assert (rnd32 (B2R x - B2R a) <= rnd32 (B2R b - B2R a)) as Hm by (apply round_le; [typeclasses eauto..|lra]).
  destruct (minus_up a x Fa Fx H1) as [(F & E & L)|[E L]], (minus_up a b Fa Fb ltac:(lra)) as [(F' & E' & L')|[E' L']].
  - rewrite Bleb_correct by assumption. unfold f32 in *. rewrite E, E'. by apply Rle_bool_true.
  - unfold f32 in *. rewrite E'. clear - F. destruct (Bminus mode_NE x a); try done; destruct s; done.
  - lra.
  - unfold f32 in *. by rewrite E, E'.
Qed.
(** For a table with at least two rows the assertions hold and nothing outside of the table is read, whatever the values are. *)
Theorem C77_float_defined args vals (x : f32) : length args = length vals -> (2 <= length args)%nat -> finite_all args -> is_finite x = true -> lin_interp32 args vals x <> Undefined.
Proof.
  intros Hl H2 Ha Fx. unfold lin_interp32. rewrite (proj2 (Nat.eqb_eq _ _) Hl), (proj2 (Nat.leb_le _ _) H2). cbn [andb]. rewrite (find32 args x Ha Fx). destruct (find_bracket _ _) as [i|] eqn:E; [|done].
  apply find_some in E as (a & b & E1 & E2 & Hab). rewrite list_lookup_fmap in E1, E2. apply fmap_Some in E1 as (a0 & E1 & ->), E2 as (b0 & E2 & ->).
  destruct (lookup_lt_is_Some_2 vals i) as [fa Hfa]; [rewrite <- Hl; by eapply lookup_lt_Some|]. destruct (lookup_lt_is_Some_2 vals (S i)) as [fb Hfb]; [rewrite <- Hl; by eapply lookup_lt_Some|]. unfold f32 in *. rewrite E1, E2, Hfa, Hfb.
  assert (is_finite a0 = true) as Fa by (apply Ha; by eapply elem_of_list_lookup_2). assert (is_finite b0 = true) as Fb by (apply Ha; by eapply elem_of_list_lookup_2). unfold real32 in Hab.
  rewrite Bleb_correct by assumption. rewrite Rle_bool_true by lra. rewrite assertion by (assumption || lra). done.
Qed.

(** * The error *)
Lemma rel_of x y : Rabs (y - x) <= Rabs x * u -> exists t, Rabs t <= u /\ y = x * (1 + t).
Proof.
  intros H. destruct (Req_dec x 0) as [->|N]. { exists 0. rewrite Rabs_R0 in *. split; [lra|]. replace (y - 0) with y in H by lra. rewrite Rmult_0_l in H |- *. destruct (Req_dec y 0); [lra|]. pose proof (Rabs_pos_lt y). lra. }
  exists ((y - x) / x). split; [|field; exact N]. unfold Rdiv. rewrite Rabs_mult, Rabs_inv. pose proof (Rabs_pos_lt x N). apply Rmult_le_reg_r with (Rabs x); [lra|]. rewrite Rmult_assoc, Rinv_l by lra. lra.
Qed.
Lemma rel_eta x y : Rabs (y - x) <= Rabs x * u + eta -> exists t h, Rabs t <= u /\ Rabs h <= eta /\ y = x * (1 + t) + h.
Proof.
  intros H. pose proof eta_small as [Z _]. destruct (Rle_dec (Rabs (y - x)) (Rabs x * u)) as [L|L].
  - destruct (rel_of x y L) as (t & Ht & ->). exists t, 0. rewrite Rabs_R0. split_and!; lra.
  - assert (0 <= Rabs x) by apply Rabs_pos. destruct (Rle_dec x y) as [D|D].
    + exists (if Rle_dec 0 x then u else - u), (y - x - Rabs x * u). rewrite (Rabs_pos_eq (y - x)) in * by lra. split_and!; [destruct (Rle_dec 0 x); [rewrite Rabs_pos_eq|rewrite Rabs_Ropp, Rabs_pos_eq]; lra|rewrite Rabs_pos_eq; lra|]. destruct (Rle_dec 0 x); [rewrite Rabs_pos_eq by lra|rewrite Rabs_left by lra]; lra.
    + exists (if Rle_dec 0 x then - u else u), (y - x + Rabs x * u). rewrite (Rabs_left (y - x)) in * by lra. split_and!; [destruct (Rle_dec 0 x); [rewrite Rabs_Ropp, Rabs_pos_eq|rewrite Rabs_pos_eq]; lra|rewrite Rabs_left; lra|]. destruct (Rle_dec 0 x); [rewrite Rabs_pos_eq by lra|rewrite Rabs_left by lra]; lra.
Qed.
Lemma scale_rel k t e : Rabs (k - 1) <= e -> e <= / 1000 -> Rabs t <= u -> Rabs (k * (1 + t) - 1) <= e + u * (1001 / 1000).
Proof.
  intros H He Ht. replace (k * (1 + t) - 1) with ((k - 1) + k * t) by ring. eapply Rle_trans; [apply Rabs_triang|]. rewrite Rabs_mult. assert (Rabs k <= 1001 / 1000) as Hk. { replace k with ((k - 1) + 1) by ring. eapply Rle_trans; [apply Rabs_triang|]. rewrite Rabs_R1. lra. }
  assert (Rabs k * Rabs t <= 1001 / 1000 * u) by (apply Rmult_le_compat; try apply Rabs_pos; assumption). lra.
Qed.
Lemma inv_rel t : Rabs t <= u -> Rabs (/ (1 + t) - 1) <= u * (1001 / 1000).
Proof.
  intros Ht. apply Rabs_le_inv in Ht. replace (/ (1 + t) - 1) with (- t * / (1 + t)) by (field; lra). rewrite Rabs_mult, Rabs_Ropp. apply Rmult_le_compat; try apply Rabs_pos; [apply Rabs_le; lra|]. rewrite Rabs_inv, Rabs_pos_eq by lra. replace (1001 / 1000) with (/ (1000 / 1001)) by field. apply Rinv_le; lra.
Qed.
Lemma segment (a b x fa fb : f32) A M : is_finite a = true -> is_finite b = true -> is_finite x = true -> is_finite fa = true -> is_finite fb = true ->
  B2R a <= B2R x < B2R b -> / 2 ^ 50 <= B2R b - B2R a <= 2 * A -> A <= 2 ^ 50 -> Rabs (B2R fa) <= M -> Rabs (B2R fb) <= M -> M <= 2 ^ 50 ->
  let w := Bplus mode_NE fa (Bmult mode_NE (Bdiv mode_NE (Bminus mode_NE fb fa) (Bminus mode_NE b a)) (Bminus mode_NE x a)) in
  is_finite w = true /\ Rabs (B2R w - on_line (B2R a, B2R fa) (B2R b, B2R fb) (B2R x)) <= 16 * M / 2 ^ 24 + (A + 1) / 2 ^ 140 /\ (B2R x = B2R a -> B2R w = B2R fa).
Proof.
  intros Fa Fb Fx Ffa Ffb Hx Hg HA HMa HMb HM w. 
  assert (2 ^ 24 = 16777216) as E24 by (simpl pow; lra). rewrite E24.
  pose proof bpow127_big as B127. pose proof (Rabs_pos (B2R fa)) as M0.
  assert (1 <= 2 ^ 50) as P1. { apply Rle_trans with (2 ^ 0); [simpl; lra|apply Rle_pow; [lra|lia]]. }
  assert (256 * (2 ^ 50 * 2 ^ 50) <= 2 ^ 110) as P110. { change 110%nat with (10 + (50 + 50))%nat. rewrite !pow_add. pose proof (pow_le 2 50 ltac:(lra)). assert (0 <= 2 ^ 50 * 2 ^ 50) by (apply Rmult_le_pos; lra). simpl (2 ^ 10). lra. }
  assert (2 ^ 50 <= 2 ^ 50 * 2 ^ 50) as Psq. { rewrite <- (Rmult_1_r (2 ^ 50)) at 1. apply Rmult_le_compat_l; lra. }
  pose proof eta_small as [Z0 Z1]. assert (Rabs (B2R fb - B2R fa) <= 2 * M) as Hn0. { unfold Rminus. eapply Rle_trans; [apply Rabs_triang|]. rewrite Rabs_Ropp. lra. }
  destruct (minus_value fb fa Ffb Ffa) as [G1 V1]; [lra|]. destruct (minus_value b a Fb Fa) as [G2 V2]; [rewrite Rabs_pos_eq; lra|]. destruct (minus_value x a Fx Fa) as [G3 V3]; [rewrite Rabs_pos_eq; lra|].
  destruct (rel_of _ _ (diff_err fb fa)) as (t1 & T1 & E1). destruct (rel_of _ _ (diff_err b a)) as (t2 & T2 & E2). destruct (rel_of _ _ (diff_err x a)) as (t3 & T3 & E3). rewrite E1 in V1. rewrite E2 in V2. rewrite E3 in V3. clear E1 E2 E3.
  set (n := B2R fb - B2R fa) in *. set (m := B2R b - B2R a) in *. set (d := B2R x - B2R a) in *. assert (0 <= d <= m) as Hd by (unfold d, m; lra). assert (0 < / 2 ^ 50) as Q0 by (apply Rinv_0_lt_compat; lra).
  assert (m <> 0) as Hm by lra. pose proof (Rabs_le_inv _ _ T2) as T2'. assert (1 + t2 <> 0) as H2 by lra.
  assert (B2R (Bminus mode_NE fb fa) / B2R (Bminus mode_NE b a) = n / m * ((1 + t1) * / (1 + t2))) as EQ. { unfold f32 in *. rewrite V1, V2. field. split; assumption. }
  pose proof (scale_rel _ t1 _ (inv_rel t2 T2) ltac:(lra) T1) as K1. replace (/ (1 + t2) * (1 + t1)) with ((1 + t1) * / (1 + t2)) in K1 by ring. set (k1 := (1 + t1) * / (1 + t2)) in *.
  assert (Rabs (n / m) <= 2 * M * 2 ^ 50) as Hq. { unfold Rdiv. rewrite Rabs_mult. apply Rmult_le_compat; try apply Rabs_pos; [lra|]. rewrite Rabs_inv, Rabs_pos_eq by lra. rewrite <- (Rinv_inv (2 ^ 50)). apply Rinv_le; lra. }
  assert (M * 2 ^ 50 <= 2 ^ 50 * 2 ^ 50) as HM2 by (apply Rmult_le_compat_r; lra).
  assert (Rabs k1 <= 2) as K1b. { replace k1 with ((k1 - 1) + 1) by ring. eapply Rle_trans; [apply Rabs_triang|]. rewrite Rabs_R1. lra. }
  assert (Rabs (n / m * k1) <= 4 * (2 ^ 50 * 2 ^ 50)) as Hqk. { rewrite Rabs_mult. apply Rle_trans with ((2 * M * 2 ^ 50) * 2); [apply Rmult_le_compat; try apply Rabs_pos; lra|lra]. }
  destruct (div_value32 (Bminus mode_NE fb fa) (Bminus mode_NE b a) G1) as [G4 V4]; [unfold f32 in *; rewrite V2; apply Rmult_integral_contrapositive_currified; assumption|rewrite EQ; lra|]. rewrite EQ in V4.
  destruct (rel_eta _ _ (rnd_err (n / m * k1))) as (t4 & h1 & T4 & H1 & E4). rewrite E4 in V4. clear E4.
  assert (B2R (Bdiv mode_NE (Bminus mode_NE fb fa) (Bminus mode_NE b a)) * B2R (Bminus mode_NE x a) = n / m * d * (k1 * (1 + t4) * (1 + t3)) + h1 * d * (1 + t3)) as EP. { unfold f32 in *. rewrite V4, V3. ring. }
  pose proof (scale_rel _ t4 _ K1 ltac:(lra) T4) as K2. pose proof (scale_rel _ t3 _ K2 ltac:(lra) T3) as K3. set (k3 := k1 * (1 + t4) * (1 + t3)) in *.
  assert (Rabs (n / m * d) <= 2 * M) as Hl. { replace (n / m * d) with (n * (d / m)) by (field; exact Hm). rewrite Rabs_mult. apply Rle_trans with (2 * M * 1); [|lra]. apply Rmult_le_compat; try apply Rabs_pos; [lra|]. rewrite Rabs_pos_eq; [apply Rmult_le_reg_r with m; [lra|]; unfold Rdiv; rewrite Rmult_assoc, Rinv_l by exact Hm; lra|unfold Rdiv; apply Rmult_le_pos; [lra|left; apply Rinv_0_lt_compat; lra]]. }
  set (s := n / m * d) in *. set (c := h1 * d * (1 + t3)) in *. pose proof (Rabs_le_inv _ _ T3) as T3'.
  assert (Rabs c <= eta * (2 * A) * 2) as Hc. { unfold c. rewrite !Rabs_mult. apply Rmult_le_compat; try apply Rabs_pos; [rewrite <- Rabs_mult; apply Rabs_pos| |rewrite Rabs_pos_eq; lra]. apply Rmult_le_compat; try apply Rabs_pos; [exact H1|rewrite Rabs_pos_eq; lra]. }
  assert (eta * A <= 2 ^ 50) as HeA. { apply Rle_trans with (1 * A); [apply Rmult_le_compat_r; lra|lra]. } 
  assert (Rabs (s * k3 - s) <= 2 * M * (4 * (u * (1001 / 1000)))) as Hs. { replace (s * k3 - s) with (s * (k3 - 1)) by ring. rewrite Rabs_mult. apply Rmult_le_compat; try apply Rabs_pos; [exact Hl|]. lra. }
  apply Rabs_le_inv in Hs, Hc, Hl. assert (Rabs (s * k3 + c) <= 8 * 2 ^ 50) as Hp by (apply Rabs_le; lra).
  destruct (mult_value32 _ _ G4 G3) as [G5 V5]; [rewrite EP; lra|]. rewrite EP in V5. pose proof (rnd_err (s * k3 + c)) as R5. assert (Rabs (s * k3 + c) <= 3 * M + 4 * (eta * A)) as Hp2 by (apply Rabs_le; lra).
  apply Rabs_le_inv in R5. set (p := rnd32 (s * k3 + c)) in *. apply Rabs_le_inv in HMa.
  assert (Rabs (B2R fa + p) <= 2 ^ 110) as Hsum by (apply Rabs_le; lra).
  unfold f32 in *. destruct (plus_value fa (Bmult mode_NE (Bdiv mode_NE (Bminus mode_NE fb fa) (Bminus mode_NE b a)) (Bminus mode_NE x a)) Ffa G5) as [G6 V6]; [unfold f32 in *; rewrite V5; lra|].
  pose proof (sum_err fa (Bmult mode_NE (Bdiv mode_NE (Bminus mode_NE fb fa) (Bminus mode_NE b a)) (Bminus mode_NE x a))) as R6. unfold f32 in *. rewrite V5 in V6, R6.
  unfold w. split; [exact G6|]. rewrite V6. split.
  - unfold on_line. cbn [fst snd]. fold n m d s. assert (Rabs (B2R fa + p) <= 4 * M + 6 * (eta * A) + 2 * eta) as R7. { apply Rabs_le. assert (0 <= eta * A) by (apply Rmult_le_pos; lra). lra. }
    set (z := rnd32 (B2R fa + p)) in *. apply Rabs_le_inv in R6. assert (0 <= eta * A) by (apply Rmult_le_pos; lra). assert (8 * (eta * A) + 8 * eta <= (A + 1) / 2 ^ 140) as HE. { pose proof eta_50 as E50. apply Rle_trans with ((A + 1) * (50 * eta)); [nra|]. unfold Rdiv. apply Rmult_le_compat_l; lra. }
    set (rest := (A + 1) / 2 ^ 140) in *. clearbody rest z p s c n m d. apply Rabs_le. lra.
  - intros Ex. assert (d = 0) as Ed by (unfold d; lra). assert (s * k3 + c = 0) as E0 by (unfold s, c; rewrite Ed; ring). unfold p. rewrite E0, round_0 by typeclasses eauto. rewrite Rplus_0_r. apply round_generic; [typeclasses eauto|apply format32].
Qed.

(** The rows of a table in floats. *)
Definition table32 (args vals : list f32) : list (R * R) := zip (real32 <$> args) (real32 <$> vals).
(** A table of moderate numbers: the arguments are sorted and at most [A], two different ones are not too close to each other, and the values are at most [M]. *)
Definition moderate_table (args vals : list f32) (A M : R) : Prop :=
  length args = length vals /\ (2 <= length args)%nat /\ finite_all args /\ finite_all vals /\ StronglySorted Rle (real32 <$> args) /\
  (forall a, a ∈ args -> Rabs (B2R a) <= A) /\ A <= 2 ^ 50 /\ (forall a b, a ∈ args -> b ∈ args -> B2R a < B2R b -> / 2 ^ 50 <= B2R b - B2R a) /\
  (forall f, f ∈ vals -> Rabs (B2R f) <= M) /\ M <= 2 ^ 50.
(** In the range of the table the result is the value of the function that is linear between the rows, up to 16 M / 2^24 and underflows; outside of it the program throws. *)
Theorem C77_float args vals A M (x : f32) : moderate_table args vals A M -> is_finite x = true ->
  (in_range (table32 args vals) (B2R x) -> exists w v, lin_interp32 args vals x = Returns w /\ is_finite w = true /\ profile (table32 args vals) (B2R x) v /\ Rabs (B2R w - v) <= 16 * M / 2 ^ 24 + (A + 1) / 2 ^ 140) /\
  (~ in_range (table32 args vals) (B2R x) -> lin_interp32 args vals x = Throws).
Proof.
  intros (Hl & H2 & Ha & Hv & Hs & HA & HA50 & Hgap & HM & HM50) Fx.
  destruct (lin_interp_sorted (real32 <$> args) (real32 <$> vals) (B2R x)) as [P Q]; [rewrite !fmap_length; exact Hl|rewrite fmap_length; exact H2|exact Hs|]. fold (table32 args vals) in P, Q.
  unfold lin_interp32. rewrite (proj2 (Nat.eqb_eq _ _) Hl), (proj2 (Nat.leb_le _ _) H2). cbn [andb]. rewrite (find32 args x Ha Fx). unfold lin_interp in P, Q. rewrite !fmap_length, (proj2 (Nat.eqb_eq _ _) Hl), (proj2 (Nat.leb_le _ _) H2) in P, Q. cbn [andb] in P, Q. change (real32 x) with (B2R x).
  destruct (find_bracket (real32 <$> args) (B2R x)) as [i|] eqn:E.
  - pose proof E as E'. apply find_some in E' as (a & b & E1 & E2 & Hab). rewrite !list_lookup_fmap in P, Q. rewrite list_lookup_fmap in E1, E2. apply fmap_Some in E1 as (a0 & E1 & ->), E2 as (b0 & E2 & ->).
    destruct (lookup_lt_is_Some_2 vals i) as [fa Hfa]; [rewrite <- Hl; by eapply lookup_lt_Some|]. destruct (lookup_lt_is_Some_2 vals (S i)) as [fb Hfb]; [rewrite <- Hl; by eapply lookup_lt_Some|]. unfold f32 in *. rewrite E1, E2, Hfa, Hfb in *. cbn [fmap option_fmap option_map] in P, Q.
    assert (a0 ∈ args) as Ia by (by eapply elem_of_list_lookup_2). assert (b0 ∈ args) as Ib by (by eapply elem_of_list_lookup_2). assert (fa ∈ vals) as Ifa by (by eapply elem_of_list_lookup_2). assert (fb ∈ vals) as Ifb by (by eapply elem_of_list_lookup_2).
    unfold real32 in Hab. pose proof (Ha a0 Ia) as Fa. pose proof (Ha b0 Ib) as Fb. rewrite Bleb_correct by assumption. rewrite Rle_bool_true by lra. unfold f32 in *. rewrite assertion by (assumption || lra). cbn [andb].
    unfold real32 in P, Q. destruct (Rle_dec (B2R a0) (B2R x)) as [_|C]; [|lra]. destruct (Rle_dec (B2R x - B2R a0) (B2R b0 - B2R a0)) as [_|C]; [|lra].
    pose proof (Rabs_le_inv _ _ (HA a0 Ia)) as HAa. pose proof (Rabs_le_inv _ _ (HA b0 Ib)) as HAb.
    destruct (segment a0 b0 x fa fb A M Fa Fb Fx (Hv fa Ifa) (Hv fb Ifb) Hab) as (W1 & W2 & _); [split; [apply Hgap; [assumption..|lra]|lra]|exact HA50|exact (HM fa Ifa)|exact (HM fb Ifb)|exact HM50|].
    split; [|intros N; discriminate (Q N)]. intros R. destruct (P R) as (v & [= Ev] & Hp). eexists _, v. split; [reflexivity|]. split; [exact W1|]. split; [exact Hp|]. rewrite <- Ev. exact W2.
  - split; [|done]. intros R. by destruct (P R) as (v & C & _).
Qed.
Lemma real_at (l : list f32) j (y : f32) : l !! j = Some y -> (real32 <$> l) !! j = Some (B2R y).
Proof. intros H. rewrite list_lookup_fmap. unfold f32 in *. rewrite H. reflexivity. Qed.
(** At a row the result is exactly the value of the row. *)
Theorem C77_float_rows args vals A M i (a f : f32) : moderate_table args vals A M -> NoDup (real32 <$> args) -> args !! i = Some a -> vals !! i = Some f -> (S i < length args)%nat -> exists w, lin_interp32 args vals a = Returns w /\ B2R w = B2R f.
Proof.
  intros Ht Hd Ea Ef Hi. pose proof Ht as (Hl & H2 & Ha & Hv & Hs & HA & HA50 & Hgap & HM & HM50). assert (a ∈ args) as Ia by (by eapply elem_of_list_lookup_2). pose proof (Ha a Ia) as Fx.
  destruct (lookup_lt_is_Some_2 args (S i)) as [b Hb]; [lia|]. assert (b ∈ args) as Ib by (by eapply elem_of_list_lookup_2).
  assert (forall j k (y z : f32), args !! j = Some y -> args !! k = Some z -> (j < k)%nat -> B2R y < B2R z) as Hlt. { intros j k y z Hj Hk Hjk. assert (B2R y <= B2R z) as Hle. { eapply (sorted_lookup (real32 <$> args) j k); [exact Hs|lia|by apply real_at|by apply real_at]. }
    destruct (Req_dec (B2R y) (B2R z)) as [Eq|]; [|lra]. exfalso. assert (j = k); [|lia]. eapply (NoDup_lookup (real32 <$> args)); [exact Hd|apply real_at; exact Hj|rewrite Eq; apply real_at; exact Hk]. }
  unfold lin_interp32. rewrite (proj2 (Nat.eqb_eq _ _) Hl), (proj2 (Nat.leb_le _ _) H2). cbn [andb]. rewrite (find32 args a Ha Fx).
  destruct (C77_float args vals A M a Ht Fx) as [P _]. destruct P as (w & v & Ew & _). { destruct (lookup_lt_is_Some_2 vals (S i)) as [fb Hfb]; [lia|]. split; [exists (real32 a, real32 f)|exists (real32 b, real32 fb)]; (split; [eapply elem_of_list_lookup_2, lookup_zip_with_Some; eexists _, _; split; [reflexivity|]; split; apply real_at; eassumption|]).
    - simpl. unfold real32. lra. - simpl. unfold real32. eapply Hlt; [exact Ea|exact Hb|lia]. }
  unfold lin_interp32 in Ew. rewrite (proj2 (Nat.eqb_eq _ _) Hl), (proj2 (Nat.leb_le _ _) H2) in Ew. cbn [andb] in Ew. rewrite (find32 args a Ha Fx) in Ew.
  destruct (find_bracket (real32 <$> args) (real32 a)) as [j|] eqn:E; [|done]. pose proof E as E'. apply find_some in E' as (a1 & b1 & E1 & E2 & Hab). rewrite list_lookup_fmap in E1, E2. apply fmap_Some in E1 as (a0 & E1 & ->), E2 as (b0 & E2 & ->). unfold real32 in Hab.
  assert (j = i) as ->. { destruct (lt_eq_lt_dec j i) as [[L|L]|L]; [|exact L|]; exfalso. - destruct (Nat.eq_dec (S j) i) as [<-|]; [rewrite E2 in Ea; injection Ea as ->; lra|]. pose proof (Hlt (S j) i _ _ E2 Ea ltac:(lia)). lra. - pose proof (Hlt i j _ _ Ea E1 L). lra. }
  exists w. split; [exact Ew|]. destruct (lookup_lt_is_Some_2 vals (S i)) as [fb Hfb]; [lia|]. unfold f32 in *. rewrite Ea in E1. injection E1 as <-. rewrite Hb in E2. injection E2 as <-. rewrite Ea, Hb, Ef, Hfb in Ew.
  destruct (_ && _); [|done]. injection Ew as <-. assert (f ∈ vals) as Ifa by (by eapply elem_of_list_lookup_2). assert (fb ∈ vals) as Ifb by (by eapply elem_of_list_lookup_2).
  pose proof (Rabs_le_inv _ _ (HA a Ia)) as HAa. pose proof (Rabs_le_inv _ _ (HA b Ib)) as HAb.
  destruct (segment a b a f fb A M Fx (Ha b Ib) Fx (Hv f Ifa) (Hv fb Ifb) Hab) as (_ & _ & W); [split; [apply Hgap; [assumption..|lra]|lra]|exact HA50|exact (HM f Ifa)|exact (HM fb Ifb)|exact HM50|]. by apply W.
Qed.
(** Rows that are too close to each other: the slope overflows, and the result at the first row is not a number. *)
Definition float_of (m e : Z) : f32 := binary_normalize 24 128 _ _ mode_NE m e false.
Theorem C77_float_close_rows_refuted : lin_interp32 [float_of 0 0; float_of 1 (-149)] [float_of 1 0; float_of 2 0] (float_of 0 0) = Returns B754_nan.
Proof. unfold lin_interp32. cbn [length Nat.eqb Nat.leb andb]. rewrite find32_cons. assert (Bleb (float_of 0 0) (float_of 0 0) && Bltb (float_of 0 0) (float_of 1 (-149)) = true) as -> by (vm_compute; reflexivity). cbn [lookup list_lookup]. assert (Bleb (float_of 0 0) (float_of 0 0) && Bleb (Bminus mode_NE (float_of 0 0) (float_of 0 0)) (Bminus mode_NE (float_of 1 (-149)) (float_of 0 0)) = true) as -> by (vm_compute; reflexivity). reflexivity. Qed.
(** A table that meets the hypotheses: (0, 1), (1, 2), (2, 1); at 1/2, 3/2. *)
Lemma float_value m e : (Z.abs m <= 8)%Z -> (-3 <= e <= 3)%Z -> is_finite (float_of m e) = true /\ B2R (float_of m e) = IZR m * bpow radix2 e.
Proof.
  intros Hm He. assert (m = -8 \/ m = -7 \/ m = -6 \/ m = -5 \/ m = -4 \/ m = -3 \/ m = -2 \/ m = -1 \/ m = 0 \/ m = 1 \/ m = 2 \/ m = 3 \/ m = 4 \/ m = 5 \/ m = 6 \/ m = 7 \/ m = 8)%Z as C by lia. assert (e = -3 \/ e = -2 \/ e = -1 \/ e = 0 \/ e = 1 \/ e = 2 \/ e = 3)%Z as D by lia. clear Hm He.
  assert (forall s : f32, is_finite s = true -> B2R s = SF2R radix2 (B2SF s)) as HS by (intros s _; symmetry; apply SF2R_B2SF).
  split; [repeat destruct C as [->|C]; subst; repeat destruct D as [->|D]; subst; reflexivity|].
  rewrite HS by (repeat destruct C as [->|C]; subst; repeat destruct D as [->|D]; subst; reflexivity).
  repeat destruct C as [->|C]; subst; repeat destruct D as [->|D]; subst; vm_compute; lra.
Qed.
Example C77_float_nonvacuous : let args := [float_of 0 0; float_of 1 0; float_of 2 0] in let vals := [float_of 1 0; float_of 2 0; float_of 1 0] in
  moderate_table args vals 2 2 /\ NoDup (real32 <$> args) /\ in_range (table32 args vals) (B2R (float_of 1 (-1))) /\ exists w, lin_interp32 args vals (float_of 1 (-1)) = Returns w /\ B2R w = 3 / 2.
Proof.
  destruct (float_value 0 0 ltac:(lia) ltac:(lia)) as [F0 V0]. destruct (float_value 1 0 ltac:(lia) ltac:(lia)) as [F1 V1]. destruct (float_value 2 0 ltac:(lia) ltac:(lia)) as [F2 V2]. destruct (float_value 1 (-1) ltac:(lia) ltac:(lia)) as [Fh Vh]. destruct (float_value 3 (-1) ltac:(lia) ltac:(lia)) as [_ V3]. 
  assert (bpow radix2 0 = 1) as B0 by reflexivity. assert (bpow radix2 (-1) = / 2) as B1 by (simpl; lra). rewrite B0 in V0, V1, V2. rewrite B1 in Vh, V3.
  assert (4 <= 2 ^ 50) as P50. { apply Rle_trans with (2 ^ 2); [simpl; lra|apply Rle_pow; [lra|lia]]. } assert (/ 2 ^ 50 <= / 4) as Q50 by (apply Rinv_le; lra).
  intros args vals. split_and!.
  - unfold moderate_table. split_and!; [reflexivity|simpl; lia| | | | |lra| | |lra].
    + intros y Hy. unfold args in Hy. repeat (apply elem_of_cons in Hy as [->|Hy]; [assumption|]). by apply elem_of_nil in Hy.
    + intros y Hy. unfold vals in Hy. repeat (apply elem_of_cons in Hy as [->|Hy]; [assumption|]). by apply elem_of_nil in Hy.
    + unfold args. rewrite !fmap_cons, fmap_nil. unfold real32. rewrite V0, V1, V2. repeat constructor; lra.
    + intros y Hy. unfold args in Hy. repeat (apply elem_of_cons in Hy as [->|Hy]; [rewrite ?V0, ?V1, ?V2, Rabs_pos_eq; lra|]). by apply elem_of_nil in Hy.
    + intros y z Hy Hz. unfold args in Hy, Hz. repeat (apply elem_of_cons in Hy as [->|Hy]); repeat (apply elem_of_cons in Hz as [->|Hz]); try (by apply elem_of_nil in Hy); try (by apply elem_of_nil in Hz); rewrite ?V0, ?V1, ?V2; lra.
    + intros y Hy. unfold vals in Hy. repeat (apply elem_of_cons in Hy as [->|Hy]; [rewrite ?V0, ?V1, ?V2, Rabs_pos_eq; lra|]). by apply elem_of_nil in Hy.
  - unfold args. rewrite !fmap_cons, fmap_nil. unfold real32. rewrite V0, V1, V2. repeat (constructor; [rewrite ?elem_of_cons, ?elem_of_nil; lra|]). constructor.
  - unfold table32, args, vals. rewrite !fmap_cons, !fmap_nil. unfold real32. rewrite V0, V1, V2, Vh. split; [exists (0, 1)|exists (1, 2)]; (split; [|simpl; lra]); cbn [zip zip_with]; rewrite !elem_of_cons; [left|right; left]; f_equal; lra.
  - exists (float_of 3 (-1)). split; [|rewrite V3; lra]. unfold lin_interp32, args, vals. cbn [length Nat.eqb Nat.leb andb]. rewrite find32_cons. assert (Bleb (float_of 0 0) (float_of 1 (-1)) && Bltb (float_of 1 (-1)) (float_of 1 0) = true) as -> by (vm_compute; reflexivity). cbn [lookup list_lookup].
    assert (Bleb (float_of 0 0) (float_of 1 (-1)) && Bleb (Bminus mode_NE (float_of 1 (-1)) (float_of 0 0)) (Bminus mode_NE (float_of 1 0) (float_of 0 0)) = true) as -> by (vm_compute; reflexivity). f_equal. apply B2SF_inj. vm_compute. reflexivity.
Qed.
