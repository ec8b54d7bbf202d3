(** C77: the permittivity and the impulse response of the dipole application in floats. *)
From Coq Require Import Reals ZArith Bool Lra Lia Sorting.Sorted Sorting.Permutation.
From stdpp Require Import base list list_numbers numbers option.
From Flocq Require Import Core IEEE754.BinarySingleNaN.
From Verif Require Import AntennaModel AntennaSpec AntennaProps Interp32Weights Interp32Props Signal32Props Signal32Any TableModel TableSpec TableProps TableFloatModel TableFloat.
Local Open Scope R_scope.
Local Notation fexp32 := (FLT_exp (-149) 24).
Local Notation fexp64 := (FLT_exp (-1074) 53).
Local Notation rnd32 := (round radix2 fexp32 ZnearestE).
Local Notation rnd64 := (round radix2 fexp64 ZnearestE).
Local Notation u := (/ 16777216).

(** * The square *)
Lemma square_exact (x : f32) : generic_format radix2 fexp64 (B2R x * B2R x).
Proof.
  pose proof (format32 x) as G. apply FLT_format_generic in G; [|typeclasses eauto]. destruct G as [[m e] E Hm He]. cbn [Fnum Fexp] in *. apply generic_format_FLT. exists (Float radix2 (m * m) (e + e)); cbn [Fnum Fexp].
  - rewrite E. unfold F2R. cbn [Fnum Fexp]. rewrite mult_IZR, bpow_plus. ring.
  - rewrite Z.abs_mul. change (Zpower radix2 53) with (2 ^ 53)%Z. change (Zpower radix2 24) with (2 ^ 24)%Z in Hm. nia.
  - lia.
Qed.
Lemma square_value (x : f32) : is_finite x = true -> Rabs (B2R x) <= 2 ^ 50 -> is_finite (to_float (Bmult mode_NE (to_double x) (to_double x))) = true /\ B2R (to_float (Bmult mode_NE (to_double x) (to_double x))) = rnd32 (B2R x * B2R x).
Proof.
  intros Fx Hx. destruct (to_double_value x Fx) as [F V]. pose proof (Bmult_correct 53 1024 _ _ mode_NE (to_double x) (to_double x)) as HB. change (round_mode mode_NE) with ZnearestE in HB. change (SpecFloat.fexp 53 1024) with fexp64 in HB. unfold f64 in *. rewrite V in HB. rewrite round_generic in HB by (typeclasses eauto || apply square_exact).
  assert (Rabs (B2R x * B2R x) <= 2 ^ 110) as Hb. { rewrite Rabs_mult. apply Rle_trans with (2 ^ 50 * 2 ^ 50); [apply Rmult_le_compat; try apply Rabs_pos; exact Hx|]. rewrite <- pow_add. apply Rle_pow; [lra|lia]. } pose proof bpow127_big as B127.
  rewrite Rlt_bool_true in HB. 2:{ assert (bpow radix2 127 < bpow radix2 1024) by (apply bpow_lt; lia). lra. }
  destruct HB as (E & F' & _). rewrite F in F'. destruct (to_float_round (Bmult mode_NE (to_double x) (to_double x))) as [G W]; [exact F'|unfold f64 in *; rewrite E; apply below_32; lra|]. split; [exact G|]. unfold f32, f64 in *. rewrite W, E. reflexivity.
Qed.

(** * Sorting *)
Lemma nth_real (l : list f32) i : nth i (real32 <$> l) 0 = B2R (nth i l (B754_zero false)).
Proof. change 0 with (real32 (B754_zero false)) at 1. exact (map_nth real32 l (B754_zero false) i). Qed.
Lemma nth_finite (l : list f32) i : finite_all l -> is_finite (nth i l (B754_zero false)) = true.
Proof. intros H. destruct (nth_in_or_default i l (B754_zero false)) as [Hin|E]; [apply H, elem_of_list_In; exact Hin|]. unfold f32 in *. rewrite E. reflexivity. Qed.
Lemma sorts_real zs sorter : finite_all zs -> sorts32 zs sorter -> sorts (real32 <$> zs) sorter.
Proof.
  intros Hf [Hp Hs]. split; [rewrite fmap_length; exact Hp|]. clear Hp. induction Hs as [|i l Hl IH Hi]; constructor; [exact IH|]. eapply Forall_impl; [|exact Hi]. intros j Hj. cbn beta in Hj |- *. rewrite !nth_real.
  rewrite Bltb_correct in Hj by (by apply nth_finite). intros C. rewrite Rlt_bool_true in Hj by exact C. discriminate.
Qed.
Lemma reorder_real (v : list f32) sorter : (forall i, i ∈ sorter -> (i < length v)%nat) -> exists v', reorder32 v sorter = Some v' /\ reorder (real32 <$> v) sorter = Some (real32 <$> v') /\ (forall x, x ∈ v' -> x ∈ v).
Proof.
  induction sorter as [|i s IH]; intros H. { exists []. split_and!; [reflexivity..|]. intros x Hx. by apply elem_of_nil in Hx. }
  destruct IH as (v' & E1 & E2 & E3); [intros j Hj; apply H; by right|]. destruct (lookup_lt_is_Some_2 v i) as [x Hx]; [apply H; left|]. exists (x :: v'). unfold reorder32, reorder in *. cbn [mapM]. unfold f32 in *. rewrite Hx, E1. rewrite list_lookup_fmap, Hx. cbn [mbind option_bind fmap option_fmap option_map]. rewrite E2. split_and!; [reflexivity..|].
  intros y Hy. apply elem_of_cons in Hy as [->|Hy]; [by eapply elem_of_list_lookup_2|by apply E3].
Qed.

(** A table of moderate numbers with its rows in any order. *)
Definition moderate_rows (args vals : list f32) (A M : R) : Prop :=
  length args = length vals /\ (2 <= length args)%nat /\ finite_all args /\ finite_all vals /\
  (forall a, a ∈ args -> Rabs (B2R a) <= A) /\ A <= 2 ^ 20 /\ (forall a b, a ∈ args -> b ∈ args -> B2R a < B2R b -> / 2 ^ 50 <= B2R b - B2R a) /\
  (forall f, f ∈ vals -> Rabs (B2R f) <= M) /\ M <= 2 ^ 20.
(** The permittivity: the square of the function that is linear between the rows of the table, up to roundings. *)
Theorem C77_float_permittivity zs iors A M sorter (z : f32) : moderate_rows zs iors A M -> sorts32 zs sorter -> is_finite z = true ->
  (in_range (table32 zs iors) (B2R z) -> exists e ior, permittivity32 zs iors sorter z = Returns e /\ is_finite e = true /\ profile (table32 zs iors) (B2R z) ior /\ Rabs (B2R e - ior ^ 2) <= 40 * M ^ 2 / 2 ^ 24 + / 2 ^ 90) /\
  (~ in_range (table32 zs iors) (B2R z) -> permittivity32 zs iors sorter z = Throws).
Proof.
  intros (Hl & H2 & Ha & Hv & HA & HA20 & Hgap & HM & HM20) Hsort Fz. pose proof (sorts_real zs sorter Ha Hsort) as Hs. assert (forall i, i ∈ sorter -> (i < length zs)%nat) as Hi. { intros i Hin. destruct Hsort as [Hp _]. rewrite Hp in Hin. apply elem_of_seq in Hin. lia. }
  destruct (reorder_real zs sorter Hi) as (zs' & R1 & R2 & R3). destruct (reorder_real iors sorter) as (ys' & S1 & S2 & S3); [rewrite <- Hl; exact Hi|].
  destruct (sorted_table (real32 <$> zs) (real32 <$> iors) sorter) as (zr & yr & E1 & E2 & L1 & L2 & HP & HS); [rewrite !fmap_length; exact Hl|exact Hs|]. rewrite R2 in E1. injection E1 as <-. rewrite S2 in E2. injection E2 as <-. rewrite !fmap_length in L1, L2.
  assert (2 ^ 20 = 1048576) as E20 by (simpl pow; lra). assert (2 ^ 20 <= 2 ^ 50) as P50 by (apply Rle_pow; [lra|lia]).
  assert (moderate_table zs' ys' A M) as Ht. { split_and!; [lia|lia|intros x Hx; by apply Ha, R3|intros x Hx; by apply Hv, S3|exact HS|intros x Hx; by apply HA, R3|lra|intros x y Hx Hy; apply Hgap; by apply R3|intros x Hx; by apply HM, S3|lra]. }
  assert (forall p, p ∈ table32 zs' ys' <-> p ∈ table32 zs iors) as Hin by (intros p; unfold table32; by rewrite HP).
  assert (in_range (table32 zs iors) (B2R z) <-> in_range (table32 zs' ys') (B2R z)) as Hr. { unfold in_range. split; intros [(p & ? & ?) (q & ? & ?)]; (split; [exists p|exists q]; split; try assumption; by apply Hin). }
  unfold permittivity32. rewrite R1, S1. cbn [defined obind]. destruct (C77_float zs' ys' A M z Ht Fz) as [P Q]. split.
  - intros R. destruct (P (proj1 Hr R)) as (w & v & Ew & Fw & Hp & Herr). rewrite Ew. cbn [obind]. assert (profile (table32 zs iors) (B2R z) v) as Hp'. { destruct Hp as (a & b & (Ia & Ib & Hab & Hall) & ->). exists a, b. split; [|reflexivity]. split_and!; [by apply Hin|by apply Hin|lra|lra|]. intros p Hp. apply Hall, Hin, Hp. }
    assert (0 <= M) as HM0. { destruct iors as [|f l]; [simpl in Hl; lia|]. pose proof (HM f ltac:(left)). pose proof (Rabs_pos (B2R f)). lra. } assert (0 <= A) as HA0. { destruct zs as [|f l]; [simpl in H2; lia|]. pose proof (HA f ltac:(left)). pose proof (Rabs_pos (B2R f)). lra. }
    assert (- M <= v <= M) as Hvb. { apply (C77_between (table32 zs iors) (B2R z) v (- M) M); [|exact Hp']. intros p Hpin. apply elem_of_list_lookup_1 in Hpin as [i Hpi]. apply lookup_zip_with_Some in Hpi as (x & y & -> & _ & Hy). rewrite list_lookup_fmap in Hy. apply fmap_Some in Hy as (f & Hf & ->). cbn [snd]. apply Rabs_le_inv, HM. by eapply elem_of_list_lookup_2. }
    assert (2 ^ 24 = 16777216) as E24 by (simpl pow; lra). rewrite E24 in Herr |- *. set (D := (A + 1) / 2 ^ 140) in *. assert (0 <= D <= / 2 ^ 119) as HD. { assert (2 ^ 140 = 2 ^ 21 * 2 ^ 119) as E140 by (rewrite <- pow_add; reflexivity). assert (0 < 2 ^ 119) as P119 by (apply pow_lt; lra). assert (2 ^ 21 = 2097152) as E21 by (simpl pow; lra). assert (D = (A + 1) / 2097152 * / 2 ^ 119) as -> by (unfold D; rewrite E140, E21; field; lra). assert (0 < / 2 ^ 119) by (by apply Rinv_0_lt_compat). split; [apply Rmult_le_pos; [unfold Rdiv; apply Rmult_le_pos|]; lra|]. rewrite <- (Rmult_1_l (/ 2 ^ 119)) at 2. apply Rmult_le_compat_r; lra. }
    assert (/ 2 ^ 119 * 536870912 = / 2 ^ 90) as E90. { assert (2 ^ 119 = 2 ^ 29 * 2 ^ 90) as -> by (rewrite <- pow_add; reflexivity). assert (2 ^ 29 = 536870912) as -> by (simpl pow; lra). field. } assert (0 < / 2 ^ 90 <= 1) as H90. { split; [apply Rinv_0_lt_compat, pow_lt; lra|]. rewrite <- Rinv_1. apply Rinv_le; [lra|]. apply pow_R1_Rle; lra. }
    assert (eta <= / 2 ^ 119) as Heta. { unfold eta. apply Rinv_le; [apply pow_lt; lra|apply Rle_pow; [lra|lia]]. } pose proof eta_small as [Z0 Z1].
    apply Rabs_le_inv in Herr. destruct (square_value w Fw) as [G W]; [apply Rabs_le; lra|]. eexists _, v. split; [reflexivity|]. split; [exact G|]. split; [exact Hp'|]. unfold f32 in *. rewrite W. pose proof (rnd_err (B2R w * B2R w)) as R1'. rewrite (Rabs_pos_eq (B2R w * B2R w)) in R1' by (pose proof (Rle_0_sqr (B2R w)) as Q0; exact Q0). 
    set (y := rnd32 (B2R w * B2R w)) in *. assert (Rabs (B2R w - v) <= 16 * M * u + D) as Hwv by (apply Rabs_le; unfold Rdiv in Herr; lra).
    assert (Rabs (B2R w) <= M * (1001 / 1000) + D) as Hwb. { apply Rabs_le. lra. }
    assert (Rabs (B2R w * B2R w - v * v) <= (16 * M * u + D) * (M * (2001 / 1000) + D)) as Hsq. { replace (B2R w * B2R w - v * v) with ((B2R w - v) * (B2R w + v)) by ring. rewrite Rabs_mult. apply Rmult_le_compat; try apply Rabs_pos; [exact Hwv|]. apply Rabs_le. apply Rabs_le_inv in Hwb. lra. }
    assert (B2R w * B2R w <= (M * (1001 / 1000) + D) * (M * (1001 / 1000) + D)) as Hww. { eapply Rle_trans; [apply Rle_abs|]. rewrite Rabs_mult. apply Rmult_le_compat; try apply Rabs_pos; exact Hwb. }
    assert (M * D <= 1048576 * / 2 ^ 119) as HMD by (apply Rmult_le_compat; lra). assert (D * D <= 1 * / 2 ^ 119) as HDD by (apply Rmult_le_compat; lra). assert (0 <= M * M) as HMM by (apply Rmult_le_pos; lra). assert (0 <= M * D) as HMD0 by (apply Rmult_le_pos; lra). assert (0 <= D * D) as HDD0 by (apply Rmult_le_pos; lra).
    apply Rabs_le_inv in R1', Hsq. replace (v ^ 2) with (v * v) by ring. replace (M ^ 2) with (M * M) by ring. set (t := / 2 ^ 119) in *. clearbody t y. clearbody D. apply Rabs_le. split; lra.
  - intros N. rewrite Q; [reflexivity|]. intros C. apply N. by apply Hr.
Qed.
(** The impulse response. *)
Theorem C77_float_impulse_response ts rs A M (t t0 t_end : f32) : moderate_table ts rs A M -> is_finite t = true -> ts !! 0%nat = Some t0 -> ts !! Nat.pred (length ts) = Some t_end -> B2R t0 <= 0 ->
  (B2R t <= 0 \/ B2R t_end <= B2R t -> impulse_response32 ts rs t = Returns (B754_zero false)) /\
  (0 < B2R t < B2R t_end -> exists w v, impulse_response32 ts rs t = Returns w /\ is_finite w = true /\ profile (table32 ts rs) (B2R t) v /\ Rabs (B2R w - v) <= 16 * M / 2 ^ 24 + (A + 1) / 2 ^ 140).
Proof.
  intros Ht Ft H0 He Hneg. pose proof Ht as (Hl & H2 & Ha & _). assert (is_finite t_end = true) as Fe by (apply Ha; by eapply elem_of_list_lookup_2). unfold impulse_response32. unfold f32 in *. rewrite He. rewrite !Bleb_correct by (assumption || reflexivity). change (B2R (B754_zero false)) with 0. split.
  - intros [H|H]; rewrite (Rle_bool_true _ _ H); [reflexivity|]. by rewrite orb_true_r.
  - intros H. rewrite !Rle_bool_false by lra. cbn [orb]. apply (C77_float ts rs A M t Ht Ft). 
    assert (forall i a, ts !! i = Some a -> exists y, (B2R a, y) ∈ table32 ts rs) as Hzip. { intros i a Hi. destruct (lookup_lt_is_Some_2 rs i) as [y Hy]; [rewrite <- Hl; by eapply lookup_lt_Some|]. exists (B2R y). eapply elem_of_list_lookup_2. apply lookup_zip_with_Some. eexists _, _. split; [reflexivity|]. split; apply real_at; [exact Hi|exact Hy]. }
    destruct (Hzip _ _ H0) as [y0 Y0], (Hzip _ _ He) as [y1 Y1]. split; [exists (B2R t0, y0)|exists (B2R t_end, y1)]; (split; [assumption|simpl; lra]).
Qed.
(** A table whose rows are not in order: (2, 1), (0, 1), (1, 2); at 1/2 the permittivity is 9/4. *)
Example C77_float_profiles_nonvacuous : let zs := [float_of 2 0; float_of 0 0; float_of 1 0] in let iors := [float_of 1 0; float_of 1 0; float_of 2 0] in
  moderate_rows zs iors 2 2 /\ sorts32 zs [1; 2; 0]%nat /\ exists e, permittivity32 zs iors [1; 2; 0]%nat (float_of 1 (-1)) = Returns e /\ B2R e = 9 / 4.
Proof.
  destruct (float_value 0 0 ltac:(lia) ltac:(lia)) as [F0 V0]. destruct (float_value 1 0 ltac:(lia) ltac:(lia)) as [F1 V1]. destruct (float_value 2 0 ltac:(lia) ltac:(lia)) as [F2 V2].
  assert (bpow radix2 0 = 1) as B0 by reflexivity. rewrite B0 in V0, V1, V2.
  assert (4 <= 2 ^ 50) as P50. { apply Rle_trans with (2 ^ 2); [simpl; lra|apply Rle_pow; [lra|lia]]. } assert (/ 2 ^ 50 <= / 4) as Q50 by (apply Rinv_le; lra). assert (4 <= 2 ^ 20) as P20. { apply Rle_trans with (2 ^ 2); [simpl; lra|apply Rle_pow; [lra|lia]]. }
  intros zs iors. split_and!.
  - unfold moderate_rows. split_and!; [reflexivity|simpl; lia| | | |lra| | |lra].
    + intros y Hy. unfold zs in Hy. repeat (apply elem_of_cons in Hy as [->|Hy]; [assumption|]). by apply elem_of_nil in Hy.
    + intros y Hy. unfold iors in Hy. repeat (apply elem_of_cons in Hy as [->|Hy]; [assumption|]). by apply elem_of_nil in Hy.
    + intros y Hy. unfold zs in Hy. repeat (apply elem_of_cons in Hy as [->|Hy]; [rewrite ?V0, ?V1, ?V2, Rabs_pos_eq; lra|]). by apply elem_of_nil in Hy.
    + intros y z Hy Hz. unfold zs in Hy, Hz. repeat (apply elem_of_cons in Hy as [->|Hy]); repeat (apply elem_of_cons in Hz as [->|Hz]); try (by apply elem_of_nil in Hy); try (by apply elem_of_nil in Hz); rewrite ?V0, ?V1, ?V2; lra.
    + intros y Hy. unfold iors in Hy. repeat (apply elem_of_cons in Hy as [->|Hy]; [rewrite ?V0, ?V1, ?V2, Rabs_pos_eq; lra|]). by apply elem_of_nil in Hy.
  - split; [simpl; exact (Permutation_sym (Permutation_cons_append [1; 2]%nat 0%nat))|]. repeat constructor.
  - assert (match permittivity32 zs iors [1; 2; 0]%nat (float_of 1 (-1)) with Returns e => B2SF e = B2SF (float_of 9 (-2)) | _ => False end) as H by (vm_compute; reflexivity).
    destruct (permittivity32 zs iors [1; 2; 0]%nat (float_of 1 (-1))) as [e| |]; [|done..]. exists e. split; [reflexivity|]. rewrite <- SF2R_B2SF, H. vm_compute. lra.
Qed.
