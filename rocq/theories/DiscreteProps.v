(** C72: the region and the times of a calculation in floating-point arithmetic. *)
From Coq Require Import Reals ZArith NArith Bool Lra Lia List.
From Flocq Require Import Core IEEE754.BinarySingleNaN Relative Plus_error.
From Verif Require Import AntennaModel AntennaSpec AntennaProps DiscreteModel DiscreteSpec.
Import ListNotations.
Local Open Scope R_scope.
Local Notation fexp32 := (FLT_exp (-149) 24).
Local Notation fexp64 := (FLT_exp (-1074) 53).
Local Notation rnd32 := (round radix2 fexp32 ZnearestE).
Local Notation rnd64 := (round radix2 fexp64 ZnearestE).
Local Instance valid32 : Valid_exp fexp32. Proof. apply FLT_exp_valid. reflexivity. Qed.
Local Instance valid64 : Valid_exp fexp64. Proof. apply FLT_exp_valid. reflexivity. Qed.

Lemma integer_format32 (k : Z) : (Z.abs k <= 2 ^ 24)%Z -> generic_format radix2 fexp32 (IZR k).
Proof.
  intros Hk. apply (multiple_format 0); [lia|exists k; change (bpow radix2 0) with 1; ring|].
  rewrite <- abs_IZR. change (bpow radix2 (24 + 0)) with (IZR (2 ^ 24)). apply IZR_le. exact Hk.
Qed.
Lemma of_size_value n : (n <= 2 ^ 24)%N -> has_value (of_size n) (real n).
Proof.
  intros Hn. unfold of_size, real. pose proof (binary_normalize_correct 24 128 _ _ mode_NE (Z.of_N n) 0 false) as HN.
  change (round_mode mode_NE) with ZnearestE in HN. change (SpecFloat.fexp 24 128) with fexp32 in HN. cbn zeta in HN.
  assert (F2R (Float radix2 (Z.of_N n) 0) = IZR (Z.of_N n)) as EF. { unfold F2R. cbn [Fnum Fexp]. change (bpow radix2 0) with 1. ring. } rewrite EF in HN.
  assert (Z.abs (Z.of_N n) <= 2 ^ 24)%Z as Hz by lia. rewrite (round_generic radix2 fexp32 ZnearestE _ (integer_format32 _ Hz)) in HN.
  rewrite Rlt_bool_true in HN. { destruct HN as (H1 & H2 & _). exact (conj H2 H1). }
  rewrite <- abs_IZR. apply Rle_lt_trans with (IZR (2 ^ 24)); [apply IZR_le; exact Hz|]. change (IZR (2 ^ 24)) with (bpow radix2 24). apply bpow_lt. lia.
Qed.
Lemma trunc_value (x : f32) : is_finite x = true -> 0 <= B2R x < 2 ^ 60 -> exists k, to_size32 x = Some k /\ real k <= B2R x < real k + 1.
Proof.
  intros Hf [H0 H1]. unfold to_size32. rewrite Hf. cbv zeta. pose proof (Btrunc_correct 24 128 _ x) as HB. rewrite round_FIX_IZR, (Ztrunc_floor _ H0) in HB. apply eq_IZR in HB. rewrite HB.
  pose proof (Zfloor_lb (B2R x)) as L. pose proof (Zfloor_ub (B2R x)) as U. set (z := Zfloor (B2R x)) in *.
  assert (0 <= z)%Z as Hz0. { unfold z. apply Zfloor_lub. exact H0. }
  assert (z < 2 ^ 64)%Z as Hz1. { apply lt_IZR. eapply Rle_lt_trans; [exact L|]. eapply Rlt_trans; [exact H1|]. change (IZR (2 ^ 64)) with (bpow radix2 64). rewrite bpow_powerRZ. unfold powerRZ. change (Pos.to_nat 64) with 64%nat. change (IZR radix2) with 2. apply Rlt_pow; [lra|lia]. }
  rewrite (proj2 (Z.leb_le _ _) Hz0), (proj2 (Z.ltb_lt _ _) Hz1). cbn [andb]. exists (Z.to_N z). split; [reflexivity|]. unfold real. rewrite Z2N.id by exact Hz0. split; assumption.
Qed.

(** The difference of two floats. *)
Lemma difference (x y : f32) : coordinate32 x -> coordinate32 y -> has_value (Bminus mode_NE x y) (rnd32 (B2R x - B2R y)) /\ Rabs (rnd32 (B2R x - B2R y) - (B2R x - B2R y)) <= Rabs (B2R x - B2R y) * ulp32.
Proof.
  intros [Hx Bx] [Hy By]. split.
  - apply minus_value; [exact Hx|exact Hy|]. apply Rle_trans with (Rabs (B2R x) + Rabs (B2R y)). { unfold Rminus. rewrite <- (Rabs_Ropp (B2R y)). apply Rabs_triang. }
    apply Rle_trans with (bpow radix2 101). 2: { apply bpow_le. lia. } assert (bpow radix2 101 = 2 * 2 ^ 100) as ->. { rewrite bpow_powerRZ. unfold powerRZ. change (Pos.to_nat 101) with 101%nat. reflexivity. } lra.
  - unfold Rminus. apply plus32; [apply format32|]. apply generic_format_opp, format32.
Qed.

Lemma ulp32_value : ulp32 = / 16777216. Proof. unfold ulp32. simpl pow. lra. Qed.
Lemma tiny_value : 0 < / 2 ^ 150 <= / 2 ^ 60.
Proof. split; [apply Rinv_0_lt_compat, pow_lt; lra|]. apply Rinv_le_contravar; [apply pow_lt; lra|]. apply Rle_pow; [lra|lia]. Qed.

(** Division and multiplication with the number of cells. *)
Lemma scaled (dv gs : f32) D G n : (0 < n < 2 ^ 20)%N -> 0 <= D <= G -> 0 < G ->
  has_value dv (rnd32 D) -> has_value gs (rnd32 G) -> Rabs (rnd32 D - D) <= Rabs D * ulp32 -> Rabs (rnd32 G - G) <= Rabs G * ulp32 ->
  exists k, to_size32 (Bmult mode_NE (Bdiv mode_NE dv gs) (of_size n)) = Some k /\ whole_cells (D / G * real n) n k /\ real k <= real n.
Proof.
  intros Hn [HD0 HDG] HG [Fd Vd] [Fg Vg] Ed Eg. rewrite (Rabs_pos_eq D) in Ed by lra. rewrite (Rabs_pos_eq G) in Eg by lra. rewrite ulp32_value in Ed, Eg.
  set (d := rnd32 D) in *. set (g := rnd32 G) in *.
  assert (d <= g) as Hdg. { apply round_le; [typeclasses eauto|typeclasses eauto|lra]. }
  assert (0 <= d) as Hd0. { apply round_ge_generic; [typeclasses eauto|typeclasses eauto|apply generic_format_0|lra]. }
  apply Rabs_le_inv in Ed, Eg. assert (0 < g) as Hg by lra.
  assert (0 <= d / g <= 1) as [Q0 Q1]. { split; [apply Rmult_le_pos; [lra|apply Rlt_le, Rinv_0_lt_compat; lra]|]. apply (Rmult_le_reg_r g); [lra|]. unfold Rdiv. rewrite Rmult_assoc, Rinv_l by lra. lra. }
  destruct (of_size_value n ltac:(lia)) as [Fn Vn].
  assert (1 <= real n < 1048576) as [N0 N1]. { unfold real. split; [apply (IZR_le 1)|apply (IZR_lt _ 1048576)]; lia. }
  (* the quotient *)
  pose proof (Bdiv_correct 24 128 _ _ mode_NE dv gs) as HB. change (round_mode mode_NE) with ZnearestE in HB. change (SpecFloat.fexp 24 128) with fexp32 in HB.
  rewrite Vd, Vg in HB. specialize (HB ltac:(lra)). rewrite Rlt_bool_true in HB. 2: { apply below_32. rewrite Rabs_pos_eq by lra. apply Rle_trans with (bpow radix2 0); [exact Q1|apply bpow_le; lia]. }
  destruct HB as (EQ & FQ & _). rewrite Fd in FQ. set (q := rnd32 (d / g)) in *.
  assert (0 <= q) as q0. { apply round_ge_generic; [typeclasses eauto|typeclasses eauto|apply generic_format_0|lra]. }
  assert (q <= 1) as q1. { apply round_le_generic; [typeclasses eauto|typeclasses eauto|apply (integer_format32 1); lia|lra]. }
  pose proof (round_error (d / g)) as ER. fold q in ER. rewrite (Rabs_pos_eq (d / g)) in ER by lra. rewrite ulp32_value in ER. apply Rabs_le_inv in ER.
  (* the product *)
  pose proof (Bmult_correct 24 128 _ _ mode_NE (Bdiv mode_NE dv gs) (of_size n)) as HM. change (round_mode mode_NE) with ZnearestE in HM. change (SpecFloat.fexp 24 128) with fexp32 in HM.
  rewrite EQ, Vn in HM. assert (0 <= q * real n <= real n) as [P0 P1] by (split; [apply Rmult_le_pos|]; nra).
  rewrite Rlt_bool_true in HM. 2: { apply below_32. rewrite Rabs_pos_eq by lra. apply Rle_trans with (bpow radix2 20); [change (bpow radix2 20) with 1048576; lra|apply bpow_le; lia]. }
  destruct HM as (EP & FP & _). rewrite FQ, Fn in FP. cbn [andb] in FP. set (p := rnd32 (q * real n)) in *.
  assert (0 <= p) as p0. { apply round_ge_generic; [typeclasses eauto|typeclasses eauto|apply generic_format_0|lra]. }
  assert (p <= real n) as p1. { apply round_le_generic; [typeclasses eauto|typeclasses eauto|apply (integer_format32 (Z.of_N n)); lia|lra]. }
  pose proof (round_error (q * real n)) as EM. fold p in EM. rewrite (Rabs_pos_eq (q * real n)) in EM by lra. rewrite ulp32_value in EM. apply Rabs_le_inv in EM.
  destruct (trunc_value (Bmult mode_NE (Bdiv mode_NE dv gs) (of_size n)) FP) as (k & Hk & K0 & K1).
  { rewrite EP. split; [exact p0|]. apply Rle_lt_trans with (real n); [exact p1|]. apply Rlt_le_trans with 1048576; [lra|]. simpl pow. lra. }
  exists k. split; [exact Hk|]. rewrite EP in K0, K1. split; [|lra]. unfold whole_cells.
  (* d / g against D / G *)
  set (x := D / G). assert (D = x * G) as ED by (unfold x; field; lra). assert (0 <= x <= 1) as [X0 X1]. { unfold x. split; [apply Rmult_le_pos; [lra|apply Rlt_le, Rinv_0_lt_compat; lra]|]. apply (Rmult_le_reg_r G); [lra|]. unfold Rdiv. rewrite Rmult_assoc, Rinv_l by lra. lra. }
  set (y := d / g) in *. assert (d = y * g) as Edy by (unfold y; field; lra).
  assert (- (3 * / 16777216) <= y - x <= 3 * / 16777216) as Hyx.
  { clear -ED Edy X0 X1 Q0 Q1 Ed Eg Hg HG. rewrite ED, Edy in Ed. set (v := / 16777216) in *. assert (0 < v < / 100) by (unfold v; lra). clearbody v x y g. split; apply (Rmult_le_reg_r G); try lra; nra. }
  pose proof tiny_value as [T0 T1]. assert (/ 2 ^ 60 <= / 1000000000000000) as T2. { apply Rinv_le_contravar; [lra|]. simpl pow. lra. } set (t := / 2 ^ 150) in *.
  change (2 ^ 21) with (2 * (2 * 2 ^ 19)). replace (2 * (2 * 2 ^ 19)) with 2097152 by (simpl pow; lra).
  assert (- (real n * (5 * / 16777216) + 2 * real n * t) <= p - x * real n <= real n * (5 * / 16777216) + 2 * real n * t) as Hp.
  { clear -EM ER Hyx X0 X1 Q0 Q1 q0 q1 N0 N1 T0. clearbody q x y t p. set (m := real n) in *. clearbody m. set (v := / 16777216) in *. assert (0 < v < / 100) by (unfold v; lra).
    assert (- (4 * v + t) <= q - x <= 4 * v + t) as Hq by (clearbody v; split; nra).
    assert (- (m * (4 * v + t)) <= q * m - x * m <= m * (4 * v + t)) as Hqm by (clearbody v; split; nra). clearbody v.
    assert (0 <= q * m * v <= m * v) as Hqv. { assert (0 <= m * v) by nra. replace (q * m * v) with (q * (m * v)) by ring. split; nra. } assert (t <= m * t) by nra.
    split; lra. }
  assert (real n * t <= real n * / 1000000000000000) as Hnt by (apply Rmult_le_compat_l; lra).
  split; lra.
Qed.

(** * The first index and the shape of the stored region *)
Lemma coord_in (x lo hi : f32) : is_finite x = true -> coordinate32 lo -> coordinate32 hi -> B2R lo <= B2R x <= B2R hi -> coordinate32 x.
Proof. intros Hf [_ H1] [_ H2] H. split; [exact Hf|]. apply Rabs_le_inv in H1, H2. apply Rabs_le. lra. Qed.
Lemma zero_coord : coordinate32 zero32.
Proof. split; [reflexivity|]. cbn [B2R zero32]. rewrite Rabs_R0. apply pow_le. lra. Qed.
Lemma rnd32_float (x : f32) : rnd32 (B2R x) = B2R x.
Proof. apply round_generic; [typeclasses eauto|apply format32]. Qed.

Section axis.
Context (lo hi gs : f32) (Hlo : coordinate32 lo) (Hhi : coordinate32 hi) (Hlt : B2R lo < B2R hi).
Context (Vg : has_value gs (rnd32 (B2R hi - B2R lo))).
Lemma size_error : Rabs (rnd32 (B2R hi - B2R lo) - (B2R hi - B2R lo)) <= Rabs (B2R hi - B2R lo) * ulp32.
Proof using. unfold Rminus. apply plus32; [apply format32|apply generic_format_opp, format32]. Qed.
Lemma axis_start_ok (x : f32) n : (0 < n < 2 ^ 20)%N -> is_finite x = true -> B2R lo <= B2R x <= B2R hi ->
  exists k, start_index lo gs x n = Some k /\ whole_cells (cells (B2R lo) (B2R hi) (B2R x) n) n k /\ real k <= real n.
Proof using Hlo Hhi Hlt Vg.
  intros Hn Hf Hx. pose proof (coord_in x lo hi Hf Hlo Hhi Hx) as Hc. destruct (difference x lo Hc Hlo) as [V E].
  apply (scaled _ _ (B2R x - B2R lo) (B2R hi - B2R lo) n Hn); [lra|lra|exact V|exact Vg|exact E|apply size_error].
Qed.
Lemma axis_shape_ok (a b : f32) n : (0 < n < 2 ^ 20)%N -> is_finite a = true -> is_finite b = true -> B2R lo <= B2R a -> B2R a <= B2R b -> B2R b <= B2R hi ->
  exists k, shape_index gs (Bminus mode_NE b a) n = Some k /\ whole_cells (cells_of (B2R lo) (B2R hi) (B2R b - B2R a) n) n k /\ real k <= real n.
Proof using Hlo Hhi Hlt Vg.
  intros Hn Fa Fb H1 H2 H3. pose proof (coord_in a lo hi Fa Hlo Hhi ltac:(lra)) as Ca. pose proof (coord_in b lo hi Fb Hlo Hhi ltac:(lra)) as Cb. destruct (difference b a Cb Ca) as [V E].
  apply (scaled _ _ (B2R b - B2R a) (B2R hi - B2R lo) n Hn); [lra|lra|exact V|exact Vg|exact E|apply size_error].
Qed.
Lemma axis_inside (a b : f32) n s m : (0 < n < 2 ^ 20)%N -> B2R lo <= B2R a -> B2R a <= B2R b -> B2R b <= B2R hi ->
  whole_cells (cells (B2R lo) (B2R hi) (B2R a) n) n s -> whole_cells (cells_of (B2R lo) (B2R hi) (B2R b - B2R a) n) n m -> (s + m <= n)%N.
Proof using Hlt.
  intros Hn H1 H2 H3 [_ S2] [_ M2]. unfold cells, cells_of in *.
  assert ((B2R a - B2R lo) / (B2R hi - B2R lo) * real n + (B2R b - B2R a) / (B2R hi - B2R lo) * real n <= real n) as Hs.
  { replace ((B2R a - B2R lo) / (B2R hi - B2R lo) * real n + (B2R b - B2R a) / (B2R hi - B2R lo) * real n) with ((B2R b - B2R lo) / (B2R hi - B2R lo) * real n) by (field; lra).
    rewrite <- (Rmult_1_l (real n)) at 2. apply Rmult_le_compat_r; [unfold real; apply (IZR_le 0); lia|]. apply (Rmult_le_reg_r (B2R hi - B2R lo)); [lra|]. unfold Rdiv. rewrite Rmult_assoc, Rinv_l by lra. lra. }
  assert (real n < 1048576) as N1 by (unfold real; apply (IZR_lt _ 1048576); lia). replace (2 ^ 21) with 2097152 in * by (simpl pow; lra).
  assert (real s + real m < real n + 1) as Hlt2 by lra. unfold real in Hlt2. rewrite <- !plus_IZR in Hlt2. apply lt_IZR in Hlt2. lia.
Qed.
End axis.

(** * The checks *)
Theorem C72_is_integer k : is_finite k = true -> is_integer k = true <-> an_integer (B2R k).
Proof.
  intros Hf. unfold is_integer. destruct (Bnearbyint_correct 24 128 _ mode_DN k) as (E & F & _). rewrite round_FIX_IZR in E. change (round_mode mode_DN) with Zfloor in E. rewrite Hf in F.
  rewrite Beqb_correct by assumption. rewrite E. split.
  - intros H. exists (Zfloor (B2R k)). destruct (Req_bool_spec (IZR (Zfloor (B2R k))) (B2R k)) as [H1|H1]; [symmetry; exact H1|discriminate].
  - intros (z & Hz). rewrite Hz, Zfloor_IZR. apply Req_bool_true. reflexivity.
Qed.
Lemma of_size64_value n : (n <= 2 ^ 24)%N -> has_value (of_size64 n) (real n).
Proof.
  intros Hn. unfold of_size64, real. pose proof (binary_normalize_correct 53 1024 _ _ mode_NE (Z.of_N n) 0 false) as HN.
  change (round_mode mode_NE) with ZnearestE in HN. change (SpecFloat.fexp 53 1024) with fexp64 in HN. cbn zeta in HN.
  assert (F2R (Float radix2 (Z.of_N n) 0) = IZR (Z.of_N n)) as EF. { unfold F2R. cbn [Fnum Fexp]. change (bpow radix2 0) with 1. ring. } rewrite EF in HN.
  assert (Z.abs (Z.of_N n) <= 2 ^ 24)%Z as Hz by lia. rewrite (round_generic radix2 fexp64 ZnearestE _ (format32_64 _ (integer_format32 _ Hz))) in HN.
  rewrite Rlt_bool_true in HN. { destruct HN as (H1 & H2 & _). exact (conj H2 H1). }
  rewrite <- abs_IZR. apply Rle_lt_trans with (IZR (2 ^ 24)); [apply IZR_le; exact Hz|]. change (IZR (2 ^ 24)) with (bpow radix2 24). apply bpow_lt. lia.
Qed.
(** If the geometry has exactly [n] cells along an axis the calculation accepts it. *)
Theorem C72_whole_sizes_accepted size res n : is_finite size = true -> is_finite res = true -> (n <= 2 ^ 24)%N -> B2R size * B2R res = real n ->
  size_accepted size res = true /\ size_assert size res n = true.
Proof.
  intros Fs Fr Hn E. destruct (to_double_value size Fs) as [D1 D2]. assert (Z.abs (Z.of_N n) <= 2 ^ 24)%Z as Hz by lia.
  pose proof (Bmult_correct 53 1024 _ _ mode_NE (to_double size) res) as HB. change (round_mode mode_NE) with ZnearestE in HB. change (SpecFloat.fexp 53 1024) with fexp64 in HB.
  rewrite D2, E in HB. unfold real in HB at 1 2. rewrite (round_generic radix2 fexp64 ZnearestE _ (format32_64 _ (integer_format32 _ Hz))) in HB.
  assert (Rabs (IZR (Z.of_N n)) <= bpow radix2 24) as Hb. { rewrite <- abs_IZR. change (bpow radix2 24) with (IZR (2 ^ 24)). apply IZR_le. exact Hz. }
  rewrite Rlt_bool_true in HB by (eapply Rle_lt_trans; [exact Hb|apply bpow_lt; lia]). destruct HB as (EP & FP & _). rewrite D1, Fr in FP. cbn [andb] in FP. split.
  - unfold size_accepted. destruct (to_float_round _ FP) as [T1 T2]. { rewrite EP, (round_generic radix2 fexp32 ZnearestE _ (integer_format32 _ Hz)). eapply Rle_lt_trans; [exact Hb|apply bpow_lt; lia]. }
    apply (C72_is_integer _ T1). rewrite T2, EP, (round_generic radix2 fexp32 ZnearestE _ (integer_format32 _ Hz)). exists (Z.of_N n). reflexivity.
  - unfold size_assert. destruct (of_size64_value n Hn) as [N1 N2]. rewrite Beqb_correct by assumption. rewrite N2, EP. apply Req_bool_true. reflexivity.
Qed.

(** * The stored region *)
Lemma whole_aligned x n k : (n < 2 ^ 20)%N -> whole_cells x n k -> lost_or_exact x k.
Proof.
  intros Hn [H1 H2] j ->. unfold real in *. assert (IZR (Z.of_N n) < 1048576) as N1 by (apply (IZR_lt _ 1048576); lia). replace (2 ^ 21) with 2097152 in * by (simpl pow; lra).
  assert (IZR (Z.of_N k) < IZR j + 1) as A by lra. assert (IZR j - 2 < IZR (Z.of_N k)) as B by lra. rewrite <- plus_IZR in A. rewrite <- minus_IZR in B. apply lt_IZR in A, B. lia.
Qed.
Lemma zsize_value g : geometry_ok g -> has_value (geom_zsize g) (rnd32 (B2R (g_zmax g) - B2R (g_zmin g))).
Proof. intros []. apply difference; assumption. Qed.
Lemma rsize_value g : geometry_ok g -> has_value (geom_rsize g) (rnd32 (B2R (g_rmax g) - B2R zero32)).
Proof. intros [[Hf _] _ _ _ _]. cbn [B2R zero32]. rewrite Rminus_0_r, rnd32_float. split; [exact Hf|reflexivity]. Qed.
(** The first cell and the number of cells, along z and r, are those of the requested region up to the error of [whole_cells], and never more than the
    geometry has. *)
Theorem C72_stored_domain g q res nz nr : geometry_ok g -> region_in q g -> is_finite res = true -> (0 < nz < 2 ^ 20)%N -> (0 < nr < 2 ^ 20)%N ->
  B2R (geom_zsize g) * B2R res = real nz -> B2R (geom_rsize g) * B2R res = real nr ->
  exists sz sr mz mr, storage_domain32 g q res nz nr = Some ((sz, sr), (mz, mr)) /\
    whole_cells (cells (B2R (g_zmin g)) (B2R (g_zmax g)) (B2R (q_zmin q)) nz) nz sz /\ whole_cells (cells 0 (B2R (g_rmax g)) (B2R (q_rmin q)) nr) nr sr /\
    whole_cells (cells_of (B2R (g_zmin g)) (B2R (g_zmax g)) (B2R (q_zmax q) - B2R (q_zmin q)) nz) nz mz /\
    whole_cells (cells_of 0 (B2R (g_rmax g)) (B2R (q_rmax q) - B2R (q_rmin q)) nr) nr mr /\
    (sz + mz <= nz)%N /\ (sr + mr <= nr)%N.
Proof.
  intros Hg Hq Fres Hnz Hnr Ez Er. pose proof (zsize_value g Hg) as Vz. pose proof (rsize_value g Hg) as Vr. destruct Hg as [Gr Gz0 Gz1 Lr Lz]. destruct Hq as [(F1 & F2 & F3 & F4) [R1 R2] [Z1 Z2]].
  pose proof zero_coord as C0. assert (B2R zero32 = 0) as E0 by reflexivity.
  destruct (C72_whole_sizes_accepted _ _ nz (proj1 Vz) Fres ltac:(lia) Ez) as [Az Sz]. destruct (C72_whole_sizes_accepted _ _ nr (proj1 Vr) Fres ltac:(lia) Er) as [Ar Sr].
  destruct (axis_start_ok (g_zmin g) (g_zmax g) (geom_zsize g) Gz0 Gz1 Lz Vz (q_zmin q) nz Hnz F3 ltac:(lra)) as (sz & K1 & W1 & _).
  destruct (axis_start_ok zero32 (g_rmax g) (geom_rsize g) C0 Gr ltac:(lra) Vr (q_rmin q) nr Hnr F1 ltac:(lra)) as (sr & K2 & W2 & _).
  destruct (axis_shape_ok (g_zmin g) (g_zmax g) (geom_zsize g) Gz0 Gz1 Lz Vz (q_zmin q) (q_zmax q) nz Hnz F3 F4 ltac:(lra) ltac:(lra) ltac:(lra)) as (mz & K3 & W3 & _).
  destruct (axis_shape_ok zero32 (g_rmax g) (geom_rsize g) C0 Gr ltac:(lra) Vr (q_rmin q) (q_rmax q) nr Hnr F1 F2 ltac:(lra) ltac:(lra) ltac:(lra)) as (mr & K4 & W4 & _).
  exists sz, sr, mz, mr. split. { unfold storage_domain32, region_zsize, region_rsize. rewrite Ar, Az. cbn [andb]. rewrite K1, K2, K3, K4, Sz, Sr. reflexivity. }
  pose proof (axis_inside (g_zmin g) (g_zmax g) Lz (q_zmin q) (q_zmax q) nz sz mz Hnz ltac:(lra) ltac:(lra) ltac:(lra) W1 W3) as I1.
  pose proof (axis_inside zero32 (g_rmax g) ltac:(lra) (q_rmin q) (q_rmax q) nr sr mr Hnr ltac:(lra) ltac:(lra) ltac:(lra) W2 W4) as I2.
  rewrite E0 in W2, W4. repeat split; assumption || (apply W1) || (apply W2) || (apply W3) || (apply W4).
Qed.
(** A region whose edges are edges of cells: along each axis the first cell is the right one or the one before, and there are as many cells or one less. *)
Theorem C72_aligned_region g q res nz nr sz sr mz mr : geometry_ok g -> region_in q g -> is_finite res = true -> (0 < nz < 2 ^ 20)%N -> (0 < nr < 2 ^ 20)%N ->
  B2R (geom_zsize g) * B2R res = real nz -> B2R (geom_rsize g) * B2R res = real nr -> storage_domain32 g q res nz nr = Some ((sz, sr), (mz, mr)) ->
  lost_or_exact (cells (B2R (g_zmin g)) (B2R (g_zmax g)) (B2R (q_zmin q)) nz) sz /\ lost_or_exact (cells 0 (B2R (g_rmax g)) (B2R (q_rmin q)) nr) sr /\
  lost_or_exact (cells_of (B2R (g_zmin g)) (B2R (g_zmax g)) (B2R (q_zmax q) - B2R (q_zmin q)) nz) mz /\
  lost_or_exact (cells_of 0 (B2R (g_rmax g)) (B2R (q_rmax q) - B2R (q_rmin q)) nr) mr.
Proof.
  intros Hg Hq Fr Hnz Hnr Ez Er E. destruct (C72_stored_domain g q res nz nr Hg Hq Fr Hnz Hnr Ez Er) as (sz' & sr' & mz' & mr' & E' & W1 & W2 & W3 & W4 & _).
  rewrite E in E'. injection E' as <- <- <- <-. repeat split; eapply whole_aligned; try eassumption; lia.
Qed.

(** ** Concrete case: r_max 41, z from 0 to 41, resolution 1; the region from (1, 1) to (41, 41) has 40 cells from cell 1, but the first index is 0. *)
Definition ex_geometry : geometry32 := Geom32 (of_size 41) (of_size 0) (of_size 41).
Definition ex_region : region32 := Region32 (of_size 1) (of_size 41) (of_size 1) (of_size 41).
Lemma ex_coordinate n : (n <= 2 ^ 24)%N -> coordinate32 (of_size n).
Proof.
  intros Hn. destruct (of_size_value n Hn) as [F V]. split; [exact F|]. rewrite V. unfold real. rewrite <- abs_IZR. apply Rle_trans with (IZR (2 ^ 24)); [apply IZR_le; lia|].
  change (IZR (2 ^ 24)) with (bpow radix2 24). rewrite bpow_powerRZ. unfold powerRZ. change (Pos.to_nat 24) with 24%nat. apply Rle_pow; [change (IZR radix2) with 2; lra|lia].
Qed.
Example C72_nonvacuous : geometry_ok ex_geometry /\ region_in ex_region ex_geometry /\ is_finite (of_size64 1) = true /\
  B2R (geom_zsize ex_geometry) * B2R (of_size64 1) = real 41 /\ B2R (geom_rsize ex_geometry) * B2R (of_size64 1) = real 41 /\
  cells (B2R (g_zmin ex_geometry)) (B2R (g_zmax ex_geometry)) (B2R (q_zmin ex_region)) 41 = 1 /\ cells 0 (B2R (g_rmax ex_geometry)) (B2R (q_rmin ex_region)) 41 = 1 /\
  cells_of (B2R (g_zmin ex_geometry)) (B2R (g_zmax ex_geometry)) (B2R (q_zmax ex_region) - B2R (q_zmin ex_region)) 41 = 40.
Proof.
  destruct (of_size_value 41 ltac:(lia)) as [F41 V41]. destruct (of_size_value 1 ltac:(lia)) as [F1 V1]. destruct (of_size_value 0 ltac:(lia)) as [F0 V0]. destruct (of_size64_value 1 ltac:(lia)) as [D1 W1].
  assert (geometry_ok ex_geometry) as Hg. { constructor; try (apply ex_coordinate; lia); cbn [ex_geometry g_rmax g_zmin g_zmax]; rewrite ?V41, ?V0; unfold real; cbn; lra. }
  pose proof (zsize_value _ Hg) as [_ Vz]. pose proof (rsize_value _ Hg) as [_ Vr]. cbn [ex_geometry ex_region g_rmax g_zmin g_zmax q_rmin q_rmax q_zmin q_zmax] in *.
  rewrite V41, V0 in Vz. replace (real 41 - real 0) with (real 41) in Vz by (unfold real; cbn; lra). rewrite <- V41, rnd32_float, V41 in Vz. cbn [geom_rsize ex_geometry g_rmax] in *.
  split; [exact Hg|]. split. { constructor; cbn [ex_geometry ex_region g_rmax g_zmin g_zmax q_rmin q_rmax q_zmin q_zmax]; rewrite ?V41, ?V0, ?V1; [repeat split; reflexivity| |]; unfold real; cbn; lra. }
  split; [exact D1|]. rewrite Vz, W1, V41, V1, V0. unfold cells, cells_of, real. cbn. repeat split; field.
Qed.
Theorem C72_cell_lost_refuted : exists g q res nz nr sz sr m, geometry_ok g /\ region_in q g /\ is_finite res = true /\ B2R (geom_zsize g) * B2R res = real nz /\ B2R (geom_rsize g) * B2R res = real nr /\
  cells (B2R (g_zmin g)) (B2R (g_zmax g)) (B2R (q_zmin q)) nz = 1 /\ cells 0 (B2R (g_rmax g)) (B2R (q_rmin q)) nr = 1 /\
  storage_domain32 g q res nz nr = Some ((sz, sr), m) /\ sz = 0%N /\ sr = 0%N.
Proof.
  destruct C72_nonvacuous as (H1 & H2 & H3 & H4 & H5 & H6 & H7 & _). exists ex_geometry, ex_region, (of_size64 1), 41%N, 41%N, 0%N, 0%N, (40%N, 40%N).
  repeat (split; [assumption|]). split; [vm_compute; reflexivity|]. split; reflexivity.
Qed.
(** The check converts the product to a float: a size of 0.1f at resolution 10 passes although it is not a whole number of cells, and then no number of
    cells satisfies the assertion. *)
Definition tenth : f32 := binary_normalize 24 128 _ _ mode_NE 13421773 (-27) false.
Lemma tenth_value : has_value tenth (13421773 * / 134217728).
Proof. split; [reflexivity|]. rewrite <- (SF2R_B2SF 24 128). replace (B2SF tenth) with (SpecFloat.S754_finite false 13421773 (-27)) by (vm_compute; reflexivity). unfold SF2R, F2R. cbn [Fnum Fexp cond_Zopp]. change (bpow radix2 (-27)) with (/ IZR (2 ^ 27)). change (2 ^ 27)%Z with 134217728%Z. lra. Qed.
Theorem C72_check_refuted : exists size res, is_finite size = true /\ is_finite res = true /\ size_accepted size res = true /\ ~ an_integer (B2R size * B2R res) /\
  forall n, (n <= 2 ^ 24)%N -> size_assert size res n = false.
Proof.
  exists tenth, ex_res. destruct tenth_value as [F V]. destruct ex_res_value as [F2 V2]. split; [exact F|]. split; [exact F2|]. split; [vm_compute; reflexivity|].
  assert (forall k : Z, 13421773 * / 134217728 * 10 <> IZR k) as Hno.
  { intros k E. assert (134217730 = IZR k * 134217728) as E2 by (rewrite <- E; field). rewrite <- mult_IZR in E2. apply eq_IZR in E2. lia. }
  split. { rewrite V, V2. intros (k & E). exact (Hno k E). }
  intros n Hn. destruct (of_size64_value n Hn) as [N1 N2]. unfold size_assert. set (p := Bmult mode_NE (to_double tenth) ex_res).
  assert (B2R p = 13421773 * / 134217728 * 10) as Ep. { rewrite <- (SF2R_B2SF 53 1024). replace (B2SF p) with (SpecFloat.S754_finite false 4503599694479360 (-52)) by (vm_compute; reflexivity). unfold SF2R, F2R. cbn [Fnum Fexp cond_Zopp]. change (bpow radix2 (-52)) with (/ IZR (2 ^ 52)). change (2 ^ 52)%Z with 4503599627370496%Z. lra. }
  rewrite Beqb_correct; [|exact N1|reflexivity]. rewrite N2, Ep. apply Req_bool_false. intros E. symmetry in E. exact (Hno _ E).
Qed.

Print Assumptions C72_is_integer.
Print Assumptions C72_whole_sizes_accepted.
Print Assumptions C72_stored_domain.
Print Assumptions C72_aligned_region.
Print Assumptions C72_cell_lost_refuted.
Print Assumptions C72_check_refuted.
