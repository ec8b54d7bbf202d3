(** C76: the values that the signal calculation takes from a chunk. *)
From stdpp Require Import base list list_numbers numbers option.
From Coq Require Import Reals ZArith Bool Lra Lia.
From Flocq Require Import Core IEEE754.BinarySingleNaN.
From Verif Require Import NDArrayModel NDArrayProps BBoxModel ChunkMetaModel ChunkMetaProps InterpModel SignalModel AntennaModel AntennaSpec AntennaProps DiscreteModel DiscreteSpec DiscreteProps.
From Verif Require Import Interp32Model Interp32Spec Interp32Weights Interp32Proofs Interp32Props Interp32Nodes Signal32Model Signal32Spec Signal32Props Signal32Whole Signal32Error Signal32Any Chunk32Spec.
Local Open Scope R_scope.
Local Notation fexp32 := (FLT_exp (-149) 24).
Local Notation rnd32 := (round radix2 fexp32 ZnearestE).
Local Instance valid32c : Valid_exp fexp32. Proof. apply FLT_exp_valid. reflexivity. Qed.
Local Notation u := (/ 16777216).

(** * Positions *)
Lemma floor_position (y : f32) : is_finite y = true -> 0 <= B2R y < 16777216 -> position y (Z.to_nat (Zfloor (B2R y))) (fraction (B2R y)).
Proof.
  intros F H. pose proof (Zfloor_lb (B2R y)) as L. pose proof (Zfloor_ub (B2R y)) as U. assert (0 <= Zfloor (B2R y))%Z as H0 by (apply Zfloor_lub; lra).
  assert (INR (Z.to_nat (Zfloor (B2R y))) = IZR (Zfloor (B2R y))) as E by (rewrite INR_IZR_INZ, Z2Nat.id by lia; reflexivity). assert (2 ^ 24 = 16777216) as E24 by (simpl pow; lra).
  unfold position, fraction. rewrite E, E24. split; [exact F|]. lra.
Qed.
Lemma floor_cell (x : R) (i : Z) : IZR i <= x < IZR i + 1 -> Zfloor x = i. Proof. intros H. apply Zfloor_imp. rewrite plus_IZR. exact H. Qed.

(** The position relative to the chunk's array: the index is converted exactly, the sum is rounded. *)
Lemma local_position (x : f32) (i s n ov : nat) : is_finite x = true -> INR i <= B2R x < INR i + 1 -> (s <= i <= s + n)%nat -> moderate s n ov ->
  let y := Bplus mode_NE (of_size (wsub (N.of_nat i) (wsub (N.of_nat s) (N.of_nat ov)))) (Bminus mode_NE x (of_size (N.of_nat i))) in
  to_size32 x = Some (N.of_nat i) /\ is_finite y = true /\ B2R y = rnd32 (B2R x - INR s + INR ov) /\ INR ov <= B2R y <= INR (i - s) + 1 + INR ov /\ Rabs (B2R y - (B2R x - INR s + INR ov)) <= INR (n + 2 * ov + 1) * u.
Proof.
  intros Fx Hi His [Hm1 Hm2] y. assert (2 ^ 24 = 16777216) as E24 by (simpl pow; lra). assert (2 ^ 22 = 4194304) as E22 by (simpl pow; lra). assert (2 ^ 20 = 1048576) as E20 by (simpl pow; lra). rewrite E22 in Hm1. rewrite E20 in Hm2.
  assert (INR i <= INR (s + n)) as Hin by (apply le_INR; lia). pose proof (pos_INR i) as Pi. pose proof (pos_INR ov) as Po. pose proof (pos_INR n) as Pn.
  assert (position x i (B2R x - INR i)) as Hp. { unfold position. rewrite E24. split; [exact Fx|]. lra. }
  assert (to_size32 x = Some (N.of_nat i)) as Hts.
  { destruct (trunc_value x Fx) as (k & Hk & K1 & K2). { split; [lra|]. apply Rlt_le_trans with 16777216; [lra|]. simpl pow. lra. } rewrite Hk. f_equal. unfold real in *. rewrite INR_IZR_INZ in Hi.
    assert (IZR (Z.of_N k) < IZR (Z.of_nat i) + 1) as A1 by lra. assert (IZR (Z.of_nat i) < IZR (Z.of_N k) + 1) as A2 by lra. rewrite <- plus_IZR in A1, A2. apply lt_IZR in A1, A2. lia. }
  split; [exact Hts|]. pose proof bpow127_big as B127. assert (100000000 <= 2 ^ 110) as P110. { apply Rle_trans with (2 ^ 30); [simpl pow; lra|apply Rle_pow; [lra|lia]]. }
  destruct (count_value i) as [Fi Vi]; [lra|].
  assert (has_value (Bminus mode_NE x (of_size (N.of_nat i))) (B2R x - INR i)) as [Ff Vf].
  { destruct (minus_value x (of_size (N.of_nat i)) Fx Fi) as [F V]; [rewrite Vi, Rabs_pos_eq by lra; lra|]. split; [exact F|]. rewrite V, Vi. apply round_generic; [typeclasses eauto|]. exact (fraction_format _ _ _ Hp). }
  assert (wsub (N.of_nat i) (wsub (N.of_nat s) (N.of_nat ov)) = N.of_nat (i - s + ov)) as Ew.
  { assert (forall k : nat, INR k < 4194304 -> (N.of_nat k < 4194304)%N) as Hnat. { intros k Hk. rewrite INR_IZR_INZ in Hk. apply lt_IZR in Hk. lia. }
    pose proof (Hnat (s + n)%nat ltac:(lra)) as B1. assert (N.of_nat (n + 2 * ov) < 4194304)%N as B2 by (apply Hnat; lra). rewrite local_axis by (unfold W; lia). lia. }
  unfold y. rewrite Ew. assert (INR (i - s + ov) = INR i - INR s + INR ov) as Ei by (rewrite plus_INR, minus_INR by lia; ring).
  assert (INR (i - s + ov) <= INR (n + 2 * ov)) as Hle by (apply le_INR; lia). destruct (count_value (i - s + ov)) as [Fs Vs]; [lra|].
  set (z := B2R x - INR s + INR ov). assert (INR (i - s + ov) + (B2R x - INR i) = z) as Ez by (rewrite Ei; unfold z; ring).
  assert (0 <= INR (i - s)) as Pis by apply pos_INR. assert (INR (i - s) = INR i - INR s) as Eis by (apply minus_INR; lia).
  assert (INR ov <= z < INR (i - s) + 1 + INR ov) as Hz by (unfold z; lra). assert (INR (n + 2 * ov + 1) = INR (n + 2 * ov) + 1) as En by (rewrite plus_INR; reflexivity).
  destruct (plus_value (of_size (N.of_nat (i - s + ov))) (Bminus mode_NE x (of_size (N.of_nat i))) Fs Ff) as [Fy Vy]; [rewrite Vs, Vf, Ez, Rabs_pos_eq by lra; lra|]. rewrite Vs, Vf, Ez in Vy.
  pose proof (sum_err (of_size (N.of_nat (i - s + ov))) (Bminus mode_NE x (of_size (N.of_nat i)))) as Herr. rewrite Vs, Vf, Ez in Herr. rewrite (Rabs_pos_eq z) in Herr by lra.
  split; [exact Fy|]. split; [exact Vy|]. rewrite Vy. split.
  - split.
    + apply round_ge_generic; [typeclasses eauto|typeclasses eauto| |lra]. rewrite INR_IZR_INZ. apply integer_format32. assert (INR ov < 16777216) as Ho. { assert (INR ov <= INR (n + 2 * ov)) by (apply le_INR; lia). lra. } rewrite INR_IZR_INZ in Ho. apply lt_IZR in Ho. lia.
    + apply round_le_generic; [typeclasses eauto|typeclasses eauto| |lra]. assert (INR (i - s) + 1 + INR ov = INR (i - s + ov + 1)) as Ex by (rewrite !plus_INR; simpl (INR 1); ring). rewrite Ex, INR_IZR_INZ. apply integer_format32.
      assert (INR (i - s + ov + 1) < 16777216) as Ho by (rewrite <- Ex; lra). rewrite INR_IZR_INZ in Ho. apply lt_IZR in Ho. lia.
  - eapply Rle_trans; [exact Herr|]. apply Rmult_le_compat_r; lra.
Qed.

(** * The interpolation *)
(** The two kernels: their support, exact weights and the error of the interpolation of numbers of size at most M (C74). *)
Inductive kernel_of : kernel32 -> nat -> (R -> nat -> R) -> (R -> R) -> Prop :=
| kernel_keys : kernel_of keys32 2 keys_weight (fun M => M / 2 ^ 16 + / 2 ^ 140)
| kernel_linear : kernel_of linear32 1 linear_weight (fun M => M / 2 ^ 20 + / 2 ^ 140).
Definition within (y : f32) (v e : R) : Prop := is_finite y = true /\ Rabs (B2R y - v) <= e.

Lemma kernel_interpolation K sup weight tol arr n1 n2 n3 x1 x2 o1 f1 o2 f2 start delta n (o3 : nat -> nat) (f3 : nat -> R) M : kernel_of K sup weight tol ->
  api_array 2 arr -> a_shape arr = [n1; n2; n3] -> position x1 o1 f1 -> position x2 o2 f2 -> room sup n1 o1 -> room sup n2 o2 ->
  (forall s, (s < n)%nat -> position (inner_ind32 start delta s) (o3 s) (f3 s) /\ room sup n3 (o3 s)) ->
  0 <= M <= 2 ^ 100 -> (forall i j k c, (i < n1)%nat -> (j < n2)%nat -> (k < n3)%nat -> (c < 2)%nat -> bounded_by M (component 2 arr [i; j; k] c)) ->
  k32_support K = sup /\ exists out, interpolate32 K 2 arr (replicate n (replicate 2 zero32)) x1 x2 start delta n = Some out /\ length out = n /\
    forall s, (s < n)%nat -> exists row, out !! s = Some row /\ length row = 2%nat /\ forall c, (c < 2)%nat -> exists y, row !! c = Some y /\
      within y (exact_value (2 * sup) weight f1 f2 (f3 s) (fun i j k => B2R (component 2 arr [o1 - (sup - 1) + i; o2 - (sup - 1) + j; o3 s - (sup - 1) + k]%nat c))) (tol M).
Proof.
  intros HK Ha Hsh H1 H2 R1 R2 Hs HM Hb. destruct HK; (split; [reflexivity|]).
  - destruct (C74_keys_interpolation 2 arr n1 n2 n3 x1 x2 o1 f1 o2 f2 start delta n o3 f3 M Ha Hsh H1 H2 R1 R2 Hs HM Hb) as (out & A & B & C). exists out. split; [exact A|]. split; [exact B|]. exact C.
  - destruct (any_interpolation _ _ _ _ _ good_linear32 2 arr n1 n2 n3 x1 x2 o1 f1 o2 f2 start delta n o3 f3 M Ha Hsh H1 H2 R1 R2 Hs HM Hb) as (out & A & B & C).
    exists out. split; [exact A|]. split; [exact B|]. intros s Hsn. destruct (C s Hsn) as (row & D & E & F). exists row. split; [exact D|]. split; [exact E|]. intros c Hc. destruct (F c Hc) as (y & G & Hf & Hv). exists y. split; [exact G|]. split; [exact Hf|].
    eapply Rle_trans; [exact Hv|]. apply linear_whole. lra.
Qed.
Lemma total_ext n f g : (forall i, (i < n)%nat -> f i = g i) -> total n f = total n g.
Proof. induction n as [|n IH]; intros H; [reflexivity|]. cbn [total]. rewrite IH by (intros; apply H; lia). by rewrite H by lia. Qed.
Lemma exact_value_ext n w f1 f2 f3 v v' : (forall i j k, (i < n)%nat -> (j < n)%nat -> (k < n)%nat -> v i j k = v' i j k) -> exact_value n w f1 f2 f3 v = exact_value n w f1 f2 f3 v'.
Proof. intros H. unfold exact_value. apply total_ext. intros i Hi. apply total_ext. intros j Hj. apply total_ext. intros k Hk. by rewrite H. Qed.
Lemma floor_shift (y : R) (a b : nat) : Zfloor (y - INR a + INR b) = (Zfloor y - Z.of_nat a + Z.of_nat b)%Z.
Proof. pose proof (Zfloor_lb y). pose proof (Zfloor_ub y). apply floor_cell. rewrite plus_IZR, minus_IZR, <- !INR_IZR_INZ. lra. Qed.

(** The samples that are read from a chunk: each is a number within the error of the interpolation of the exact interpolation of the Green's function at a position that differs from the wanted one
    by the rounding of a position in the chunk's array. *)
Theorem C76_chunk_values K sup weight tol G m (g : grid) s1 s2 s3 n1 n2 n3 ov data M (fr fz ft ts : f32) ir iz it n :
  kernel_of K sup weight tol -> chunk_at m [s1; s2; s3] [n1; n2; n3] ov -> h_data G m = Some data -> holds g s1 s2 s3 n1 n2 n3 ov data -> (sup < ov)%nat ->
  moderate s1 n1 ov -> moderate s2 n2 ov -> moderate s3 n3 ov -> grid_bounded M g -> 0 <= M <= 2 ^ 100 ->
  is_finite fr = true -> is_finite fz = true -> is_finite ft = true -> is_finite ts = true ->
  INR ir <= B2R fr < INR ir + 1 -> INR iz <= B2R fz < INR iz + 1 -> INR it <= B2R ft < INR it + 1 ->
  (s1 <= ir < s1 + n1)%nat -> (s2 <= iz < s2 + n2)%nat -> (s3 <= it <= s3 + n3)%nat -> 0 < B2R ts -> INR n <= 2 ^ 24 ->
  (forall s, (s < n)%nat -> sample_time (B2R ft) (B2R ts) s <= INR (s3 + n3) + / 2) ->
  exists x1 x2 (x3 : nat -> R) out, chunk_samples32 G K m fr fz ft ts n = Some out /\ length out = n /\
    Rabs (x1 - B2R fr) <= INR (n1 + 2 * ov + 1) / 2 ^ 24 /\ Rabs (x2 - B2R fz) <= INR (n2 + 2 * ov + 1) / 2 ^ 24 /\
    forall s, (s < n)%nat -> Rabs (x3 s - sample_time (B2R ft) (B2R ts) s) <= 8 * INR (n3 + 2 * ov + 1) / 2 ^ 24 /\
      exists y0 y1, out !! s = Some [y0; y1] /\ within y0 (interpolated sup weight g x1 x2 (x3 s) 0) (tol M) /\ within y1 (interpolated sup weight g x1 x2 (x3 s) 1) (tol M).
Proof.
  intros HK (_ & _ & _ & _ & Hoff) Hdata (Hapi & Hsh & Hval) Hov M1 M2 M3 Hg HM Fr Fz Ft Fs Cr Cz Ct Ir Iz It Hts Hn Hs.
  destruct (local_position fr ir s1 n1 ov Fr Cr ltac:(lia) M1) as (T1 & F1 & _ & B1 & E1). destruct (local_position fz iz s2 n2 ov Fz Cz ltac:(lia) M2) as (T2 & F2 & _ & B2 & E2). destruct (local_position ft it s3 n3 ov Ft Ct ltac:(lia) M3) as (T3 & F3 & _ & B3 & E3).
  set (y1 := Bplus _ _ _) in F1, B1, E1. set (y2 := Bplus _ _ _) in F2, B2, E2. set (y3 := Bplus _ _ _) in F3, B3, E3.
  assert (local_coord32 m [fr; fz; ft] = Some [y1; y2; y3]) as Hloc. { unfold local_coord32. rewrite Hoff. rewrite !list.fmap_cons, fmap_nil. cbn [zip_with mapM fst snd]. rewrite T1, T2, T3. cbn [mbind option_bind]. reflexivity. }
  unfold chunk_samples32. rewrite Hdata. cbn [mbind option_bind]. rewrite Hloc. cbn [mbind option_bind].
  assert (2 ^ 24 = 16777216) as E24 by (simpl pow; lra). assert (2 ^ 22 = 4194304) as E22 by (simpl pow; lra). assert (2 ^ 20 = 1048576) as E20 by (simpl pow; lra). rewrite E24 in Hn.
  destruct M1 as [M1 M1']. destruct M2 as [M2 M2']. destruct M3 as [M3 M3']. rewrite E22 in M1, M2, M3. rewrite E20 in M1', M2', M3'.
  (* the outer positions *)
  assert (forall (n s i : nat) (y : f32), is_finite y = true -> INR (n + 2 * ov) < 1048576 -> (s <= i < s + n)%nat -> INR ov <= B2R y <= INR (i - s) + 1 + INR ov ->
    position y (Z.to_nat (Zfloor (B2R y))) (fraction (B2R y)) /\ room sup (n + 2 * ov) (Z.to_nat (Zfloor (B2R y))) /\ (0 <= Zfloor (B2R y))%Z) as Houter.
  { intros n' s i y Fy Hm' Hi Hy. assert (INR (i - s) + 1 + INR ov = INR (i - s + 1 + ov)) as Ey by (rewrite !plus_INR; reflexivity). rewrite Ey in Hy. assert (INR (i - s + 1 + ov) <= INR (n' + 2 * ov)) as Hle by (apply le_INR; lia). pose proof (pos_INR ov).
    assert (0 <= Zfloor (B2R y))%Z as H0 by (apply Zfloor_lub; lra). split; [apply floor_position; [exact Fy|lra]|]. split; [|exact H0].
    assert (Z.of_nat ov <= Zfloor (B2R y))%Z as L by (apply Zfloor_lub; rewrite <- INR_IZR_INZ; lra). assert (Zfloor (B2R y) <= Z.of_nat (i - s + 1 + ov))%Z as U. { apply le_IZR. rewrite <- INR_IZR_INZ. pose proof (Zfloor_lb (B2R y)). lra. } unfold room. lia. }
  destruct (Houter n1 s1 ir y1 F1 M1' Ir B1) as (P1 & R1 & Z1). destruct (Houter n2 s2 iz y2 F2 M2' Iz B2) as (P2 & R2 & Z2).
  (* the positions of the samples *)
  assert (INR (n3 + 2 * ov + 1) = INR (n3 + 2 * ov) + 1) as En3 by (rewrite plus_INR; reflexivity). pose proof (pos_INR (n3 + 2 * ov)) as Pn3. set (N3 := INR (n3 + 2 * ov)) in *.
  assert (INR it <= INR (s3 + n3)) as Hitn by (apply le_INR; lia). assert (INR s3 <= INR it) as His by (apply le_INR; lia). assert (INR (s3 + n3) = INR s3 + INR n3) as Esn by apply plus_INR. assert (N3 = INR n3 + 2 * INR ov) as EN3. { unfold N3. rewrite plus_INR, mult_INR. simpl (INR 2). ring. }
  assert (1 <= INR ov) as Hov1 by (apply (le_INR 1); lia). assert (INR (it - s3) = INR it - INR s3) as Eits by (apply minus_INR; lia). assert (0 < / 2 ^ 140) as P140 by (apply Rinv_0_lt_compat, pow_lt; lra).
  assert (/ 2 ^ 140 <= / 16777216) as Q140. { rewrite <- E24. apply Rinv_le_contravar; [apply pow_lt; lra|apply Rle_pow; [lra|lia]]. }
  assert (10000000 <= 2 ^ 100) as P100. { apply Rle_trans with (2 ^ 30); [simpl pow; lra|apply Rle_pow; [lra|lia]]. } apply Rabs_le_inv in E3. rewrite En3 in E3.
  set (t := fun s => B2R (inner_ind32 y3 ts s)).
  assert (forall s, (s < n)%nat -> is_finite (inner_ind32 y3 ts s) = true /\ Rabs (t s - INR ov + INR s3 - sample_time (B2R ft) (B2R ts) s) <= 6 * (N3 + 1) * u /\ INR ov - / 2 <= t s < INR n3 + INR ov + 1) as Hpos.
  { intros s Hsn. specialize (Hs s Hsn). unfold sample_time in *. assert (0 <= INR s * B2R ts) as H0 by (apply Rmult_le_pos; [apply pos_INR|lra]). assert (INR s <= 16777216) as Hsm. { apply Rle_trans with (INR n); [apply le_INR; lia|exact Hn]. }
    destruct (C74_positions y3 ts s F3 Fs) as [F V]; [rewrite E24; exact Hsm|rewrite Rabs_pos_eq by lra; lra|rewrite Rabs_pos_eq by lra; lra|]. rewrite E24, (Rabs_pos_eq (B2R y3)), (Rabs_pos_eq (INR s * B2R ts)) in V by lra. fold (t s) in V. apply Rabs_le_inv in V.
    set (d := INR s * B2R ts) in *. set (i140 := / 2 ^ 140) in *. clearbody d i140. split; [exact F|]. split; [apply Rabs_le; lra|lra]. }
  destruct (kernel_interpolation K sup weight tol data (n1 + 2 * ov) (n2 + 2 * ov) (n3 + 2 * ov) y1 y2 _ _ _ _ y3 ts n (fun s => Z.to_nat (Zfloor (t s))) (fun s => fraction (t s)) M HK Hapi Hsh P1 P2 R1 R2) as (_ & out & Hout & Hlen & Hrows).
  - intros s Hsn. destruct (Hpos s Hsn) as (F & _ & L & U). assert (0 <= t s) by lra. split; [apply floor_position; [exact F|unfold t in *; lra]|].
    assert (Z.of_nat ov - 1 <= Zfloor (t s))%Z as A. { apply Zfloor_lub. rewrite minus_IZR, <- INR_IZR_INZ. lra. } assert (Zfloor (t s) < Z.of_nat (n3 + ov + 1))%Z as C. { apply lt_IZR. rewrite <- INR_IZR_INZ, !plus_INR. simpl (INR 1). pose proof (Zfloor_lb (t s)). lra. } unfold room. lia.
  - exact HM.
  - intros i j k c Hi Hj Hk Hc. rewrite Hval by assumption. apply Hg.
  - exists (B2R y1 - INR ov + INR s1), (B2R y2 - INR ov + INR s2), (fun s => t s - INR ov + INR s3), out. rewrite E24. split; [exact Hout|]. split; [exact Hlen|].
    split; [replace (B2R y1 - INR ov + INR s1 - B2R fr) with (B2R y1 - (B2R fr - INR s1 + INR ov)) by ring; exact E1|]. split; [replace (B2R y2 - INR ov + INR s2 - B2R fz) with (B2R y2 - (B2R fz - INR s2 + INR ov)) by ring; exact E2|].
    intros s Hsn. destruct (Hpos s Hsn) as (F & Hd & L & U). split; [rewrite En3; lra|].
    destruct (Hrows s Hsn) as (row & Hrow & Hl & Hc). destruct (Hc 0%nat ltac:(lia)) as (a & Ha & Va). destruct (Hc 1%nat ltac:(lia)) as (b & Hb & Vb). exists a, b.
    assert (row = [a; b]) as ->. { destruct row as [|a' [|b' [|]]]; try discriminate. simpl in Ha, Hb. congruence. }
    assert (forall c, (c < 2)%nat -> exact_value (2 * sup) weight (fraction (B2R y1)) (fraction (B2R y2)) (fraction (t s)) (fun i j k => B2R (component 2 data [Z.to_nat (Zfloor (B2R y1)) - (sup - 1) + i; Z.to_nat (Zfloor (B2R y2)) - (sup - 1) + j; Z.to_nat (Zfloor (t s)) - (sup - 1) + k]%nat c))
      = interpolated sup weight g (B2R y1 - INR ov + INR s1) (B2R y2 - INR ov + INR s2) (t s - INR ov + INR s3) c) as Hex.
    { intros c Hc2. unfold interpolated. assert (forall (y : R) (a b : nat), fraction (y - INR a + INR b) = fraction y) as Hfr. { intros y a' b'. unfold fraction. rewrite floor_shift, plus_IZR, minus_IZR, <- !INR_IZR_INZ. ring. } rewrite !Hfr.
      assert (Z.of_nat ov - 1 <= Zfloor (t s))%Z as A3. { apply Zfloor_lub. rewrite minus_IZR, <- INR_IZR_INZ. lra. } assert (Zfloor (t s) < Z.of_nat (n3 + ov + 1))%Z as C3. { apply lt_IZR. rewrite <- INR_IZR_INZ, !plus_INR. simpl (INR 1). pose proof (Zfloor_lb (t s)). lra. }
      destruct R1 as [R1 R1']. destruct R2 as [R2 R2']. apply exact_value_ext. intros i j k Hi Hj Hk. f_equal. rewrite Hval by lia. unfold node. rewrite !floor_shift. f_equal; lia. }
    split; [exact Hrow|]. rewrite <- !Hex by lia. split; assumption.
Qed.
Print Assumptions C76_chunk_values.
