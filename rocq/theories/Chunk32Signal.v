(** C76: the whole signal of a track, for any times. *)
From stdpp Require Import base list list_numbers numbers option.
From Coq Require Import Reals ZArith Bool Lra Lia.
From Flocq Require Import Core IEEE754.BinarySingleNaN.
From Verif Require Import NDArrayModel NDArrayProps BBoxModel ChunkMetaModel ChunkMetaProps InterpModel SignalModel AntennaModel AntennaSpec AntennaProps DiscreteModel DiscreteSpec DiscreteProps.
From Verif Require Import Interp32Model Interp32Spec Interp32Weights Interp32Proofs Interp32Props Interp32Nodes Signal32Model Signal32Spec Signal32Props Signal32Whole Signal32Error Signal32Any Chunk32Spec Chunk32Props Chunk32Loop Chunk32Contrib Chunk32Whole.
Local Open Scope R_scope.
Local Notation fexp32 := (FLT_exp (-149) 24).
Local Notation rnd32 := (round radix2 fexp32 ZnearestE).
Local Notation u := (/ 16777216).

Lemma point_between t0 t1 n p : t0 < t1 -> (0 < n)%nat -> (p <= n)%nat -> t0 <= point_time t0 ((t1 - t0) / INR n) p <= t1.
Proof.
  intros Ht Hn Hp. unfold point_time. assert (0 < INR n) as Hn' by (by apply lt_0_INR). assert (INR p <= INR n) as Hp' by (by apply le_INR). pose proof (pos_INR p) as P0.
  assert (0 <= (t1 - t0) / INR n) as Hs. { unfold Rdiv. apply Rmult_le_pos; [lra|]. left. by apply Rinv_0_lt_compat. }
  assert (INR n * ((t1 - t0) / INR n) = t1 - t0) as En by (field; lra). pose proof (Rmult_le_compat_r _ _ _ Hs Hp') as H1. pose proof (Rmult_le_pos _ _ P0 Hs) as H2. lra.
Qed.

(** If the calculation of the signal of a track returns, then each sample has got exactly one contribution of every point that is not later than the sample (up to the error of the times), in the order of the
    points: the product with a value of the Green's function that is correct up to the errors of the positions and of the interpolation; the other elements of the signal are unchanged. *)
Theorem C76_signal {A} (plus : A -> f32 -> A) ib sb G K sup weight tol g M P len seg (ts dt : f32) num n w signal s' :
  (1 <= ib)%nat -> (1 <= sb)%nat -> kernel_of K sup weight tol -> library32 G sup g len -> 0 <= M <= 2 ^ 100 -> grid_bounded M g ->
  any_times (s32_t0 seg) (s32_t1 seg) ts dt n num -> num_intervals32 (s32_t0 seg) (s32_t1 seg) = Some (N.of_nat n) ->
  let '(r0, z0, t0) := h_start G in let '(dr, dz, dtG) := h_interval G in
  let step := itgr_step32 (s32_t0 seg) (s32_t1 seg) (N.of_nat n) in
  let pt := point_time (B2R (s32_t0 seg)) ((B2R (s32_t1 seg) - B2R (s32_t0 seg)) / INR n) in
  let st := sample_time (B2R ts) (B2R dt) in
  let E := any_error (B2R (s32_t0 seg)) (B2R (s32_t1 seg)) (B2R ts) (B2R dt) num in
  let T := (Rabs (B2R (s32_t0 seg)) + Rabs (B2R (s32_t1 seg)) + Rabs (B2R ts) + (INR num + 1) * B2R dt + E - B2R t0) / B2R dtG in
  let place p := coord_cyl32 (position32 seg step p) in
  Forall (fun x : f32 => is_finite x = true /\ Rabs (B2R x) <= 2 ^ 90) [r0; z0; t0; dr; dz; dtG] -> 0 < B2R dr -> 0 < B2R dz -> 0 < B2R dtG -> B2R t0 <= 0 -> / 2 ^ 100 <= B2R dt / B2R dtG -> T <= 2 ^ 20 -> P <= 2 ^ 21 ->
  (forall p, (p <= n)%nat -> Forall (fun x : f32 => is_finite x = true /\ Rabs (B2R x) <= 2 ^ 90) [(place p).1; (place p).2] /\ 0 <= axis_index (place p).1 r0 dr <= P /\ 0 <= axis_index (place p).2 z0 dz <= P) ->
  apply_accumulate32 plus ib sb G K false seg ts dt num w signal = Some s' ->
  exists (c : nat -> nat) (xs : nat -> list f32),
    (forall p, (p <= n)%nat -> pt p - E <= st (c p) /\ ((0 < c p)%nat -> st (c p) < pt p + B2R dt + E)) /\
    s' = changed (fun j y => foldl plus y (xs j)) signal /\ (forall j, (num <= j)%nat -> xs j = []) /\
    forall j, (j < num)%nat -> Forall2 (fun p x =>
      contribution sup weight g (tol M) (space_error len P) (time_error len T + E / B2R dtG) (axis_index (place p).1 r0 dr) (axis_index (place p).2 z0 dz) ((st j - pt p - B2R t0) / B2R dtG)
        (field_cyl32 (source32 seg) (position32 seg step p)) (point_weight32 (trapezoid32 n p) step w) x)
      (filter (fun p => (c p <= j)%nat) (seq 0 (n + 1))) (xs j).
Proof.
  intros Hib Hsb HK HL HM Hg Ht Hint.
  pose proof (fun rz t_start m source pos w' sg sg' T => C76_contributions plus G K sup weight tol g M P T len rz t_start dt m source pos w' sg sg' HK HL HM Hg) as HC. cbv beta in HC.
  destruct (h_start G) as [[r0 z0] t0] eqn:Es. destruct (h_interval G) as [[dr dz] dtG] eqn:Ei. intros step pt st E T place HF Hdr Hdz Hdt Ht0 Hq HT HP Hplace H.
  set (c := fun p : nat => Z.to_nat (Zceil (rnd32 (rnd32 (B2R (itgr_time32 (s32_t0 seg) step p) - B2R ts) / B2R dt)))).
  unfold apply_accumulate32 in H.
  apply (loops_contributions plus (fun p j x => contribution sup weight g (tol M) (space_error len P) (time_error len T + E / B2R dtG) (axis_index (place p).1 r0 dr) (axis_index (place p).2 z0 dz) ((st j - pt p - B2R t0) / B2R dtG)
        (field_cyl32 (source32 seg) (position32 seg step p)) (point_weight32 (trapezoid32 n p) step w) x) _ ib sb seg ts dt num n w c) in H; try done.
  - destruct H as (xs & Hs & Hx & HxC). exists c, xs. split; [|split; [exact Hs|split; [exact Hx|exact HxC]]].
    intros p Hp. pose proof (causal_value _ _ _ _ _ _ Ht p Hp) as Hc. exact (causal_error _ _ _ _ _ _ Ht p _ Hp Hc).
  - apply Ht.
  - intros p Hp. exact (causal_value _ _ _ _ _ _ Ht p Hp).
  - intros p q Hpq Hq'. exact (causal_mono _ _ _ _ _ _ Ht p q Hpq Hq').
  - clear H s' signal. intros p first m sg s' Hp Hcf Hm Hfm Hpos H. fold step in Hpos, H. fold (place p) in H.
    destruct (conv_value _ _ _ _ _ _ Ht p first Hp ltac:(lia)) as (Fc & _ & Ec). fold step in Fc, Ec. fold st pt E in Ec. set (conv := conv_start32 (itgr_time32 (s32_t0 seg) step p) ts dt first) in *.
    rewrite Bleb_correct in Hpos by (reflexivity || exact Fc). change (B2R zero32) with 0 in Hpos. destruct (Rle_bool_spec 0 (B2R conv)) as [Hpos'|]; [|done].
    destruct (Hplace p Hp) as (HFp & HPr & HPz). cbv zeta in HC.
    destruct Ht as [(F0 & F1 & Fs & Fd) HR HTr [HD HD'] HQ HN [Hn HI]]. assert (0 < / 2 ^ 90) as P90 by (apply Rinv_0_lt_compat, pow_lt; lra).
    pose proof (point_between _ _ n p HTr Hn Hp) as Hpt. fold (pt p) in Hpt. assert (2 ^ 24 = 16777216) as E24 by (simpl pow; lra). assert (2 ^ 30 = 1073741824) as E30 by (simpl pow; lra). assert (2 ^ 60 = 1152921504606846976) as E60 by (simpl pow; lra).
    assert (0 <= INR m * B2R dt) as Pm by (apply Rmult_le_pos; [apply pos_INR|lra]). assert (st first + INR m * B2R dt <= B2R ts + INR num * B2R dt) as Hst.
    { unfold st, sample_time. assert (INR (first + m) <= INR num) as Hi by (by apply le_INR). rewrite plus_INR in Hi. assert ((INR first + INR m) * B2R dt <= INR num * B2R dt) as Hi2 by (apply Rmult_le_compat_r; lra). lra. }
    assert (0 <= (INR num + 1) * B2R dt <= 16777217 * 1073741824) as Hnd. { pose proof (pos_INR num). split; [apply Rmult_le_pos; lra|]. apply Rmult_le_compat; lra. }
    pose proof (Rle_abs (B2R ts)) as Ats. pose proof (Rle_abs (- B2R (s32_t0 seg))) as A0. rewrite Rabs_Ropp in A0. pose proof (Rabs_pos (B2R (s32_t1 seg))) as A1. pose proof (Rabs_pos (B2R ts)) as A2. pose proof (Rabs_pos (B2R (s32_t0 seg))) as A3.
    apply Rabs_le_inv in Ec as Ec'.
    assert (B2R conv + INR m * B2R dt - B2R t0 <= T * B2R dtG) as Hconv. { unfold T. unfold Rdiv. rewrite Rmult_assoc, Rinv_l, Rmult_1_r by lra. clear -Ec' Hst Hpt Ats A0 A1 HD P90. lra. }
    assert (2 ^ 62 <= 2 ^ 90) as P62 by (apply Rle_pow; [lra|lia]). assert (2 ^ 62 = 4 * 1152921504606846976) as E62 by (simpl pow; lra).
    assert (E <= 1000000000000) as HE. { unfold E, any_error. rewrite E24. assert (/ 2 ^ 120 <= 1). { rewrite <- Rinv_1. apply Rinv_le_contravar; [lra|]. apply Rle_trans with (2 ^ 0); [simpl; lra|apply Rle_pow; [lra|lia]]. } assert (24 * (Rabs (B2R (s32_t0 seg)) + Rabs (B2R (s32_t1 seg)) + Rabs (B2R ts) + (INR num + 1) * B2R dt) / 16777216 <= 24 * (1152921504606846976 + 16777217 * 1073741824) / 16777216) as HX. { unfold Rdiv. apply Rmult_le_compat_r; [lra|]. apply Rmult_le_compat_l; [lra|]. lra. } lra. }
    assert (Rabs (B2R conv) <= 2 ^ 90) as Hc90. { rewrite Rabs_pos_eq by exact Hpos'. clear -Ec' Hst Hpt Ats A0 A1 A2 HD P90 HR E60 Hnd HE P62 E62 Pm. lra. }
    assert (Rabs (B2R dt) <= 2 ^ 90) as Hd90. { rewrite Rabs_pos_eq by (clear -HD P90; lra). clear -HD' E30 P62 E62. lra. }
    assert (axis_index conv t0 dtG + INR m * (B2R dt / B2R dtG) <= T) as HTm. { unfold axis_index. replace T with (T * B2R dtG * / B2R dtG) by (field; lra). replace ((B2R conv - B2R t0) / B2R dtG + INR m * (B2R dt / B2R dtG)) with ((B2R conv + INR m * B2R dt - B2R t0) * / B2R dtG) by (field; lra). apply Rmult_le_compat_r; [left; by apply Rinv_0_lt_compat|exact Hconv]. }
    destruct (HC (place p) conv m (field_cyl32 (source32 seg) (position32 seg step p)) first (point_weight32 (trapezoid32 n p) step w) sg s' T) as (x & -> & Hx); try done.
    + repeat match goal with HF : Forall _ _ |- _ => inversion_clear HF end. repeat (constructor; [try assumption; split; assumption|]). constructor.
    + unfold axis_index. unfold Rdiv. apply Rmult_le_pos; [lra|]. left. by apply Rinv_0_lt_compat.
    + rewrite E24. apply Rle_trans with (INR num); [apply le_INR; lia|lra].
    + exists x. split; [reflexivity|]. intros i Hi. eapply contribution_weaken; [| | |by apply Hx].
      * rewrite Rminus_eq_0, Rabs_R0. lra.
      * rewrite Rminus_eq_0, Rabs_R0. lra.
      * unfold axis_index, sample_time. replace ((B2R conv - B2R t0) / B2R dtG + INR i * (B2R dt / B2R dtG) - (st (first + i)%nat - pt p - B2R t0) / B2R dtG) with ((B2R conv - (st first - pt p)) * / B2R dtG) by (unfold st, sample_time; rewrite plus_INR; field; lra).
        rewrite Rabs_mult, (Rabs_pos_eq (/ B2R dtG)) by (left; by apply Rinv_0_lt_compat). assert (Rabs (B2R conv - (st first - pt p)) * / B2R dtG <= E * / B2R dtG) as HX; [apply Rmult_le_compat_r; [left; by apply Rinv_0_lt_compat|exact Ec]|]. unfold Rdiv. lra.
Qed.

(** The theorem is not vacuous: a charge moves half a unit along the axis in a unit of time; the library is the one of Chunk32Contrib. *)
Definition ex_seg3 : segment32 := Segment32 (zero32, zero32, zero32) (zero32, zero32, half32) zero32 one32 one32.
Lemma half_value : has_value half32 (1 / 2).
Proof. split; [reflexivity|]. rewrite <- (SF2R_B2SF 24 128). replace (B2SF half32) with (SpecFloat.S754_finite false 8388608 (-24)) by (vm_compute; reflexivity). unfold SF2R, F2R. cbn [Fnum Fexp cond_Zopp]. rewrite bpow_neg. change (2 ^ 24)%Z with 16777216%Z. lra. Qed.
Example C76_signal_nonvacuous :
  any_times (s32_t0 ex_seg3) (s32_t1 ex_seg3) zero32 one32 1 3 /\ num_intervals32 (s32_t0 ex_seg3) (s32_t1 ex_seg3) = Some (N.of_nat 1) /\
  (forall p, (p <= 1)%nat -> let place := coord_cyl32 (position32 ex_seg3 (itgr_step32 (s32_t0 ex_seg3) (s32_t1 ex_seg3) (N.of_nat 1)) p) in
    Forall (fun x : f32 => is_finite x = true /\ Rabs (B2R x) <= 2 ^ 90) [place.1; place.2] /\ 0 <= axis_index place.1 zero32 one32 <= 1 /\ 0 <= axis_index place.2 zero32 one32 <= 1) /\
  (let E := any_error 0 1 0 1 3 in (0 + 1 + 0 + (3 + 1) * 1 + E - 0) / 1 <= 2 ^ 20) /\
  (map B2SF <$> apply_accumulate32 plus_float 100 100 ex_green linear32 false ex_seg3 zero32 one32 3 one32 [zero32; zero32; zero32; zero32]) =
    Some (map (fun k => B2SF (Bdiv mode_NE (binary_normalize 24 128 _ _ mode_NE k 0 false : f32) (of_size 4))) [-1; -2; -2]%Z ++ [B2SF zero32]).
Proof.
  destruct one_value as [F V]. destruct half_value as [Fh Vh]. assert (B2R zero32 = 0) as Z by reflexivity. assert (1 <= 2 ^ 90) as P90. { apply Rle_trans with (2 ^ 0); [simpl; lra|apply Rle_pow; [lra|lia]]. }
  assert (2 ^ 60 = 1152921504606846976) as E60 by (simpl pow; lra). assert (2 ^ 20 = 1048576) as E20 by (simpl pow; lra). assert (2 ^ 30 = 1073741824) as E30 by (simpl pow; lra). assert (2 ^ 24 = 16777216) as E24 by (simpl pow; lra). unfold f32 in *.
  split. { cbn [s32_t0 s32_t1 ex_seg3]. assert (/ 2 ^ 90 <= 1) by (rewrite <- Rinv_1; apply Rinv_le_contravar; lra). split; unfold f32 in *; rewrite ?Z, ?V, ?Rabs_R0, ?Rabs_R1, ?E60, ?E20, ?E30, ?E24; [by split_and!|lra|lra|lra|lra|simpl; lra|split; [lia|simpl; lra]]. }
  split; [vm_compute; reflexivity|]. split.
  { intros p Hp. cbv zeta. destruct p as [|[|p]]; [| |lia].
    - replace (coord_cyl32 _) with (zero32, zero32) by (vm_compute; reflexivity). cbn [fst snd]. unfold axis_index. unfold f32 in *. rewrite Z, V. split; [repeat (constructor; [split; [reflexivity|rewrite Z, Rabs_R0; lra]|]); constructor|lra].
    - replace (coord_cyl32 _) with (zero32, half32). 2: { assert (forall a b c d : binary_float 24 128, B2SF a = B2SF c -> B2SF b = B2SF d -> (a, b) = (c, d)) as Hinj by (intros; f_equal; by apply B2SF_inj). rewrite (surjective_pairing (coord_cyl32 _)). apply Hinj; vm_compute; reflexivity. }
      cbn [fst snd]. unfold axis_index. unfold f32 in *. rewrite Z, V, Vh. split; [constructor; [split; [reflexivity|rewrite Z, Rabs_R0; lra]|constructor; [split; [exact Fh|rewrite Vh, Rabs_pos_eq; lra]|constructor]]|lra]. }
  split. { cbv zeta. unfold any_error. rewrite E24, E20, Rabs_R0, Rabs_R1. assert (/ 2 ^ 120 <= 1). { rewrite <- Rinv_1. apply Rinv_le_contravar; [lra|]. apply Rle_trans with (2 ^ 0); [simpl; lra|apply Rle_pow; [lra|lia]]. } simpl INR. lra. }
  vm_compute. reflexivity.
Qed.
