(** C65: the stored samples, from the arguments of the analytic calculator to the elements read from the directory it leaves. *)
From stdpp Require Import base list list_numbers numbers option gmap countable.
From Coq Require Import Reals Lra Lia NArith ZArith.
From Flocq Require Import Core IEEE754.BinarySingleNaN IEEE754.Binary IEEE754.Bits Relative.
From Verif Require Import NDArrayModel CodecModel StreamerModel StreamerProps BBoxModel RTreeModel RTreeInsert RTreeProps ChunkMetaModel ChunkCacheModel ChunkCacheSpec LibraryModel LibrarySpec LibraryProofs
  RebuildModel ReadModel ReadSpec ReadProofs ReadAnalytic AnalyticModel AnalyticSpec AnalyticProofs AnalyticProps GammaModel GammaSpec GammaProofs GammaProps DipoleModel DipoleSpec DipoleProofs DipoleProps SamplingModel SamplingSpec SamplingProps StoredModel StoredSpec LibrarySpec.
Local Open Scope R_scope.
Local Notation fexp := (FLT_exp (-149) 24).
Local Instance fexp_valid : Valid_exp fexp.
Proof. apply FLT_exp_valid. reflexivity. Qed.

(** * Rounding *)
Lemma bpow_127 : bpow radix2 127 = 2 ^ 127.
Proof. rewrite bpow_powerRZ. unfold powerRZ. change (Pos.to_nat 127) with 127%nat. reflexivity. Qed.
Lemma bpow_neg (k : positive) : bpow radix2 (Z.neg k) = / 2 ^ Pos.to_nat k.
Proof. rewrite bpow_powerRZ. reflexivity. Qed.
Lemma nearest_range x : (nearest_bits x < 2 ^ 32)%N.
Proof. unfold nearest_bits. match goal with |- context [bits_of_b32 ?f] => pose proof (bits_of_binary_float_range 23 8 eq_refl eq_refl f) as H; change (bits_of_binary_float 23 8 f) with (bits_of_b32 f) in H; change (2 ^ (23 + 8 + 1))%Z with (2 ^ 32)%Z in H; revert H; generalize (bits_of_b32 f) end. intros z H. lia. Qed.
Lemma nearest_is x : Rabs x <= 2 ^ 127 -> float_is (nearest_bits x) (round radix2 fexp ZnearestE x).
Proof.
  intros Hx. unfold float_is, float_value, nearest_bits. set (mx := ZnearestE _). set (ex := cexp _ _ x).
  assert (F2R (Float radix2 mx ex) = round radix2 fexp ZnearestE x) as EF by reflexivity.
  assert (round radix2 fexp ZnearestE (F2R (Float radix2 mx ex)) = round radix2 fexp ZnearestE x) as ER. { rewrite EF. apply round_generic; [typeclasses eauto|]. apply generic_format_round; typeclasses eauto. }
  assert (Rabs (round radix2 fexp ZnearestE x) < bpow radix2 128) as Hb.
  { apply Rle_lt_trans with (bpow radix2 127); [|apply bpow_lt; lia]. apply abs_round_le_generic; [typeclasses eauto|typeclasses eauto| |].
    - apply generic_format_bpow. unfold FLT_exp. lia.
    - rewrite bpow_127. exact Hx. }
  pose proof (binary_normalize_correct 24 128 eq_refl eq_refl mode_NE mx ex false) as HN. change (BinarySingleNaN.round_mode mode_NE) with ZnearestE in HN. change (SpecFloat.fexp 24 128) with fexp in HN. rewrite ER, Rlt_bool_true in HN by exact Hb.
  set (f := binary_normalize _ _ _ _ _ _ _ _) in *. destruct HN as (H1 & H2 & _).
  pose proof (bits_of_binary_float_range 23 8 eq_refl eq_refl f) as HR. change (bits_of_binary_float 23 8 f) with (bits_of_b32 f) in HR. rewrite Z2N.id by lia.
  assert (b32_of_bits (bits_of_b32 f) = f) as -> by exact (binary_float_of_bits_of_binary_float 23 8 eq_refl eq_refl eq_refl f). exact (conj H2 H1).
Qed.
Lemma nearest_close x : Rabs (round radix2 fexp ZnearestE x - x) <= Rabs x / 2 ^ 24 + / 2 ^ 150.
Proof.
  destruct (error_N_FLT radix2 (-149) 24 ltac:(lia) (fun z => negb (Z.even z)) x) as (eps & eta & He & Ht & _ & ->).
  replace (x * (1 + eps) + eta - x) with (x * eps + eta) by ring. eapply Rle_trans; [apply Rabs_triang|]. apply Rplus_le_compat.
  - rewrite Rabs_mult. unfold Rdiv. apply Rmult_le_compat_l; [apply Rabs_pos|]. eapply Rle_trans; [exact He|]. change (- (24) + 1)%Z with (Z.neg 23). rewrite bpow_neg. change (Pos.to_nat 23) with 23%nat. right. change (2 ^ 24) with (2 * 2 ^ 23). set (x2 := 2 ^ 23). assert (0 < x2) by (apply pow_lt; lra). field. lra.
  - eapply Rle_trans; [exact Ht|]. rewrite bpow_neg. change (Pos.to_nat 149) with 149%nat. right. change (2 ^ 150) with (2 * 2 ^ 149). set (x2 := 2 ^ 149). assert (0 < x2) by (apply pow_lt; lra). field. lra.
Qed.
Lemma near_of_close e er x : 0 <= e -> Rabs (er - x) <= e -> float_near e (nearest_bits er) x.
Proof.
  intros He0 He Hx. assert (Rabs er <= Rabs x + e) as Hr. { replace er with (x + (er - x)) by ring. eapply Rle_trans; [apply Rabs_triang|]. lra. }
  exists (round radix2 fexp ZnearestE er). split; [apply nearest_is; lra|]. pose proof (nearest_close er) as Hc. replace (round radix2 fexp ZnearestE er - x) with ((er - x) + (round radix2 fexp ZnearestE er - er)) by ring.
  eapply Rle_trans; [apply Rabs_triang|]. apply Rplus_le_compat; [exact He|]. eapply Rle_trans; [exact Hc|]. apply Rplus_le_compat_r. apply Rmult_le_compat_r; [|exact Hr]. apply Rlt_le, Rinv_0_lt_compat, pow_lt. lra.
Qed.
Lemma nearest_zero : float_is (nearest_bits 0) 0.
Proof. pose proof (nearest_is 0) as H. rewrite round_0 in H by typeclasses eauto. apply H. rewrite Rabs_R0. apply pow_le. lra. Qed.
Lemma nan_nan : float_nan nan_bits.
Proof. vm_compute. reflexivity. Qed.

(** * One sample *)
Lemma sample_point lg n tp eta r_min r z t : log_gamma lg -> (0 < n)%nat -> 0 < tp -> 0 < eta -> 0 <= r ->
  exists N, forall fuel, (N <= fuel)%nat -> dipole_sample n tp eta r_min r z t (field_bits lg n tp eta r_min fuel r z t).
Proof.
  intros Hlg Hn Htp Heta Hr. set (d := sqrt (r ^ 2 + z ^ 2)). assert (0 <= r ^ 2 + z ^ 2) as Hsq. { pose proof (pow2_ge_0 r). pose proof (pow2_ge_0 z). lra. }
  assert (0 <= d) as Hd0 by apply sqrt_pos. assert (0 < d -> 0 < r ^ 2 + z ^ 2) as Hpos. { intros H. destruct (Req_dec (r ^ 2 + z ^ 2) 0) as [E|E]; [|lra]. unfold d in H. rewrite E, sqrt_0 in H. lra. }
  destruct (Rlt_dec d r_min) as [H1|H1].
  { exists 0%nat. intros fuel _. destruct (C65_inside lg n tp eta r_min fuel t r z H1) as [E1 E2]. unfold field_bits. rewrite E1, E2. exists nan_bits, nan_bits. split; [reflexivity|]. cbv zeta. fold d. split; [intros _; exact (conj nan_nan nan_nan)|]. split; intros; lra. }
  destruct (Req_dec d 0) as [H2|H2].
  { exists 0%nat. intros fuel _. assert (E_r lg n tp eta r_min fuel t (Rabs r) z = Some None /\ E_theta lg n tp eta r_min fuel t (Rabs r) z = Some None) as [E1 E2].
    { unfold E_r, E_theta. rewrite Rabs_Rabsolu, distance_abs. fold d. destruct (Rlt_dec d r_min); [split; reflexivity|]. destruct (Req_EM_T d 0); [split; reflexivity|contradiction]. }
    unfold field_bits, E_rxy, E_z. rewrite E1, E2. exists nan_bits, nan_bits. split; [reflexivity|]. cbv zeta. fold d. split; [intros _; exact (conj nan_nan nan_nan)|]. split; intros; lra. }
  assert (0 < d) as Hd by lra. specialize (Hpos Hd). destruct (Rle_dec t (eta * d)) as [H3|H3].
  - destruct (Req_dec t (eta * d)) as [H4|H4].
    + exists 0%nat. intros fuel _. destruct (C65_causal lg n tp eta r_min fuel t r z Hpos ltac:(fold d; lra) H3) as [E1 E2]. unfold field_bits. rewrite E1, E2. exists (nearest_bits 0), (nearest_bits 0). split; [reflexivity|]. cbv zeta. fold d.
      split; [intros; lra|]. split; [intros _ _ _; exact (conj nearest_zero nearest_zero)|]. intros _ _ H. contradiction.
    + destruct (C65_field lg n tp eta r_min t r z Hlg Hn Htp Heta Hr Hpos ltac:(fold d; lra) H4) as (N & er & ez & xr & xz & Hv & Hx & Hb). fold d in Hb. exists N. intros fuel Hf.
      destruct (Hv fuel Hf) as [E1 E2]. destruct (C65_causal lg n tp eta r_min fuel t r z Hpos ltac:(fold d; lra) H3) as [E3 E4]. rewrite E1 in E3. rewrite E2 in E4. injection E3 as ->. injection E4 as ->.
      unfold field_bits. rewrite E1, E2. exists (nearest_bits 0), (nearest_bits 0). split; [reflexivity|]. cbv zeta. fold d. split; [intros; lra|]. split; [intros _ _ _; exact (conj nearest_zero nearest_zero)|]. intros _ _ _. exists xr, xz. split; [exact Hx|].
      cbv zeta in Hb. unfold default_tol in Hb. destruct Hb as [B1 B2]. split; apply near_of_close; try assumption; eapply Rle_trans; [apply Rabs_pos|exact B1|apply Rabs_pos|exact B1].
  - destruct (C65_field lg n tp eta r_min t r z Hlg Hn Htp Heta Hr Hpos ltac:(fold d; lra) ltac:(fold d; lra)) as (N & er & ez & xr & xz & Hv & Hx & Hb). fold d in Hb. exists N. intros fuel Hf.
    destruct (Hv fuel Hf) as [E1 E2]. unfold field_bits. rewrite E1, E2. exists (nearest_bits er), (nearest_bits ez). split; [reflexivity|]. cbv zeta. fold d. split; [intros; lra|]. split; [intros; lra|]. intros _ _ _. exists xr, xz. split; [exact Hx|].
    cbv zeta in Hb. unfold default_tol in Hb. destruct Hb as [B1 B2]. split; apply near_of_close; try assumption; eapply Rle_trans; [apply Rabs_pos|exact B1|apply Rabs_pos|exact B1].
Qed.

Lemma bounded_choice (P : nat -> nat -> Prop) (n : nat) : (forall i, (i <= n)%nat -> exists N, forall fuel, (N <= fuel)%nat -> P i fuel) -> exists N, forall fuel, (N <= fuel)%nat -> forall i, (i <= n)%nat -> P i fuel.
Proof.
  induction n as [|n IH]; intros H.
  - destruct (H 0%nat ltac:(lia)) as (N & HN). exists N. intros fuel Hf i Hi. replace i with 0%nat by lia. by apply HN.
  - destruct IH as (N1 & H1); [intros i Hi; apply H; lia|]. destruct (H (S n) ltac:(lia)) as (N2 & H2). exists (Nat.max N1 N2). intros fuel Hf i Hi. destruct (decide (i = S n)) as [->|Hne]; [apply H2; lia|]. apply H1; lia.
Qed.

Lemma sample_back n tp eta r_min r z t v w : dipole_sample n tp eta r_min r z t v -> comes_back NullSuppressed v w -> dipole_sample n tp eta r_min r z t w.
Proof.
  intros Hs [->|(_ & Hz & ->)]; [exact Hs|]. destruct Hs as (w0 & w1 & -> & Hs). cbv zeta in Hs. apply list.Forall_cons in Hz as [Z0 Hz]. apply list.Forall_cons in Hz as [Z1 _].
  exists 0%N, 0%N. split; [reflexivity|]. cbv zeta. destruct Hs as (S1 & S2 & S3).
  assert (forall b, (b = 0 \/ b = 2 ^ 31)%N -> float_is b 0) as Hf. { intros b Hb. split; [destruct Hb as [-> | ->]; reflexivity|]. apply float_zero. exact Hb. }
  split; [|split].
  - intros H. destruct (S1 H) as [N0 _]. exfalso. destruct Z0 as [-> | ->]; discriminate N0.
  - intros _ _ _. split; apply Hf; by left.
  - intros D1 D2 D3. destruct (S3 D1 D2 D3) as (xr & xz & Hx & B0 & B1). exists xr, xz. split; [exact Hx|].
    assert (forall e b x, (b = 0 \/ b = 2 ^ 31)%N -> float_near e b x -> float_near e 0 x) as Hn.
    { intros e b x Hb H Hx'. destruct (H Hx') as (y & [_ Hy] & Hc). exists y. split; [|exact Hc]. destruct (Hf b Hb) as [_ E]. rewrite E in Hy. subst y. apply Hf. by left. }
    split; [exact (Hn _ _ _ Z0 B0)|exact (Hn _ _ _ Z1 B1)].
Qed.

(** * From the arguments to the elements of the stored array *)
Theorem C65_stored lg n tp eta r_min os dp dt junk L ar az br bz t_end nr nz nt max_pts uuids uuids2 ord size2 cs2 :
  log_gamma lg -> (0 < n)%nat -> 0 < tp -> 0 < eta -> 0 <= ar -> delta_pos n tp eta os = Some dp -> delta_t n tp os = Some dt ->
  lib_ok L -> (junk < 2 ^ 32)%N -> (forall F, (forall r z t, length (F r z t) = 2%nat /\ Forall (fun b => b < 2 ^ 32)%N (F r z t)) -> ok_dipole 2 F ar az br bz t_end dp dp dt nr nz nt max_pts uuids uuids2) ->
  (forall k, ord k ≡ₚ k) -> acceptable_chunk 3 cs2 ->
  exists N, forall fuel, (N <= fuel)%nat -> forall r z t, (r <= N.of_nat nr)%N -> (z <= N.of_nat nz)%N -> (t <= N.of_nat nt)%N ->
    exists d c l2 w l3, electric_dipole 2 junk L (field_bits lg n tp eta r_min fuel) ar az br bz t_end dp dp dt max_pts uuids uuids2 ord = Done (d, c) /\
      lib_open 2 3 junk L size2 cs2 d = Done l2 /\ lib_get 2 3 junk [r; z; t] l2 = Done (w, l3) /\
      dipole_sample n tp eta r_min (coord ar br nr (Z.of_N r)) (coord az bz nz (Z.of_N z)) (coord 0 t_end nt (Z.of_N t)) w.
Proof.
  intros Hlg Hn Htp Heta Har Hdp Hdt HL Hj Hok Hord Hcs2.
  destruct (bounded_choice (fun i fuel => forall j k, (j <= nz)%nat -> (k <= nt)%nat -> dipole_sample n tp eta r_min (coord ar br nr (Z.of_nat i)) (coord az bz nz (Z.of_nat j)) (coord 0 t_end nt (Z.of_nat k))
    (field_bits lg n tp eta r_min fuel (coord ar br nr (Z.of_nat i)) (coord az bz nz (Z.of_nat j)) (coord 0 t_end nt (Z.of_nat k)))) nr) as (N & HN).
  { intros i Hi. destruct (bounded_choice (fun j fuel => forall k, (k <= nt)%nat -> dipole_sample n tp eta r_min (coord ar br nr (Z.of_nat i)) (coord az bz nz (Z.of_nat j)) (coord 0 t_end nt (Z.of_nat k))
      (field_bits lg n tp eta r_min fuel (coord ar br nr (Z.of_nat i)) (coord az bz nz (Z.of_nat j)) (coord 0 t_end nt (Z.of_nat k)))) nz) as (N & HN).
    { intros j Hj'. destruct (bounded_choice (fun k fuel => dipole_sample n tp eta r_min (coord ar br nr (Z.of_nat i)) (coord az bz nz (Z.of_nat j)) (coord 0 t_end nt (Z.of_nat k))
        (field_bits lg n tp eta r_min fuel (coord ar br nr (Z.of_nat i)) (coord az bz nz (Z.of_nat j)) (coord 0 t_end nt (Z.of_nat k)))) nt) as (N & HN).
      { intros k Hk. apply sample_point; try assumption. destruct (Hok (fun _ _ _ => [0; 0]%N)) as [(Fr & _) _ _ _ _ _]. { intros. split; [reflexivity|]. repeat constructor. }
        destruct Fr as (F1 & F2 & F3 & F4). assert (0 < INR nr) as Hp by (by apply lt_0_INR). unfold coord. rewrite <- INR_IZR_INZ. pose proof (pos_INR i) as Hi0.
        assert (0 <= (br - ar) / INR nr) as Hs. { apply Rmult_le_pos; [|by apply Rlt_le, Rinv_0_lt_compat]. assert (0 < INR nr * dp) by (by apply Rmult_lt_0_compat). lra. }
        pose proof (Rmult_le_pos _ _ Hi0 Hs). lra. }
      exists N. intros fuel Hf k Hk. by apply HN. }
    exists N. intros fuel Hf j k Hj' Hk. by apply HN. }
  exists N. intros fuel Hf r z t Hr Hz Ht.
  assert (ok_dipole 2 (field_bits lg n tp eta r_min fuel) ar az br bz t_end dp dp dt nr nz nt max_pts uuids uuids2) as Hok'.
  { apply Hok. intros r' z' t'. split; [reflexivity|]. assert (forall x, (stored_bits x < 2 ^ 32)%N) as Hs. { intros [[x|]|]; [apply nearest_range|reflexivity|reflexivity]. } repeat constructor; apply Hs. }
  destruct (C62_element 2 junk L (field_bits lg n tp eta r_min fuel) ar az br bz t_end dp dp dt nr nz nt max_pts uuids uuids2 ord size2 cs2 r z t HL Hj Hok' Hord Hcs2 Hr Hz Ht) as (d & c & l2 & w & l3 & E1 & E2 & E3 & E4).
  exists d, c, l2, w, l3. split; [exact E1|]. split; [exact E2|]. split; [exact E3|]. refine (sample_back _ _ _ _ _ _ _ _ _ _ E4).
  pose proof (HN fuel Hf (N.to_nat r) ltac:(lia) (N.to_nat z) (N.to_nat t) ltac:(lia) ltac:(lia)) as H. rewrite !N_nat_Z in H. exact H.
Qed.
Print Assumptions C65_stored.

(** * The hypotheses are met: order 6, peaking time 1, index 1.78, oversampling 5; a region of 3 by 2 steps, for 4 steps of time. *)
Example C65_stored_nonvacuous : exists dp dt, delta_pos 6 1 (178 / 100) 5 = Some dp /\ delta_t 6 1 5 = Some dt /\
  (forall F, (forall r z t, length (F r z t) = 2%nat /\ Forall (fun b => b < 2 ^ 32)%N (F r z t)) -> ok_dipole 2 F 0 (- dp) (3 * dp) dp (4 * dt) dp dp dt 3 2 4 2 an_names an_names2) /\ log_gamma lg0.
Proof.
  destruct (C66_steps 6 1 (178 / 100) 5 ltac:(lia) ltac:(lra) ltac:(lra) ltac:(lra)) as (f & dt & dp & _ & E1 & E2 & P1 & P2 & _). exists dp, dt. split; [exact E2|]. split; [exact E1|]. split; [|exact C64_hypotheses_nonvacuous].
  intros F HF. destruct C62_hypotheses_nonvacuous as [_ _ H3 H4 H5 H6]. split; [|exact HF|exact H3|exact H4|exact H5|exact H6].
    assert (INR 3 = 3 /\ INR (3 + 1) = 4 /\ INR 2 = 2 /\ INR (2 + 1) = 3 /\ INR 4 = 4 /\ INR (4 + 1) = 5) as (I1 & I2 & I3 & I4 & I5 & I6) by (cbn; lra). unfold steps_fit. rewrite I1, I2, I3, I4, I5, I6. split_and!; try lia; lra.
Qed.
